(** C66: matrices over an exact field. *)
From Coq Require Import Field QArith Qcanon.
From Verif Require Import Base Vec VecSpec VecProofs.

Section C66.
Context {R : Type} {F : Fld R}.
Local Open Scope fld_scope.
Add Field Rfld : (@fth R F).

(** the determinants are the textbook ones *)
Theorem C66_determinate (m2 : mat2 R) (m3 : mat3 R) :
  mat2_determinate m2 = det 2 (of2 m2) /\ mat3_determinate m3 = det 3 (of3 m3).
Proof. split; [apply det2|apply det3]. Qed.

Theorem C66_mat2_inverse (m : mat2 R) : det 2 (of2 m) <> 0 -> inverse_of 2 (of2 m) (of2 (mat2_inverse m)).
Proof. rewrite <- det2. apply inv2. Qed.

Theorem C66_mat4_inverse (m : mat4 R) : det 4 (of4 m) <> 0 -> inverse_of 4 (of4 m) (of4 (mat4_inverse m)).
Proof. rewrite <- det4. apply inv4. Qed.

(** the 3x3 inverse is transposed *)
Theorem C66_mat3_inverse_transposed (m : mat3 R) :
  det 3 (of3 m) <> 0 -> inverse_of 3 (of3 m) (mtrans (of3 (mat3_inverse m))).
Proof. rewrite <- det3. apply inv3. Qed.

(** products and transposes are the textbook ones *)
Theorem C66_products (p q : mat2 R) (r s : mat3 R) (t u : mat4 R) :
  meq 2 (of2 (mat2_mul p q)) (mprod 2 (of2 p) (of2 q)) /\ meq 3 (of3 (mat3_mul r s)) (mprod 3 (of3 r) (of3 s)) /\
  meq 4 (of4 (mat4_mul t u)) (mprod 4 (of4 t) (of4 u)).
Proof. refine (conj _ (conj _ _)); [apply mul2_entries|apply mul3_entries|apply mul4_entries]. Qed.

Theorem C66_transposes (p : mat2 R) (r : mat3 R) (t : mat4 R) :
  meq 2 (of2 (mat2_transpose p)) (mtrans (of2 p)) /\ meq 3 (of3 (mat3_transpose r)) (mtrans (of3 r)) /\
  meq 4 (of4 (mat4_transpose t)) (mtrans (of4 t)).
Proof.
  refine (conj _ (conj _ _)); intros i j; revert i.
  - refine (below2 _ _ _); revert j; apply below2; reflexivity.
  - refine (below3 _ _ _ _); revert j; apply below3; reflexivity.
  - refine (below4 _ _ _ _ _); revert j; apply below4; reflexivity.
Qed.

Theorem C66_mat4_monoid (a b c : mat4 R) :
  mat4_mul a (mat4_mul b c) = mat4_mul (mat4_mul a b) c /\
  mat4_mul a mat4_identity = a /\ mat4_mul mat4_identity a = a.
Proof.
  destruct a as [[] [] [] []], b as [[] [] [] []], c as [[] [] [] []].
  refine (conj _ (conj _ _)); unfold mat4_mul, mat4_identity, tab4; cbn; f_equal; f_equal; ring.
Qed.

(** multiplying vectors: 4x4 as in the textbook, 2x2 and 3x3 by the transposed matrix *)
Theorem C66_mul_vec4 (m : mat4 R) (v : vec4 R) : veq 4 (ev4 (mat4_mul_vec4 m v)) (mapply 4 (of4 m) (ev4 v)).
Proof.
  intros i; revert i; apply below4; cbv [mat4_mul_vec4 mapply of4 sumn];
  destruct m as [[] [] [] []], v; cbn; ring.
Qed.

Theorem C66_mul_vec4_compatible (a b : mat4 R) (v : vec4 R) :
  mat4_mul_vec4 (mat4_mul a b) v = mat4_mul_vec4 a (mat4_mul_vec4 b v).
Proof.
  destruct a as [[] [] [] []], b as [[] [] [] []], v; unfold mat4_mul, mat4_mul_vec4, tab4; cbn; f_equal; ring.
Qed.

Theorem C66_mul_vec2_vec3_transposed (p : mat2 R) (v : vec2 R) (m : mat3 R) (u : vec3 R) :
  veq 2 (ev2 (mat2_mul_vec2 p v)) (mapply 2 (mtrans (of2 p)) (ev2 v)) /\
  veq 3 (ev3 (mat3_mul_vec3 m u)) (mapply 3 (mtrans (of3 m)) (ev3 u)).
Proof.
  split; intros i; revert i; [apply below2|apply below3];
  destruct p as [[] []], v, m as [[] [] []], u; cbv [mapply mtrans of2 of3 sumn mat2_mul_vec2 mat3_mul_vec3]; cbn; ring.
Qed.

(** so that applying a product applies the factors in the other order *)
Theorem C66_mul_vec3_order (a b : mat3 R) (v : vec3 R) :
  mat3_mul_vec3 (mat3_mul a b) v = mat3_mul_vec3 b (mat3_mul_vec3 a v).
Proof.
  destruct a as [[] [] []], b as [[] [] []], v; unfold mat3_mul, mat3_mul_vec3, tab3; cbn; f_equal; ring.
Qed.

(** the transforms do to points what their names say *)
Theorem C66_translate_scale (m : mat4 R) (v p : vec3 R) :
  mat4_mul_vec4 (mat4_translate m v) (point p) = mat4_mul_vec4 m (point (vec3_add p v)) /\
  mat4_mul_vec4 (mat4_scale m v) (point p) = mat4_mul_vec4 m (point (V3 (x3 p * x3 v) (y3 p * y3 v) (z3 p * z3 v))).
Proof.
  destruct m as [[] [] [] []], v, p.
  split; unfold mat4_translate, mat4_scale, mat4_mul, mat4_mul_vec4, tab4, point; cbn; f_equal; ring.
Qed.

(** looking from [eye] along f: the eye goes to the origin and the point at distance d ahead to (0,0,-d) *)
Theorem C66_look_at (f s eye : vec3 R) (d : R) :
  vec3_dot f f = 1 -> vec3_dot s f = 0 ->
  mat4_mul_vec4 (mat4_look_at f s eye) (point eye) = V4 0 0 0 1 /\
  mat4_mul_vec4 (mat4_look_at f s eye) (point (vec3_add eye (vec3_mul f d))) = V4 0 0 (- d) 1.
Proof.
  destruct f as [fx fy fz], s as [sx sy sz], eye as [a b c].
  unfold mat4_look_at, mat4_mul_vec4, point, vec3_dot, vec3_cross, vec3_add, vec3_mul; cbn.
  intros N O. split; f_equal; try ring.
  - transitivity ((sx * fx + sy * fy + sz * fz) * d); [ring|rewrite O; ring].
  - transitivity (- ((fx * fx + fy * fy + fz * fz) * d)); [ring|rewrite N; ring].
Qed.
End C66.

(** ** Concrete cases and refutations over the rationals *)
Definition qz (n : Z) : Qc := Q2Qc (inject_Z n).
Definition m2_w : mat2 Qc := M2 (V2 (qz 1) (qz 2)) (V2 (qz 3) (qz 5)).
Definition m3_w : mat3 Qc := M3 (V3 (qz 1) (qz 0) (qz 0)) (V3 (qz 1) (qz 1) (qz 0)) (V3 (qz 0) (qz 0) (qz 1)).
Definition m4_w : mat4 Qc :=
  M4 (V4 (qz 1) (qz 2) (qz 0) (qz 0)) (V4 (qz 3) (qz 5) (qz 0) (qz 0)) (V4 (qz 0) (qz 1) (qz 1) (qz 7)) (V4 (qz 0) (qz 0) (qz 0) (qz 1)).

(** zpl_mat3_inverse of an invertible matrix need not be an inverse *)
Theorem C66_mat3_inverse_refuted : ~ forall m : mat3 Qc, det 3 (of3 m) <> 0%Qc -> inverse_of 3 (of3 m) (of3 (mat3_inverse m)).
Proof.
  intros H. specialize (H m3_w). destruct H as [H _]; [vm_compute; discriminate|].
  specialize (H 0%nat 0%nat ltac:(lia) ltac:(lia)). vm_compute in H. discriminate H.
Qed.

(** the inverses do not work in place *)
Theorem C66_in_place_refuted : ~ forall m : mat2 Qc, det 2 (of2 m) <> 0%Qc -> mat2_inverse_in_place m = mat2_inverse m.
Proof.
  intros H. specialize (H m2_w ltac:(vm_compute; discriminate)).
  apply (f_equal (fun m => el2 m 1 1)) in H. vm_compute in H. discriminate H.
Qed.

(** zpl_mat2_mul_vec2 and zpl_mat3_mul_vec3 do not agree with the products *)
Theorem C66_mul_vec3_refuted : ~ forall (a b : mat3 Qc) (v : vec3 Qc),
  mat3_mul_vec3 (mat3_mul a b) v = mat3_mul_vec3 a (mat3_mul_vec3 b v).
Proof.
  intros H. specialize (H m3_w (mat3_transpose m3_w) (V3 (qz 1) (qz 0) (qz 0))).
  apply (f_equal x3) in H. vm_compute in H. discriminate H.
Qed.

Example C66_ex2 : det 2 (of2 m2_w) <> 0%Qc /\ el2 (mat2_inverse m2_w) 0 0 = qz (-5).
Proof. split; [vm_compute; discriminate|now vm_compute]. Qed.
Example C66_ex3 : det 3 (of3 m3_w) <> 0%Qc /\ el3 (mat3_inverse m3_w) 0 1 = qz (-1).
Proof. split; [vm_compute; discriminate|now vm_compute]. Qed.
Example C66_ex4 : det 4 (of4 m4_w) <> 0%Qc /\ el4 (mat4_inverse m4_w) 1 0 = qz 3.
Proof. split; [vm_compute; discriminate|now vm_compute]. Qed.
Example C66_ex_look : let f := V3 (qz 0) (qz 0) (qz 1) in let s := V3 (qz 1) (qz 0) (qz 0) in
  vec3_dot f f = 1%Qc /\ vec3_dot s f = 0%Qc /\ mat4_mul_vec4 (mat4_look_at f s (V3 (qz 1) (qz 2) (qz 3))) (point (V3 (qz 1) (qz 2) (qz 8))) = V4 (qz 0) (qz 0) (qz (-5)) (qz 1).
Proof. vm_compute. repeat split. Qed.

Print Assumptions C66_determinate.
Print Assumptions C66_mat2_inverse.
Print Assumptions C66_mat4_inverse.
Print Assumptions C66_mat3_inverse_transposed.
Print Assumptions C66_products.
Print Assumptions C66_transposes.
Print Assumptions C66_mat4_monoid.
Print Assumptions C66_mul_vec4.
Print Assumptions C66_mul_vec4_compatible.
Print Assumptions C66_mul_vec2_vec3_transposed.
Print Assumptions C66_mul_vec3_order.
Print Assumptions C66_translate_scale.
Print Assumptions C66_look_at.
Print Assumptions C66_mat3_inverse_refuted.
Print Assumptions C66_in_place_refuted.
Print Assumptions C66_mul_vec3_refuted.
