(** C67: quaternions over an exact field. *)
From Coq Require Import Field QArith Qcanon.
From Verif Require Import Base Vec VecSpec VecProofs.

Section C67.
Context {R : Type} {F : Fld R}.
Local Open Scope fld_scope.
Add Field Rfld : (@fth R F).

Theorem C67_mul_assoc (p q r : vec4 R) :
  quat_mul p (quat_mul q r) = quat_mul (quat_mul p q) r /\
  quat_mul p quat_identity = p /\ quat_mul quat_identity p = p.
Proof.
  destruct p, q, r; refine (conj _ (conj _ _)); unfold quat_mul, quat_identity; cbn; f_equal; ring.
Qed.

(** i² = j² = k² = ijk = -1 *)
Theorem C67_hamilton :
  let i := V4 1 0 0 0 in let j := V4 0 1 0 0 in let k := V4 0 0 1 0 in let m := V4 0 0 0 (- (1)) in
  quat_mul i i = m /\ quat_mul j j = m /\ quat_mul k k = m /\ quat_mul (quat_mul i j) k = m.
Proof. cbv zeta. repeat split; unfold quat_mul; cbn; f_equal; ring. Qed.

Theorem C67_norm_multiplicative (p q : vec4 R) :
  quat_dot (quat_mul p q) (quat_mul p q) = quat_dot p p * quat_dot q q.
Proof. apply quat_dot_mul. Qed.

Theorem C67_inverse (q : vec4 R) : quat_dot q q <> 0 ->
  quat_mul q (quat_inverse q) = quat_identity /\ quat_mul (quat_inverse q) q = quat_identity.
Proof. apply quat_inverse_ok. Qed.

(** dividing undoes multiplying *)
Theorem C67_div (p q : vec4 R) : quat_dot q q <> 0 -> quat_div (quat_mul p q) q = p /\ quat_mul (quat_div p q) q = p.
Proof.
  intros D. destruct (quat_inverse_ok q D) as [E1 E2]. unfold quat_div.
  destruct (C67_mul_assoc p q (quat_inverse q)) as (A & I & _).
  destruct (C67_mul_assoc p (quat_inverse q) q) as (A' & _ & _).
  split; [rewrite <- A, E1|rewrite <- A', E2]; exact I.
Qed.

(** rotating is conjugating, for unit quaternions *)
Theorem C67_rotate_is_conjugation (q : vec4 R) (v : vec3 R) : quat_dot q q = 1 ->
  pure (quat_rotate_vec3 q v) = quat_mul (quat_mul q (pure v)) (quat_conj q).
Proof.
  destruct q as [x y z w], v as [a b c].
  unfold quat_dot, vec3_dot, qv, pure, quat_rotate_vec3, quat_mul, quat_conj, vec3_cross, vec3_mul, vec3_add, qv; cbn.
  intros N. assert (W : w * w = 1 - (x * x + y * y + z * z)) by (rewrite <- N; ring).
  f_equal; ring [W].
Qed.

Theorem C67_rotate_dot (q : vec4 R) (u v : vec3 R) : quat_dot q q = 1 ->
  vec3_dot (quat_rotate_vec3 q u) (quat_rotate_vec3 q v) = vec3_dot u v.
Proof.
  destruct q as [x y z w], v as [a b c], u as [d e f].
  unfold quat_dot, vec3_dot, qv, quat_rotate_vec3, vec3_cross, vec3_mul, vec3_add, qv; cbn.
  intros N. assert (W : w * w = 1 - (x * x + y * y + z * z)) by (rewrite <- N; ring).
  ring [W].
Qed.

(** and keeps the handedness *)
Theorem C67_rotate_cross (q : vec4 R) (u v : vec3 R) : quat_dot q q = 1 ->
  vec3_cross (quat_rotate_vec3 q u) (quat_rotate_vec3 q v) = quat_rotate_vec3 q (vec3_cross u v).
Proof.
  destruct q as [x y z w], v as [a b c], u as [d e f].
  unfold quat_dot, vec3_dot, qv, quat_rotate_vec3, vec3_cross, vec3_mul, vec3_add, qv; cbn.
  intros N. assert (W : w * w = 1 - (x * x + y * y + z * z)) by (rewrite <- N; ring).
  f_equal; ring [W].
Qed.

(** rotations compose as the quaternions multiply *)
Theorem C67_rotate_mul (p q : vec4 R) (v : vec3 R) : quat_dot p p = 1 -> quat_dot q q = 1 ->
  quat_rotate_vec3 (quat_mul p q) v = quat_rotate_vec3 p (quat_rotate_vec3 q v).
Proof.
  intros P Q. assert (PQ : quat_dot (quat_mul p q) (quat_mul p q) = 1) by (rewrite quat_dot_mul, P, Q; ring).
  assert (J : forall u v : vec3 R, pure u = pure v -> u = v).
  { intros [] []; unfold pure; cbn; intros E; injection E; congruence. }
  apply J. rewrite (C67_rotate_is_conjugation _ _ PQ), (C67_rotate_is_conjugation _ _ P), (C67_rotate_is_conjugation _ _ Q).
  assert (K : quat_conj (quat_mul p q) = quat_mul (quat_conj q) (quat_conj p)).
  { destruct p, q; unfold quat_conj, quat_mul; cbn; f_equal; ring. }
  rewrite K.
  rewrite <- (proj1 (C67_mul_assoc p q _)), <- !(proj1 (C67_mul_assoc p _ _)).
  rewrite !(proj1 (C67_mul_assoc _ _ (quat_conj p))). reflexivity.
Qed.

(** the matrix of a quaternion rotates as the unit quaternion does; [mag] is the square root zpl_sqrt gives *)
Theorem C67_from_quat (q : vec4 R) (mag : R) (v : vec3 R) : mag <> 0 -> mag * mag = quat_dot q q ->
  quat_dot (quat_norm mag q) (quat_norm mag q) = 1 /\
  mat4_mul_vec4 (mat4_from_quat mag q) (point v) = point (quat_rotate_vec3 (quat_norm mag q) v).
Proof.
  intros M E.
  assert (N : quat_dot (quat_norm mag q) (quat_norm mag q) = 1).
  { transitivity (quat_dot q q / (mag * mag)).
    - destruct q as [x y z w]; unfold quat_norm, vec4_div, quat_dot, vec3_dot, qv; cbn; field; exact M.
    - rewrite <- E. field. exact M. }
  split; [exact N|].
  unfold mat4_from_quat, mat4_mul_vec4, quat_rotate_vec3. set (n := quat_norm mag q) in *. clearbody n.
  destruct n as [x y z w], v as [a b c].
  unfold quat_dot, vec3_dot, qv, point, vec3_cross, vec3_mul, vec3_add in *; cbn in *.
  f_equal; ring.
Qed.
End C67.

(** ** Over the rationals the only quaternion without inverse is zero *)
Lemma Qc_sq_zero (a b c d : Qc) : (a * a + b * b + c * c + d * d = 0 -> a = 0 /\ b = 0 /\ c = 0 /\ d = 0)%Qc.
Proof.
  intros H.
  assert (S : forall x : Qc, (0 <= x * x)%Qc).
  { intros x. unfold Qcle. change (this (x * x)%Qc) with (Qred (this x * this x)%Q). change (this 0%Qc) with 0%Q.
    apply (proj2 (Qle_comp 0%Q 0%Q (Qeq_refl 0%Q) _ _ (Qred_correct (this x * this x)%Q))).
    destruct x as [[n e] ?]. unfold Qle; cbn. rewrite Z.mul_1_r. apply Z.square_nonneg. }
  assert (Z : forall x : Qc, (x * x = 0)%Qc -> x = 0%Qc).
  { intros x E. destruct (Qcmult_integral _ _ E); assumption. }
  assert (P : forall x y : Qc, (0 <= x -> 0 <= y -> x + y = 0 -> x = 0 /\ y = 0)%Qc).
  { intros x y Hx Hy E. split; apply Qcle_antisym; try assumption.
    - rewrite <- E. rewrite <- (Qcplus_0_r x) at 1. now apply Qcplus_le_compat; [apply Qcle_refl|].
    - rewrite <- E. rewrite <- (Qcplus_0_l y) at 1. now apply Qcplus_le_compat; [|apply Qcle_refl]. }
  assert (A : forall x y : Qc, (0 <= x -> 0 <= y -> 0 <= x + y)%Qc).
  { intros x y Hx Hy. rewrite <- (Qcplus_0_l 0). now apply Qcplus_le_compat. }
  destruct (P _ _ (A _ _ (A _ _ (S a) (S b)) (S c)) (S d) H) as [H1 Hd].
  destruct (P _ _ (A _ _ (S a) (S b)) (S c) H1) as [H2 Hc].
  destruct (P _ _ (S a) (S b) H2) as [Ha Hb]. auto.
Qed.

Theorem C67_inverse_nonzero (q : vec4 Qc) : q <> V4 0%Qc 0%Qc 0%Qc 0%Qc ->
  quat_mul q (quat_inverse q) = quat_identity /\ quat_mul (quat_inverse q) q = quat_identity.
Proof.
  intros N. apply (C67_inverse (F := Fld_Qc)). intros E. apply N. destruct q as [x y z w].
  unfold quat_dot, vec3_dot, qv in E; cbn in E. apply Qc_sq_zero in E as (-> & -> & -> & ->). reflexivity.
Qed.

Definition q_w : vec4 Qc := V4 (Q2Qc (1 # 2)) (Q2Qc (1 # 2)) (Q2Qc (1 # 2)) (Q2Qc (1 # 2)).
Definition qi (n : Z) : Qc := Q2Qc (inject_Z n).
Example C67_ex_unit : quat_dot q_w q_w = 1%Qc /\
  quat_rotate_vec3 q_w (V3 (qi 1) (qi 2) (qi 3)) = V3 (qi 3) (qi 1) (qi 2).
Proof.
  split; [apply Qc_is_canon; now vm_compute|].
  unfold quat_rotate_vec3, vec3_add. cbv beta zeta. f_equal; apply Qc_is_canon; now vm_compute.
Qed.
Example C67_ex_inverse : quat_dot (V4 (qi 1) (qi 2) (qi 3) (qi 4)) (V4 (qi 1) (qi 2) (qi 3) (qi 4)) <> 0%Qc.
Proof. vm_compute. discriminate. Qed.
Example C67_ex_mag : let q := V4 (qi 1) (qi 1) (qi 1) (qi 1) in qi 2 <> 0%Qc /\ (qi 2 * qi 2)%Qc = quat_dot q q.
Proof. split; [vm_compute; discriminate|apply Qc_is_canon; now vm_compute]. Qed.

Print Assumptions C67_mul_assoc.
Print Assumptions C67_hamilton.
Print Assumptions C67_norm_multiplicative.
Print Assumptions C67_inverse.
Print Assumptions C67_div.
Print Assumptions C67_rotate_is_conjugation.
Print Assumptions C67_rotate_dot.
Print Assumptions C67_rotate_cross.
Print Assumptions C67_rotate_mul.
Print Assumptions C67_from_quat.
Print Assumptions C67_inverse_nonzero.
