From Coq Require Import Reals Lra Psatz Field Nsatz.
From Verif Require Import Base Vec VecSpec Rot RotSpec.
Local Open Scope R_scope.

Ltac uf := cbv [vec3_add vec3_sub vec3_mul vec3_div vec3_dot vec3_cross vec4_add vec4_sub vec4_mul vec4_div quat_dot quat_mul quat_norm
  quat_rotate_vec3 qv mat4_mul_vec4 mat4_axis_angle mat4_from_quat mat4_look_at mat4_mul tab4 el4 ev4 point pure
  dot3 scale3 plus3 minus3 cross3 zero3 dot4 unit4 zero4 neg4 image moves Ops_R Fld_R fops
  f0 f1 fadd fmul fsub fopp fdiv finv x3 y3 z3 x4 y4 z4 w4 a4 b4 c4 d4] in *.
Ltac eq3 := apply (f_equal3 (@V3 R)).
Lemma f_equal4V (a b c d a' b' c' d' : R) : a = a' -> b = b' -> c = c' -> d = d' -> V4 a b c d = V4 a' b' c' d'.
Proof. intros; subst; reflexivity. Qed.
Ltac eq4 := apply f_equal4V.

Lemma mag_pos (v : vec3 R) : v <> zero3 -> 0 < vec3_dot v v.
Proof. destruct v as [x y z]. intros N. uf. destruct (Req_dec x 0) as [->|]; [|nra]. destruct (Req_dec y 0) as [->|]; [|nra]. destruct (Req_dec z 0) as [->|]; [|nra]. now destruct N. Qed.
Lemma mag4_pos (v : vec4 R) : v <> zero4 -> 0 < quat_dot v v.
Proof. destruct v as [x y z w]. intros N. uf. destruct (Req_dec x 0) as [->|]; [|nra]. destruct (Req_dec y 0) as [->|]; [|nra]. destruct (Req_dec z 0) as [->|]; [|nra]. destruct (Req_dec w 0) as [->|]; [|nra]. now destruct N. Qed.
Lemma norm_direction (v : vec3 R) : v <> zero3 -> direction v (vec3_norm v).
Proof.
  intros N. pose proof (mag_pos v N) as M. pose proof (sqrt_lt_R0 _ M) as P. pose proof (sqrt_sqrt _ (Rlt_le _ _ M)) as Q. unfold direction, vec3_norm. remember (sqrt (vec3_dot v v)) as k eqn:Hk. clear Hk. split.
  - destruct v as [x y z]. uf. cbn -[Rdiv] in *. transitivity ((x * x + y * y + z * z) / (k * k)); [field; lra|]. rewrite Q. field. rewrite <- Q. nra.
  - exists k. split; [exact P|]. destruct v as [x y z]. uf. eq3; field; lra.
Qed.
Lemma direction_unique (v u u' : vec3 R) : direction v u -> direction v u' -> u = u'.
Proof.
  intros [U (k & K & E)] [U' (k' & K' & E')]. assert (k = k').
  { assert (H : dot3 v v = k * k) by (rewrite E at 1 2; destruct u; uf; cbn in *; nra). assert (H' : dot3 v v = k' * k') by (rewrite E' at 1 2; destruct u'; uf; cbn in *; nra). nra. }
  subst k'. rewrite E in E'. destruct u, u'. unfold scale3 in E'. cbn in E'. injection E' as A B C. eq3; eapply Rmult_eq_reg_l; eauto; lra.
Qed.
Lemma norm_unit (v : vec3 R) : v <> zero3 -> dot3 (vec3_norm v) (vec3_norm v) = 1.
Proof. intros N. now apply norm_direction. Qed.
Lemma norm_of_unit (v : vec3 R) : dot3 v v = 1 -> vec3_norm v = v.
Proof. intros U. unfold vec3_norm. replace (vec3_dot v v) with 1 by (rewrite <- U; destruct v; uf; ring). rewrite sqrt_1. destruct v. uf. eq3; field. Qed.

(** the double angle *)
Lemma half_cos (th : R) : cos th = cos (1 / 2 * th) * cos (1 / 2 * th) - sin (1 / 2 * th) * sin (1 / 2 * th).
Proof. replace th with (2 * (1 / 2 * th)) at 1 by field. apply cos_2a. Qed.
Lemma half_sin (th : R) : sin th = 2 * sin (1 / 2 * th) * cos (1 / 2 * th).
Proof. replace th with (2 * (1 / 2 * th)) at 1 by field. apply sin_2a. Qed.
Lemma cs1 (x : R) : cos x * cos x + sin x * sin x = 1.
Proof. pose proof (sin2_cos2 x). unfold Rsqr in H. lra. Qed.

Lemma axis_angle_unit axis th : axis <> zero3 -> unit4 (quat_axis_angle axis th).
Proof.
  intros N. pose proof (norm_unit _ N) as U. unfold quat_axis_angle. destruct (vec3_norm axis) as [a b c]. pose proof (cs1 (1 / 2 * th)) as C. set (s := sin _) in *. set (k := cos _) in *. clearbody s k. uf. cbn -[Rmult] in *.
  transitivity ((a * a + b * b + c * c) * (s * s) + k * k); [ring|]. rewrite U. lra.
Qed.
Lemma axis_angle_turns axis th v : axis <> zero3 -> turned (vec3_norm axis) th v (quat_rotate_vec3 (quat_axis_angle axis th) v).
Proof.
  intros N. pose proof (norm_unit _ N) as U. unfold turned, quat_axis_angle. destruct (vec3_norm axis) as [a b c]. pose proof (cs1 (1 / 2 * th)) as C. rewrite (half_cos th), (half_sin th).
  set (s := sin _) in *. set (k := cos _) in *. clearbody s k. destruct v as [x y z]. uf. cbn -[Rmult] in *.
  eq3; nsatz.
Qed.
Lemma rotation_turns axis th v : axis <> zero3 -> exists w, turned (vec3_norm axis) th v w /\ mat4_mul_vec4 (mat4_rotation axis th) (point v) = point w.
Proof.
  intros N. pose proof (norm_unit _ N) as U. eexists. split; [reflexivity|]. unfold mat4_rotation. destruct (vec3_norm axis) as [a b c].
  set (s := sin _) in *. set (k := cos _) in *. clearbody s k. destruct v as [x y z]. uf. cbn -[Rmult] in *. eq4; nsatz.
Qed.
Lemma image_mul (m : mat4 R) (p : vec3 R) : mat4_mul_vec4 m (point p) = image m p.
Proof. destruct m as [[? ? ? ?] [? ? ? ?] [? ? ? ?] [? ? ? ?]], p as [? ? ?]. uf. cbn. eq4; ring. Qed.
Lemma rotate_compose m axis th p q r : axis <> zero3 -> turned (vec3_norm axis) th p q -> image m q = r -> image (mat4_rotate m axis th) p = r.
Proof.
  intros N T <-. destruct (rotation_turns axis th p N) as (w & T' & E). assert (w = q) by (unfold turned in *; congruence). subst w. rewrite <- (image_mul m q), <- E. unfold mat4_rotate. rewrite <- image_mul. clear.
  generalize (mat4_rotation axis th). intros [[? ? ? ?] [? ? ? ?] [? ? ? ?] [? ? ? ?]]. destruct m as [[? ? ? ?] [? ? ? ?] [? ? ? ?] [? ? ? ?]], p as [? ? ?]. uf. eq4; ring.
Qed.
Lemma add_angles axis a b : axis <> zero3 -> quat_mul (quat_axis_angle axis a) (quat_axis_angle axis b) = quat_axis_angle axis (a + b).
Proof.
  intros N. pose proof (norm_unit _ N) as U. unfold quat_axis_angle. destruct (vec3_norm axis) as [x y z]. rewrite (Rmult_plus_distr_l (1 / 2) a b), sin_plus, cos_plus.
  generalize (sin (1 / 2 * a)) (sin (1 / 2 * b)) (cos (1 / 2 * a)) (cos (1 / 2 * b)). intros sa sb ca cb. uf. cbn -[Rmult] in *. eq4; nsatz.
Qed.
Lemma rotate_mul (p q : vec4 R) (v : vec3 R) : unit4 p -> unit4 q -> quat_rotate_vec3 (quat_mul p q) v = quat_rotate_vec3 p (quat_rotate_vec3 q v).
Proof. destruct p as [? ? ? ?], q as [? ? ? ?], v as [? ? ?]. intros P Q. uf. cbn -[Rmult] in *. eq3; nsatz. Qed.
Lemma unit_mul (p q : vec4 R) : unit4 p -> unit4 q -> unit4 (quat_mul p q).
Proof. destruct p as [? ? ? ?], q as [? ? ? ?]. intros P Q. uf. cbn -[Rmult] in *. nsatz. Qed.
Lemma euler_turns pitch yaw roll v v1 v2 v3 :
  turned (V3 0 0 1) roll v v1 -> turned (V3 1 0 0) pitch v1 v2 -> turned (V3 0 1 0) yaw v2 v3 ->
  unit4 (quat_euler_angles pitch yaw roll) /\ quat_rotate_vec3 (quat_euler_angles pitch yaw roll) v = v3.
Proof.
  intros A B C. assert (X : V3 1 0 0 <> zero3) by (unfold zero3; intros E; injection E; lra). assert (Y : V3 0 1 0 <> zero3) by (unfold zero3; intros E; injection E; lra). assert (Z : V3 0 0 1 <> zero3) by (unfold zero3; intros E; injection E; lra).
  pose proof (axis_angle_unit _ pitch X) as Ux. pose proof (axis_angle_unit _ yaw Y) as Uy. pose proof (axis_angle_unit _ roll Z) as Uz.
  unfold quat_euler_angles. cbv zeta. split; [auto using unit_mul|]. rewrite !rotate_mul by auto using unit_mul.
  pose proof (axis_angle_turns _ roll v Z) as A'. rewrite norm_of_unit in A' by (uf; cbn; ring). replace (quat_rotate_vec3 (quat_axis_angle (V3 0 0 1) roll) v) with v1 by (unfold turned in *; congruence).
  pose proof (axis_angle_turns _ pitch v1 X) as B'. rewrite norm_of_unit in B' by (uf; cbn; ring). replace (quat_rotate_vec3 (quat_axis_angle (V3 1 0 0) pitch) v1) with v2 by (unfold turned in *; congruence).
  pose proof (axis_angle_turns _ yaw v2 Y) as C'. rewrite norm_of_unit in C' by (uf; cbn; ring). unfold turned in *; congruence.
Qed.

(** ** Back from matrices *)
Lemma norm_q_unit (q : vec4 R) : q <> zero4 -> direction4 q (quat_norm (quat_mag q) q).
Proof.
  intros N. pose proof (mag4_pos q N) as M. pose proof (sqrt_lt_R0 _ M) as P. pose proof (sqrt_sqrt _ (Rlt_le _ _ M)) as Q. unfold direction4, quat_mag. remember (sqrt (quat_dot q q)) as k eqn:Hk. clear Hk. split.
  - destruct q as [x y z w]. uf. cbn -[Rdiv] in *. transitivity ((x * x + y * y + z * z + w * w) / (k * k)); [field; lra|]. rewrite Q. field. rewrite <- Q. nra.
  - exists k. split; [exact P|]. destruct q as [x y z w]. uf. eq4; field; lra.
Qed.
Lemma mag_unit (q : vec4 R) : unit4 q -> quat_mag q = 1.
Proof. intros U. unfold quat_mag. replace (quat_dot q q) with 1 by (rewrite <- U; destruct q; uf; ring). apply sqrt_1. Qed.
Lemma norm_q_of_unit (q : vec4 R) : unit4 q -> quat_norm (quat_mag q) q = q.
Proof. intros U. rewrite mag_unit by exact U. destruct q. uf. eq4; field. Qed.
Lemma sqrt_4sq (x : R) : sqrt (4 * (x * x) - 1 + 1) * (1 / 2) = Rabs x.
Proof. replace (4 * (x * x) - 1 + 1) with (Rsqr (2 * x)) by (unfold Rsqr; ring). rewrite sqrt_Rsqr_abs, Rabs_mult, (Rabs_right 2) by lra. field. Qed.
Definition signed (q r : vec4 R) : Prop := r = q \/ r = neg4 q.
Lemma from_mat4_unit (q : vec4 R) : unit4 q -> signed q (quat_from_mat4 (mat4_from_quat 1 q)).
Proof.
  destruct q as [x y z w]. intros U. unfold unit4, dot4 in U. cbn [x4 y4 z4 w4] in U. unfold signed, quat_from_mat4, mat4_from_quat. cbv zeta. uf.
  set (fx := _ - _ - (1 - (1 + 1) * (x / 1 * (x / 1) + y / 1 * (y / 1)))).
  assert (Fx : fx = 4 * (x * x) - 1) by (unfold fx; field_simplify; nra). clearbody fx.
  set (fy := _ - (1 - (1 + 1) * (y / 1 * (y / 1) + z / 1 * (z / 1))) - _).
  assert (Fy : fy = 4 * (y * y) - 1) by (unfold fy; field_simplify; nra). clearbody fy.
  set (fz := (1 - (1 + 1) * (x / 1 * (x / 1) + y / 1 * (y / 1))) - _ - _).
  assert (Fz : fz = 4 * (z * z) - 1) by (unfold fz; field_simplify; nra). clearbody fz.
  set (fw := _ + _ + _).
  assert (Fw : fw = 4 * (w * w) - 1) by (unfold fw; field_simplify; nra). clearbody fw.
  assert (S : forall b, b <> 0 -> Rabs b <> 0 /\ ((Rabs b = b) \/ (Rabs b = - b))).
  { intros b B. split; [now apply Rabs_no_R0|]. unfold Rabs. destruct (Rcase_abs b); auto. }
  assert (fin : forall b, 1 / 4 <= b * b -> b <> 0) by (intros b B ->; lra).
  destruct (Rlt_dec fw fx); [destruct (Rlt_dec fx fy); [destruct (Rlt_dec fy fz)|destruct (Rlt_dec fx fz)]|destruct (Rlt_dec fw fy); [destruct (Rlt_dec fy fz)|destruct (Rlt_dec fw fz)]].
  all: cbv beta iota zeta.
  all: match goal with |- context [sqrt (?f + 1)] => match goal with F : f = 4 * (?b * ?b) - 1 |- _ =>
    let B := fresh in assert (B : b <> 0) by (apply fin; lra); rewrite F; rewrite !sqrt_4sq; destruct (S b B) as [? [->| ->]] end end;
    [left|right]; eq4; field; lra.
Qed.
