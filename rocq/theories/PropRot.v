(** C95: rotations by an axis and an angle, by Euler angles, and back from quaternions and matrices (over the reals). *)
From Coq Require Import Reals Lra Psatz Field Nsatz.
From Verif Require Import Base Vec VecSpec Rot RotSpec RotProofs.
Local Open Scope R_scope.

(** zpl_vec3_norm gives the unit vector in the direction of its argument, and there is only one. *)
Theorem C95_norm (v : vec3 R) : v <> zero3 -> forall u, direction v u <-> u = vec3_norm v.
Proof. intros N u. split; [intros D; eapply direction_unique; eauto using norm_direction|intros ->; now apply norm_direction]. Qed.
Example C95_norm_ex : vec3_norm (V3 3 0 4) = V3 (3 / 5) 0 (4 / 5).
Proof.
  assert (N : V3 3 0 4 <> zero3) by (unfold zero3; intros E; injection E; lra). symmetry. apply (C95_norm _ N). split; [uf; cbn; field|]. exists 5. split; [lra|]. unfold scale3. cbn. eq3; field.
Qed.

(** zpl_quat_axis_angle: a unit quaternion, which turns every vector by the angle about the axis. *)
Theorem C95_quat_axis_angle (axis u : vec3 R) (th : R) : axis <> zero3 -> direction axis u ->
  unit4 (quat_axis_angle axis th) /\ forall v, turned u th v (quat_rotate_vec3 (quat_axis_angle axis th) v).
Proof. intros N D. apply (C95_norm _ N) in D as ->. split; [now apply axis_angle_unit|]. intros v. now apply axis_angle_turns. Qed.
(** zpl_mat4_axis_angle and zpl_mat4_rotate: the same turn as a matrix, and before the matrix given. *)
Theorem C95_mat4_axis_angle (axis u : vec3 R) (th : R) : axis <> zero3 -> direction axis u ->
  forall v w, turned u th v w -> moves (mat4_rotation axis th) v w /\ forall m, image (mat4_rotate m axis th) v = image m w.
Proof.
  intros N D v w T. apply (C95_norm _ N) in D as ->. destruct (rotation_turns axis th v N) as (w' & T' & E). assert (w' = w) by (unfold turned in *; congruence). subst w'. split.
  - unfold moves. rewrite <- image_mul, E. reflexivity.
  - intros m. now apply (rotate_compose m axis th v w).
Qed.
Example C95_ex_turn : turned (V3 0 0 1) (PI / 2) (V3 1 0 5) (V3 0 1 5) /\ turned (V3 0 0 1) PI (V3 1 2 5) (V3 (-1) (-2) 5).
Proof. unfold turned. rewrite cos_PI2, sin_PI2, cos_PI, sin_PI. uf. cbn. split; eq3; ring. Qed.

(** Turns about the same axis add up. *)
Theorem C95_add_angles (axis : vec3 R) (a b : R) : axis <> zero3 ->
  quat_mul (quat_axis_angle axis a) (quat_axis_angle axis b) = quat_axis_angle axis (a + b).
Proof. apply add_angles. Qed.
(** zpl_quat_euler_angles: roll about z first, then pitch about x, then yaw about y. *)
Theorem C95_euler (pitch yaw roll : R) (v v1 v2 v3 : vec3 R) :
  turned (V3 0 0 1) roll v v1 -> turned (V3 1 0 0) pitch v1 v2 -> turned (V3 0 1 0) yaw v2 v3 ->
  unit4 (quat_euler_angles pitch yaw roll) /\ quat_rotate_vec3 (quat_euler_angles pitch yaw roll) v = v3.
Proof. apply euler_turns. Qed.
Example C95_euler_ex : quat_rotate_vec3 (quat_euler_angles (PI / 2) (PI / 2) (PI / 2)) (V3 1 0 0) = V3 1 0 0.
Proof.
  eapply (C95_euler _ _ _ _ (V3 0 1 0) (V3 0 0 1) (V3 1 0 0)); unfold turned; rewrite cos_PI2, sin_PI2; uf; cbn; eq3; ring.
Qed.

(** zpl_quat_from_mat4 after zpl_mat4_from_quat: the quaternion made unit, or its opposite, which turns the same way. *)
Theorem C95_from_mat4 (q u : vec4 R) : q <> zero4 -> direction4 q u ->
  (quat_from_mat4 (mat4_from_quat (quat_mag q) q) = u \/ quat_from_mat4 (mat4_from_quat (quat_mag q) q) = neg4 u).
Proof.
  intros N D. assert (E : quat_norm (quat_mag q) q = u).
  { destruct (norm_q_unit q N) as [U' (k' & K' & E')]. destruct D as [U (k & K & E)]. revert U' E'. generalize (quat_norm (quat_mag q) q). intros r U' E'. rewrite E in E'. destruct u as [a b c d], r as [a' b' c' d']. uf. cbn in *. injection E' as E1 E2 E3 E4.
    assert (H : k = k').
    { assert (HH : k * k = k' * k'); [|nra]. transitivity (k * k * (a * a + b * b + c * c + d * d)); [rewrite U; ring|]. transitivity (k' * k' * (a' * a' + b' * b' + c' * c' + d' * d')); [|rewrite U'; ring].
      transitivity ((k*a)*(k*a)+(k*b)*(k*b)+(k*c)*(k*c)+(k*d)*(k*d)); [ring|]. rewrite E1, E2, E3, E4. ring. }
    subst k'. eq4; eapply Rmult_eq_reg_l; eauto; lra. }
  replace (mat4_from_quat (quat_mag q) q) with (mat4_from_quat 1 u); [apply from_mat4_unit, D|]. unfold mat4_from_quat. cbv zeta. rewrite E. replace (quat_norm 1 u) with u; [reflexivity|]. destruct u. uf. eq4; field.
Qed.
Theorem C95_opposite (q : vec4 R) (v : vec3 R) : quat_rotate_vec3 (neg4 q) v = quat_rotate_vec3 q v.
Proof. destruct q, v. uf. cbn. eq3; ring. Qed.

(** ** Angle and axis back from a quaternion *)
Lemma acos_half th : 0 <= th <= 2 * PI -> acos (cos (1 / 2 * th)) = 1 / 2 * th.
Proof. intros H. apply acos_cos. lra. Qed.
Theorem C95_angle (axis : vec3 R) (th : R) : axis <> zero3 -> 0 <= th <= 2 * PI -> quat_angle (quat_axis_angle axis th) = th.
Proof. intros N H. unfold quat_angle. rewrite mag_unit by now apply axis_angle_unit. cbn [quat_axis_angle w4]. replace (cos _ * (1 / 1)) with (cos (1 / 2 * th)) by field. rewrite acos_half by exact H. field. Qed.
Theorem C95_axis (axis u : vec3 R) (th : R) : axis <> zero3 -> direction axis u -> 0 < th < 2 * PI -> quat_axis (quat_axis_angle axis th) = u.
Proof.
  intros N D H. apply (C95_norm _ N) in D as ->. unfold quat_axis. rewrite norm_q_of_unit by now apply axis_angle_unit. cbn [quat_axis_angle w4]. rewrite acos_half by lra. assert (S : 0 < sin (1 / 2 * th)) by (apply sin_gt_0; lra).
  unfold quat_axis_angle. destruct (vec3_norm axis) as [x y z]. uf. cbv zeta. eq3; field; lra.
Qed.
(** The other way round: axis and angle of a unit quaternion give it back. *)
Theorem C95_axis_angle_of (q : vec4 R) : unit4 q -> -1 < w4 q < 1 ->
  dot3 (quat_axis q) (quat_axis q) = 1 /\ 0 < quat_angle q < 2 * PI /\ quat_axis_angle (quat_axis q) (quat_angle q) = q.
Proof.
  intros U W. pose proof (acos_bound_lt _ W) as B. assert (S : sin (acos (w4 q)) * sin (acos (w4 q)) = 1 - w4 q * w4 q). { pose proof (cs1 (acos (w4 q))) as H. rewrite cos_acos in H by lra. lra. }
  assert (P : 0 < sin (acos (w4 q))) by (apply sin_gt_0; lra).
  assert (A : quat_angle q = 2 * acos (w4 q)). { unfold quat_angle. rewrite mag_unit by exact U. replace (w4 q * (1 / 1)) with (w4 q) by field. reflexivity. }
  assert (D : dot3 (quat_axis q) (quat_axis q) = 1).
  { unfold quat_axis. rewrite norm_q_of_unit by exact U. set (s := sin _) in *. clearbody s. destruct q as [x y z w]. uf. cbn -[Rdiv] in *. transitivity ((x * x + y * y + z * z) / (s * s)); [field; lra|]. replace (x * x + y * y + z * z) with (s * s) by lra. field. nra. }
  split; [exact D|]. split; [rewrite A; lra|]. unfold quat_axis_angle. rewrite norm_of_unit by exact D. rewrite A. replace (1 / 2 * (2 * acos (w4 q))) with (acos (w4 q)) by field. rewrite cos_acos by lra.
  unfold quat_axis. rewrite norm_q_of_unit by exact U. set (s := sin _) in *. clearbody s. destruct q as [x y z w]. uf. eq4; try field; try lra; reflexivity.
Qed.
Example C95_axis_ex : unit4 (V4 0 0 (3 / 5) (4 / 5)) /\ -1 < w4 (V4 0 0 (3 / 5) (4 / 5)) < 1.
Proof. split; [uf; cbn; field|cbn; lra]. Qed.

(** zpl_quat_axis normalises the quaternion but takes the arc cosine of the w from before: for a quaternion that is not
    unit (and has a real part) the axis is not unit either. *)
Theorem C95_axis_unit_iff (q : vec4 R) : -1 < w4 q < 1 -> qv q <> zero3 ->
  (dot3 (quat_axis q) (quat_axis q) = 1 <-> unit4 q \/ w4 q = 0).
Proof.
  intros W N. pose proof (acos_bound_lt _ W) as B. assert (S : sin (acos (w4 q)) * sin (acos (w4 q)) = 1 - w4 q * w4 q). { pose proof (cs1 (acos (w4 q))) as H. rewrite cos_acos in H by lra. lra. }
  assert (P : 0 < sin (acos (w4 q))) by (apply sin_gt_0; lra). pose proof (mag_pos _ N) as X.
  assert (M : 0 < quat_dot q q). { destruct q. uf. cbn in *. nra. }
  pose proof (sqrt_lt_R0 _ M) as K. pose proof (sqrt_sqrt _ (Rlt_le _ _ M)) as Q. unfold quat_axis. unfold quat_mag. set (k := sqrt _) in *. clearbody k. set (s := sin _) in *. clearbody s.
  destruct q as [x y z w]. uf. cbn -[Rdiv] in *.
  assert (E : x / k / s * (x / k / s) + y / k / s * (y / k / s) + z / k / s * (z / k / s) = (x * x + y * y + z * z) / ((k * k) * (s * s))) by (field; lra).
  rewrite E, Q, S. clear E N. remember (x * x + y * y + z * z) as n eqn:Hn. clear Hn.
  assert (G : (n + w * w) * (1 - w * w) <> 0) by (apply Rmult_integral_contrapositive_currified; nra).
  split.
  - intros H. assert (HH : n = (n + w * w) * (1 - w * w)) by (transitivity (n / ((n + w * w) * (1 - w * w)) * ((n + w * w) * (1 - w * w))); [field; split; nra|rewrite H; ring]). assert (F : (w * w) * (n + w * w - 1) = 0) by lra. apply Rmult_integral in F. destruct F; [right; nra|left; lra].
  - intros [H|H]; [|subst w].
    + assert (HH : n = (n + w * w) * (1 - w * w)) by (rewrite H; lra). rewrite HH at 1. unfold Rdiv. now rewrite Rinv_r.
    + field. lra.
Qed.
Theorem C95_axis_refuted : exists q, -1 < w4 q < 1 /\ qv q <> zero3 /\ dot3 (quat_axis q) (quat_axis q) <> 1.
Proof.
  exists (V4 0 0 (3 / 10) (4 / 10)). assert (W : -1 < w4 (V4 0 0 (3 / 10) (4 / 10)) < 1) by (cbn; lra). assert (N : qv (V4 0 0 (3 / 10) (4 / 10)) <> zero3) by (cbv [qv zero3 x4 y4 z4]; intros E; injection E; lra). split; [exact W|]. split; [exact N|].
  intros D. apply (C95_axis_unit_iff _ W N) in D as [D|D]; uf; cbn in D; lra.
Qed.

(** ** Yaw, roll and pitch *)
Lemma unit_axis (a b c th : R) : dot3 (V3 a b c) (V3 a b c) = 1 -> quat_axis_angle (V3 a b c) th = V4 (a * sin (1 / 2 * th)) (b * sin (1 / 2 * th)) (c * sin (1 / 2 * th)) (cos (1 / 2 * th)).
Proof. intros U. unfold quat_axis_angle. rewrite norm_of_unit by exact U. reflexivity. Qed.
Theorem C95_yaw (th : R) : - (PI / 2) <= th <= PI / 2 -> quat_yaw (quat_axis_angle (V3 0 1 0) th) = th.
Proof.
  intros H. rewrite unit_axis by (uf; cbn; ring). unfold quat_yaw. cbn [x4 y4 z4 w4]. replace (-2 * _) with (2 * sin (1 / 2 * th) * cos (1 / 2 * th)) by ring. rewrite <- half_sin. now apply asin_sin.
Qed.
(** zpl_quat_roll and zpl_quat_pitch write 2xy + zw for 2(xy + zw): they answer the arc tangent of half the tangent,
    which is the angle for no angle but zero. *)
Theorem C95_roll_pitch (th : R) : - (PI / 2) < th < PI / 2 ->
  quat_roll (quat_axis_angle (V3 0 0 1) th) = atan (tan th / 2) /\ quat_pitch (quat_axis_angle (V3 1 0 0) th) = atan (tan th / 2).
Proof.
  intros H. assert (C : 0 < cos th) by (apply cos_gt_0; lra). rewrite !unit_axis by (uf; cbn; ring). unfold quat_roll, quat_pitch, atan2. cbn [x4 y4 z4 w4].
  pose proof (half_cos th) as HC. pose proof (half_sin th) as HS. unfold tan. set (s := sin (1 / 2 * th)) in *. set (k := cos (1 / 2 * th)) in *. clearbody s k.
  replace (0 * s * (0 * s) + k * k - 0 * s * (0 * s) - 1 * s * (1 * s)) with (cos th) by (rewrite HC; ring).
  replace (k * k - 1 * s * (1 * s) - 0 * s * (0 * s) + 0 * s * (0 * s)) with (cos th) by (rewrite HC; ring).
  destruct (Rlt_dec 0 (cos th)); [|lra]. split; f_equal; rewrite HS; field; lra.
Qed.
Theorem C95_roll_pitch_refuted (th : R) : - (PI / 2) < th < PI / 2 ->
  (quat_roll (quat_axis_angle (V3 0 0 1) th) = th <-> th = 0) /\ (quat_pitch (quat_axis_angle (V3 1 0 0) th) = th <-> th = 0).
Proof.
  intros H. destruct (C95_roll_pitch th H) as [-> ->]. assert (E : atan (tan th / 2) = th <-> th = 0); [|tauto]. split.
  - intros E. pose proof (tan_atan (tan th / 2)) as T. rewrite E in T. assert (Z : tan th = 0) by lra. rewrite <- (atan_tan th) by lra. rewrite Z. apply atan_0.
  - intros ->. rewrite tan_0. replace (0 / 2) with 0 by field. apply atan_0.
Qed.
Example C95_roll_ex : quat_roll (quat_axis_angle (V3 0 0 1) (PI / 4)) = atan (1 / 2) /\ atan (1 / 2) < PI / 4.
Proof.
  pose proof PI_RGT_0. destruct (C95_roll_pitch (PI / 4)) as [-> _]; [lra|]. rewrite tan_PI4. split; [f_equal; field|]. rewrite <- atan_1. apply atan_increasing. lra.
Qed.

(** For half turns they are right: turning v half around the unit axis a gives 2(a.v)a - v; the roll is the direction of the
    turned x axis in the xy plane, the pitch that of the z components of the turned y and z axes. *)
Definition half_turn (a v : vec3 R) : vec3 R :=
  let d := 2 * (x3 a * x3 v + y3 a * y3 v + z3 a * z3 v) in V3 (d * x3 a - x3 v) (d * y3 a - y3 v) (d * z3 a - z3 v).
Theorem C95_roll_pitch_half_turn (x y z : R) : x * x + y * y + z * z = 1 ->
  let q := V4 x y z 0 in let t := half_turn (V3 x y z) in
  quat_roll q = atan2 (y3 (t (V3 1 0 0))) (x3 (t (V3 1 0 0))) /\ quat_pitch q = atan2 (z3 (t (V3 0 1 0))) (z3 (t (V3 0 0 1))).
Proof.
  intros U. unfold quat_roll, quat_pitch, half_turn. cbn [x3 y3 z3 x4 y4 z4 w4]. split; f_equal; nsatz.
Qed.
Example C95_half_turn_ex : (3 / 5) * (3 / 5) + 0 * 0 + (4 / 5) * (4 / 5) = 1. Proof. field. Qed.
Print Assumptions C95_roll_pitch_half_turn.
Print Assumptions C95_quat_axis_angle. Print Assumptions C95_mat4_axis_angle. Print Assumptions C95_euler. Print Assumptions C95_from_mat4.
Print Assumptions C95_axis_angle_of. Print Assumptions C95_axis_refuted. Print Assumptions C95_roll_pitch_refuted. Print Assumptions C95_yaw.
