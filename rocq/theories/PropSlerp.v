(** C96: interpolation of quaternions (over the reals). *)
From Coq Require Import Reals Lra Psatz Field Nsatz.
From Verif Require Import Base Vec VecSpec Rot RotSpec RotProofs.
Local Open Scope R_scope.

(** On the straight line from a to b, at the fraction t. *)
Definition between (a b : vec4 R) (t : R) (d : vec4 R) : Prop :=
  forall f, (f = x4 \/ f = y4 \/ f = z4 \/ f = w4) -> f d = (1 - t) * f a + t * f b.
Theorem C96_lerp (a b : vec4 R) (t : R) : between a b t (quat_lerp a b t).
Proof. intros f F. destruct a, b. destruct F as [->|[->|[->| ->]]]; uf; cbn; ring. Qed.
Lemma lerp_0 a b : quat_lerp a b 0 = a.
Proof. destruct a, b. cbv [quat_lerp]. uf. eq4; ring. Qed.
Lemma lerp_1 a b : quat_lerp a b 1 = b.
Proof. destruct a, b. cbv [quat_lerp]. uf. eq4; ring. Qed.

(** zpl_quat_nlerp: the direction of that point, as long as it is not the origin; so for unit quaternions
    it starts at a and ends at b. *)
Theorem C96_nlerp (a b d : vec4 R) (t : R) : between a b t d -> d <> zero4 -> direction4 d (quat_nlerp a b t).
Proof.
  intros B N. assert (d = quat_lerp a b t) as ->.
  { pose proof (C96_lerp a b t) as L. assert (E : forall f, (f = x4 \/ f = y4 \/ f = z4 \/ f = w4) -> f d = f (quat_lerp a b t)) by (intros f F; rewrite (B f F), (L f F); reflexivity).
    pose proof (E x4 ltac:(auto)). pose proof (E y4 ltac:(auto)). pose proof (E z4 ltac:(auto)). pose proof (E w4 ltac:(auto)). destruct d, (quat_lerp a b t). cbn in *. congruence. }
  unfold quat_nlerp. cbv zeta. now apply norm_q_unit.
Qed.
Theorem C96_nlerp_ends (a b : vec4 R) : unit4 a -> unit4 b -> quat_nlerp a b 0 = a /\ quat_nlerp a b 1 = b.
Proof. intros A B. unfold quat_nlerp. cbv zeta. rewrite lerp_0, lerp_1, !norm_q_of_unit by assumption. auto. Qed.
(** between unit quaternions that are not opposite the line misses the origin *)
Theorem C96_nlerp_unit (a b : vec4 R) (t : R) : unit4 a -> unit4 b -> b <> neg4 a -> unit4 (quat_nlerp a b t).
Proof.
  intros A B N. eapply (C96_nlerp a b _ t (C96_lerp a b t)). intros Z. destruct a as [a1 a2 a3 a4], b as [b1 b2 b3 b4]. cbv [quat_lerp] in Z. uf. cbn in *. injection Z as Z1 Z2 Z3 Z4.
  (* t b = (t - 1) a, so t^2 = (1 - t)^2 and t = 1/2 *)
  assert (E : t * t = (t - 1) * (t - 1)).
  { transitivity ((t*b1)*(t*b1)+(t*b2)*(t*b2)+(t*b3)*(t*b3)+(t*b4)*(t*b4)); [transitivity (t * t * (b1*b1+b2*b2+b3*b3+b4*b4)); [rewrite B; ring|ring]|].
    replace (t * b1) with ((t - 1) * a1) by lra. replace (t * b2) with ((t - 1) * a2) by lra. replace (t * b3) with ((t - 1) * a3) by lra. replace (t * b4) with ((t - 1) * a4) by lra.
    transitivity ((t - 1) * (t - 1) * (a1*a1+a2*a2+a3*a3+a4*a4)); [ring|rewrite A; ring]. }
  assert (T : t = 1 / 2) by lra. subst t. apply N. eq4; lra.
Qed.
Example C96_nlerp_ex : quat_nlerp (V4 1 0 0 0) (V4 0 1 0 0) (4 / 7) = V4 (3 / 5) (4 / 5) 0 0.
Proof.
  unfold quat_nlerp. cbv zeta. assert (L : quat_lerp (V4 1 0 0 0) (V4 0 1 0 0) (4 / 7) = V4 (3 / 7) (4 / 7) 0 0) by (cbv [quat_lerp]; uf; eq4; field). rewrite L.
  assert (M : quat_mag (V4 (3 / 7) (4 / 7) 0 0) = 5 / 7). { unfold quat_mag. replace (quat_dot _ _) with (Rsqr (5 / 7)) by (uf; unfold Rsqr; field). apply sqrt_Rsqr. lra. }
  rewrite M. uf. eq4; field.
Qed.

(** ** zpl_quat_slerp *)
(** of b and its opposite, which turn the same way, the one nearer to a *)
Definition nearer (a b z : vec4 R) : Prop := (z = b \/ z = neg4 b) /\ 0 <= dot4 a z.
Lemma slerp_unfold (a b z : vec4 R) (t : R) : nearer a b z -> dot4 a z < 1 -> (dot4 a b = 0 -> z = b) ->
  let th := acos (dot4 a z) in
  0 < sin th /\ quat_slerp a b t = Some (vec4_mul (vec4_add (vec4_mul a (sin ((1 - t) * th))) (vec4_mul z (sin (t * th)))) (1 / sin th)).
Proof.
  intros [Z P] L E0 th. assert (S : 0 < sin th). { pose proof (acos_bound_lt (dot4 a z) ltac:(lra)). apply sin_gt_0; unfold th; lra. }
  split; [exact S|]. unfold quat_slerp. assert (D : quat_dot a b = dot4 a b) by (destruct a, b; uf; ring). rewrite D. cbv zeta.
  assert (E : (if Rlt_dec (dot4 a b) 0 then (V4 (- x4 b) (- y4 b) (- z4 b) (- w4 b), - dot4 a b) else (b, dot4 a b)) = (z, dot4 a z)).
  { destruct (Rlt_dec (dot4 a b) 0) as [H|H]; destruct Z as [-> | ->].
    - lra.
    - f_equal. destruct a, b; uf; ring.
    - reflexivity.
    - assert (N : dot4 a (neg4 b) = - dot4 a b) by (destruct a, b; uf; ring). rewrite <- (E0 ltac:(lra)) at 1. f_equal. lra. }
  rewrite E. destruct (Rlt_dec 1 (dot4 a z)); [lra|]. fold th. destruct (Req_EM_T (sin th) 0); [lra|]. reflexivity.
Qed.
(** Between unit quaternions that differ by more than the sign, th being the angle to the nearer of b and -b: the result is unit, at the angle t*th from a and
    (1-t)*th from that one: on the shorter arc, at constant speed. *)
Theorem C96_slerp (a b z : vec4 R) (t : R) : unit4 a -> unit4 b -> nearer a b z -> dot4 a z < 1 -> (dot4 a b = 0 -> z = b) ->
  let th := acos (dot4 a z) in
  exists d, quat_slerp a b t = Some d /\ unit4 d /\ dot4 a d = cos (t * th) /\ dot4 d z = cos ((1 - t) * th) /\
    (t = 0 -> d = a) /\ (t = 1 -> d = z).
Proof.
  intros A B Z L E0 th. destruct (slerp_unfold a b z t Z L E0) as [S E]. fold th in S, E. assert (UZ : unit4 z). { destruct Z as [[-> | ->] _]; [exact B|]. destruct b. uf. cbn in *. lra. }
  assert (C : cos th = dot4 a z). { unfold th. apply cos_acos. destruct Z as [_ Z]. lra. }
  assert (S1 : sin ((1 - t) * th) = sin th * cos (t * th) - cos th * sin (t * th)). { replace ((1 - t) * th) with (th - t * th) by ring. apply sin_minus. }
  assert (C1 : cos ((1 - t) * th) = cos th * cos (t * th) + sin th * sin (t * th)). { replace ((1 - t) * th) with (th - t * th) by ring. apply cos_minus. }
  eexists. split; [exact E|].
  assert (T0 : t = 0 -> sin (t * th) = 0 /\ sin ((1 - t) * th) = sin th) by (intros ->; rewrite Rmult_0_l, sin_0, Rminus_0_r, Rmult_1_l; auto).
  assert (T1 : t = 1 -> sin (t * th) = sin th /\ sin ((1 - t) * th) = 0) by (intros ->; rewrite Rmult_1_l, Rminus_diag_eq, Rmult_0_l, sin_0 by reflexivity; auto).
  rewrite C1. rewrite S1 in *. pose proof (cs1 th) as H1. pose proof (cs1 (t * th)) as H2. revert T0 T1 C H1 H2 S. generalize (sin (t * th)) (cos (t * th)) (sin th) (cos th). intros s k S K T0 T1 C H1 H2 P. clear E S1 C1.
  assert (I : 1 / S * S = 1) by (field; lra). set (i := 1 / S) in *. clearbody i.
  destruct a as [a1 a2 a3 a4], z as [z1 z2 z3 z4]. uf. cbn -[Rmult] in *. clear Z L E0 B th b.
  set (p := S * k - K * s) in *.
  split; [transitivity (i * i * (p * p * (a1 * a1 + a2 * a2 + a3 * a3 + a4 * a4) + s * s * (z1 * z1 + z2 * z2 + z3 * z3 + z4 * z4) + 2 * p * s * (a1 * z1 + a2 * z2 + a3 * z3 + a4 * z4))); [ring|rewrite A, UZ, <- C; unfold p; clear - I H1 H2; nsatz]|].
  split; [transitivity (i * (p * (a1 * a1 + a2 * a2 + a3 * a3 + a4 * a4) + s * (a1 * z1 + a2 * z2 + a3 * z3 + a4 * z4))); [ring|rewrite A, <- C; unfold p; clear - I; nsatz]|].
  split; [transitivity (i * (p * (a1 * z1 + a2 * z2 + a3 * z3 + a4 * z4) + s * (z1 * z1 + z2 * z2 + z3 * z3 + z4 * z4))); [ring|rewrite UZ, <- C; unfold p; clear - I H1; nsatz]|].
  split.
  - intros T. destruct (T0 T) as [-> ->]. clear - I; eq4; nsatz.
  - intros T. destruct (T1 T) as [-> ->]. clear - I; eq4; nsatz.
Qed.
Example C96_slerp_ex : exists d, quat_slerp (V4 1 0 0 0) (V4 0 1 0 0) (1 / 3) = Some d /\ unit4 d /\ dot4 (V4 1 0 0 0) d = cos (PI / 6).
Proof.
  destruct (C96_slerp (V4 1 0 0 0) (V4 0 1 0 0) (V4 0 1 0 0) (1 / 3)) as (d & E & U & C & _); [uf; cbn; ring|uf; cbn; ring|split; [auto|uf; cbn; lra]|uf; cbn; lra|reflexivity|].
  exists d. split; [exact E|]. split; [exact U|]. rewrite C. f_equal. replace (dot4 _ _) with 0 by (uf; cbn; ring). rewrite acos_0. field.
Qed.
(** Some nearer one always exists, and it is b itself or -b by the sign of the product. *)
Theorem C96_nearer (a b : vec4 R) : exists z, nearer a b z /\ (dot4 a b = 0 -> z = b).
Proof.
  destruct (Rlt_dec (dot4 a b) 0) as [H|H]; [exists (neg4 b)|exists b]; (split; [split; [auto|]|intros; auto; lra]); [|lra].
  replace (dot4 a (neg4 b)) with (- dot4 a b) by (destruct a, b; uf; ring). lra.
Qed.

(** From a quaternion to itself or to its opposite: NaN, as the sine of the angle is zero. *)
Theorem C96_slerp_same_refuted (a : vec4 R) (t : R) : unit4 a -> quat_slerp a a t = None /\ quat_slerp a (neg4 a) t = None.
Proof.
  intros A. assert (D : quat_dot a a = 1) by (rewrite <- A; destruct a; uf; ring). assert (D' : quat_dot a (neg4 a) = - quat_dot a a) by (destruct a; uf; ring).
  unfold quat_slerp. rewrite D', D. cbv zeta. split.
  - destruct (Rlt_dec 1 0); [lra|]. destruct (Rlt_dec 1 1); [reflexivity|]. rewrite acos_1, sin_0. destruct (Req_EM_T 0 0); [reflexivity|lra].
  - destruct (Rlt_dec (Ropp 1) 0); [|lra]. rewrite Ropp_involutive. destruct (Rlt_dec 1 1); [reflexivity|]. rewrite acos_1, sin_0. destruct (Req_EM_T 0 0); [reflexivity|lra].
Qed.
(** Quaternions whose product is above 1, for which the code means to fall back on zpl_quat_lerp: NaN as well. *)
Theorem C96_slerp_long_refuted (a b : vec4 R) (t : R) : 1 < Rabs (dot4 a b) -> quat_slerp a b t = None.
Proof.
  intros L. unfold quat_slerp. assert (D : quat_dot a b = dot4 a b) by (destruct a, b; uf; ring). rewrite D. cbv zeta. unfold Rabs in L. destruct (Rcase_abs (dot4 a b)); destruct (Rlt_dec (dot4 a b) 0); try lra.
  - destruct (Rlt_dec 1 (- dot4 a b)); [reflexivity|lra].
  - destruct (Rlt_dec 1 (dot4 a b)); [reflexivity|lra].
Qed.
Example C96_long_ex : 1 < Rabs (dot4 (V4 1 0 0 1) (V4 1 0 0 1)) /\ quat_lerp (V4 1 0 0 1) (V4 1 0 0 1) (1 / 2) = V4 1 0 0 1.
Proof. split; [uf; cbn; rewrite Rabs_right; lra|]. cbv [quat_lerp]. uf. cbn. eq4; field. Qed.

(** zpl_quat_slerp_approx is zpl_quat_nlerp at both ends and in the middle. *)
Theorem C96_slerp_approx (a b : vec4 R) : quat_slerp_approx a b 0 = quat_nlerp a b 0 /\
  quat_slerp_approx a b (1 / 2) = quat_nlerp a b (1 / 2) /\ quat_slerp_approx a b 1 = quat_nlerp a b 1.
Proof. unfold quat_slerp_approx. cbv zeta. split; [|split]; f_equal; field. Qed.
Theorem C96_slerp_approx_unit (a b : vec4 R) (t : R) : unit4 a -> unit4 b -> b <> neg4 a -> unit4 (quat_slerp_approx a b t).
Proof. intros. unfold quat_slerp_approx. cbv zeta. now apply C96_nlerp_unit. Qed.
(** and symmetric: from b to a it goes back the same way *)
Theorem C96_slerp_approx_sym (a b : vec4 R) (t : R) : quat_slerp_approx a b t = quat_slerp_approx b a (1 - t).
Proof.
  unfold quat_slerp_approx. cbv zeta. assert (D : quat_dot b a = quat_dot a b) by (destruct a, b; uf; ring). rewrite D. set (c := quat_dot a b). clearbody c. clear D. unfold quat_nlerp. cbv zeta.
  replace (quat_lerp b a _) with (quat_lerp a b (t + (1 - c) / 3 * t * (-2 * t * t + 3 * t - 1))); [reflexivity|]. destruct a, b. cbv [quat_lerp]. uf. eq4; field.
Qed.
(** zpl_quat_nquad, zpl_quat_squad and zpl_quat_squad_approx go from p to q. *)
Theorem C96_nquad (p a b q : vec4 R) : unit4 p -> unit4 q -> quat_nquad p a b q 0 = p /\ quat_nquad p a b q 1 = q.
Proof.
  intros P Q. unfold quat_nquad. destruct (C96_nlerp_ends p q P Q) as [-> ->]. replace (2 * 0 * (1 - 0)) with 0 by ring. replace (2 * 1 * (1 - 1)) with 0 by ring. unfold quat_nlerp at 1 3. cbv zeta. rewrite !lerp_0, !norm_q_of_unit by assumption. auto.
Qed.
Theorem C96_squad_approx (p a b q : vec4 R) : unit4 p -> unit4 q -> quat_squad_approx p a b q 0 = p /\ quat_squad_approx p a b q 1 = q.
Proof.
  intros P Q. unfold quat_squad_approx. destruct (C96_slerp_approx p q) as (-> & _ & ->). destruct (C96_nlerp_ends p q P Q) as [-> ->]. replace (2 * 0 * (1 - 0)) with 0 by ring. replace (2 * 1 * (1 - 1)) with 0 by ring.
  rewrite !(fun a b => proj1 (C96_slerp_approx a b)). unfold quat_nlerp. cbv zeta. rewrite !lerp_0, !norm_q_of_unit by assumption. auto.
Qed.
(** neither to itself nor to its opposite *)
Definition apart (a b : vec4 R) : Prop := -1 < dot4 a b < 1.
Theorem C96_squad (p a b q : vec4 R) : unit4 p -> unit4 a -> unit4 b -> unit4 q -> apart p q -> apart a b -> apart p a -> apart q b ->
  quat_squad p a b q 0 = Some p /\ exists q', (q' = q \/ q' = neg4 q) /\ quat_squad p a b q 1 = Some q'.
Proof.
  assert (K : forall a b, unit4 a -> unit4 b -> apart a b -> quat_slerp a b 0 = Some a /\ exists z, (z = b \/ z = neg4 b) /\ quat_slerp a b 1 = Some z).
  { intros x y X Y D. destruct (C96_nearer x y) as (z & N & E0). assert (L : dot4 x z < 1). { destruct D. destruct N as [[-> | ->] _]; [lra|]. replace (dot4 x (neg4 y)) with (- dot4 x y) by (destruct x, y; uf; ring). lra. }
    destruct (C96_slerp x y z 0 X Y N L E0) as (d & -> & _ & _ & _ & -> & _); [|reflexivity]. destruct (C96_slerp x y z 1 X Y N L E0) as (d' & -> & _ & _ & _ & _ & ->); [|reflexivity]. split; [reflexivity|]. exists z. split; [apply N|reflexivity]. }
  intros P A B Q PQ AB PA QB. unfold quat_squad. replace (2 * 0 * (1 - 0)) with 0 by ring. replace (2 * 1 * (1 - 1)) with 0 by ring.
  destruct (K p q P Q PQ) as [-> (q' & Hq & ->)]. destruct (K a b A B AB) as [-> (b' & Hb & ->)]. cbn [obind]. split; [now apply (K p a)|]. exists q'. split; [exact Hq|].
  assert (U : forall x y, unit4 x -> (y = x \/ y = neg4 x) -> unit4 y) by (intros x y X [-> | ->]; [exact X|destruct x; uf; cbn in *; lra]).
  apply (K q' b'); eauto. unfold apart in *. assert (NL : forall x y, dot4 (neg4 x) y = - dot4 x y) by (intros x y; destruct x, y; uf; ring). assert (NR : forall x y, dot4 x (neg4 y) = - dot4 x y) by (intros x y; destruct x, y; uf; ring).
  destruct Hq as [-> | ->], Hb as [-> | ->]; rewrite ?NL, ?NR, ?NL; lra.
Qed.
Example C96_squad_ex : unit4 (V4 1 0 0 0) /\ unit4 (V4 (3 / 5) (4 / 5) 0 0) /\ apart (V4 1 0 0 0) (V4 (3 / 5) (4 / 5) 0 0).
Proof. unfold apart. uf. cbn. repeat split; lra. Qed.
(** The control quaternions must differ from the end points too: with a = p there is no answer at the start. *)
Theorem C96_squad_refuted : exists p a b q, unit4 p /\ unit4 a /\ unit4 b /\ unit4 q /\ apart p q /\ apart a b /\ quat_squad p a b q 0 = None.
Proof.
  assert (U1 : unit4 (V4 1 0 0 0)) by (uf; cbn; ring). assert (U2 : unit4 (V4 0 1 0 0)) by (uf; cbn; ring). assert (AP : apart (V4 1 0 0 0) (V4 0 1 0 0)) by (unfold apart; uf; cbn; lra).
  exists (V4 1 0 0 0), (V4 1 0 0 0), (V4 0 1 0 0), (V4 0 1 0 0). do 6 (split; [assumption|]).
  unfold quat_squad. destruct (C96_slerp (V4 1 0 0 0) (V4 0 1 0 0) (V4 0 1 0 0) 0 U1 U2) as (d & -> & _ & _ & _ & -> & _); [split; [auto|uf; cbn; lra]|uf; cbn; lra|reflexivity| |reflexivity]. exact (proj1 (C96_slerp_same_refuted _ _ U1)).
Qed.

Print Assumptions C96_slerp. Print Assumptions C96_nlerp_unit. Print Assumptions C96_squad. Print Assumptions C96_squad_approx. Print Assumptions C96_slerp_long_refuted.
