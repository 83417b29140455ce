(** C96 continued: how zpl_quat_slerp_approx compares to zpl_quat_nlerp and zpl_quat_slerp (over the reals). *)
From Coq Require Import Reals Lra Psatz Field.
From Verif Require Import Base Vec VecSpec Rot RotSpec RotProofs PropSlerp.
Local Open Scope R_scope.

(** sin x / x decreases up to PI *)
Lemma sinc (x y : R) : 0 < x -> x < y -> y <= PI -> x * sin y < y * sin x.
Proof.
  intros X Y P. assert (D : forall c, derivable_pt_lim sin c (cos c)) by exact derivable_pt_lim_sin.
  destruct (MVT_cor2 sin cos 0 x X (fun c _ => D c)) as (c1 & E1 & B1). destruct (MVT_cor2 sin cos x y Y (fun c _ => D c)) as (c2 & E2 & B2). rewrite sin_0 in E1.
  assert (C : cos c2 < cos c1) by (apply cos_decreasing_1; lra). assert (sin x = x * cos c1) by lra. assert (sin y = x * cos c1 + (y - x) * cos c2) by lra. assert (0 < x * (y - x) * (cos c1 - cos c2)) by (apply Rmult_lt_0_compat; [apply Rmult_lt_0_compat|]; lra). replace (sin x) with (x * cos c1) by lra. replace (sin y) with (x * cos c1 + (y - x) * cos c2) by lra. lra.
Qed.
Lemma dot_lerp (x a b : vec4 R) (s : R) : dot4 x (quat_lerp a b s) = (1 - s) * dot4 x a + s * dot4 x b.
Proof. destruct x, a, b. cbv [quat_lerp]. uf. ring. Qed.
Lemma dot_nlerp (x a b : vec4 R) (s : R) : dot4 x (quat_nlerp a b s) = dot4 x (quat_lerp a b s) / quat_mag (quat_lerp a b s).
Proof. unfold quat_nlerp. cbv zeta. generalize (quat_mag (quat_lerp a b s)) (quat_lerp a b s). intros m l. destruct x, l. uf. unfold Rdiv. ring. Qed.
Lemma dot_sym (a b : vec4 R) : dot4 a b = dot4 b a.
Proof. destruct a, b. uf. ring. Qed.
Lemma nlerp_sym (a b : vec4 R) (t : R) : quat_nlerp a b t = quat_nlerp b a (1 - t).
Proof. unfold quat_nlerp. cbv zeta. replace (quat_lerp b a (1 - t)) with (quat_lerp a b t); [reflexivity|]. destruct a, b. cbv [quat_lerp]. uf. eq4; ring. Qed.
Lemma slerp_sym (a b : vec4 R) (t : R) : 0 <= dot4 a b -> quat_slerp a b t = quat_slerp b a (1 - t).
Proof.
  intros H. unfold quat_slerp. assert (D : quat_dot a b = dot4 a b) by (destruct a, b; uf; ring). assert (D' : quat_dot b a = dot4 a b) by (destruct a, b; uf; ring). rewrite D, D'. cbv zeta.
  destruct (Rlt_dec (dot4 a b) 0); [lra|]. destruct (Rlt_dec 1 (dot4 a b)); [reflexivity|]. destruct (Req_EM_T _ 0); [reflexivity|]. f_equal. replace (1 - (1 - t)) with t by ring. f_equal. destruct a, b. uf. eq4; ring.
Qed.

(** the angle from a at which zpl_quat_nlerp is *)
Definition phi (th s : R) : R := atan (s * sin th / (1 - s + s * cos th)).
Section Plane.
  Context (a b : vec4 R) (A : unit4 a) (B : unit4 b) (C : 0 <= dot4 a b < 1).
  Let th := acos (dot4 a b).
  Lemma th_cos : cos th = dot4 a b.
  Proof. apply cos_acos. lra. Qed.
  Lemma th_bound : 0 < th <= PI / 2.
  Proof.
    split; [unfold th; pose proof (acos_bound_lt (dot4 a b) ltac:(lra)); lra|]. destruct (Rle_or_lt th (PI / 2)) as [H|H]; [exact H|]. pose proof (acos_bound (dot4 a b)) as Bd. fold th in Bd.
    pose proof th_cos. pose proof (cos_lt_0 th H ltac:(lra)). lra.
  Qed.
  Lemma th_sin : 0 < sin th.
  Proof. pose proof th_bound. pose proof PI_RGT_0. apply sin_gt_0; lra. Qed.
  Lemma polar (x : vec4 R) (w s : R) : 0 < s < 1 -> dot4 x a = cos w -> dot4 x b = cos (th - w) -> dot4 x (quat_nlerp a b s) = cos (w - phi th s).
  Proof.
    intros S XA XB. rewrite dot_nlerp, dot_lerp, XA, XB, cos_minus. unfold phi. set (u := 1 - s + s * cos th). set (v := s * sin th).
    assert (U : 0 < u) by (unfold u; rewrite th_cos; nra). rewrite cos_minus, cos_atan, sin_atan.
    assert (M : quat_mag (quat_lerp a b s) = u * sqrt (1 + Rsqr (v / u))).
    { unfold quat_mag. assert (Q : quat_dot (quat_lerp a b s) (quat_lerp a b s) = Rsqr u * (1 + Rsqr (v / u))).
      { transitivity (u * u + v * v); [|unfold Rsqr; field; lra]. assert (E : quat_dot (quat_lerp a b s) (quat_lerp a b s) = (1 - s) * (1 - s) * dot4 a a + 2 * s * (1 - s) * dot4 a b + s * s * dot4 b b) by (destruct a, b; cbv [quat_lerp]; uf; ring).
        rewrite E, A, B, <- th_cos. unfold u, v. pose proof (cs1 th) as K. replace (s * sin th * (s * sin th)) with (s * s * (1 - cos th * cos th)) by (rewrite <- K; ring). ring. }
      rewrite Q, sqrt_mult_alt by (unfold Rsqr; nra). rewrite sqrt_Rsqr by lra. reflexivity. }
    rewrite M. assert (P : 0 < sqrt (1 + Rsqr (v / u))) by (apply sqrt_lt_R0; pose proof (Rle_0_sqr (v / u)); lra). remember (sqrt (1 + Rsqr (v / u))) as q eqn:Hq. clear Hq M.
    replace ((1 - s) * cos w + s * (cos th * cos w + sin th * sin w)) with (u * cos w + v * sin w) by (unfold u, v; ring). field. lra.
  Qed.
  Lemma phi_mono (s s' : R) : 0 < s -> s < s' -> s' <= 1 / 2 -> 0 < phi th s < phi th s'.
  Proof.
    intros S L H. pose proof th_sin as K. assert (U : forall r, 0 < r <= 1 / 2 -> 0 < 1 - r + r * cos th) by (intros r Rr; rewrite th_cos; nra). pose proof (U s ltac:(lra)) as U1. pose proof (U s' ltac:(lra)) as U2. split.
    - rewrite <- atan_0. apply atan_increasing. apply Rdiv_lt_0_compat; nra.
    - apply atan_increasing. apply Rmult_lt_reg_r with (1 - s + s * cos th); [exact U1|]. apply Rmult_lt_reg_r with (1 - s' + s' * cos th); [exact U2|].
      replace (s * sin th / (1 - s + s * cos th) * (1 - s + s * cos th) * (1 - s' + s' * cos th)) with (s * sin th * (1 - s' + s' * cos th)) by (field; lra).
      replace (s' * sin th / (1 - s' + s' * cos th) * (1 - s + s * cos th) * (1 - s' + s' * cos th)) with (s' * sin th * (1 - s + s * cos th)) by (field; lra). nra.
  Qed.
  Lemma phi_slow (t : R) : 0 < t < 1 / 2 -> phi th t < t * th.
  Proof.
    intros T. pose proof th_bound as Bd. pose proof PI_RGT_0 as Pi. assert (W : 0 < t * th < PI / 2) by (split; nra). unfold phi. rewrite <- (atan_tan (t * th)) by lra. apply atan_increasing. unfold tan.
    assert (Cw : 0 < cos (t * th)) by (apply cos_gt_0; lra). assert (U : 0 < 1 - t + t * cos th) by (rewrite th_cos; nra).
    pose proof (sinc (t * th) ((1 - t) * th) ltac:(lra) ltac:(nra) ltac:(nra)) as G. replace ((1 - t) * th) with (th - t * th) in G by ring. rewrite sin_minus in G.
    apply Rmult_lt_reg_r with (cos (t * th)); [exact Cw|]. replace (sin (t * th) / cos (t * th) * cos (t * th)) with (sin (t * th)) by (field; lra).
    apply Rmult_lt_reg_r with (1 - t + t * cos th); [exact U|]. replace (t * sin th / (1 - t + t * cos th) * cos (t * th) * (1 - t + t * cos th)) with (t * sin th * cos (t * th)) by (field; lra).
    assert (G' : th * (t * (sin th * cos (t * th) - cos th * sin (t * th))) < th * ((1 - t) * sin (t * th))) by lra. apply Rmult_lt_reg_l in G'; [|lra]. lra.
  Qed.
End Plane.

(** zpl_quat_slerp_approx is meant to make up for zpl_quat_nlerp being slow at the ends, but its correction has the wrong sign: before the middle
    zpl_quat_nlerp is not as far from a as zpl_quat_slerp, and zpl_quat_slerp_approx is still less far. *)
Theorem C96_slerp_approx_lags (a b d : vec4 R) (t : R) : unit4 a -> unit4 b -> 0 <= dot4 a b < 1 -> 0 < t < 1 / 2 -> quat_slerp a b t = Some d ->
  dot4 a d < dot4 a (quat_nlerp a b t) < dot4 a (quat_slerp_approx a b t) /\ dot4 d (quat_slerp_approx a b t) < dot4 d (quat_nlerp a b t).
Proof.
  intros A B C T E. destruct (C96_slerp a b b t A B ltac:(split; [auto|lra]) ltac:(lra) ltac:(auto)) as (d' & E' & U & DA & DB & _). rewrite E in E'. injection E' as <-.
  pose proof (th_bound a b C) as Bd. pose proof (th_cos a b C) as Tc. set (th := acos (dot4 a b)) in *. pose proof PI_RGT_0 as Pi.
  unfold quat_slerp_approx. cbv zeta. assert (Q : quat_dot a b = dot4 a b) by (destruct a, b; uf; ring). rewrite Q. set (tp := t + _).
  assert (TP : 0 < tp < t). { unfold tp. assert (F : -1 < -2 * t * t + 3 * t - 1 < 0) by (split; nra). set (f := -2 * t * t + 3 * t - 1) in *. clearbody f. assert (G : 0 < (1 - dot4 a b) / 3 <= 1 / 3) by lra. set (g := (1 - dot4 a b) / 3) in *. clearbody g. assert (H : -1 < g * f < 0) by (split; nra). replace (g * t * f) with (t * (g * f)) by ring. set (h := g * f) in *. clearbody h. clear - T H. split; nra. }
  assert (Pa : forall s, 0 < s < 1 -> dot4 a (quat_nlerp a b s) = cos (0 - phi th s)). { intros s S. apply (polar a b A B C); [exact S|rewrite cos_0; exact A|rewrite Rminus_0_r; symmetry; exact Tc]. }
  assert (Pd : forall s, 0 < s < 1 -> dot4 d (quat_nlerp a b s) = cos (t * th - phi th s)). { intros s S. apply (polar a b A B C); [exact S|rewrite dot_sym; exact DA|rewrite DB; f_equal; fold th; ring]. }
  rewrite !Pa, !Pd, DA by lra. unfold Rminus. rewrite !Rplus_0_l, !cos_neg. destruct (phi_mono a b C tp t ltac:(lra) ltac:(lra) ltac:(lra)) as [M1 M2]. pose proof (phi_slow a b C t T) as M3. fold th in M1, M2, M3.
  assert (W : t * th < PI) by nra. repeat split; apply cos_decreasing_1; lra.
Qed.
(** So apart from the ends and the middle, where the two agree, the approximation is farther from what it approximates than zpl_quat_nlerp is. *)
Theorem C96_slerp_approx_refuted (a b d : vec4 R) (t : R) : unit4 a -> unit4 b -> 0 <= dot4 a b < 1 -> 0 < t < 1 -> t <> 1 / 2 -> quat_slerp a b t = Some d ->
  dot4 d (quat_slerp_approx a b t) < dot4 d (quat_nlerp a b t).
Proof.
  intros A B C T N E. destruct (Rlt_dec t (1 / 2)) as [H|H]; [now apply (C96_slerp_approx_lags a b d t)|].
  rewrite C96_slerp_approx_sym, nlerp_sym. rewrite slerp_sym in E by lra. apply (C96_slerp_approx_lags b a d (1 - t)); auto; rewrite ?(dot_sym b a); lra.
Qed.
Theorem C96_slerp_approx_quarter (a b : vec4 R) : quat_slerp_approx a b (1 / 4) = quat_nlerp a b (1 / 4 - (1 - dot4 a b) / 32).
Proof. unfold quat_slerp_approx. cbv zeta. assert (Q : quat_dot a b = dot4 a b) by (destruct a, b; uf; ring). rewrite Q. f_equal. field. Qed.
Example C96_slerp_approx_ex : exists d, quat_slerp (V4 1 0 0 0) (V4 0 1 0 0) (1 / 3) = Some d /\
  dot4 d (quat_slerp_approx (V4 1 0 0 0) (V4 0 1 0 0) (1 / 3)) < dot4 d (quat_nlerp (V4 1 0 0 0) (V4 0 1 0 0) (1 / 3)).
Proof.
  destruct C96_slerp_ex as (d & E & _). exists d. split; [exact E|]. apply C96_slerp_approx_refuted; [uf; cbn; ring|uf; cbn; ring|uf; cbn; lra|lra|lra|exact E].
Qed.

(** In the middle zpl_quat_nquad and zpl_quat_squad are half way between the middles of p, q and of a, b; backwards they go the same way. *)
Theorem C96_nquad_mid (p a b q : vec4 R) : quat_nquad p a b q (1 / 2) = quat_nlerp (quat_nlerp p q (1 / 2)) (quat_nlerp a b (1 / 2)) (1 / 2).
Proof. unfold quat_nquad. f_equal. field. Qed.
Theorem C96_nquad_sym (p a b q : vec4 R) (t : R) : quat_nquad p a b q t = quat_nquad q b a p (1 - t).
Proof. unfold quat_nquad. rewrite (nlerp_sym p q), (nlerp_sym a b). f_equal. ring. Qed.
Theorem C96_squad_approx_mid (p a b q : vec4 R) : quat_squad_approx p a b q (1 / 2) = quat_nquad p a b q (1 / 2).
Proof.
  unfold quat_squad_approx, quat_nquad. replace (2 * (1 / 2) * (1 - 1 / 2)) with (1 / 2) by field. now rewrite !(fun a b => proj1 (proj2 (C96_slerp_approx a b))).
Qed.
Theorem C96_squad_mid (p a b q x y : vec4 R) : quat_slerp p q (1 / 2) = Some x -> quat_slerp a b (1 / 2) = Some y -> quat_squad p a b q (1 / 2) = quat_slerp x y (1 / 2).
Proof. intros X Y. unfold quat_squad. rewrite X, Y. cbn [obind]. f_equal. field. Qed.
Example C96_squad_mid_ex : exists x, quat_slerp (V4 1 0 0 0) (V4 0 1 0 0) (1 / 2) = Some x.
Proof. destruct (C96_slerp (V4 1 0 0 0) (V4 0 1 0 0) (V4 0 1 0 0) (1 / 2)) as (d & E & _); [uf; cbn; ring|uf; cbn; ring|split; [auto|uf; cbn; lra]|uf; cbn; lra|reflexivity|]. now exists d. Qed.

Print Assumptions C96_slerp_approx_lags. Print Assumptions C96_slerp_approx_refuted. Print Assumptions C96_nquad_sym. Print Assumptions C96_squad_mid.
