(** C81-C85: rounding, reflection, frustums, boxes and interpolation, in exact arithmetic. *)
From Coq Require Import QArith Qabs Lqa.
From Verif Require Import Base Vec VecSpec Geom GeomSpec.
Local Open Scope Q_scope.

Lemma qlt_iff x y : qlt x y = true <-> x < y.
Proof.
  unfold qlt. rewrite negb_true_iff. destruct (Qle_bool y x) eqn:E.
  - apply Qle_bool_iff in E. split; [easy|lra].
  - split; [intros _|easy]. destruct (Qlt_le_dec x y) as [|H]; [easy|]. apply Qle_bool_iff in H. congruence.
Qed.
Lemma qle_iff x y : qle x y = true <-> x <= y.
Proof. apply Qle_bool_iff. Qed.
Lemma qlt_niff x y : qlt x y = false <-> y <= x.
Proof. destruct (qlt x y) eqn:E; [apply qlt_iff in E|]; split; try easy; try lra. intros _.
  destruct (Qlt_le_dec x y) as [H|]; [apply qlt_iff in H; congruence|easy]. Qed.
Lemma qle_niff x y : qle x y = false <-> y < x.
Proof. destruct (qle x y) eqn:E; [apply qle_iff in E|]; split; try easy; try lra. intros _.
  destruct (Qlt_le_dec y x) as [|H]; [easy|apply qle_iff in H; congruence]. Qed.
Ltac qcase :=
  repeat match goal with
  | |- context [qlt ?a ?b] => let E := fresh "E" in destruct (qlt a b) eqn:E; [apply qlt_iff in E|apply qlt_niff in E]
  | |- context [qle ?a ?b] => let E := fresh "E" in destruct (qle a b) eqn:E; [apply qle_iff in E|apply qle_niff in E]
  end.

(** (int) cuts towards zero *)
Lemma to_int_spec x : -2147483649 < x -> x < 2147483648 ->
  exists n, to_int x = Some n /\ (0 <= x -> is_floor n x) /\ (x <= 0 -> is_ceil n x) /\
    (-2147483648 <= n <= 2147483647)%Z.
Proof.
  intros L U. destruct x as [a d]. unfold to_int; cbn [Qnum Qden].
  assert (L' : (-2147483649 * Zpos d < a)%Z) by (unfold Qlt in L; cbn [Qnum Qden] in L; lia).
  assert (U' : (a < 2147483648 * Zpos d)%Z) by (unfold Qlt in U; cbn [Qnum Qden] in U; lia).
  clear L U.
  pose proof (Z.quot_rem a (Zpos d) ltac:(lia)) as Q1.
  assert (Q2 : (0 <= a -> 0 <= Z.rem a (Zpos d) < Zpos d)%Z) by (intros; apply Z.rem_bound_pos; lia).
  assert (Q3 : (a <= 0 -> - Zpos d < Z.rem a (Zpos d) <= 0)%Z).
  { intros H. pose proof (Z.rem_bound_pos (- a) (Zpos d) ltac:(lia) ltac:(lia)) as G.
    rewrite Z.rem_opp_l in G by lia. lia. }
  set (q := Z.quot a (Zpos d)) in *. set (r := Z.rem a (Zpos d)) in *. clearbody q r.
  assert (B : (-2147483648 <= q <= 2147483647)%Z) by (destruct (Z.le_gt_cases 0 a); nia).
  replace ((-2147483648 <=? q)%Z && (q <=? 2147483647)%Z)%bool with true
    by (symmetry; apply andb_true_iff; split; apply Z.leb_le; lia).
  exists q. refine (conj eq_refl (conj _ (conj _ B)));
  unfold is_floor, is_ceil, Qle, Qlt, inject_Z; cbn [Qnum Qden Qplus Qminus Qopp]; intros P; split; rewrite ?Pos2Z.inj_mul in *; nia.
Qed.

Lemma int_between (a b : Z) : inject_Z a < inject_Z b + 1 -> inject_Z b < inject_Z a + 1 -> a = b.
Proof.
  intros H1 H2. change 1 with (inject_Z 1) in H1, H2. rewrite <- inject_Z_plus in H1, H2.
  rewrite <- Zlt_Qlt in H1, H2. lia.
Qed.

Theorem C81_floor (x : Q) : -2147483647 < x -> x < 2147483647 ->
  exists n, zpl_floor x = Some n /\
    ((0 <= x \/ ~ is_integer x) -> is_floor n x) /\
    (x < 0 -> is_integer x -> inject_Z n == x - 1).
Proof.
  intros L U. unfold zpl_floor. qcase.
  - destruct (to_int_spec x ltac:(lra) ltac:(lra)) as (n & -> & F & _). exists n.
    refine (conj eq_refl (conj _ _)); [intros _; now apply F|lra].
  - destruct (to_int_spec (x - 1) ltac:(lra) ltac:(lra)) as (n & -> & _ & C & _). exists n.
    specialize (C ltac:(lra)). destruct C as [C1 C2].
    refine (conj eq_refl (conj _ _)).
    + intros [H|H]; [lra|]. split; [lra|].
      destruct (Qlt_le_dec x (inject_Z n + 1)) as [G|G]; [exact G|]. exfalso. apply H. exists (n + 1)%Z.
      rewrite inject_Z_plus. change (inject_Z 1) with 1. lra.
    + intros _ [m M]. rewrite M in C1, C2 |- *.
      assert (H : m = (n + 1)%Z) by (apply int_between; rewrite inject_Z_plus; change (inject_Z 1) with 1; lra).
      rewrite H, inject_Z_plus. change (inject_Z 1) with 1. lra.
Qed.

Theorem C81_ceil (x : Q) : -2147483647 < x -> x < 2147483647 ->
  exists n, zpl_ceil x = Some n /\
    ((x < 0 \/ ~ is_integer x) -> is_ceil n x) /\
    (0 <= x -> is_integer x -> inject_Z n == x + 1).
Proof.
  intros L U. unfold zpl_ceil. destruct (qlt x 0) eqn:E; [apply qlt_iff in E|apply qlt_niff in E].
  - destruct (to_int_spec x ltac:(lra) ltac:(lra)) as (n & -> & _ & C & _). exists n.
    refine (conj eq_refl (conj _ _)); [intros _; apply C; lra|lra].
  - destruct (to_int_spec x ltac:(lra) ltac:(lra)) as (n & -> & F & _ & B). specialize (F E) as [F1 F2].
    assert (N : n <> 2147483647%Z) by (intros ->; change (inject_Z 2147483647) with 2147483647 in F1; lra).
    apply Z.eqb_neq in N. rewrite N. exists (n + 1)%Z.
    refine (conj eq_refl (conj _ _)); unfold is_ceil; rewrite inject_Z_plus; change (inject_Z 1) with 1.
    + intros [H|H]; [lra|]. split; [|lra].
      destruct (Qlt_le_dec (inject_Z n) x) as [G|G]; [lra|]. exfalso. apply H. exists n. lra.
    + intros _ [m M]. rewrite M in F1, F2 |- *. rewrite (int_between m n) by lra. lra.
Qed.

Theorem C81_round (x : Q) : -2147483646 < x -> x < 2147483646 -> exists n, zpl_round x = Some n /\ is_round n x.
Proof.
  intros L U. unfold zpl_round. destruct (qle 0 x) eqn:E; [apply qle_iff in E|apply qle_niff in E].
  - destruct (C81_floor (x + (1 # 2)) ltac:(lra) ltac:(lra)) as (n & -> & F & _). exists n.
    destruct F as [F1 F2]; [left; lra|]. split; [reflexivity|]. split; intros; [split|]; lra.
  - destruct (C81_ceil (x - (1 # 2)) ltac:(lra) ltac:(lra)) as (n & -> & F & _). exists n.
    destruct F as [F1 F2]; [left; lra|]. split; [reflexivity|]. split; intros; [|split]; lra.
Qed.

Theorem C81_floor_ceil_refuted :
  ~ (forall x, -2147483647 < x -> x < 2147483647 -> exists n, zpl_floor x = Some n /\ is_floor n x) /\
  ~ (forall x, -2147483647 < x -> x < 2147483647 -> exists n, zpl_ceil x = Some n /\ is_ceil n x).
Proof.
  split; intros H.
  - destruct (H (- (1)) ltac:(lra) ltac:(lra)) as (n & E & F1 & F2). vm_compute in E. injection E as <-.
    change (inject_Z (-2)) with (-2) in *. lra.
  - destruct (H 2 ltac:(lra) ltac:(lra)) as (n & E & F1 & F2). vm_compute in E. injection E as <-.
    change (inject_Z 3) with 3 in *. lra.
Qed.

Lemma abs_abs x : zpl_abs x == Qabs x.
Proof. unfold zpl_abs. qcase; apply Qabs_case; intros; lra. Qed.
Lemma Qabs_zero_cases x : (0 <= x /\ Qabs x == x) \/ (x < 0 /\ Qabs x == - x).
Proof.
  destruct (Qlt_le_dec x 0); [right|left]; split; try assumption.
  - apply Qabs_neg. lra.
  - apply Qabs_pos. lra.
Qed.

(** |x| is k whole and f parts of |y| *)
Theorem C81_mod (x y f : Q) (k : Z) : ~ y == 0 -> 0 <= f < 1 -> (0 <= k < 2147483640)%Z ->
  Qabs x == (inject_Z k + f) * Qabs y ->
  exists r, zpl_mod x y = Some r /\
    (f < 1 # 2 -> Qabs r == (1 + f) * Qabs y) /\ ((1 # 2) <= f -> Qabs r == (1 - f) * Qabs y) /\
    (0 <= x -> 0 <= r) /\ (x < 0 -> r <= 0).
Proof.
  intros Y F K X. unfold zpl_mod, zpl_remainder.
  assert (P : 0 < zpl_abs y) by (rewrite abs_abs; destruct (Qabs_zero_cases y); lra).
  assert (KB : 0 <= inject_Z k /\ inject_Z k <= 2147483640).
  { change 0 with (inject_Z 0). change 2147483640 with (inject_Z 2147483640). rewrite <- !Zle_Qle. lia. }
  assert (D : zpl_abs x / zpl_abs y == inject_Z k + f).
  { rewrite abs_abs, X, <- abs_abs. field. lra. }
  assert (X' : zpl_abs x == (inject_Z k + f) * zpl_abs y) by now rewrite !abs_abs.
  assert (Y' : Qabs y == zpl_abs y) by (symmetry; apply abs_abs).
  assert (XS : (0 <= x /\ zpl_abs x == x) \/ (x < 0 /\ zpl_abs x == - x))
    by (rewrite abs_abs; apply Qabs_zero_cases).
  destruct (C81_round (zpl_abs x / zpl_abs y)) as (n & -> & R & _); [lra|lra|].
  destruct R as [R1 R2]; [lra|]. rewrite D in R1, R2.
  set (ay := zpl_abs y) in *. set (ax := zpl_abs x) in *. clearbody ay ax.
  assert (O : f < 1 # 2 /\ inject_Z n == inject_Z k \/ (1 # 2) <= f /\ inject_Z n == inject_Z k + 1).
  { destruct (Qlt_le_dec f (1 # 2)) as [H|H].
    - left. split; [exact H|]. now rewrite (int_between n k) by lra.
    - right. split; [exact H|]. rewrite (int_between n (k + 1)) by (rewrite inject_Z_plus; change (inject_Z 1) with 1; lra).
      rewrite inject_Z_plus. change (inject_Z 1) with 1. lra. }
  clear D.
  assert (V : f < 1 # 2 /\ ax - inject_Z n * ay == f * ay /\ 0 <= f * ay \/
              (1 # 2) <= f /\ ax - inject_Z n * ay == (f - 1) * ay /\ (f - 1) * ay < 0).
  { destruct O as [[O1 O2]|[O1 O2]]; [left|right]; (split; [exact O1|split; [rewrite X', O2; ring|nra]]). }
  set (r := ax - inject_Z n * ay) in *. clearbody r.
  eexists; split; [reflexivity|]. rewrite Y'.
  unfold zpl_sign, zpl_copy_sign.
  destruct V as [(V1 & V2 & V3)|(V1 & V2 & V3)].
  - assert (G : qle 0 r = true) by (apply qle_iff; lra). rewrite G.
    change (qlt 0 1) with true. cbv iota.
    assert (A : zpl_abs (r + ay) == (1 + f) * ay) by (rewrite abs_abs, V2, Qabs_pos; lra).
    set (v := zpl_abs (r + ay)) in *. clearbody v.
    refine (conj _ (conj _ (conj _ _))).
    + intros _. destruct (qlt x 0); [rewrite Qabs_opp|]; rewrite Qabs_pos; nra.
    + intros; lra.
    + intros Hx. assert (E : qlt x 0 = false) by now apply qlt_niff. rewrite E. nra.
    + intros Hx. assert (E : qlt x 0 = true) by now apply qlt_iff. rewrite E. nra.
  - assert (G : qle 0 r = false) by (apply qle_niff; lra). rewrite G.
    change (qlt 0 (- (1))) with false. cbv iota.
    assert (A : zpl_abs r == (1 - f) * ay) by (rewrite abs_abs, V2, Qabs_neg; lra).
    set (v := zpl_abs r) in *. clearbody v.
    refine (conj _ (conj _ (conj _ _))).
    + intros; lra.
    + intros _. destruct (qlt x 0); [rewrite Qabs_opp|]; rewrite Qabs_pos; nra.
    + intros Hx. assert (E : qlt x 0 = false) by now apply qlt_niff. rewrite E. nra.
    + intros Hx. assert (E : qlt x 0 = true) by now apply qlt_iff. rewrite E. nra.
Qed.

(** hence it is C's fmod only when the part left over is exactly half of y *)
Theorem C81_mod_refuted (x y f : Q) (k : Z) : ~ y == 0 -> 0 <= f < 1 -> (0 <= k < 2147483640)%Z ->
  Qabs x == (inject_Z k + f) * Qabs y ->
  exists r, zpl_mod x y = Some r /\ (is_fmod r x y -> f == 1 # 2).
Proof.
  intros Y F K X. destruct (C81_mod x y f k Y F K X) as (r & E & R1 & R2 & _). exists r. split; [exact E|].
  intros ([m M] & B & S1 & S2).
  assert (P : 0 < Qabs y) by (destruct (Qabs_zero_cases y); lra).
  destruct (Qlt_le_dec f (1 # 2)) as [H|H]; [specialize (R1 H); nra|]. specialize (R2 H).
  (* |x| - |r| is a whole number of |y| *)
  assert (W : exists j, Qabs x - Qabs r == inject_Z j * Qabs y).
  { destruct (Qabs_zero_cases x) as [[X1 X2]|[X1 X2]], (Qabs_zero_cases y) as [[Y1 Y2]|[Y1 Y2]].
    - exists m. rewrite X2, Y2, (Qabs_pos r) by auto. lra.
    - exists (- m)%Z. rewrite X2, Y2, (Qabs_pos r) by auto. rewrite inject_Z_opp. lra.
    - exists (- m)%Z. rewrite X2, Y2, (Qabs_neg r) by (apply S2; lra). rewrite inject_Z_opp. lra.
    - exists m. rewrite X2, Y2, (Qabs_neg r) by (apply S2; lra). lra. }
  destruct W as [j J]. rewrite X, R2 in J.
  assert (J' : inject_Z k + f - (1 - f) == inject_Z j).
  { apply (Qmult_inj_r _ _ (Qabs y)); [lra|]. rewrite <- J. ring. }
  assert (j = k) by (apply int_between; lra). subst j. lra.
Qed.

Example C81_ex : zpl_floor (-(3 # 2)) = Some (-2)%Z /\ zpl_ceil (3 # 2) = Some 2%Z /\ zpl_round (-(5 # 2)) = Some (-3)%Z /\
  zpl_floor (-(1)) = Some (-2)%Z /\ zpl_ceil 0 = Some 1%Z.
Proof. repeat split. Qed.
Example C81_ex_mod : ~ 3 == 0 /\ Qabs 1 == (inject_Z 0 + (1 # 3)) * Qabs 3 /\ (exists r, zpl_mod 1 3 = Some r /\ r == 4).
Proof. split; [lra|]. split; [reflexivity|]. eexists; split; reflexivity. Qed.
