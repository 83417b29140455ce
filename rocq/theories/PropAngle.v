(** C103: differences of angles, degrees and radians. *)
From Coq Require Import QArith Qabs Lqa Qround SpecFloat.
From Verif Require Import Base Geom PropGeom Float Single SingleFun Angle.
Local Open Scope Q_scope.

(** turning by r from a leads to b *)
Definition leads (r a b : Q) : Prop := exists m, r == b - a + inject_Z m * tau.
(** and is no more than half a turn *)
Definition shortest (r a b : Q) : Prop := leads r a b /\ Qabs r <= (1 # 2) * tau.

Lemma tau_pos : 0 < tau.
Proof. reflexivity. Qed.
(** e is what |b - a| is away from the nearest whole number of turns *)
Lemma mod_tau x e k : (0 <= k < 2147483600)%Z -> Qabs x == inject_Z k * tau + e -> 0 <= Qabs x -> - ((1 # 2) * tau) <= e < (1 # 2) * tau ->
  exists r, zpl_mod x tau = Some r /\ (0 <= e -> Qabs r == tau + e) /\ (e < 0 -> Qabs r == - e) /\ (0 <= x -> 0 <= r) /\ (x < 0 -> r <= 0).
Proof.
  intros K X P E. pose proof tau_pos as T. assert (A : Qabs tau == tau) by (apply Qabs_pos; lra).
  destruct (Qlt_le_dec e 0) as [N|N].
  - assert (K1 : (1 <= k)%Z). { destruct (Z.eq_dec k 0) as [->|]; [|lia]. exfalso. change (inject_Z 0) with 0 in X. lra. }
    assert (F : e == (e / tau) * tau) by (field; lra). set (q := e / tau) in *. clearbody q. set (t := tau) in *. clearbody t. assert (Q0 : - (1 # 2) <= q) by nra. assert (Q1 : q < 0) by nra.
    destruct (C81_mod x t (1 + q) (k - 1)) as (r & -> & R1 & R2 & S); [lra|lra|lia| |].
    + rewrite X, A, F. unfold Z.sub. rewrite inject_Z_plus. change (inject_Z (-(1))) with (-(1)). ring.
    + exists r. rewrite A in R1, R2. split; [reflexivity|]. split; [lra|]. split; [|exact S]. intros _. rewrite R2 by lra. lra.
  - assert (F : e == (e / tau) * tau) by (field; lra). set (q := e / tau) in *. clearbody q. set (t := tau) in *. clearbody t. assert (Q0 : q < 1 # 2) by nra. assert (Q1 : 0 <= q) by nra.
    destruct (C81_mod x t q k) as (r & -> & R1 & R2 & S); [lra|lra|lia| |].
    + rewrite X, A, F. ring.
    + exists r. rewrite A in R1, R2. split; [reflexivity|]. split; [|split; [lra|exact S]]. intros _. rewrite R1 by lra. lra.
Qed.

(** What zpl_angle_diff gives. *)
Theorem C103_angle_diff (a b e : Q) (k : Z) : (0 <= k < 2147483600)%Z -> Qabs (b - a) == inject_Z k * tau + e -> - ((1 # 2) * tau) <= e < (1 # 2) * tau ->
  exists r, angle_diff a b = Some r /\
    (e == - ((1 # 2) * tau) -> r == (1 # 2) * tau) /\
    (- ((1 # 2) * tau) < e -> a <= b -> r == - Qabs e) /\
    (- ((1 # 2) * tau) < e -> b < a -> ~ e == 0 -> r == tau - Qabs e) /\
    (e == 0 -> r == 0).
Proof.
  intros K X E. pose proof tau_pos as T. unfold angle_diff. destruct (mod_tau (b - a) e k K X (Qabs_nonneg _) E) as (d & -> & D1 & D2 & D3 & D4). cbn [obind].
  assert (DA := Qabs_zero_cases d). assert (EA := Qabs_zero_cases e).
  (* the argument of the second call is positive *)
  assert (G : forall f j, (0 <= j < 10)%Z -> d + (3 # 2) * tau == inject_Z j * tau + f -> 0 <= d + (3 # 2) * tau -> - ((1 # 2) * tau) <= f < (1 # 2) * tau ->
    exists r, zpl_mod (d + (3 # 2) * tau) tau = Some r /\ (0 <= f -> r == tau + f) /\ (f < 0 -> r == - f)).
  { intros f j J Y P F. assert (Q := Qabs_pos _ P). destruct (mod_tau (d + (3 # 2) * tau) f j) as (r & -> & R1 & R2 & R3 & _); [lia|lra|lra|exact F|]. specialize (R3 P). exists r. split; [reflexivity|]. assert (RA := Qabs_pos _ R3). split; intros H; [specialize (R1 H)|specialize (R2 H)]; lra. }
  assert (C : a <= b \/ b < a) by (destruct (Qlt_le_dec b a); auto).
  destruct C as [C|C].
  - specialize (D3 ltac:(lra)). destruct (Qlt_le_dec e 0) as [N|N].
    + specialize (D2 N). destruct (Qeq_dec e (- ((1 # 2) * tau))) as [H|H].
      * destruct (G 0 2%Z) as (r & -> & R1 & R2); [lia|change (inject_Z 2) with 2; lra|lra|lra|]. cbn [obind]. eexists. split; [reflexivity|]. repeat split; intros; lra.
      * assert (- ((1 # 2) * tau) < e) by (destruct (Qlt_le_dec (- ((1 # 2) * tau)) e); [assumption|exfalso; apply H; lra]).
        destruct (G (- ((1 # 2) * tau) - e) 2%Z) as (r & -> & R1 & R2); [lia|change (inject_Z 2) with 2; lra|lra|lra|]. cbn [obind]. eexists. split; [reflexivity|]. repeat split; intros; lra.
    + specialize (D1 N). destruct (G (e - (1 # 2) * tau) 3%Z) as (r & -> & R1 & R2); [lia|change (inject_Z 3) with 3; lra|lra|lra|]. cbn [obind]. eexists. split; [reflexivity|]. repeat split; intros; lra.
  - specialize (D4 ltac:(lra)). destruct (Qlt_le_dec e 0) as [N|N].
    + specialize (D2 N). destruct (G ((1 # 2) * tau + e) 1%Z) as (r & -> & R1 & R2); [lia|change (inject_Z 1) with 1; lra|lra|lra|]. cbn [obind]. eexists. split; [reflexivity|]. repeat split; intros; lra.
    + specialize (D1 N). destruct (Qeq_dec e 0) as [H|H].
      * destruct (G (- ((1 # 2) * tau)) 1%Z) as (r & -> & R1 & R2); [lia|change (inject_Z 1) with 1; lra|lra|lra|]. cbn [obind]. eexists. split; [reflexivity|]. repeat split; intros; lra.
      * destruct (G ((1 # 2) * tau - e) 0%Z) as (r & -> & R1 & R2); [lia|change (inject_Z 0) with 0; lra|lra| |].
        -- split; [lra|]. assert (0 < e) by (destruct (Qlt_le_dec 0 e); [assumption|exfalso; apply H; lra]). lra.
        -- cbn [obind]. eexists. split; [reflexivity|]. repeat split; intros; lra.
Qed.

Lemma whole_small (m : Z) : - tau < inject_Z m * tau -> inject_Z m * tau < tau -> m = 0%Z.
Proof.
  intros A B. pose proof tau_pos. apply int_between; change (inject_Z 0) with 0; nra.
Qed.
Lemma whole_small2 (m : Z) (x : Q) : x == inject_Z m * tau -> - tau < x < tau -> x == 0.
Proof. intros E [A B]. rewrite E in A, B. rewrite (whole_small m A B) in E. rewrite E. change (inject_Z 0) with 0. ring. Qed.

(** It leads from a to b only if |b - a| is just short of a number of whole turns and b is not less than a, or is just over and b is less than a. *)
Theorem C103_leads (a b e : Q) (k : Z) : (0 <= k < 2147483600)%Z -> Qabs (b - a) == inject_Z k * tau + e -> - ((1 # 2) * tau) <= e < (1 # 2) * tau ->
  exists r, angle_diff a b = Some r /\ (leads r a b <-> e == 0 \/ e == - ((1 # 2) * tau) \/ (a <= b /\ e < 0) \/ (b < a /\ 0 < e)).
Proof.
  intros K X E. pose proof tau_pos as T. destruct (C103_angle_diff a b e k K X E) as (r & -> & R1 & R2 & R3 & R4). exists r. split; [reflexivity|].
  assert (EA := Qabs_zero_cases e). assert (XA := Qabs_zero_cases (b - a)).
  destruct (Qeq_dec e 0) as [Z|Z]. { specialize (R4 Z). split; [auto|]. intros _. destruct XA as [[XA XB]|[XA XB]]; [exists (- k)%Z; rewrite inject_Z_opp|exists k]; lra. }
  destruct (Qeq_dec e (- ((1 # 2) * tau))) as [H|H]. { specialize (R1 H). split; [auto|]. intros _. destruct XA as [[XA XB]|[XA XB]]; [exists (1 - k)%Z; unfold Z.sub; rewrite inject_Z_plus, inject_Z_opp; change (inject_Z 1) with 1|exists k]; lra. }
  assert (N : - ((1 # 2) * tau) < e) by (destruct (Qlt_le_dec (- ((1 # 2) * tau)) e); [assumption|exfalso; apply H; lra]).
  destruct (Qlt_le_dec b a) as [C|C].
  - specialize (R3 N C Z). clear R1 R2 R4. destruct XA as [[XA XB]|[XA XB]]; [lra|]. split.
    + intros (m & M). destruct EA as [[EA EB]|[EA EB]]; [right; right; right; split; [exact C|]; destruct (Qlt_le_dec 0 e); [assumption|exfalso; apply Z; lra]|]. exfalso.
      (* tau + e = - k tau - e + m tau *)
      assert (W : tau + 2 * e == inject_Z (m - k) * tau) by (unfold Z.sub; rewrite inject_Z_plus, inject_Z_opp; lra).
      assert (V : 2 * e == inject_Z (m - k - 1) * tau) by (unfold Z.sub; rewrite !inject_Z_plus, inject_Z_opp; change (inject_Z (-(1))) with (-(1)); unfold Z.sub in W; rewrite inject_Z_plus, inject_Z_opp in W; lra).
      apply whole_small2 in V; [|lra]. apply Z. lra.
    + intros [|[|[|[_ P]]]]; [lra|lra|lra|]. exists (k + 1)%Z. rewrite inject_Z_plus. change (inject_Z 1) with 1. lra.
  - specialize (R2 N C). clear R1 R3 R4. destruct XA as [[XA XB]|[XA XB]]; [|lra]. split.
    + intros (m & M). destruct EA as [[EA EB]|[EA EB]]; [|right; right; left; now split]. exfalso.
      assert (V : - (2 * e) == inject_Z (m + k) * tau) by (rewrite inject_Z_plus; lra). apply whole_small2 in V; [|lra]. apply Z. lra.
    + intros [|[|[[_ P]|]]]; [lra|lra| |lra]. exists (- k)%Z. rewrite inject_Z_opp. lra.
Qed.
(** It is the shortest way only if moreover b is not less than a. *)
Theorem C103_shortest (a b e : Q) (k : Z) : (0 <= k < 2147483600)%Z -> Qabs (b - a) == inject_Z k * tau + e -> - ((1 # 2) * tau) <= e < (1 # 2) * tau ->
  exists r, angle_diff a b = Some r /\ (shortest r a b <-> e == 0 \/ e == - ((1 # 2) * tau) \/ (a <= b /\ e < 0)).
Proof.
  intros K X E. pose proof tau_pos as T. destruct (C103_leads a b e k K X E) as (r & A & L). destruct (C103_angle_diff a b e k K X E) as (r' & A' & R1 & R2 & R3 & R4). rewrite A in A'. injection A' as <-. exists r. split; [exact A|]. unfold shortest. rewrite L.
  assert (EA := Qabs_zero_cases e). split.
  - intros [[H|[H|[H|[H P]]]] B]; auto. exfalso. assert (Z : ~ e == 0) by lra. specialize (R3 ltac:(lra) H Z). assert (RA := Qabs_zero_cases r). lra.
  - intros H. split; [tauto|]. destruct H as [H|[H|[H P]]].
    + rewrite (R4 H). change (Qabs 0) with 0. lra.
    + rewrite (R1 H), Qabs_pos; lra.
    + destruct (Qlt_le_dec (- ((1 # 2) * tau)) e) as [N|N]; [rewrite (R2 N H), Qabs_neg; lra|rewrite R1, Qabs_pos; lra].
Qed.
(** In particular a small turn forwards is taken for one backwards, and a small turn backwards for one of nearly a whole turn forwards. *)
Theorem C103_small_refuted (a d : Q) : 0 < d < (1 # 2) * tau ->
  (exists r, angle_diff a (a + d) = Some r /\ r == - d) /\ (exists r, angle_diff a (a - d) = Some r /\ r == tau - d).
Proof.
  intros D. pose proof tau_pos as T. assert (DA : Qabs d == d) by (apply Qabs_pos; lra). split.
  - assert (XA := Qabs_zero_cases (a + d - a)). destruct (C103_angle_diff a (a + d) d 0) as (r & A & _ & R & _); [lia|change (inject_Z 0) with 0; lra|lra|]. exists r. split; [exact A|]. rewrite R, DA by lra. reflexivity.
  - assert (XA := Qabs_zero_cases (a - d - a)). destruct (C103_angle_diff a (a - d) d 0) as (r & A & _ & _ & R & _); [lia|change (inject_Z 0) with 0; lra|lra|]. exists r. split; [exact A|]. rewrite R, DA by lra. reflexivity.
Qed.
(** Whatever the angles, there are k and e as above: the hypotheses only bound the number of turns. *)
Theorem C103_covers (a b : Q) : Qabs (b - a) < 2147483000 * tau -> exists e k, (0 <= k < 2147483600)%Z /\ Qabs (b - a) == inject_Z k * tau + e /\ - ((1 # 2) * tau) <= e < (1 # 2) * tau.
Proof.
  intros B. pose proof tau_pos as T. set (x := Qabs (b - a)) in *. assert (P : 0 <= x) by apply Qabs_nonneg. clearbody x. set (k := Qfloor (x / tau + (1 # 2))). pose proof (Qfloor_le (x / tau + (1 # 2))) as L. pose proof (Qlt_floor (x / tau + (1 # 2))) as U. fold k in L, U. rewrite inject_Z_plus in U. change (inject_Z 1) with 1 in U.
  assert (F : x == (x / tau) * tau) by (field; lra). set (q := x / tau) in *. clearbody q. assert (Q0 : 0 <= q) by nra. assert (Q1 : q < 2147483000) by nra.
  exists (x - inject_Z k * tau), k. split; [split|split].
  - rewrite Zle_Qle. change (inject_Z 0) with 0. assert (H : inject_Z (-1) < inject_Z k) by (change (inject_Z (-1)) with (-(1)); lra). rewrite <- Zlt_Qlt in H. change 0 with (inject_Z 0). rewrite <- Zle_Qle. lia.
  - rewrite Zlt_Qlt. change (inject_Z 2147483600) with 2147483600. lra.
  - ring.
  - rewrite F. split; nra.
Qed.

(** ** Degrees and radians *)
Theorem C103_degrees (x : Q) : to_degrees (to_radians x) == x /\ to_radians (to_degrees x) == x.
Proof. unfold to_degrees, to_radians, tau. split; field; repeat split; discriminate. Qed.
(** k turns are 360 k degrees and k tau radians; both conversions keep sums and order *)
Theorem C103_degrees_turns (k : Z) : to_radians (360 * inject_Z k) == inject_Z k * tau /\ to_degrees (inject_Z k * tau) == 360 * inject_Z k.
Proof. unfold to_degrees, to_radians, tau. split; field; repeat split; discriminate. Qed.
Theorem C103_degrees_linear (x y : Q) : to_radians (x + y) == to_radians x + to_radians y /\ to_degrees (x + y) == to_degrees x + to_degrees y /\ (x < y <-> to_radians x < to_radians y) /\ (x < y <-> to_degrees x < to_degrees y).
Proof.
  assert (A : forall x, to_radians x == x * (tau / 360)) by (intros; unfold to_radians; field).
  assert (B : forall x, to_degrees x == x * (360 / tau)) by (intros; unfold to_degrees, tau; field; repeat split; discriminate).
  rewrite !A, !B. assert (0 < tau / 360) by reflexivity. assert (0 < 360 / tau) by reflexivity. set (u := tau / 360) in *. set (v := 360 / tau) in *. clearbody u v. repeat split; try ring; nra.
Qed.

(** ** On singles *)
(** one half from zero: the difference is given as about minus one half; from one to one half: nearly a whole turn *)
Theorem C103_single_refuted : (exists r, angle_difff (s_of_int 0) s_half = Some r /\ SFltb r (sneg s_quarter) = true) /\
  exists r, angle_difff s_one s_half = Some r /\ SFltb (s_of_int 5) r = true.
Proof. split; eexists; (split; [vm_compute; reflexivity|]); vm_compute; reflexivity. Qed.
Example C103_ex : (exists r, angle_diff 0 1 = Some r /\ r == - (1)) /\ (exists r, angle_diff 0 6 = Some r /\ r == 6 - tau) /\ (exists r, angle_diff 1 0 = Some r /\ r == tau - 1).
Proof. repeat split; eexists; (split; [reflexivity|reflexivity]). Qed.
Example C103_covers_ex : Qabs (7 - 0) < 2147483000 * tau /\ Qabs (7 - 0) == inject_Z 1 * tau + (7 - tau) /\ - ((1 # 2) * tau) <= 7 - tau < (1 # 2) * tau.
Proof. unfold tau. repeat split; vm_compute; congruence. Qed.
(** the constant is the multiple of the unit in the last place of singles between 4 and 8 nearest to two pi *)
Definition two_pi : Q := 6283185307179586476925286766559 # 1000000000000000000000000000000.
Theorem C103_tau : exists m : positive, tauf = S754_finite false m (-21) /\ tau == Zpos m # 2097152 /\ 4 <= tau < 8 /\ forall n : Z, Qabs (tau - two_pi) <= Qabs ((n # 2097152) - two_pi).
Proof.
  eexists. split; [reflexivity|]. split; [reflexivity|]. split; [split; [vm_compute; discriminate|reflexivity]|]. intros n.
  assert (E : Qabs (tau - two_pi) == - (two_pi - tau) \/ Qabs (tau - two_pi) == two_pi - tau) by (destruct (Qlt_le_dec (tau - two_pi) 0); [rewrite Qabs_neg by lra; right; ring|rewrite Qabs_pos by lra; left; ring]).
  assert (U : Qabs (tau - two_pi) <= 1 # 4194304) by (vm_compute; discriminate).
  destruct (Z.eq_dec n 13176795) as [->|N]; [apply Qle_refl|]. eapply Qle_trans; [exact U|].
  assert (F : (n <= 13176794)%Z \/ (13176796 <= n)%Z) by lia. destruct F as [F|F].
  - assert (G : (n # 2097152) <= 13176794 # 2097152) by (unfold Qle; cbn [Qnum Qden]; lia). rewrite Qabs_neg; unfold two_pi; lra.
  - assert (G : (13176796 # 2097152) <= (n # 2097152)) by (unfold Qle; cbn [Qnum Qden]; lia). rewrite Qabs_pos; unfold two_pi; lra.
Qed.
(** the whole turn and its halves and quarters are converted exactly, also on singles *)
Theorem C103_single_turns : 
  to_radiansf (s_of_int 360) = tauf /\ to_degreesf tauf = s_of_int 360 /\
  to_radiansf (s_of_int 180) = smul s_half tauf /\ to_degreesf (smul s_half tauf) = s_of_int 180 /\
  to_radiansf (s_of_int 90) = smul s_quarter tauf /\ to_degreesf (smul s_quarter tauf) = s_of_int 90 /\
  to_radiansf (s_of_int 0) = s_of_int 0 /\ to_degreesf (s_of_int 0) = s_of_int 0.
Proof. vm_compute. repeat split; reflexivity. Qed.
(** also on singles whole turns are taken off: ten from zero is given as about ten less two turns, -20 as about four turns less 20 and not as a negative number *)
Theorem C103_single_wraps : (exists r, angle_difff (s_of_int 0) (s_of_int 10) = Some r /\ SFltb (s_of_int (-3)) r = true /\ SFltb r (s_of_int (-2)) = true) /\
  (exists r, angle_difff (s_of_int 0) (s_of_int (-20)) = Some r /\ SFltb (s_of_int 5) r = true /\ SFltb r (s_of_int 6) = true) /\
  exists r, angle_difff (s_of_int 0) (s_of_int 100) = Some r /\ SFltb (s_of_int (-1)) r = true /\ SFltb r (s_of_int 0) = true.
Proof. repeat split; eexists; (split; [vm_compute; reflexivity|]); vm_compute; split; reflexivity. Qed.
Print Assumptions C103_angle_diff.
Print Assumptions C103_single_wraps.
Print Assumptions C103_leads.
Print Assumptions C103_shortest.
Print Assumptions C103_small_refuted.
Print Assumptions C103_covers.
Print Assumptions C103_degrees.
Print Assumptions C103_degrees_turns.
Print Assumptions C103_degrees_linear.
Print Assumptions C103_single_refuted.
Print Assumptions C103_tau.
Print Assumptions C103_single_turns.
