(** C61: the barrier. *)
From Verif Require Import Base Sync SyncSpec SyncProofs SyncProofs2.

(** No thread returns from zpl_sync_reach_and_wait before as many threads as the target
    says have arrived in its round: whatever the schedule, whatever calls are made. *)
Theorem C61_no_early_return (n : nat) (sch : list (nat * act)) (s : st) (h1 h2 : list event) (t : nat) :
  run (init n) sch = Ok s -> hist s = h1 ++ Return t :: h2 ->
  exists r, last_round t h2 = Some r /\ complete r.
Proof.
  intros R E. assert (H : hist_ok (hist s)).
  { apply (run_hist sch (init n)); [apply init_inv| |exact R]. now intros [|? ?] ? ? ?. }
  exact (H h1 (Return t) h2 E).
Qed.
(** zpl_sync_reach returns the number its arrival had in the round. *)
Theorem C61_reach_number (n : nat) (sch : list (nat * act)) (s : st) (h1 h2 : list event) (t : nat) (k : Z) :
  run (init n) sch = Ok s -> hist s = h1 ++ Reached t k :: h2 -> arrived_nth t k h2.
Proof.
  intros R E. assert (H : hist_ok (hist s)).
  { apply (run_hist sch (init n)); [apply init_inv| |exact R]. now intros [|? ?] ? ? ?. }
  exact (H h1 (Reached t k) h2 E).
Qed.
(** Rounds never overfill. *)
Theorem C61_never_overfull (n : nat) (sch : list (nat * act)) (s : st) :
  run (init n) sch = Ok s -> target s <> 0 ->
  exists ts r, rounds (hist s) = (target s, ts) :: r /\ (0 < target s -> Z.of_nat (length ts) <= target s).
Proof.
  intros R Ht. pose proof (run_inv sch _ _ (init_inv n) R) as Iv.
  destruct (i_round s Iv Ht) as (ts & r & A & B). exists ts, r. split; [easy|]. rewrite B. apply (i_cur s Iv).
Qed.
(** Once the target is reached everybody who arrived can return, without help from any
    thread that has not arrived, and the barrier is then ready for the next target. (The
    assumption: nobody has entered a further reach, which is an assertion failure.) *)
Theorem C61_all_can_return (n : nat) (sch : list (nat * act)) (s : st) :
  run (init n) sch = Ok s -> target s <> 0 -> current s = target s ->
  (forall t, step s (t, Go) <> Abort) ->
  exists who s', run s (map (fun t => (t, Go)) who) = Ok s' /\
    (forall t p, nth_error (thr s) t = Some p ->
       if arrived p then nth_error (thr s') t = Some Idle
       else nth_error (thr s') t = Some p \/ nth_error (thr s') t = Some Idle) /\
    target s' = 0 /\ waiting s' = 0 /\ sem s' = 0%nat /\ start_locked s' = false.
Proof.
  intros R Ht Hc Na. pose proof (run_inv sch _ _ (init_inv n) R) as Iv.
  assert (A2 : cnt isA2 (thr s) = 0%nat).
  { destruct (Nat.eq_dec (cnt isA2 (thr s)) 0); [easy|].
    destruct (cnt_ex isA2 (thr s) ltac:(lia)) as (t & p & Hp & Q). destruct p; try easy.
    exfalso. apply (Na t). unfold step. cbn [fst snd]. rewrite Hp.
    destruct s as [tg cu wa sl mu se l h]. cbn [target current] in *. subst cu. cbn [step_pc].
    now rewrite Z.ltb_irrefl. }
  destruct (all_leave (total (thr s)) s) as (who & s' & E & I' & LL & Ar & On); try easy; [now left|].
  assert (Sub : forall f, (forall p, f p = true -> arrived p = true) -> cnt f (thr s') = 0%nat).
  { intros f Hf. pose proof (cnt_le f arrived (thr s') Hf). lia. }
  assert (NW : cnt cW (thr s') = 0%nat) by (apply Sub; now intros []).
  assert (T0 : target s' = 0).
  { destruct LL as [[A B]|[A B]]; [|easy]. pose proof (i_full s' I' A B) as C.
    rewrite (Sub cT), (Sub cA3) in C by now intros []. pose proof (i_sem s' I'). lia. }
  exists who, s'. split; [easy|]. split; [|split; [easy|split; [|split]]].
  - intros t p Hp. destruct On as [_ On]. destruct (On t p Hp) as (q & Hq & C & _).
    assert (Aq : arrived q = false).
    { destruct (arrived q) eqn:Q; [|easy]. pose proof (cnt_pos arrived _ t q Hq Q). lia. }
    rewrite Hq. destruct C as [->|[->|[C1 C2]]]; [|destruct (arrived p); tauto|congruence].
    rewrite Aq. now left.
  - rewrite (i_wait s' I'), NW. easy.
  - pose proof (i_notfull s' I'). lia.
  - destruct LL as [[A B]|[_ [B|B]]]; [easy|easy|]. rewrite (Sub isL4) in B by now intros []. lia.
Qed.
(** The assertion in zpl_sync_set_target cannot fail; the only failing one is a reach
    without room in the round. *)
Theorem C61_only_reach_aborts (n : nat) (sch : list (nat * act)) (s : st) (t : nat) (a : act) :
  run (init n) sch = Ok s -> step s (t, a) = Abort ->
  (exists w, nth_error (thr s) t = Some (A2 w)) /\ target s <= current s.
Proof.
  intros R E. pose proof (run_inv sch _ _ (init_inv n) R) as Iv. unfold step in E. cbn [fst snd] in E.
  destruct (nth_error (thr s) t) as [p|] eqn:Hp; [|easy].
  pose proof (i_start2 s Iv) as S2. pose proof (cnt_here cS _ t p Hp) as Hh.
  assert (Bs : (b2n (start_locked s) <= 1)%nat) by (destruct (start_locked s); cbn; lia).
  destruct s as [tg cu wa sl mu se l h]. cbn [target current start_locked thr] in *.
  destruct p; destruct a; cbn [step_pc] in E; try discriminate E;
  repeat match type of E with
       | (if ?b then _ else _) = _ => destruct b eqn:?
       | match ?m with Some _ => _ | None => _ end = _ => destruct m eqn:?
       | match ?m with O => _ | S _ => _ end = _ => destruct m eqn:?
       | match ?m with KWait => _ | KReach _ => _ end = _ => destruct m eqn:?
       end; try discriminate E.
  - exfalso. apply Z.eqb_neq in Heqb. specialize (S2 Heqb). cbn in Hh. lia.
  - apply Z.ltb_ge in Heqb. split; [now exists w|easy].
Qed.

(** ** What it does not do *)
(** A target of 0 is accepted and jams the barrier: no reach can succeed and no later
    zpl_sync_set_target gets past its first line, ever. *)
Definition zero_target : list (nat * act) := [(0%nat, SetTarget 0); (0%nat, Go); (0%nat, Go); (0%nat, Go); (0%nat, Go)].
Theorem C61_zero_target_refuted (n : nat) :
  exists s, run (init (S n)) zero_target = Ok s /\
  forall sch s', run s sch = Ok s' -> start_locked s' = true /\ target s' = 0 /\ hist s' = hist s.
Proof.
  eexists. split; [reflexivity|].
  set (K := fun s => inv s /\ target s = 0 /\ start_locked s = true /\ cnt cS (thr s) = 0%nat /\
    cnt (fun p => match p with A3 _ | L1 _ | L2 _ | L3 _ | L4 _ | U _ | F _ => true | _ => false end) (thr s) = 0%nat /\
    current s = 0 /\ hist s = [Target 0]).
  assert (P : forall sch s s', K s -> run s sch = Ok s' -> K s').
  { induction sch as [|[t a] sch IH]; intros s s' HK; cbn [run]; [now intros [= <-]|].
    destruct (step s (t, a)) as [s1| |] eqn:E; try easy. apply IH. clear IH.
    destruct HK as (Iv & Ht & Hl & Hs & Hx & Hc & Hh). split; [now apply (step_inv s t a)|].
    pose proof (i_zero s Iv Ht) as NW. pose proof (i_a3 s Iv) as A3'. pose proof (i_w1 s Iv) as W1'.
    unfold step in E. cbn [fst snd] in E. destruct (nth_error (thr s) t) as [p|] eqn:Hp; [|easy].
    pose proof (cnt_here cS _ t p Hp). pose proof (cnt_here cW _ t p Hp). pose proof (cnt_here cW1 _ t p Hp).
    set (X := fun p => match p with A3 _ | L1 _ | L2 _ | L3 _ | L4 _ | U _ | F _ => true | _ => false end) in *.
    pose proof (cnt_here X _ t p Hp).
    pose proof (fun q => cnt_set cS _ t p q Hp) as C1. pose proof (fun q => cnt_set X _ t p q Hp) as C2.
    destruct s as [tg cu wa sl mu se l h]. cbn [target current start_locked thr hist] in *. subst tg sl cu h.
    destruct p; destruct a; cbn [step_pc] in E; try discriminate E;
      cbn [cS cW cW1 X b2n] in *; try lia.
    all: repeat match type of E with
       | (if ?b then _ else _) = _ => destruct b eqn:?
       | match ?m with Some _ => _ | None => _ end = _ => destruct m eqn:?
       | match ?m with O => _ | S _ => _ end = _ => destruct m eqn:?
       end; try discriminate E.
    all: injection E as <-; cbn [target current start_locked thr hist].
    all: match goal with |- _ /\ _ /\ cnt cS (set_nth _ _ ?q) = _ /\ _ => specialize (C1 q); specialize (C2 q) end.
    all: cbn [cS X b2n] in C1, C2; repeat split; try easy; lia. }
  intros sch s' R. apply P in R.
  - destruct R as (_ & A & B & _ & _ & _ & C). rewrite C. easy.
  - split; [apply (run_inv zero_target (init (S n))); [apply init_inv|reflexivity]|]. cbn [target start_locked thr current hist].
    assert (Z : forall f, f Idle = false -> cnt f (set_nth (set_nth (set_nth (set_nth (set_nth (repeat Idle (S n)) 0 (T1 0)) 0 (T2 0)) 0 (T3 0)) 0 T4) 0 Idle) = 0%nat).
    { intros f Hf. cbn [set_nth repeat cnt]. rewrite Hf. cbn [b2n]. clear - Hf. induction n as [|n IH]; cbn [repeat cnt]; [easy|]. rewrite Hf. exact IH. }
    rewrite !Z by easy. easy.
Qed.
(** A thread released early that reaches the barrier again before the others have left
    runs into an assertion: the barrier cannot be reused without setting a target. *)
Definition two_meet : list (nat * act) :=
  [(0%nat, SetTarget 2); (0%nat, Go); (0%nat, Go); (0%nat, Go); (0%nat, Go);
   (0%nat, ReachAndWait); (0%nat, Go); (0%nat, Go); (0%nat, Go); (0%nat, Go); (0%nat, Go);   (* waits *)
   (1%nat, ReachAndWait); (1%nat, Go); (1%nat, Go); (1%nat, Go); (1%nat, Go); (1%nat, Go); (1%nat, Go); (1%nat, Go)].
Theorem C61_reuse_refuted :
  exists s, run (init 2) two_meet = Ok s /\ hist s = [Return 1; Arrive 1; Arrive 0; Target 2] /\
    run s [(1%nat, ReachAndWait); (1%nat, Go); (1%nat, Go)] = Abort.
Proof. eexists. split; [reflexivity|]. split; reflexivity. Qed.

(** a full round: both return, the target is clear again *)
Example C61_ex : exists s s', run (init 3) two_meet = Ok s /\ target s = 2 /\ current s = 2 /\
  map arrived (thr s) = [true; false; false] /\
  run s (map (fun t => (t, Go)) (repeat 0%nat 8)) = Ok s' /\
  hist s' = [Return 0; Return 1; Arrive 1; Arrive 0; Target 2] /\ target s' = 0 /\ start_locked s' = false.
Proof. do 2 eexists. repeat split; reflexivity. Qed.
(** reach: the second of three *)
Example C61_ex2 : exists s, run (init 3)
  ([(0%nat, SetTarget 3); (0%nat, Go); (0%nat, Go); (0%nat, Go); (0%nat, Go);
    (0%nat, ReachAndWait); (0%nat, Go); (0%nat, Go); (0%nat, Go); (0%nat, Go); (0%nat, Go)] ++
   [(2%nat, Reach); (2%nat, Go); (2%nat, Go); (2%nat, Go); (2%nat, Go); (2%nat, Go)]) = Ok s /\
  hist s = [Reached 2 2; Arrive 2; Arrive 0; Target 3].
Proof. eexists. split; reflexivity. Qed.
Print Assumptions C61_no_early_return.
Print Assumptions C61_reach_number.
Print Assumptions C61_never_overfull.
Print Assumptions C61_all_can_return.
Print Assumptions C61_only_reach_aborts.
Print Assumptions C61_zero_target_refuted.
Print Assumptions C61_reuse_refuted.
