From Verif Require Import Base Ring RingSpec RingProofs Jobs JobsSpec.

Definition disps (id : nat) := count_ev (fun e => match e with Disp _ _ x => Nat.eqb x id | _ => false end).

(** sums over the workers *)
Fixpoint sumw (f : worker -> nat) (l : list worker) : nat := match l with [] => 0 | w :: l => f w + sumw f l end.
Lemma sumw_set f l i w w' : nth_error l i = Some w -> (sumw f (set_nth l i w') + f w = sumw f l + f w')%nat.
Proof.
  revert i. induction l as [|x l IH]; intros [|i] H; cbn in H |- *; try easy.
  - injection H as ->. lia.
  - specialize (IH i H). lia.
Qed.
Lemma sumw_zero f l : (forall i w, nth_error l i = Some w -> f w = 0%nat) -> sumw f l = 0%nat.
Proof.
  induction l as [|x l IH]; intros H; cbn; [easy|]. rewrite (H 0%nat x eq_refl), IH; [easy|].
  intros i w. apply (H (S i)).
Qed.
Lemma nth_set_eq {A} (l : list A) t p q : nth_error l t = Some p -> nth_error (set_nth l t q) t = Some q.
Proof. revert t. induction l as [|x l IH]; intros [|t]; cbn; try easy. apply IH. Qed.
Lemma nth_set_ne {A} (l : list A) t u q : t <> u -> nth_error (set_nth l t q) u = nth_error l u.
Proof. revert t u. induction l as [|x l IH]; intros [|t] [|u]; cbn; try easy. intros H. apply IH. lia. Qed.
Lemma nth_set_inv {A} (l : list A) t u q x : nth_error (set_nth l t q) u = Some x ->
  (t = u /\ x = q) \/ (t <> u /\ nth_error l u = Some x).
Proof.
  intros H. destruct (Nat.eq_dec t u) as [->|N]; [left|right].
  - split; [easy|]. revert u H. induction l as [|y l IH]; intros [|u]; cbn; try easy; [congruence|apply IH].
  - now rewrite nth_set_ne in H.
Qed.
Lemma set_len {A} (l : list A) t q : length (set_nth l t q) = length l.
Proof. revert t. induction l as [|x l IH]; intros [|t]; cbn; try easy. now rewrite IH. Qed.

(** ** The queues *)
Definition holds (cap : Z) (rs : list (ring nat)) (Q : list (list nat)) : Prop :=
  Forall2 (fun r q => readable r q /\ rcap r = cap) rs Q.

Lemma full_ok1 (r : ring nat) q : readable r q -> 0 < rcap r < 2^64 ->
  ring_full r = Some (Z.of_nat (length q) =? rcap r - 1).
Proof.
  intros R Hc. destruct (Z.eq_dec (rcap r) 1) as [E|]; [|apply full_ok; [easy|lia]].
  destruct R as (Ht & Hh & Hl & _). assert (length q = 0)%nat by lia. rewrite H.
  unfold ring_full. assert (head r = 0) by (rewrite Hh, E; apply Z.mod_1_r).
  rewrite next_pos_ok by lia. cbn [obind]. rewrite E, Z.mod_1_r. f_equal. assert (tail r = 0) as -> by lia. easy.
Qed.
Lemma holds_nth cap rs Q j r : holds cap rs Q -> nth_error rs j = Some r ->
  exists q, nth_error Q j = Some q /\ readable r q /\ rcap r = cap.
Proof.
  intros H. revert j. induction H as [|r0 q0 rs Q [A B] H IH]; intros [|j]; cbn; try easy.
  - intros [= ->]. now exists q0.
  - apply IH.
Qed.
Lemma holds_set cap rs Q j r q : holds cap rs Q -> readable r q -> rcap r = cap -> holds cap (set_nth rs j r) (set_nth Q j q).
Proof.
  intros H A B. revert j. induction H as [|r0 q0 rs Q H1 H IH]; intros [|j]; cbn; constructor; try easy. apply IH.
Qed.
Lemma holds_empty cap rs Q : 0 < cap -> holds cap rs Q -> empty_all rs = forallb (fun q => match q with [] => true | _ => false end) Q.
Proof.
  intros Hc H. induction H as [|r0 q0 rs Q [A B] H IH]; unfold empty_all in *; cbn [forallb]; [easy|].
  now rewrite (empty_ok r0 q0 A), IH by lia.
Qed.

(** the abstract choice: which queue gives its oldest job *)
Fixpoint apick (j : nat) (Q : list (list nat)) (ch : list Z) (cnt : Z) : Z * option nat :=
  match Q, ch with
  | q :: Q, c :: ch =>
      match q with
      | [] => apick (S j) Q ch cnt
      | _ :: _ => if cnt mod c =? 0 then (u32 (cnt + 1), Some j) else apick (S j) Q ch (u32 (cnt + 1))
      end
  | _, _ => (cnt, None)
  end.
(** [last_empty] is set only on leaving the last queue, so it never matters *)
Lemma pick_ok cap : 0 < cap < 2^64 -> forall rs Q ch j cnt, holds cap rs Q -> length ch = length Q -> (j + length Q = 5)%nat ->
  exists rs' r, pick j rs ch cnt false = Some (fst (apick j Q ch cnt), rs', r) /\
    match snd (apick j Q ch cnt) with
    | None => r = None /\ rs' = rs
    | Some k => exists i x q r0', k = (j + i)%nat /\ nth_error Q i = Some (x :: q) /\ r = Some (x, k) /\
                 rs' = set_nth rs i r0' /\ readable r0' q /\ rcap r0' = cap
    end.
Proof.
  intros Hc rs Q ch j cnt H. revert ch j cnt. induction H as [|r0 q0 rs Q [A B] H IH]; intros ch j cnt Lc Lj.
  - cbn. exists [], None. easy.
  - destruct ch as [|c ch]; [easy|]. cbn [pick apick length] in *. rewrite (empty_ok r0 q0 A) by lia.
    destruct q0 as [|x q0].
    + destruct (Nat.eqb_spec (j + 1) 5) as [E|E].
      * destruct Q; [|cbn in Lj; lia]. inversion H; subst. destruct ch; [|easy]. cbn. exists [r0], None. easy.
      * destruct (IH ch (S j) cnt) as (rs' & r & E1 & E2); [lia|lia|]. rewrite E1. cbn [obind].
        exists (r0 :: rs'), r. split; [easy|]. destruct (snd (apick (S j) Q ch cnt)) as [k|].
        -- destruct E2 as (i & x & q & r0' & Hk & Hn & Hr & Hrs & Hd & Hcap). exists (S i), x, q, r0'.
           subst rs'. refine (conj _ (conj _ (conj _ (conj _ (conj _ _))))); try easy; lia.
        -- destruct E2 as [-> ->]. easy.
    + cbn [negb andb]. destruct (cnt mod c =? 0) eqn:Em; cbn [negb].
      * destruct (get_ok r0 (x :: q0) A) as (r' & G & C1 & R1); [lia|]. rewrite G. cbn [obind hd_error fst snd].
        exists (r' :: rs), (Some (x, j)). split; [easy|]. exists 0%nat, x, q0, r'. cbn [tl] in R1. refine (conj _ (conj _ (conj _ (conj _ (conj _ _))))); try easy; lia.
      * destruct (IH ch (S j) (u32 (cnt + 1))) as (rs' & r & E1 & E2); [lia|lia|]. rewrite E1. cbn [obind].
        exists (r0 :: rs'), r. split; [easy|]. destruct (snd (apick (S j) Q ch (u32 (cnt + 1)))) as [k|].
        -- destruct E2 as (i & y & q & r0' & Hk & Hn & Hr & Hrs & Hd & Hcap). exists (S i), y, q, r0'.
           subst rs'. refine (conj _ (conj _ (conj _ (conj _ (conj _ _))))); try easy; lia.
        -- destruct E2 as [-> ->]. easy.
Qed.

(** ** The invariant *)
Definition b2n (b : bool) : nat := if b then 1 else 0.
Definition pending (w : worker) : bool :=
  match wst w, wat w with READY, _ => true | _, WBusy => true | _, WCall => true | _, _ => false end.
Definition pend (id : nat) (w : worker) : nat := b2n (pending w && Nat.eqb (wjob w) id).
Definition running (id : nat) (w : worker) : nat := match wat w with WRun x => b2n (Nat.eqb x id) | _ => 0 end.
Definition hand (id : nat) (ws : list worker) (m : mpc) : nat :=
  match m with
  | PStore _ x => b2n (Nat.eqb x id)
  | PReady i => match nth_error ws i with Some w => b2n (Nat.eqb (wjob w) id) | None => 0 end
  | _ => 0
  end.
Definition normal (m : mpc) : bool := match m with FStore _ | FJoin _ | MFreed => false | _ => true end.
(** which program points go with which status before zpl_jobs_free *)
Definition fits (w : worker) : bool :=
  match wst w, wat w with
  | WAITING, (WLoad | WYield) => true
  | READY, (WLoad | WYield | WBusy) => true
  | BUSY, (WCall | WRun _ | WCas) => true
  | _, _ => false
  end.
Fixpoint qcount (id : nat) (Q : list (list nat)) : nat :=
  match Q with [] => 0 | q :: Q => count_occ Nat.eq_dec q id + qcount id Q end.

Record jinv (cap : Z) (Q : list (list nat)) (p : pool) : Prop := {
  j_hold : holds cap (queues p) Q;
  j_five : length Q = 5%nat;
  j_fifo : forall j q, nth_error Q j = Some q -> accepted_in j (hist p) = taken_from j (hist p) ++ q;
  j_acc : forall id, accepted id (hist p) = (disps id (hist p) + qcount id Q)%nat;
  j_disp : forall id, (started id (hist p) + sumw (pend id) (workers p) + hand id (workers p) (mat p) <= disps id (hist p))%nat;
  j_disp_eq : normal (mat p) = true -> forall id,
     (started id (hist p) + sumw (pend id) (workers p) + hand id (workers p) (mat p) = disps id (hist p))%nat;
  j_run : forall id, started id (hist p) = (finished id (hist p) + sumw (running id) (workers p))%nat;
  j_fit : normal (mat p) = true -> forall i w, nth_error (workers p) i = Some w -> fits w = true;
  j_sane : forall i w, nth_error (workers p) i = Some w -> fits w = true \/ wst w = TERM;
  j_pick : forall i, (mat p = PPick i \/ (exists x, mat p = PStore i x) \/ mat p = PReady i) ->
     exists w, nth_error (workers p) i = Some w /\ wst w = WAITING;
  j_scan : forall i k w, mat p = DLoad i -> (k < i)%nat -> nth_error (workers p) k = Some w -> wst w = WAITING }.

Lemma init_jinv n mj : 0 <= mj < 2^64 - 1 -> jinv (mj + 1) (repeat [] 5) (jobs_init n mj).
Proof.
  intros Hm. constructor; cbn [jobs_init queues workers mat hist counter]; try easy.
  - repeat constructor; cbn; try lia; rewrite repeat_length; lia.
  - intros j q H. apply nth_error_In, repeat_spec in H. now subst q.
  - intros id. cbn. enough (sumw (pend id) (repeat (mkW WAITING 0 WLoad) n) = 0%nat) by lia.
    induction n; cbn; easy.
  - intros _ id. cbn. enough (sumw (pend id) (repeat (mkW WAITING 0 WLoad) n) = 0%nat) by lia.
    induction n; cbn; easy.
  - intros id. cbn. enough (sumw (running id) (repeat (mkW WAITING 0 WLoad) n) = 0%nat) by lia.
    induction n; cbn; easy.
  - intros _ i w H. apply nth_error_In, repeat_spec in H. now subst w.
  - intros i w H. apply nth_error_In, repeat_spec in H. subst w. now left.
  - intros i [H|[[x H]|H]]; easy.
Qed.

Lemma qcount_set id Q j q q' : nth_error Q j = Some q ->
  (qcount id (set_nth Q j q') + count_occ Nat.eq_dec q id = qcount id Q + count_occ Nat.eq_dec q' id)%nat.
Proof.
  revert j. induction Q as [|x Q IH]; intros [|j] H; cbn in H |- *; try easy.
  - injection H as ->. lia.
  - specialize (IH j H). lia.
Qed.
