(** C59, C60: the job system. *)
From Verif Require Import Base Ring RingSpec RingProofs Jobs JobsSpec JobsProofs JobsProofs2.

Lemma reach_inv (n : nat) (mj : Z) (sch : list move) (p : pool) : 0 <= mj < 2^64 - 1 ->
  jrun (jobs_init n mj) sch = Some p -> exists Q, jinv (mj + 1) Q p.
Proof. intros Hm. apply (jrun_jinv (mj + 1) ltac:(lia) sch _ p (repeat [] 5)). now apply init_jinv. Qed.

(** No job is run more often than it was accepted: in particular, a job enqueued once
    runs at most once. For every schedule, number of workers and queue size, also during
    zpl_jobs_free. *)
Theorem C59_at_most_once (n : nat) (mj : Z) (sch : list move) (p : pool) (id : nat) :
  0 <= mj < 2^64 - 1 -> jrun (jobs_init n mj) sch = Some p ->
  (finished id (hist p) <= started id (hist p) <= accepted id (hist p))%nat.
Proof.
  intros Hm R. destruct (reach_inv n mj sch p Hm R) as [Q J].
  pose proof (j_acc _ _ _ J id). pose proof (j_disp _ _ _ J id). pose proof (j_run _ _ _ J id). lia.
Qed.
(** Jobs leave each queue in the order they entered it, none skipped. *)
Theorem C59_fifo (n : nat) (mj : Z) (sch : list move) (p : pool) (j : nat) :
  0 <= mj < 2^64 - 1 -> jrun (jobs_init n mj) sch = Some p -> (j < 5)%nat ->
  exists rest, accepted_in j (hist p) = taken_from j (hist p) ++ rest /\ Z.of_nat (length rest) <= mj.
Proof.
  intros Hm R Hj. destruct (reach_inv n mj sch p Hm R) as [Q J].
  destruct (nth_error Q j) as [q|] eqn:Hq.
  2:{ apply nth_error_None in Hq. rewrite (j_five _ _ _ J) in Hq. lia. }
  exists q. split; [now apply (j_fifo _ _ _ J)|].
  assert (H : exists r, nth_error (queues p) j = Some r /\ readable r q /\ rcap r = mj + 1).
  { pose proof (j_hold _ _ _ J) as H. clear - H Hq. revert j Hq. induction H as [|r q' rs Q [A B] H IH]; intros [|j] Hq; try easy.
    - injection Hq as ->. now exists r.
    - now apply IH. }
  destruct H as (r & _ & (_ & _ & L & _) & C). lia.
Qed.
(** When zpl_jobs_done answers true, every job accepted so far has been run to its end. *)
Theorem C59_done_means_done (n : nat) (mj : Z) (sch : list move) (p : pool) (h1 h2 : list event) (id : nat) :
  0 <= mj < 2^64 - 1 -> jrun (jobs_init n mj) sch = Some p -> hist p = h1 ++ Done true :: h2 ->
  finished id h2 = accepted id h2.
Proof.
  intros Hm R. revert h1 h2 id.
  set (dok := fun h => forall h1 h2 id, h = h1 ++ Done true :: h2 -> finished id h2 = accepted id h2).
  change (dok (hist p)).
  assert (Cons : forall e h, (e = Done true -> forall id, finished id h = accepted id h) -> dok h -> dok (e :: h)).
  { intros e h He Hd [|x h1] h2 id E; injection E as -> E; [subst; now apply He|]. now apply (Hd h1). }
  enough (G : forall sch p0 Q, jinv (mj + 1) Q p0 -> dok (hist p0) -> jrun p0 sch = Some p -> dok (hist p)).
  { apply (G sch (jobs_init n mj) (repeat [] 5)); [now apply init_jinv| |exact R]. intros [|? ?] h2 id E; discriminate E. }
  clear R sch. induction sch as [|m sch IH]; intros p0 Q J Hd; cbn [jrun]; [now intros [= <-]|].
  destruct (jstep p0 m) as [p1|] eqn:E; cbn [obind]; [|easy].
  destruct (jstep_jinv (mj + 1) Q p0 m p1 ltac:(lia) J E) as [Q1 J1]. apply (IH p1 Q1 J1). clear IH J1.
  assert (Wk : forall i, m = W i -> dok (hist p1)).
  { intros i ->. cbn [jstep] in E. destruct (nth_error (workers p0) i) as [w|]; cbn [obind] in E; [|easy].
    unfold worker_step in E. destruct (wat w); cbn [obind] in E; try discriminate E; injection E as <-; cbn [hist app]; try exact Hd;
      apply Cons; try exact Hd; discriminate. }
  destruct m as [id0 j| | | | |i]; try (now apply (Wk i)); cbn [jstep] in E; clear Wk;
    destruct p0 as [cnt qs ws at_ h]; unfold main_step in E; cbn [hist] in Hd; destruct at_; try discriminate E.
  - destruct (nth_error qs j); cbn [obind] in E; [|easy]. destruct (ring_full r) as [[|]|]; cbn [obind] in E; [| |easy].
    + injection E as <-. apply Cons; [discriminate|exact Hd].
    + destruct (ring_append r id0); cbn [obind] in E; [|easy]. injection E as <-. apply Cons; [discriminate|exact Hd].
  - destruct (empty_all qs); injection E as <-; [apply Cons; [discriminate|exact Hd]|exact Hd].
  - injection E as <-. exact Hd.
  - injection E as <-. exact Hd.
  - destruct (nth_error ws i) as [w|]; [destruct (wst w)|]; injection E as <-; try exact Hd. apply Cons; [discriminate|exact Hd].
  - destruct (pick 0 qs chances cnt false) as [[[c q] [[id0 j]|]]|]; cbn [obind] in E; try easy; injection E as <-; [apply Cons; [discriminate|exact Hd]|exact Hd].
  - destruct (nth_error ws i); cbn [obind] in E; [|easy]. injection E as <-. exact Hd.
  - destruct (nth_error ws i); cbn [obind] in E; [|easy]. injection E as <-. exact Hd.
  - destruct (nth_error ws i) as [w|] eqn:Hw.
    + destruct (wst w); injection E as <-; try exact Hd; apply Cons; try exact Hd; discriminate.
    + injection E as <-. apply Cons; [|exact Hd]. intros [= Em] id.
      rewrite (holds_empty (mj + 1) qs Q) in Em; [|lia|exact (j_hold _ _ _ J)].
      pose proof (j_acc _ _ _ J id) as Ja. pose proof (j_disp_eq _ _ _ J eq_refl id) as Jd. pose proof (j_run _ _ _ J id) as Jr.
      cbn [hist workers mat hand] in *.
      assert (Wt : forall k w, nth_error ws k = Some w -> wst w = WAITING /\ fits w = true).
      { intros k w Hk. split; [|exact (j_fit _ _ _ J eq_refl k w Hk)].
        apply (j_scan _ _ _ J i k w eq_refl); [|exact Hk]. apply nth_error_None in Hw.
        assert (k < length ws)%nat by (apply nth_error_Some; congruence). lia. }
      rewrite (sumw_zero (pend id)) in Jd.
      2:{ intros k w Hk. destruct (Wt k w Hk) as [A B]. unfold pend, pending. unfold fits in B. rewrite A in *. now destruct (wat w). }
      rewrite (sumw_zero (running id)) in Jr.
      2:{ intros k w Hk. destruct (Wt k w Hk) as [A B]. unfold running. unfold fits in B. rewrite A in *. now destruct (wat w). }
      assert (Q0 : qcount id Q = 0%nat).
      { clear - Em. induction Q as [|q Q IH]; cbn in *; [easy|]. destruct q; [|easy]. cbn. now apply IH. }
      lia.
  - destruct (nth_error ws i) as [w|]; injection E as <-; exact Hd.
  - destruct (nth_error ws i) as [w|]; cbn [obind] in E; [|easy]. destruct (wat w); try discriminate E. injection E as <-. exact Hd.
Qed.
(** Nothing ever goes wrong in the dispatcher (no NULL job, no access outside a queue):
    it can always take its next step, unless it is joining a worker. *)
Theorem C59_dispatcher_total (n : nat) (mj : Z) (sch : list move) (p : pool) :
  0 <= mj < 2^64 - 1 -> jrun (jobs_init n mj) sch = Some p ->
  match mat p with
  | MIdle => jstep p MProcess <> None /\ jstep p MDone <> None /\ jstep p MFree <> None /\
      forall id j, (j < 5)%nat -> jstep p (MEnqueue id j) <> None
  | FJoin _ | MFreed => True
  | _ => jstep p MGo <> None
  end.
Proof.
  intros Hm R. destruct (reach_inv n mj sch p Hm R) as [Q J].
  pose proof (j_pick _ _ _ J) as Jp. pose proof (j_hold _ _ _ J) as Jh. pose proof (j_five _ _ _ J) as J5.
  destruct p as [cnt qs ws at_ h]. cbn [counter queues workers mat hist] in *.
  destruct at_; cbn [jstep main_step]; try exact I.
  - split; [now destruct (empty_all qs)|]. split; [easy|]. split; [easy|]. intros id j Hj.
    destruct (nth_error qs j) as [r|] eqn:Hr.
    2:{ apply nth_error_None in Hr. assert (L : length qs = length Q) by (clear - Jh; induction Jh; cbn; congruence). lia. }
    destruct (holds_nth _ qs Q j r Jh Hr) as (q & Hq & Rd & Cp). cbn [obind].
    rewrite (full_ok1 r q Rd) by lia. cbn [obind]. destruct (Z.eqb_spec (Z.of_nat (length q)) (rcap r - 1)) as [F|F]; [easy|].
    destruct (append_ok r q id Rd) as (r' & A & C' & Rd').
    { destruct Rd as (_ & _ & L & _). lia. }
    rewrite A. easy.
  - destruct (nth_error ws i) as [w|]; [destruct (wst w)|]; easy.
  - destruct (pick_ok (mj + 1) ltac:(lia) qs Q chances 0 cnt Jh) as (rs' & r & E1 & E2); [now rewrite J5|now rewrite J5|].
    rewrite E1. cbn [obind]. now destruct r as [[? ?]|].
  - destruct (Jp i) as (w & Hw & _); [right; left; now exists id|]. rewrite Hw. easy.
  - destruct (Jp i) as (w & Hw & _); [now right; right|]. rewrite Hw. easy.
  - destruct (nth_error ws i) as [w|]; [destruct (wst w)|]; easy.
  - destruct (nth_error ws i) as [w|]; easy.
Qed.

(** two workers, three jobs in two queues; the second finishes first *)
Definition demo : list move :=
  [MEnqueue 7 2; MEnqueue 8 2; MEnqueue 9 0; MProcess; MGo; MGo; MGo; MGo; MGo; MGo; MGo;
   MProcess; MGo; MGo; MGo; MGo; MProcess; MGo; MGo; MGo; MGo; MProcess; MGo; MGo; MGo; MGo;
   MProcess; MGo; MGo; MGo; MGo; MGo; MGo].
Example C59_ex : exists p, jrun (jobs_init 2 100) (demo ++ [W 0; W 0; W 0; W 1; W 1; W 1; W 1; W 0; MDone; MGo]) = Some p /\
  hist p = [Done false; Finish 0 9; Finish 1 7; Start 1 7; Start 0 9; Processed true; Disp 1 2 7; Processed true;
            Processed true; Processed true; Processed true; Disp 0 0 9;
            Enq 0 9 true; Enq 2 8 true; Enq 2 7 true].
Proof. eexists. split; vm_compute; reflexivity. Qed.
Example C59_ex2 : exists p, jrun (jobs_init 1 1)
  [MEnqueue 5 0; MEnqueue 6 0; MProcess; MGo; MGo; MGo; MGo; MGo; W 0; W 0; W 0; MDone; MGo; W 0; W 0; MDone; MGo; MGo] = Some p /\
  hist p = [Done true; Finish 0 5; Done false; Start 0 5; Processed true; Disp 0 0 5; Enq 0 6 false; Enq 0 5 true].
Proof. eexists. split; vm_compute; reflexivity. Qed.
Print Assumptions C59_at_most_once.
Print Assumptions C59_fifo.
Print Assumptions C59_done_means_done.
Print Assumptions C59_dispatcher_total.
