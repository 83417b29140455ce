(** C60, C79, C80: which jobs get their turn, and shutting down. *)
From Verif Require Import Base Ring RingSpec RingProofs Jobs JobsSpec JobsProofs JobsProofs2 JobsProofs3 JobsProofs4 PropJobs.

(** While the realtime and high queues are the only ones in use and neither is empty, once
    the counter is odd no job leaves the realtime queue: in every schedule, with any number
    of workers. *)
Theorem C60_realtime_never_served (n : nat) (mj : Z) (sch0 sch : list move) (p p' : pool) :
  0 <= mj < 2^64 - 1 -> jrun (jobs_init n mj) sch0 = Some p -> Z.odd (counter p) = true ->
  (forall k q, jrun p (firstn k sch) = Some q -> map ring_empty (queues q) = [false; false; true; true; true]) ->
  jrun p sch = Some p' -> taken_from 0 (hist p') = taken_from 0 (hist p).
Proof.
  intros Hm R. destruct (reach_inv n mj sch0 p Hm R) as [Q J]. clear R sch0.
  revert p Q J. induction sch as [|m sch IH]; intros p Q J O T; cbn [jrun]; [now intros [= <-]|].
  destruct (jstep p m) as [p1|] eqn:E; cbn [obind]; [|easy]. intros R.
  destruct (starve_step (mj + 1) Q p m p1 ltac:(lia) J (T 0%nat p eq_refl) O E) as [O1 T1].
  destruct (jstep_jinv (mj + 1) Q p m p1 ltac:(lia) J E) as [Q1 J1].
  rewrite <- T1. apply (IH p1 Q1 J1 O1); [|exact R]. intros k q Hk. apply (T (S k)). cbn [firstn jrun]. now rewrite E.
Qed.

(** And such schedules run for ever: with one worker and the default queue size, from a
    state that can be reached, there is an infinite sequence of calls, each completed, while
    realtime jobs wait all the time and none is taken. *)
Definition to_odd : list move :=
  [MEnqueue 5 0; MEnqueue 6 0; MEnqueue 7 1; MProcess; MGo; MGo; MGo; MGo; MGo; W 0; W 0; W 0; W 0; W 0].
Theorem C60_starvation_refuted : exists p (seg : nat -> list move),
  jrun (jobs_init 1 100) to_odd = Some p /\
  forall k, exists p', jrun p (concat (map seg (seq 0 k))) = Some p' /\
    processed_true (hist p') = (k + processed_true (hist p))%nat /\
    taken_from 0 (hist p') = taken_from 0 (hist p) /\
    (forall m q, jrun p (firstn m (concat (map seg (seq 0 k)))) = Some q -> map ring_empty (queues q) = [false; false; true; true; true]).
Proof.
  destruct (jrun (jobs_init 1 100) to_odd) as [p|] eqn:R; [|vm_compute in R; discriminate R].
  destruct (reach_inv 1 100 to_odd p ltac:(clear; lia) R) as [Q J].
  assert (W2 : waiting2 101 p).
  { pose proof (j_hold _ _ _ J) as Jh. pose proof (j_five _ _ _ J) as J5. pose proof (j_fifo _ _ _ J) as Jf.
    assert (S : exists qs, p = mkP 1 qs [mkW WAITING 5 WLoad] MIdle (hist p) /\
      hist p = [Finish 0 5; Start 0 5; Processed true; Disp 0 0 5; Enq 1 7 true; Enq 0 6 true; Enq 0 5 true]).
    { exists (queues p). vm_compute in R. injection R as <-. easy. }
    destruct S as (qs & Ep & Eh). rewrite Eh in Jf. rewrite Ep in Jh. cbn [queues] in Jh.
    destruct Q as [|q0 [|q1 [|q2 [|q3 [|q4 [|]]]]]]; try discriminate J5.
    pose proof (Jf 0%nat q0 eq_refl) as F0. pose proof (Jf 1%nat q1 eq_refl) as F1. pose proof (Jf 2%nat q2 eq_refl) as F2.
    pose proof (Jf 3%nat q3 eq_refl) as F3. pose proof (Jf 4%nat q4 eq_refl) as F4. cbn in F0, F1, F2, F3, F4. injection F0 as F0. subst q0 q1 q2 q3 q4.
    destruct qs as [|r0 [|r1 [|r2 [|r3 [|r4 [|]]]]]]; try (now (exfalso; clear - Jh; repeat (inversion Jh as [|? ? ? ? _ Jh']; subst; clear Jh; rename Jh' into Jh))).
    exists 1, r0, r1, r2, r3, r4, 5%nat, (hist p), 6%nat, [], 7%nat, []. clear R. easy. }
  exists p, (seg (counter p)). split; [reflexivity|]. intros k.
  destruct (rounds_ok 101 p ltac:(lia) W2 k) as (p' & E & _ & _ & A & P).
  exists p'. refine (conj E (conj P (conj _ A))).
  apply (C60_realtime_never_served 1 100 to_odd (concat (map (seg (counter p)) (seq 0 k))) p p' ltac:(clear; lia) R); [|exact A|exact E].
  destruct W2 as (c & r0 & r1 & r2 & r3 & r4 & jb & h & x & a & y & b & -> & O & H). exact O.
Qed.
Example C60_ex : exists p, jrun (jobs_init 1 100) (to_odd ++ concat (map (seg 1) (seq 0 4))) = Some p /\ counter p = 9 /\
  taken_from 0 (hist p) = [5%nat] /\ accepted_in 0 (hist p) = [5; 6]%nat /\ taken_from 1 (hist p) = [7%nat].
Proof. eexists. split; [vm_compute; reflexivity|easy]. Qed.

(** From any state before zpl_jobs_free, with at least one worker, some schedule without
    further enqueues leads to zpl_jobs_done answering true: no job is lost or stuck. *)
Theorem C80_done_reachable (n : nat) (mj : Z) (sch : list move) (p : pool) :
  0 <= mj < 2^64 - 1 -> (1 <= n)%nat -> jrun (jobs_init n mj) sch = Some p -> normal (mat p) = true ->
  exists sch' p' ev, jrun p sch' = Some p' /\ hist p' = Done true :: ev ++ hist p /\
    (forall j, accepted_in j (hist p') = accepted_in j (hist p)) /\
    forall id, finished id (hist p') = accepted id (hist p).
Proof.
  intros Hm Hn R N. destruct (reach_inv n mj sch p Hm R) as [Q J].
  assert (L : length (workers p) = n).
  { clear - R. assert (G : forall sch p p', jrun p sch = Some p' -> length (workers p') = length (workers p)).
    { clear. induction sch as [|m sch IH]; intros p p'; cbn [jrun]; [now intros [= <-]|].
      destruct (jstep p m) as [p1|] eqn:E; cbn [obind]; [|easy]. intros R. rewrite (IH _ _ R). clear IH R.
      destruct m as [id0 j| | | | |i].
      6:{ cbn [jstep] in E. destruct (nth_error (workers p) i) as [w|]; cbn [obind] in E; [|easy].
          destruct (worker_step i w) as [[? ?]|]; cbn [obind] in E; [|easy]. injection E as <-. apply set_len. }
      all: cbn [jstep] in E; destruct p as [cnt qs ws at_ h]; unfold main_step in E; cbn [workers] in *; destruct at_; try discriminate E.
      - destruct (nth_error qs j); cbn [obind] in E; [|easy]. destruct (ring_full r) as [[|]|]; cbn [obind] in E; [| |easy].
        + now injection E as <-.
        + destruct (ring_append r id0); cbn [obind] in E; [|easy]. now injection E as <-.
      - destruct (empty_all qs); now injection E as <-.
      - now injection E as <-.
      - now injection E as <-.
      - destruct (nth_error ws i) as [w|]; [destruct (wst w)|]; now injection E as <-.
      - destruct (pick 0 qs chances cnt false) as [[[c q] [[id0 j]|]]|]; cbn [obind] in E; try easy; now injection E as <-.
      - destruct (nth_error ws i); cbn [obind] in E; [|easy]. injection E as <-. apply set_len.
      - destruct (nth_error ws i); cbn [obind] in E; [|easy]. injection E as <-. apply set_len.
      - destruct (nth_error ws i) as [w|]; [destruct (wst w)|]; now injection E as <-.
      - destruct (nth_error ws i) as [w|]; injection E as <-; [apply set_len|easy].
      - destruct (nth_error ws i) as [w|]; cbn [obind] in E; [|easy]. destruct (wat w); try discriminate E. now injection E as <-. }
    rewrite (G _ _ _ R). apply repeat_length. }
  assert (Hr : 0 <= counter p < 2^32) by (apply (jrun_range sch (jobs_init n mj) p); [cbn; lia|exact R]).
  destruct (progress (mj + 1) ltac:(lia) (mu (hist p)) p Q (le_n _) J N ltac:(lia) Hr) as (s & p' & ev & R' & M' & H' & N' & _).
  exists s, p', ev. refine (conj R' (conj H' (conj _ _))).
  - intros j. rewrite H'. cbn [accepted_in]. now apply acc_noenq.
  - intros id. assert (RR : jrun (jobs_init n mj) (sch ++ s) = Some p') by (rewrite jrun_app, R; exact R').
    pose proof (C59_done_means_done n mj (sch ++ s) p' [] (ev ++ hist p) id Hm RR H') as D.
    rewrite H'. change (finished id (Done true :: ev ++ hist p)) with (finished id (ev ++ hist p)). rewrite D.
    clear - N'. induction ev as [|e ev IH]; [easy|]. cbn [noenq forallb] in N'. apply andb_prop in N' as [A B].
    cbn [app]. unfold accepted in *. cbn [count_ev]. rewrite (IH B). destruct e; easy.
Qed.
Example C80_ex : exists p, jrun (jobs_init 2 100) demo = Some p /\ normal (mat p) = true /\ accepted 8 (hist p) = 1%nat /\ started 8 (hist p) = 0%nat.
Proof. eexists. split; [vm_compute; reflexivity|easy]. Qed.

(** ** zpl_jobs_free *)
Definition hangs (w : worker) : bool :=
  match wst w, wat w with
  | _, WBusy => true
  | BUSY, (WCall | WRun _ | WCas) => true
  | WAITING, (WLoad | WYield) => true
  | _, _ => false
  end.
Lemma hang_keeps i : forall sch p p', mat p = FJoin i -> (exists w, nth_error (workers p) i = Some w /\ hangs w = true) ->
  jrun p sch = Some p' -> mat p' = FJoin i.
Proof.
  induction sch as [|m sch IH]; intros p p' M (w & Hw & Hh); cbn [jrun]; [now intros [= <-]|].
  destruct (jstep p m) as [p1|] eqn:E; cbn [obind]; [|easy].
  apply IH.
  - destruct m as [id0 j| | | | |k]; cbn [jstep] in E.
    6:{ destruct (nth_error (workers p) k) as [x|]; cbn [obind] in E; [|easy].
        destruct (worker_step k x) as [[? ?]|]; cbn [obind] in E; [|easy]. now injection E as <-. }
    all: destruct p as [cnt qs ws at_ h]; unfold main_step in E; cbn [mat workers] in *; subst at_; try discriminate E.
    rewrite Hw in E. cbn [obind] in E. destruct w as [[] jb []]; try discriminate E; discriminate Hh.
  - destruct m as [id0 j| | | | |k]; cbn [jstep] in E.
    6:{ destruct (nth_error (workers p) k) as [x|] eqn:Hx; cbn [obind] in E; [|easy].
        destruct (worker_step k x) as [[x' ev]|] eqn:Es; cbn [obind] in E; [|easy]. injection E as <-. cbn [workers].
        destruct (Nat.eq_dec k i) as [->|Ne].
        - rewrite Hw in Hx. injection Hx as <-. exists x'. rewrite (nth_set_eq _ _ w) by exact Hw. split; [reflexivity|].
          destruct w as [[] jb []]; try discriminate Hh; cbn in Es; injection Es as <- <-; reflexivity.
        - exists w. rewrite nth_set_ne by exact Ne. easy. }
    all: destruct p as [cnt qs ws at_ h]; unfold main_step in E; cbn [mat workers] in *; subst at_; try discriminate E.
    rewrite Hw in E. cbn [obind] in E. destruct w as [[] jb []]; try discriminate E; discriminate Hh.
Qed.
(** If a worker had seen READY but not yet stored BUSY when zpl_jobs_free stored TERM, the
    store is lost and the join never ends: whatever happens next. *)
Theorem C79_free_hangs_refuted (i : nat) (p : pool) (w : worker) :
  mat p = FJoin i -> nth_error (workers p) i = Some w -> wat w = WBusy ->
  forall sch p', jrun p sch = Some p' -> mat p' = FJoin i.
Proof. intros M Hw B sch p'. apply hang_keeps; [exact M|]. exists w. split; [exact Hw|]. unfold hangs. rewrite B. now destruct (wst w). Qed.
Example C79_ex_hang : exists p w, jrun (jobs_init 1 100) [MEnqueue 5 0; MProcess; MGo; MGo; MGo; MGo; MGo; W 0; MFree; MGo] = Some p /\
  mat p = FJoin 0 /\ nth_error (workers p) 0 = Some w /\ wat w = WBusy.
Proof. eexists. eexists. split; [vm_compute; reflexivity|easy]. Qed.
(** Jobs handed to a worker, or still queued, can be thrown away by zpl_jobs_free. *)
Theorem C79_free_drops_refuted : exists sch p, jrun (jobs_init 1 100) sch = Some p /\ mat p = MFreed /\
  accepted 5 (hist p) = 1%nat /\ taken_from 0 (hist p) = [5%nat] /\ accepted 6 (hist p) = 1%nat /\
  started 5 (hist p) = 0%nat /\ started 6 (hist p) = 0%nat /\ forall m, jstep p m = None.
Proof.
  exists [MEnqueue 5 0; MEnqueue 6 1; MProcess; MGo; MGo; MGo; MGo; MGo; MFree; MGo; W 0; MGo; MGo].
  eexists. split; [vm_compute; reflexivity|]. do 6 (split; [reflexivity|]). intros []; try reflexivity.
  destruct i as [|[|i]]; reflexivity.
Qed.
(** Called while every worker is waiting (as after zpl_jobs_done answered true), it always
    can finish, whatever has happened since. *)
Definition leaving (w : worker) : bool :=
  match wst w, wat w with WAITING, (WLoad | WYield) => true | TERM, (WLoad | WYield | WExit) => true | _, _ => false end.
Definition shutting (p : pool) : Prop := (forall i w, nth_error (workers p) i = Some w -> leaving w = true) /\
  match mat p with
  | FStore _ | MFreed => True
  | FJoin i => exists w, nth_error (workers p) i = Some w /\ wst w = TERM
  | _ => False
  end.
Lemma shutting_step p m p' : shutting p -> jstep p m = Some p' -> shutting p'.
Proof.
  intros [L M] E. destruct m as [id0 j| | | | |k]; cbn [jstep] in E.
  6:{ destruct (nth_error (workers p) k) as [x|] eqn:Hx; cbn [obind] in E; [|easy].
      destruct (worker_step k x) as [[x' ev]|] eqn:Es; cbn [obind] in E; [|easy]. injection E as <-.
      assert (G : leaving x' = true /\ wst x' = wst x).
      { specialize (L k x Hx). destruct x as [[] jb []]; try discriminate L; cbn in Es; try discriminate Es; injection Es as <- <-; easy. }
      destruct G as [G1 G2]. split; cbn [workers mat].
      - intros i w Hi. apply nth_set_inv in Hi as [[-> ->]|[_ Hi]]; [exact G1|now apply (L i)].
      - destruct (mat p); try exact M. destruct M as (w & Hw & T). destruct (Nat.eq_dec k i) as [->|Ne].
        + exists x'. rewrite (nth_set_eq _ _ x) by exact Hx. split; [reflexivity|]. rewrite Hx in Hw. injection Hw as ->. congruence.
        + exists w. now rewrite nth_set_ne. }
  all: destruct p as [cnt qs ws at_ h]; unfold main_step in E; cbn [mat workers] in *; destruct at_; try discriminate E; try easy.
  - destruct (nth_error ws i) as [w|] eqn:Hw; injection E as <-.
    + split; cbn [workers mat].
      * intros k x Hk. apply nth_set_inv in Hk as [[-> ->]|[_ Hk]]; [|now apply (L k)]. specialize (L k w Hw).
        destruct w as [[] jb []]; try discriminate L; reflexivity.
      * eexists. rewrite (nth_set_eq _ _ w) by exact Hw. easy.
    + split; [exact L|exact I].
  - destruct M as (w & Hw & T). rewrite Hw in E. cbn [obind] in E. destruct (wat w); try discriminate E. injection E as <-. split; [exact L|exact I].
Qed.
Lemma shutting_ends : forall k p, shutting p ->
  (match mat p with FStore i => 2 * (length (workers p) - i) + 1 | FJoin i => 2 * (length (workers p) - i) | _ => 0 end <= k)%nat ->
  exists sch p', jrun p sch = Some p' /\ mat p' = MFreed.
Proof.
  induction k as [|k IH]; intros p S Hk.
  - destruct S as [L M]. destruct (mat p) eqn:Em; try easy; try lia.
    + destruct M as (w & Hw & _). assert (i < length (workers p))%nat by (apply nth_error_Some; congruence). lia.
    + exists [], p. easy.
  - destruct (mat p) eqn:Em; try (now destruct S as [_ M]; rewrite Em in M).
    + (* store TERM *)
      destruct p as [cnt qs ws at_ h]. cbn [mat workers] in *. subst at_. destruct (nth_error ws i) as [w|] eqn:Hw.
      * assert (E : jstep (mkP cnt qs ws (FStore i) h) MGo = Some (mkP cnt qs (set_nth ws i (mkW TERM (wjob w) (wat w))) (FJoin i) h)) by (cbn; now rewrite Hw).
        destruct (IH _ (shutting_step _ _ _ S E)) as (sch & p' & R & M').
        { cbn [mat workers]. rewrite set_len. assert (i < length ws)%nat by (apply nth_error_Some; congruence). lia. }
        exists (MGo :: sch), p'. cbn [jrun]. rewrite E. easy.
      * exists [MGo], (mkP cnt qs ws MFreed h). cbn. now rewrite Hw.
    + (* join *)
      assert (Ex : exists s q, jrun p s = Some q /\ shutting q /\ mat q = FJoin i /\ length (workers q) = length (workers p) /\
                     exists w, nth_error (workers q) i = Some w /\ wat w = WExit).
      { pose proof S as [L M]. rewrite Em in M. destruct M as (w & Hw & T). specialize (L i w Hw).
        assert (One : forall p w, mat p = FJoin i -> shutting p -> nth_error (workers p) i = Some w -> wst w = TERM -> wat w = WLoad ->
           exists q, jrun p [W i] = Some q /\ shutting q /\ mat q = FJoin i /\ length (workers q) = length (workers p) /\
                     exists w, nth_error (workers q) i = Some w /\ wat w = WExit).
        { clear. intros p w M S Hw T A.
          assert (E : jstep p (W i) = Some (mkP (counter p) (queues p) (set_nth (workers p) i (mkW TERM (wjob w) WExit)) (mat p) (hist p))).
          { cbn [jstep]. rewrite Hw. unfold worker_step. cbn [obind]. now rewrite A, T. }
          eexists. cbn [jrun]. rewrite E. cbn [obind]. split; [reflexivity|]. refine (conj (shutting_step _ _ _ S E) (conj M (conj _ _))).
          - apply set_len.
          - eexists. cbn [workers]. rewrite (nth_set_eq _ _ w) by exact Hw. easy. }
        destruct w as [st jb pc]. cbn in T. subst st. destruct pc; try discriminate L.
        - destruct (One p _ Em S Hw eq_refl eq_refl) as (q & R & G). now exists [W i], q.
        - set (p1 := mkP (counter p) (queues p) (set_nth (workers p) i (mkW TERM jb WLoad)) (mat p) (hist p)).
          assert (E : jstep p (W i) = Some p1) by (cbn [jstep]; now rewrite Hw).
          destruct (One p1 (mkW TERM jb WLoad)) as (q & R & G); try easy.
          + exact (shutting_step _ _ _ S E).
          + subst p1. cbn [workers]. now apply (nth_set_eq _ _ _ _ Hw).
          + exists [W i; W i], q. change (jrun p [W i; W i]) with (p0 <- jstep p (W i) ;; jrun p0 [W i]). rewrite E. cbn [obind].
            destruct G as (G1 & G2 & G3 & G4). subst p1. cbn [workers] in G3. rewrite set_len in G3. easy.
        - exists [], p. refine (conj eq_refl (conj S (conj Em (conj eq_refl _)))). now exists (mkW TERM jb WExit). }
      destruct Ex as (s & q & R & Sq & Mq & Lq & w & Hw & Aw).
      assert (E : jstep q MGo = Some (mkP (counter q) (queues q) (workers q) (FStore (Datatypes.S i)) (hist q))).
      { destruct q as [cnt qs ws at_ h]. cbn [mat workers] in *. subst at_. cbn. rewrite Hw. cbn. now rewrite Aw. }
      destruct (IH _ (shutting_step _ _ _ Sq E)) as (sch & p' & R' & M').
      { cbn [mat workers]. assert (i < length (workers q))%nat by (apply nth_error_Some; congruence). lia. }
      exists (s ++ MGo :: sch), p'. rewrite jrun_app, R. cbn [obind jrun]. rewrite E. easy.
    + exists [], p. easy.
Qed.
Theorem C79_free_ends_when_idle (p p' : pool) (sch : list move) : mat p = MIdle ->
  (forall i w, nth_error (workers p) i = Some w -> wst w = WAITING /\ (wat w = WLoad \/ wat w = WYield)) ->
  jrun p (MFree :: sch) = Some p' -> exists sch' p'', jrun p' sch' = Some p'' /\ mat p'' = MFreed.
Proof.
  intros M C R.
  assert (S0 : forall p1, jstep p MFree = Some p1 -> shutting p1).
  { intros p1 E. destruct p as [cnt qs ws at_ h]. cbn [mat workers] in *. subst at_. cbn in E. injection E as <-. split; cbn [workers mat]; [|exact I].
    intros i w Hi. destruct (C i w Hi) as [A [B|B]]; unfold leaving; now rewrite A, B. }
  cbn [jrun] in R. destruct (jstep p MFree) as [p1|]; cbn [obind] in R; [|easy]. specialize (S0 p1 eq_refl).
  assert (Sx : shutting p').
  { clear - R S0. revert p1 S0 R. induction sch as [|m sch IH]; intros p1 S; cbn [jrun]; [now intros [= <-]|].
    destruct (jstep p1 m) as [p2|] eqn:E; cbn [obind]; [|easy]. apply IH. now apply (shutting_step p1 m). }
  exact (shutting_ends _ p' Sx (le_n _)).
Qed.
(** when zpl_jobs_done answers true, the workers are in that state *)
Theorem C79_done_means_idle (n : nat) (mj : Z) (sch : list move) (p p' : pool) (m : move) (h : list event) : 0 <= mj < 2^64 - 1 ->
  jrun (jobs_init n mj) sch = Some p -> jstep p m = Some p' -> hist p' = Done true :: h -> hist p = h ->
  mat p' = MIdle /\ forall i w, nth_error (workers p') i = Some w -> wst w = WAITING /\ (wat w = WLoad \/ wat w = WYield).
Proof.
  intros Hm R E H' H. destruct (reach_inv n mj sch p Hm R) as [Q J].
  assert (Ne : forall (e : event) h, e :: h <> h) by (intros e l X; apply (f_equal (@length event)) in X; cbn in X; lia).
  destruct m as [id0 j| | | | |k]; cbn [jstep] in E.
  6:{ exfalso. destruct (nth_error (workers p) k) as [x|] eqn:Hx; cbn [obind] in E; [|easy]. unfold worker_step in E.
      destruct (wat x); cbn [obind] in E; try discriminate E; injection E as <-; cbn [hist app] in H'; rewrite H in H';
        first [discriminate H'|symmetry in H'; now apply Ne in H']. }
  all: destruct p as [cnt qs ws at_ h0]; unfold main_step in E; cbn [mat workers hist] in *; subst h0; destruct at_; try discriminate E.
  - destruct (nth_error qs j); cbn [obind] in E; [|easy]. destruct (ring_full r) as [[|]|]; cbn [obind] in E; [| |easy].
    + injection E as <-. discriminate H'.
    + destruct (ring_append r id0); cbn [obind] in E; [|easy]. injection E as <-. discriminate H'.
  - destruct (empty_all qs); injection E as <-; [discriminate H'|]. symmetry in H'. now apply Ne in H'.
  - injection E as <-. symmetry in H'. now apply Ne in H'.
  - injection E as <-. symmetry in H'. now apply Ne in H'.
  - destruct (nth_error ws i) as [w|]; [destruct (wst w)|]; injection E as <-; try discriminate H'; symmetry in H'; now apply Ne in H'.
  - destruct (pick 0 qs chances cnt false) as [[[c q] [[id0 j]|]]|]; cbn [obind] in E; try easy; injection E as <-; [discriminate H'|]. symmetry in H'; now apply Ne in H'.
  - destruct (nth_error ws i); cbn [obind] in E; [|easy]. injection E as <-. symmetry in H'; now apply Ne in H'.
  - destruct (nth_error ws i); cbn [obind] in E; [|easy]. injection E as <-. symmetry in H'; now apply Ne in H'.
  - destruct (nth_error ws i) as [w|] eqn:Hw; [destruct (wst w)|]; injection E as <-; try discriminate H'; try (symmetry in H'; now apply Ne in H').
    split; [reflexivity|]. cbn [workers]. intros k x Hk.
    assert (W' : wst x = WAITING).
    { apply (j_scan _ _ _ J i k x eq_refl); [|exact Hk]. apply nth_error_None in Hw.
      assert (k < length ws)%nat by (apply nth_error_Some; congruence). lia. }
    split; [exact W'|]. pose proof (j_fit _ _ _ J eq_refl k x Hk) as F. unfold fits in F. rewrite W' in F. destruct (wat x); try discriminate F; tauto.
  - destruct (nth_error ws i) as [w|]; injection E as <-; symmetry in H'; now apply Ne in H'.
  - destruct (nth_error ws i) as [w|]; cbn [obind] in E; [|easy]. destruct (wat w); try discriminate E. injection E as <-. symmetry in H'; now apply Ne in H'.
Qed.
(** A job that is being executed when zpl_jobs_free is called is executed to its end: the worker's status stays
    TERM, at most four steps of the worker end it, and the join goes on. *)
Definition joining (i : nat) (w : worker) (p : pool) : Prop :=
  (mat p = FJoin i /\ exists w', nth_error (workers p) i = Some w' /\ wst w' = TERM /\ wat w' <> WBusy /\ forall id, wat w = WRun id -> wat w' = WRun id \/ In (Finish i id) (hist p)) \/
  match mat p with FStore k | FJoin k => (i < k)%nat | MFreed => True | _ => False end.
Lemma joining_step i w p m p' : joining i w p -> jstep p m = Some p' -> joining i w p'.
Proof.
  intros J E. destruct m as [id0 j| | | | |k]; cbn [jstep] in E.
  6:{ destruct (nth_error (workers p) k) as [x|] eqn:Hx; cbn [obind] in E; [|easy].
      destruct (worker_step k x) as [[x' ev]|] eqn:Es; cbn [obind] in E; [|easy]. injection E as <-. destruct J as [(M & w' & Hw & T & B & I)|G]; [left|right; exact G]. split; [exact M|]. cbn [workers hist].
      destruct (Nat.eq_dec k i) as [->|Ne].
      - rewrite Hx in Hw. injection Hw as ->. exists x'. rewrite (nth_set_eq _ _ w') by exact Hx. split; [reflexivity|].
        destruct w' as [st jb pc]. cbn in T, B, I. subst st. destruct pc; try discriminate Es; try easy; cbn in Es; injection Es as <- <-; cbn [wst wat]; (split; [easy|]); (split; [easy|]); intros id1 H; destruct (I id1 H) as [X|X]; try discriminate X; try (right; try right; exact X).
        injection X as <-. right. now left.
      - exists w'. rewrite nth_set_ne by exact Ne. split; [exact Hw|]. split; [exact T|]. split; [exact B|]. intros id H. destruct (I id H) as [X|X]; [now left|right]. apply in_or_app. now right. }
  all: destruct p as [cnt qs ws at_ h]; unfold main_step in E; destruct J as [(M & w' & Hw & T & B & I)|G]; cbn [mat workers] in *; [subst at_|destruct at_; try easy]; try discriminate E.
  - rewrite Hw in E. cbn [obind] in E. destruct (wat w'); try discriminate E. injection E as <-. right. cbn [mat]. lia.
  - destruct (nth_error ws i0) as [x|]; injection E as <-; right; cbn [mat]; easy.
  - destruct (nth_error ws i0) as [x|]; cbn [obind] in E; [|easy]. destruct (wat x); try discriminate E. injection E as <-. right. cbn [mat]. lia.
Qed.
Theorem C79_free_waits_for_job (i : nat) (p : pool) (w : worker) :
  mat p = FJoin i -> nth_error (workers p) i = Some w -> wst w = TERM -> wat w <> WBusy ->
  forall sch p', jrun p sch = Some p' -> mat p' = FJoin i ->
  exists k p'', (k <= 4)%nat /\ jrun p' (repeat (W i) k ++ [MGo]) = Some p'' /\ mat p'' = FStore (S i) /\
    forall id, wat w = WRun id -> In (Finish i id) (hist p'').
Proof.
  intros M Hw T B sch p' R M'.
  assert (J : joining i w p').
  { assert (J0 : joining i w p) by (left; split; [exact M|]; exists w; repeat split; try easy; intros id H; now left).
    clear -J0 R. revert p J0 R. induction sch as [|m sch IH]; intros p J; cbn [jrun]; [now intros [= <-]|]. destruct (jstep p m) as [p2|] eqn:E; cbn [obind]; [|easy]. apply IH. now apply (joining_step i w p m). }
  destruct J as [(_ & w' & Hw' & T' & B' & I)|G]; [|rewrite M' in G; lia]. destruct p' as [cnt qs ws at_ h]. cbn [mat workers hist] in *. subst at_. clear -Hw' T' B' I.
  assert (S1 : forall ws h v v' ev, nth_error ws i = Some v -> worker_step i v = Some (v', ev) -> jstep (mkP cnt qs ws (FJoin i) h) (W i) = Some (mkP cnt qs (set_nth ws i v') (FJoin i) (ev ++ h)) /\ nth_error (set_nth ws i v') i = Some v').
  { intros ws0 h0 v v' ev Hv Ev. split; [cbn [jstep workers]; rewrite Hv; cbn [obind]; rewrite Ev; reflexivity|now apply (nth_set_eq _ _ v)]. }
  assert (Ge : forall ws h v, nth_error ws i = Some v -> wat v = WExit -> exists p'', jrun (mkP cnt qs ws (FJoin i) h) [MGo] = Some p'' /\ mat p'' = FStore (S i) /\ hist p'' = h).
  { intros ws0 h0 v Hv Ev. eexists. split; [cbn [jrun jstep main_step]; rewrite Hv; cbn [obind]; rewrite Ev; reflexivity|easy]. }
  assert (Gl : forall ws h v, nth_error ws i = Some v -> wst v = TERM -> wat v = WLoad -> exists p'', jrun (mkP cnt qs ws (FJoin i) h) [W i; MGo] = Some p'' /\ mat p'' = FStore (S i) /\ hist p'' = h).
  { intros ws0 h0 v Hv Tv Av. destruct v as [st jb pc]. cbn in Tv, Av. subst st pc. destruct (S1 ws0 h0 _ _ _ Hv eq_refl) as (E & N). destruct (Ge _ ([] ++ h0) _ N eq_refl) as (q & R & X). exists q. cbn [jrun]. rewrite E. exact (conj R X). }
  assert (Gc : forall ws h v, nth_error ws i = Some v -> wst v = TERM -> wat v = WCas \/ wat v = WYield -> exists p'', jrun (mkP cnt qs ws (FJoin i) h) [W i; W i; MGo] = Some p'' /\ mat p'' = FStore (S i) /\ hist p'' = h).
  { intros ws0 h0 v Hv Tv Av. destruct v as [st jb pc]. cbn in Tv, Av. subst st. destruct Av as [-> | ->]; destruct (S1 ws0 h0 _ _ _ Hv eq_refl) as (E & N); destruct (Gl _ ([] ++ h0) _ N eq_refl eq_refl) as (q & R & X); exists q; cbn [jrun]; rewrite E; exact (conj R X). }
  assert (Gr : forall ws h v id, nth_error ws i = Some v -> wst v = TERM -> wat v = WRun id -> exists p'', jrun (mkP cnt qs ws (FJoin i) h) [W i; W i; W i; MGo] = Some p'' /\ mat p'' = FStore (S i) /\ hist p'' = Finish i id :: h).
  { intros ws0 h0 v id Hv Tv Av. destruct v as [st jb pc]. cbn in Tv, Av. subst st pc. destruct (S1 ws0 h0 _ _ _ Hv eq_refl) as (E & N). destruct (Gc _ ([Finish i id] ++ h0) _ N eq_refl (or_introl eq_refl)) as (q & R & X). exists q. cbn [jrun]. rewrite E. exact (conj R X). }
  destruct w' as [st jb pc]. cbn in T', B', I. subst st. destruct pc as [| | |id0| | |].
  - destruct (Gl ws h _ Hw' eq_refl eq_refl) as (q & R & X & Y). exists 1%nat, q. split; [lia|]. split; [exact R|]. split; [exact X|]. intros id H. rewrite Y. destruct (I id H) as [Z0|Z0]; [discriminate Z0|exact Z0].
  - easy.
  - destruct (S1 ws h _ _ _ Hw' eq_refl) as (E & N). destruct (Gr _ ([Start i jb] ++ h) _ jb N eq_refl eq_refl) as (q & R & X & Y). exists 4%nat, q. split; [lia|]. split; [cbn [repeat app jrun]; rewrite E; exact R|]. split; [exact X|].
    intros id H. rewrite Y. destruct (I id H) as [Z0|Z0]; [discriminate Z0|]. right. right. exact Z0.
  - destruct (Gr ws h _ id0 Hw' eq_refl eq_refl) as (q & R & X & Y). exists 3%nat, q. split; [lia|]. split; [exact R|]. split; [exact X|]. intros id H. rewrite Y. destruct (I id H) as [Z0|Z0]; [injection Z0 as ->; now left|now right].
  - destruct (Gc ws h _ Hw' eq_refl (or_introl eq_refl)) as (q & R & X & Y). exists 2%nat, q. split; [lia|]. split; [exact R|]. split; [exact X|]. intros id H. rewrite Y. destruct (I id H) as [Z0|Z0]; [discriminate Z0|exact Z0].
  - destruct (Gc ws h _ Hw' eq_refl (or_intror eq_refl)) as (q & R & X & Y). exists 2%nat, q. split; [lia|]. split; [exact R|]. split; [exact X|]. intros id H. rewrite Y. destruct (I id H) as [Z0|Z0]; [discriminate Z0|exact Z0].
  - destruct (Ge ws h _ Hw' eq_refl) as (q & R & X & Y). exists 0%nat, q. split; [lia|]. split; [exact R|]. split; [exact X|]. intros id H. rewrite Y. destruct (I id H) as [Z0|Z0]; [discriminate Z0|exact Z0].
Qed.
Example C79_ex_waits : exists p w, jrun (jobs_init 1 100) [MEnqueue 5 0; MProcess; MGo; MGo; MGo; MGo; MGo; W 0; W 0; W 0; MFree; MGo] = Some p /\
  mat p = FJoin 0 /\ nth_error (workers p) 0 = Some w /\ wst w = TERM /\ wat w = WRun 5.
Proof. eexists. eexists. split; [vm_compute; reflexivity|easy]. Qed.
Example C79_ex_free : exists p, jrun (jobs_init 2 100) [MDone; MGo; MGo; W 1; MGo; MFree; W 0; MGo; W 0; W 0; MGo; MGo; W 1; W 1; MGo; MGo] = Some p /\ mat p = MFreed.
Proof. eexists. split; [vm_compute; reflexivity|easy]. Qed.
Print Assumptions C60_realtime_never_served.
Print Assumptions C60_starvation_refuted.
Print Assumptions C80_done_reachable.
Print Assumptions C79_free_hangs_refuted.
Print Assumptions C79_free_drops_refuted.
Print Assumptions C79_free_ends_when_idle.
Print Assumptions C79_done_means_idle.
Print Assumptions C79_free_waits_for_job.
