(** C93: threads. *)
From Verif Require Import Base Thread ThreadSpec ThreadProofs.
Open Scope list_scope.

(** ** starting and joining in turns, with or without waiting: every interleaving *)
Theorem C93_join : forall result nw tr s, steps result (init nw) tr s -> turns tr false ->
  stuck s = false /\ owner s = Idle /\ threads s = [] /\ ran s = starts tr /\ thread_is_running s = false /\
  forall l p u, starts tr = l ++ [(p, u)] -> return_value (t s) = result p u.
Proof.
  intros result nw tr s H T. destruct (inv_steps result nw tr s H false T) as [Ok _ (Th & Ow & Ru & _ & Ra & La)]. repeat (split; [easy|]). exact La.
Qed.
Theorem C93_meanwhile : forall result nw tr s, steps result (init nw) tr s -> turns tr true ->
  stuck s = false /\ exists l p u, starts tr = l ++ [(p, u)] /\ proc (t s) = p /\ user_data (t s) = u /\ (ran s = l \/ ran s = starts tr).
Proof.
  intros result nw tr s H T. destruct (inv_steps result nw tr s H true T) as [Ok _ (id & w & prev & p & u & Th & Ha & L & P & U & Ru & Se & Ea & W)].
  split; [easy|]. exists prev, p, u. repeat (split; [easy|]). destruct w; tauto.
Qed.
(** with zpl_thread_init: once zpl_thread_start has returned, the thread is not running only if the
    procedure has returned and its value is there *)
Theorem C93_running : forall result tr s, steps result (init false) tr s -> turns tr true -> owner s = Idle -> thread_is_running s = false ->
  ran s = starts tr /\ forall l p u, starts tr = l ++ [(p, u)] -> return_value (t s) = result p u.
Proof.
  intros result tr s H T Ow R. destruct (inv_steps result false tr s H true T) as [Ok _ (id & w & prev & p & u & Th & Ha & L & P & U & Ru & Se & Ea & W)].
  unfold thread_is_running in R. rewrite R in Ru. rewrite Ow in Ea. destruct w; try discriminate Ru.
  - exfalso. apply Ea; [easy|discriminate|now left].
  - destruct W as (W & Ra). split; [easy|]. intros l q v E. rewrite L in E. apply app_inj_tail in E. destruct E as (_ & [= <- <-]). exact W.
Qed.
(** zpl_thread_start and zpl_thread_join always return: a step is left, and only finitely many are *)
Definition left_ (w : where_) : nat := match w with Created => 6 | Flagged => 5 | Released => 4 | Called _ => 3 | Left _ => 2 | Stored => 1 | Finished => 0 end.
Definition measure (s : state) : nat := (match owner s with Idle => 0 | _ => 1 end + fold_right (fun x n => S (left_ (snd x)) + n) 0 (threads s))%nat.
Lemma fold_mid a b id w w' : (left_ w' < left_ w)%nat ->
  (fold_right (fun x n => S (left_ (snd x)) + n) 0 (a ++ (id : nat, w') :: b) < fold_right (fun x n => S (left_ (snd x)) + n) 0 (a ++ (id, w) :: b))%nat.
Proof. intros H. induction a as [|x a IH]; cbn [app fold_right snd]; lia. Qed.
Lemma fold_drop a b id w : (fold_right (fun x n => S (left_ (snd x)) + n) 0 (a ++ b) < fold_right (fun x n => S (left_ (snd x)) + n) 0 (a ++ (id : nat, w) :: b))%nat.
Proof. induction a as [|x a IH]; cbn [app fold_right snd]; lia. Qed.
Theorem C93_returns : forall result, (exists m : state -> nat, forall s l s', step result s l s' -> internal l -> (m s' < m s)%nat) /\
  forall nw tr s b, steps result (init nw) tr s -> turns tr b -> owner s <> Idle -> exists l s', internal l /\ step result s l s'.
Proof.
  intros result. split.
  - exists measure. intros s l s' H I. unfold measure. inversion H; subst; try easy; cbn [owner threads with_owner with_t].
    + rewrite H0. lia.
    + rewrite H0. lia.
    + rewrite H0, H2. pose proof (fold_drop a b id Finished). lia.
    + rewrite H0. assert (L : (left_ w' < left_ w)%nat) by (destruct w; try discriminate H1; injection H1 as <- <- <-; cbn; lia). pose proof (fold_mid a b id w w' L). lia.
  - intros nw tr s b H T O. destruct (inv_steps result nw tr s H b T) as [Ok Nw Out]. destruct b; [|now destruct Out as (_ & Ow & _)].
    destruct Out as (id & w & prev & p & u & Th & Ha & L & P & U & Ru & Se & Ea & W).
    assert (D : (exists v, work result (t s) w (ran s) = Some v) \/ w = Finished) by (destruct w; first [now right|left; eexists; reflexivity]).
    destruct D as [(((x, w'), r) & Wk)| ->].
    + exists Work. eexists. split; [easy|]. now apply (step_work result s id w x w' r [] []).
    + destruct (owner s) eqn:Ow; [easy| |].
      * exists (Started 1). destruct nw; [eexists; split; [easy|]; now apply step_started_nowait|]. eexists. split; [easy|]. now apply (step_started result s 0).
      * exists Joined. eexists. split; [easy|]. now apply (step_joined result s id [] []).
Qed.
(** executions by computation: the owner's part and the number of the thread that goes on *)
Definition exec (result : Z -> Z -> Z) (s : state) (l : label) (k : nat) : option state :=
  match l with
  | Start p u => match owner s, is_running (t s) with
    | Idle, false => Some (State (Thread (Some (next s)) p u (return_value (t s)) (semaphore (t s)) (is_running (t s)) (nowait (t s)))
           (threads s ++ [(next s, Created)]) Starting (S (next s)) (ran s) (stuck s))
    | _, _ => None end
  | Started 1 => match owner s, nowait (t s), semaphore (t s) with
    | Starting, true, _ => Some (with_owner s Idle)
    | Starting, false, S n => Some (with_owner (with_t s (Thread (handle (t s)) (proc (t s)) (user_data (t s)) (return_value (t s)) n (is_running (t s)) (nowait (t s)))) Idle)
    | _, _, _ => None end
  | Join => match owner s, handle (t s), threads s with Idle, Some id, [(id', _)] => if Nat.eq_dec id' id then Some (with_owner s Joining) else None | _, _, _ => None end
  | Joined => match owner s, handle (t s), threads s with
    | Joining, Some id, [(id', Finished)] =>
      if Nat.eq_dec id' id then Some (State (Thread None (proc (t s)) (user_data (t s)) (return_value (t s)) (semaphore (t s)) (is_running (t s)) (nowait (t s))) [] Idle (next s) (ran s) (stuck s)) else None
    | _, _, _ => None end
  | Work => match nth_error (threads s) k with
    | Some (id, w) => match work result (t s) w (ran s) with
      | Some (x, w', r) => Some (State x (firstn k (threads s) ++ (id, w') :: skipn (S k) (threads s)) (owner s) (next s) r (stuck s))
      | None => None end
    | None => None end
  | _ => None
  end.
Lemma exec_step result s l k s' : exec result s l k = Some s' -> step result s l s'.
Proof.
  destruct l as [p u|r|p u e h| | |]; cbn [exec]; intros H; try discriminate.
  - destruct (owner s) eqn:O; try discriminate. destruct (is_running (t s)) eqn:R; [discriminate|]. injection H as <-. rewrite <- R. now apply step_start.
  - destruct (Z.eq_dec r 1) as [->|N]; [|exfalso; destruct r as [|[r|r|]|r]; try discriminate; now apply N].
    destruct (owner s) eqn:O; try discriminate. destruct (nowait (t s)) eqn:W; [injection H as <-; now apply step_started_nowait|].
    destruct (semaphore (t s)) as [|n] eqn:E; [discriminate|]. injection H as <-. rewrite <- W. now apply step_started.
  - destruct (owner s) eqn:O; try discriminate. destruct (handle (t s)) as [id|] eqn:Ha; [|discriminate]. destruct (threads s) as [|(id', w) [|]] eqn:Th; try discriminate.
    destruct (Nat.eq_dec id' id) as [->|]; [|discriminate]. injection H as <-. apply (step_join result s id w O Ha). rewrite Th. now left.
  - destruct (owner s) eqn:O; try discriminate. destruct (handle (t s)) as [id|] eqn:Ha; [|discriminate]. destruct (threads s) as [|(id', w) [|]] eqn:Th; try discriminate; destruct w; try discriminate.
    destruct (Nat.eq_dec id' id) as [->|]; [|discriminate]. injection H as <-. now apply (step_joined result s id [] []).
  - destruct (nth_error (threads s) k) as [(id, w)|] eqn:E; [|discriminate]. destruct (work result (t s) w (ran s)) as [((x, w'), r)|] eqn:W; [|discriminate]. injection H as <-.
    apply (step_work result s id w x w' r (firstn k (threads s)) (skipn (S k) (threads s))); [|exact W].
    apply nth_error_split in E. destruct E as (a & b & -> & <-). rewrite firstn_app, Nat.sub_diag, firstn_all. cbn [firstn]. rewrite app_nil_r. f_equal. f_equal.
    rewrite skipn_app, skipn_all2 by lia. replace (S (length a) - length a)%nat with 1%nat by lia. easy.
Qed.
Fixpoint run (result : Z -> Z -> Z) (s : state) (tr : list (label * nat)) : option state :=
  match tr with [] => Some s | (l, k) :: r => match exec result s l k with Some s => run result s r | None => None end end.
Lemma run_steps result s0 : forall tr s pre s', steps result s0 pre s -> run result s tr = Some s' -> steps result s0 (pre ++ map fst tr) s'.
Proof.
  induction tr as [|(l, k) tr IH]; cbn [run map]; intros s pre s' P R; [injection R as <-; now rewrite app_nil_r|].
  destruct (exec result s l k) as [s1|] eqn:E; [|discriminate]. change (fst (l, k)) with l. change (l :: map fst tr) with ([l] ++ map fst tr). rewrite app_assoc.
  apply (IH s1); [|exact R]. apply steps_snoc with s; [exact P|]. now apply (exec_step result s l k).
Qed.
Lemma run_ok result nw tr s : run result (init nw) tr = Some s -> steps result (init nw) (map fst tr) s.
Proof. apply (run_steps result (init nw) tr (init nw) []). constructor. Qed.
Ltac witness result nw tr :=
  exists (map fst tr); let r := eval vm_compute in (run result (init nw) tr) in match r with Some ?s => exists s end; split; [apply run_ok; vm_compute; reflexivity|].
Definition w0 : label * nat := (Work, O).
Definition w1 : label * nat := (Work, 1%nat).
(** an execution that is as required *)
Example C93_example : forall result, exists tr s, steps result (init false) tr s /\ turns tr false /\ starts tr = [(7, 8)] /\ return_value (t s) = result 7 8.
Proof.
  intros result. witness result false [(Start 7 8, O); w0; w0; (Started 1, O); w0; (Join, O); w0; w0; w0; (Joined, O)].
  split; [|split; reflexivity].
  apply (turns_joined [Start 7 8; Work; Work; Started 1; Work; Join; Work; Work; Work]), (turns_work [Start 7 8; Work; Work; Started 1; Work; Join; Work; Work]), (turns_work [Start 7 8; Work; Work; Started 1; Work; Join; Work]),
    (turns_work [Start 7 8; Work; Work; Started 1; Work; Join]), (turns_join [Start 7 8; Work; Work; Started 1; Work]), (turns_work [Start 7 8; Work; Work; Started 1]), (turns_started [Start 7 8; Work; Work]),
    (turns_work [Start 7 8; Work]), (turns_work [Start 7 8]), (turns_start []), turns_nil.
Qed.

(** ** what cannot be relied on *)
(** zpl_thread_start returns something other than 0 also if it fails; 1 may be an error or success *)
Theorem C93_start_result_refuted : forall result s p u e h s', step result s (Failed p u e h) s' -> e <> 0 /\ owner s' = Idle /\ threads s' = threads s.
Proof. intros result s p u e h s' H. inversion H; subst. easy. Qed.
(** starting a thread that is seen running fails an assertion, every time *)
Theorem C93_start_running : forall result s p u l s', owner s = Idle -> thread_is_running s = true -> l = Start p u \/ (exists e h, l = Failed p u e h) -> step result s l s' -> l = Start p u /\ stuck s' = true.
Proof.
  intros result s p u l s' O R L H. unfold thread_is_running in R. destruct L as [->|(e & h & ->)]; (inversion H; subst; [congruence||easy..]); easy.
Qed.
(** after a failed start the handle may be anything: joining is defined only if it is that of a thread not joined yet *)
Theorem C93_failed_join_refuted : forall result s p u e h, owner s = Idle -> thread_is_running s = false -> e <> 0 -> stuck s = false ->
  exists s', step result s (Failed p u e h) s' /\ proc (t s') = p /\ user_data (t s') = u /\
    ((forall i w, h = Some i -> ~ In (i, w) (threads s)) -> forall s'', step result s' Join s'' -> stuck s'' = true) /\
    (forall i w, h = Some i -> In (i, w) (threads s) -> exists s'', step result s' Join s'' /\ stuck s'' = false).
Proof.
  intros result s p u e h O R E K. eexists. split; [now apply step_failed|]. split; [reflexivity|]. split; [reflexivity|]. split.
  - intros N s'' H. inversion H as [| | | | |? i w OI HI I| | |]; subst; [|reflexivity]. cbn in HI. exfalso. exact (N i w HI I).
  - intros i w HI I. eexists. split; [apply (step_join result _ i w); [exact O|exact HI|exact I]|]. exact K.
Qed.
(** with zpl_thread_init_nowait, a thread that has been started may look as if it was not running *)
Theorem C93_nowait_running_refuted : forall result, exists tr s, steps result (init true) tr s /\ turns tr true /\ owner s = Idle /\ thread_is_running s = false /\ ran s = [] /\ starts tr <> [].
Proof.
  intros result. witness result true [(Start 7 8, O); (Started 1, O)].
  split; [apply (turns_started [Start 7 8]), (turns_start []), turns_nil|]. repeat (split; [reflexivity|]). discriminate.
Qed.
(** started twice without joining: no assertion fails, one procedure runs twice and the other never,
    and one of the two threads can no longer be joined *)
Theorem C93_nowait_twice_refuted : forall result, exists tr s, steps result (init true) tr s /\ starts tr = [(1, 2); (3, 4)] /\ stuck s = false /\
  ran s = [(3, 4); (3, 4)] /\ handle (t s) = Some 1%nat /\ threads s = [(0%nat, Finished); (1%nat, Finished)].
Proof.
  intros result. witness result true [(Start 1 2, O); (Started 1, O); (Start 3 4, O); (Started 1, O); w0; w0; w0; w0; w0; w0; w1; w1; w1; w1; w1; w1].
  repeat split; reflexivity.
Qed.
(** started again when the procedure has returned, but without joining: a thread is lost *)
Theorem C93_twice_refuted : forall result, exists tr s, steps result (init false) tr s /\ starts tr = [(1, 2); (3, 4)] /\ stuck s = false /\ owner s = Idle /\
  ran s = [(1, 2)] /\ handle (t s) = Some 1%nat /\ threads s = [(0%nat, Finished); (1%nat, Released)].
Proof.
  intros result. witness result false [(Start 1 2, O); w0; w0; (Started 1, O); w0; w0; w0; w0; (Start 3 4, O); w1; w1; (Started 1, O)].
  repeat split; reflexivity.
Qed.

Print Assumptions C93_join.
Print Assumptions C93_meanwhile.
Print Assumptions C93_running.
Print Assumptions C93_returns.
Print Assumptions C93_start_result_refuted.
Print Assumptions C93_nowait_running_refuted.
Print Assumptions C93_nowait_twice_refuted.
Print Assumptions C93_twice_refuted.
Print Assumptions C93_start_running.
Print Assumptions C93_failed_join_refuted.
