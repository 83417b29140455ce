(** C117: mutexes and semaphores. *)
From Verif Require Import Base Lock LockSpec LockProofs.

(** ** The mutex *)
(** whatever the threads do, at most one holds the lock at any time *)
Theorem C117_exclusion : forall tr s, run start tr = Next s -> forall t u, holds tr t -> holds tr u -> t = u.
Proof. intros tr s H t u A B. apply (owner_holds tr s H) in A. apply (owner_holds tr s H) in B. congruence. Qed.
(** a thread gets the lock exactly if nobody holds it; the holder itself waits for ever *)
Theorem C117_lock : forall tr s t, run start tr = Next s -> busy s t = None ->
  ((exists s', run start (tr ++ [Lock t]) = Next s') <-> forall u, ~ holds tr u) /\ (holds tr t -> run start (tr ++ [Lock t]) = Blocked).
Proof.
  intros tr s t H I. rewrite run_app, H. cbn. rewrite I. pose proof (owner_holds tr s H) as O. destruct (owner s) as [v|].
  - split; [|reflexivity]. split; [intros [s' F]; discriminate|]. intros F. destruct (F v). apply O. reflexivity.
  - split; [|intros F; apply O in F; discriminate]. split; [intros _ u F; apply O in F; discriminate|]. intros _. eexists. reflexivity.
Qed.
(** zpl_mutex_try_lock always returns: 0 and the lock if nobody held it, a positive number otherwise *)
Theorem C117_try_lock : forall tr s t, run start tr = Next s -> busy s t = None ->
  (exists r s', run start (tr ++ [TryLock t r]) = Next s') /\
  forall r s', run start (tr ++ [TryLock t r]) = Next s' -> 0 <= r /\ (r = 0 <-> forall u, ~ holds tr u) /\ (r = 0 <-> holds (tr ++ [TryLock t r]) t /\ ~ holds tr t).
Proof.
  intros tr s t H I. pose proof (owner_holds tr s H) as O. split.
  - destruct (owner s) as [v|] eqn:E; [exists EBUSY|exists 0]; rewrite run_app, H; cbn; rewrite I, E; eexists; reflexivity.
  - intros r s' F. rewrite holds_snoc. rewrite run_app, H in F. cbn in F. rewrite I in F. destruct (owner s) as [v|].
    + destruct (Z.eqb_spec r EBUSY) as [->|]; [|discriminate]. split; [unfold EBUSY; lia|]. split; [split; [discriminate|]|].
      * intros G. destruct (G v). apply O. reflexivity.
      * split; [discriminate|]. intros [[[G|G]|[G _]] N]; [discriminate|discriminate|destruct (N G)].
    + destruct (Z.eqb_spec r 0) as [->|]; [|discriminate]. split; [lia|]. split; (split; [intros _|reflexivity]).
      * intros u G. apply O in G. discriminate.
      * split; [left; right; reflexivity|]. intros G. apply O in G. discriminate.
Qed.
(** so as a truth value, which is what its type says, the result is the wrong way round: who is told [true] does not have the lock (here
    somebody else has), who has got it is told [false]; zpl_mutex_init reports success as [false] as well *)
Theorem C117_try_lock_refuted : mutex_init = 0 /\ 
  (forall tr s t r s', run start tr = Next s -> run start (tr ++ [TryLock t r]) = Next s' -> r <> 0 -> exists u, holds tr u) /\
  (exists s, run start [Lock 0; TryLock 1 EBUSY] = Next s /\ EBUSY <> 0 /\ holds [Lock 0; TryLock 1 EBUSY] 0 /\ ~ holds [Lock 0; TryLock 1 EBUSY] 1) /\
  exists s, run start [TryLock 0 0] = Next s /\ holds [TryLock 0 0] 0.
Proof.
  split; [reflexivity|]. split.
  - intros tr s t r s' H F N. pose proof (owner_holds tr s H) as O. rewrite run_app, H in F. cbn in F. destruct (busy s t); [discriminate|]. destruct (owner s) as [v|]; [exists v; apply O; reflexivity|]. destruct (Z.eqb_spec r 0); [contradiction|discriminate].
  - split.
    + eexists. split; [reflexivity|]. split; [discriminate|]. rewrite !(owner_holds [Lock 0; TryLock 1 EBUSY] _ eq_refl). split; [reflexivity|discriminate].
    + eexists. split; [reflexivity|]. apply (owner_holds [TryLock 0 0] _ eq_refl). reflexivity.
Qed.
(** only the holder may unlock, and afterwards nobody holds the lock *)
Theorem C117_unlock : forall tr s t, run start tr = Next s -> busy s t = None ->
  (holds tr t -> exists s', run start (tr ++ [Unlock t]) = Next s' /\ forall u, ~ holds (tr ++ [Unlock t]) u) /\ (~ holds tr t -> run start (tr ++ [Unlock t]) = Undefined).
Proof.
  intros tr s t H I. pose proof (owner_holds tr s H) as O. split; intros G.
  - apply O in G. assert (R : run start (tr ++ [Unlock t]) = Next (Sys None (value s) (busy s))) by (rewrite run_app, H; cbn; rewrite I, G, Nat.eqb_refl; reflexivity).
    eexists. split; [exact R|]. intros u F. apply (owner_holds _ _ R) in F. discriminate.
  - rewrite run_app, H. cbn. rewrite I. destruct (owner s) as [v|]; [|reflexivity]. destruct (Nat.eqb_spec v t) as [->|]; [|reflexivity]. destruct G. apply O. reflexivity.
Qed.

(** ** The semaphore *)
(** never more waits come back with a unit than units were posted *)
Theorem C117_semaphore_safe : forall tr s, run start tr = Next s -> taken tr <= posted tr.
Proof. intros tr s H. destruct (bound tr) as [n B]. destruct (units n tr s H B) as (V & L & _). pose proof (pending_nonneg n (busy s)). lia. Qed.
(** up to 2^31 - 1 units none is lost: once the posts have returned, a waiting thread goes on exactly if fewer units were taken than posted,
    and zpl_semaphore_trywait returns 0 exactly then, otherwise -1 *)
Theorem C117_semaphore : forall tr s, run start tr = Next s -> posted tr <= 2^31 - 1 -> ~ posting s ->
  (forall t, in_wait s t -> (exists s', run start (tr ++ [WaitRound t false]) = Next s') <-> taken tr < posted tr) /\
  forall t, busy s t = None -> forall r, (exists s', run start (tr ++ [TryWait t r]) = Next s') <-> (taken tr < posted tr /\ r = 0) \/ (taken tr = posted tr /\ r = -1).
Proof.
  intros tr s H P N. destruct (bound tr) as [n B]. destruct (units n tr s H B) as (V & _ & E). specialize (E P).
  assert (Z0 : pending n (busy s) = 0) by (apply pending_none; intros t m F; apply N; exists t, m; exact F).
  split; intros t I.
  - rewrite run_app, H. cbn. unfold in_wait in I. rewrite I. destruct (Z.ltb_spec 0 (value s)).
    + split; [lia|]. intros _. eexists. reflexivity.
    + split; [intros [s' F]; discriminate|]. lia.
  - intros r. rewrite run_app, H. cbn. rewrite I. destruct (Z.ltb_spec 0 (value s)).
    + destruct (Z.eqb_spec r 0) as [->|D]; [split; [left; lia|intros _; eexists; reflexivity]|]. split; [intros [s' F]; discriminate|]. intros [[_ F]|[F _]]; [contradiction|lia].
    + destruct (Z.eqb_spec r (-1)) as [->|D]; [split; [right; lia|intros _; eexists; reflexivity]|]. split; [intros [s' F]; discriminate|]. intros [[F _]|[_ F]]; [lia|contradiction].
Qed.
(** signals do not end a wait, and change nothing *)
Theorem C117_signals : forall tr s t, run start tr = Next s -> in_wait s t -> run start (tr ++ [WaitRound t true]) = Next s.
Proof. intros tr s t H I. rewrite run_app, H. cbn. unfold in_wait in I. rewrite I. reflexivity. Qed.

(** one thread posting without the others in between *)
Lemma post_alone : forall t k s n, busy s t = Some (CPost n) -> 0 <= value s <= SEM_MAX -> - 2^31 < n -> Z.of_nat k <= Z.max 0 n ->
  exists f, run s (repeat (PostRound t) k) = Next (Sys (owner s) (Z.min SEM_MAX (value s + Z.of_nat k)) f) /\ f t = Some (CPost (n - Z.of_nat k)) /\ forall u, u <> t -> f u = busy s u.
Proof.
  induction k as [|k IH]; intros s n U V M K.
  - exists (busy s). rewrite Z.add_0_r, Z.min_r by lia. rewrite Z.sub_0_r. destruct s. split; [reflexivity|]. split; [exact U|reflexivity].
  - cbn [repeat run]. unfold step. rewrite U. destruct (Z.eqb_spec n (- 2 ^ 31)); [lia|]. destruct (Z.ltb_spec 0 n); [|lia].
    set (s1 := Sys _ _ _). destruct (IH s1 (n - 1)) as (f & R & F & G); [unfold s1, set; cbn; rewrite Nat.eqb_refl; reflexivity|unfold s1; cbn [value]; destruct (Z.ltb_spec (value s) SEM_MAX); lia|unfold SEM_MAX in *; lia|lia|].
    exists f. split; [rewrite R; unfold s1; cbn [value owner]; f_equal; f_equal; destruct (Z.ltb_spec (value s) SEM_MAX); unfold SEM_MAX in *; lia|]. split; [rewrite F; f_equal; f_equal; lia|].
    intros u D. rewrite G by exact D. unfold s1, set. cbn. destruct (Nat.eqb_spec u t); [contradiction|reflexivity].
Qed.
(** a post of [n] units, alone, returns and adds the units as far as there is room; nothing is added for a count below one *)
Theorem C117_post : forall s t n, busy s t = None -> 0 <= value s <= SEM_MAX -> - 2^31 < n < 2^31 ->
  exists f, run s (Post t n :: repeat (PostRound t) (Z.to_nat n) ++ [PostRound t]) = Next (Sys (owner s) (Z.min (2^31 - 1) (value s + Z.max 0 n)) f) /\ forall u, f u = busy s u.
Proof.
  intros s t n I V N. cbn [run]. unfold step at 1. rewrite I. set (s1 := Sys _ _ _). rewrite run_app.
  destruct (post_alone t (Z.to_nat n) s1 n) as (f & R & F & G); [unfold s1, set; cbn; rewrite Nat.eqb_refl; reflexivity|exact V|lia|lia|].
  rewrite R. cbn [run]. unfold step. cbn [busy]. rewrite F. destruct (Z.eqb_spec (n - Z.of_nat (Z.to_nat n)) (- 2 ^ 31)); [lia|]. destruct (Z.ltb_spec 0 (n - Z.of_nat (Z.to_nat n))); [lia|]. cbn [owner value].
  eexists. split; [f_equal; f_equal; unfold s1; cbn [value owner]; unfold SEM_MAX; lia|]. intros u. unfold set. destruct (Nat.eqb_spec u t) as [->|D]; [symmetry; exact I|]. rewrite G by exact D. unfold s1, set. cbn. destruct (Nat.eqb_spec u t); [contradiction|reflexivity].
Qed.
Lemma posts_nothing : forall t k l, posted (repeat (PostRound t) k ++ l) = posted l. Proof. intros t k l. induction k; [reflexivity|exact IHk]. Qed.
Lemma takes_nothing : forall t k l, taken (repeat (PostRound t) k ++ l) = taken l. Proof. intros t k l. induction k; [reflexivity|exact IHk]. Qed.
Lemma fill : forall m, m = 2^31 - 1 -> exists tr s, run start tr = Next s /\ ~ posting s /\ posted tr = m + 1 /\ taken tr = 0 /\ value s = m.
Proof.
  intros m M. destruct (C117_post start 0 m) as (f & R & F); [reflexivity|cbn; unfold SEM_MAX; lia|lia|].
  set (v := Z.min (2 ^ 31 - 1) (value start + Z.max 0 m)) in *. assert (V : v = m) by (unfold v; cbn [value start]; lia). clearbody v.
  destruct (C117_post (Sys (owner start) v f) 0 1) as (g & Q & G); [cbn; apply F|cbn [value]; unfold SEM_MAX; lia|lia|]. cbn [value busy owner start] in *.
  exists ((Post 0 m :: repeat (PostRound 0) (Z.to_nat m) ++ [PostRound 0]) ++ (Post 0 1 :: repeat (PostRound 0) (Z.to_nat 1) ++ [PostRound 0])). eexists.
  split; [rewrite run_app, R; exact Q|]. cbn [value busy].
  split; [intros (t & n & E); cbn [busy] in E; rewrite G, F in E; discriminate|].
  split; [cbn [app posted]; rewrite <- app_assoc, posts_nothing; cbn [app posted]; rewrite posts_nothing; cbn [posted]; lia|].
  split; [cbn [app taken]; rewrite <- app_assoc, takes_nothing; cbn [app taken]; rewrite takes_nothing; reflexivity|]. lia.
Qed.
(** beyond 2^31 - 1 units are lost without a word; for the least count the decrement overflows *)
Theorem C117_post_refuted :
  (exists tr s, run start tr = Next s /\ ~ posting s /\ posted tr = 2^31 /\ taken tr = 0 /\ value s = 2^31 - 1) /\
  forall s t, busy s t = None -> run s [Post t (- 2^31); PostRound t] = Undefined.
Proof.
  split.
  - apply (fill (2^31 - 1) eq_refl).
  - intros s t I. cbn [run]. unfold step. rewrite I. cbn [busy]. unfold set. rewrite Nat.eqb_refl, Z.eqb_refl. reflexivity.
Qed.

(** two threads wait, a third posts two units while one of them is interrupted and a fourth tries; the lock passes from one thread to another *)
Example C117_ex : exists s, run start [Wait 0; Wait 1; Lock 2; TryLock 3 EBUSY; Post 2 2; WaitRound 0 true; PostRound 2; WaitRound 1 false; TryWait 3 (-1); PostRound 2; PostRound 2; WaitRound 0 false; Unlock 2; TryLock 3 0] = Next s /\
  owner s = Some 3%nat /\ value s = 0 /\ ~ posting s.
Proof.
  eexists. split; [reflexivity|]. split; [reflexivity|]. split; [reflexivity|]. intros (t & n & E). cbn in E. unfold set in E. repeat (match type of E with context [Nat.eqb ?a ?b] => destruct (Nat.eqb a b) end; try discriminate).
Qed.
Print Assumptions C117_exclusion.
Print Assumptions C117_lock.
Print Assumptions C117_try_lock.
Print Assumptions C117_try_lock_refuted.
Print Assumptions C117_unlock.
Print Assumptions C117_semaphore_safe.
Print Assumptions C117_semaphore.
Print Assumptions C117_signals.
Print Assumptions C117_post.
Print Assumptions C117_post_refuted.
