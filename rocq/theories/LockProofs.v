From Verif Require Import Base Lock LockSpec.

Lemma run_app : forall a s b, run s (a ++ b) = match run s a with Next s => run s b | r => r end.
Proof. induction a as [|l a IH]; intros s b; [reflexivity|]. cbn. destruct (step s l); auto. Qed.
Lemma run_snoc : forall s tr l s', run s (tr ++ [l]) = Next s' -> exists s1, run s tr = Next s1 /\ step s1 l = Next s'.
Proof. intros s tr l s' H. rewrite run_app in H. destruct (run s tr) as [| |s1]; [discriminate|discriminate|]. exists s1. split; [reflexivity|]. cbn in H. destruct (step s1 l); congruence. Qed.

(** the lock *)
Lemma holds_snoc : forall tr l t, holds (tr ++ [l]) t <-> gets l t \/ (holds tr t /\ l <> Unlock t).
Proof.
  intros tr l t. split.
  - intros (a & x & b & E & G & N). destruct b as [|y b] using rev_ind.
    + apply app_inj_tail in E. destruct E as [_ ->]. left. exact G.
    + clear IHb. rewrite app_comm_cons, app_assoc in E. apply app_inj_tail in E. destruct E as [E ->]. right. split.
      * exists a, x, b. repeat split; [exact E|exact G|]. intros I. apply N. apply in_or_app. left. exact I.
      * intros ->. apply N. apply in_or_app. right. left. reflexivity.
  - intros [G|[(a & x & b & E & G & N) D]].
    + exists tr, l, []. repeat split; [exact G|intros []].
    + exists a, x, (b ++ [l]). subst tr. rewrite <- app_assoc. repeat split; [exact G|]. intros I. apply in_app_or in I. destruct I as [I|[I|[]]]; auto.
Qed.
Lemma owner_holds : forall tr s, run start tr = Next s -> forall t, holds tr t <-> owner s = Some t.
Proof.
  induction tr as [|l tr IH] using rev_ind; intros s H t.
  - injection H as <-. cbn. split; [intros (a & x & b & E & _); destruct a; discriminate|discriminate].
  - apply run_snoc in H. destruct H as (s1 & R & S). specialize (IH s1 R t). rewrite holds_snoc, IH. clear IH R.
    assert (K : owner s = owner s1 -> (forall u, l <> Lock u) -> (forall u, l <> TryLock u 0) -> (forall u, l <> Unlock u) -> gets l t \/ owner s1 = Some t /\ l <> Unlock t <-> owner s = Some t).
    { intros E A B C. rewrite E. split; [intros [[G|G]|[G _]]; [destruct (A t G)|destruct (B t G)|exact G]|intros G; right; split; [exact G|apply C]]. }
    destruct l as [u|u r|u|u n|u|u|u i|u r]; cbn in S.
    + destruct (busy s1 u); [discriminate|]. destruct (owner s1) eqn:O; [discriminate|]. injection S as <-. cbn. unfold gets. split.
      * intros [[E|E]|[E _]]; congruence.
      * intros E. left. left. congruence.
    + destruct (busy s1 u); [discriminate|]. destruct (owner s1) as [v|] eqn:O.
      * destruct (r =? EBUSY) eqn:E; [|discriminate]. injection S as <-. apply Z.eqb_eq in E. subst r. apply K; [congruence|discriminate| |discriminate]. intros w F. injection F as _ F. discriminate F.
      * destruct (Z.eqb_spec r 0) as [->|]; [|discriminate]. injection S as <-. cbn. unfold gets. split; [intros [[E|E]|[E _]]; congruence|intros E; left; right; congruence].
    + destruct (busy s1 u); [discriminate|]. destruct (owner s1) as [v|] eqn:O; [|discriminate]. destruct (Nat.eqb_spec v u) as [->|]; [|discriminate]. injection S as <-. cbn. unfold gets. split; [intros [[E|E]|[E D]]; congruence|discriminate].
    + destruct (busy s1 u); [discriminate|]. injection S as <-. apply K; [reflexivity|discriminate|discriminate|discriminate].
    + destruct (busy s1 u) as [[c|]|]; [|discriminate|discriminate]. destruct (c =? -2147483648); [discriminate|]. destruct (0 <? c); injection S as <-; apply K; try reflexivity; discriminate.
    + destruct (busy s1 u); [discriminate|]. injection S as <-. apply K; [reflexivity|discriminate|discriminate|discriminate].
    + destruct (busy s1 u) as [[c|]|]; [discriminate| |discriminate]. destruct i; [injection S as <-; apply K; try reflexivity; discriminate|]. destruct (0 <? value s1); [|discriminate]. injection S as <-. apply K; try reflexivity; discriminate.
    + destruct (busy s1 u); [discriminate|]. destruct (0 <? value s1); [destruct (r =? 0); [|discriminate]|destruct (r =? -1); [|discriminate]]; injection S as <-; apply K; try reflexivity; discriminate.
Qed.

(** the semaphore: what is still to be posted by the first [n] threads *)
Definition rest (c : option call) : Z := match c with Some (CPost n) => Z.max 0 n | _ => 0 end.
Fixpoint pending (n : nat) (f : nat -> option call) : Z := match n with O => 0 | S n => rest (f n) + pending n f end.
Lemma rest_nonneg : forall c, 0 <= rest c. Proof. destruct c as [[n|]|]; cbn; lia. Qed.
Lemma pending_nonneg : forall n f, 0 <= pending n f.
Proof. induction n; intros f; cbn; [lia|]. specialize (IHn f). pose proof (rest_nonneg (f n)). lia. Qed.
Lemma pending_above : forall n f t c, (n <= t)%nat -> pending n (set f t c) = pending n f.
Proof. induction n; intros f t c H; cbn; [reflexivity|]. rewrite IHn by lia. unfold set. destruct (Nat.eqb_spec n t); [lia|reflexivity]. Qed.
Lemma pending_set : forall n f t c, (t < n)%nat -> pending n (set f t c) = pending n f - rest (f t) + rest c.
Proof.
  induction n; intros f t c H; [lia|]. cbn. destruct (Nat.eq_dec t n) as [->|D].
  - rewrite pending_above by lia. unfold set. rewrite Nat.eqb_refl. lia.
  - rewrite IHn by lia. unfold set at 1. destruct (Nat.eqb_spec n t); [lia|]. lia.
Qed.
Lemma pending_one : forall n f t, (t < n)%nat -> rest (f t) <= pending n f.
Proof. induction n; intros f t H; [lia|]. cbn. destruct (Nat.eq_dec t n) as [->|D]; [pose proof (pending_nonneg n f); lia|]. specialize (IHn f t ltac:(lia)). pose proof (rest_nonneg (f n)). lia. Qed.
Lemma pending_none : forall n f, (forall t m, f t <> Some (CPost m)) -> pending n f = 0.
Proof. induction n; intros f H; cbn; [reflexivity|]. rewrite IHn by exact H. specialize (H n). destruct (f n) as [[m|]|]; cbn; try lia. destruct (H m eq_refl). Qed.

Definition who (l : label) : nat := match l with Lock t | TryLock t _ | Unlock t | Post t _ | PostRound t | Wait t | WaitRound t _ | TryWait t _ => t end.
Lemma posted_snoc : forall tr l, posted (tr ++ [l]) = posted tr + posted [l].
Proof. induction tr as [|x tr IH]; intros l; [reflexivity|]. specialize (IH l). set (q := posted [l]) in *. clearbody q. cbn [app posted]. destruct x; rewrite IH; lia. Qed.
Lemma taken_snoc : forall tr l, taken (tr ++ [l]) = taken tr + taken [l].
Proof. induction tr as [|x tr IH]; intros l; [reflexivity|]. specialize (IH l). set (q := taken [l]) in *. clearbody q. cbn [app taken]. destruct x as [| | | | | |u []|u r]; rewrite IH; try lia; destruct (r =? 0); lia. Qed.
Lemma posted_nonneg : forall tr, 0 <= posted tr. Proof. induction tr as [|[] tr IH]; cbn; lia. Qed.
Lemma taken_nonneg : forall tr, 0 <= taken tr.
Proof. induction tr as [|x tr IH]; cbn [taken]; [lia|]. destruct x as [| | | | | |u []|u r]; try lia. destruct (r =? 0); lia. Qed.

Lemma units : forall n tr s, run start tr = Next s -> (forall l, In l tr -> (who l < n)%nat) ->
  0 <= value s <= SEM_MAX /\ value s + taken tr + pending n (busy s) <= posted tr /\ (posted tr <= SEM_MAX -> value s + taken tr + pending n (busy s) = posted tr).
Proof.
  intros n. induction tr as [|l tr IH] using rev_ind; intros s H B.
  - injection H as <-. cbn. assert (E : pending n (fun _ => None) = 0) by (apply pending_none; discriminate). rewrite E. unfold SEM_MAX. lia.
  - apply run_snoc in H. destruct H as (s1 & R & S). specialize (IH s1 R (fun l I => B l (in_or_app _ _ _ (or_introl I)))).
    specialize (B l (in_or_app tr [l] l (or_intror (or_introl eq_refl)))). rewrite posted_snoc, taken_snoc. clear R.
    destruct IH as (V & L & E).
    destruct l as [u|u r|u|u c|u|u|u i|u r]; cbn [who posted taken] in *; cbn in S.
    + destruct (busy s1 u); [discriminate|]. destruct (owner s1); [discriminate|]. injection S as <-. cbn [value busy]. lia.
    + destruct (busy s1 u); [discriminate|]. destruct (owner s1); [destruct (r =? EBUSY)|destruct (r =? 0)]; try discriminate; injection S as <-; cbn [value busy]; lia.
    + destruct (busy s1 u); [discriminate|]. destruct (owner s1) as [v|]; [|discriminate]. destruct (Nat.eqb v u); [|discriminate]. injection S as <-. cbn [value busy]. lia.
    + destruct (busy s1 u) eqn:U; [discriminate|]. injection S as <-. cbn [value busy]. rewrite pending_set by exact B. rewrite U. cbn [rest]. pose proof (posted_nonneg tr). lia.
    + destruct (busy s1 u) as [[c|]|] eqn:U; [|discriminate|discriminate]. destruct (c =? -2147483648); [discriminate|]. pose proof (pending_one n (busy s1) u B) as P1. rewrite U in P1. cbn [rest] in P1.
      destruct (Z.ltb_spec 0 c).
      * injection S as <-. cbn [value busy]. rewrite pending_set by exact B. rewrite U. cbn [rest]. pose proof (pending_nonneg n (busy s1)).
        destruct (Z.ltb_spec (value s1) SEM_MAX); [unfold SEM_MAX in *; lia|]. pose proof (taken_nonneg tr). lia.
      * injection S as <-. cbn [value busy]. rewrite pending_set by exact B. rewrite U. cbn [rest]. lia.
    + destruct (busy s1 u) eqn:U; [discriminate|]. injection S as <-. cbn [value busy]. rewrite pending_set by exact B. rewrite U. cbn [rest]. lia.
    + destruct (busy s1 u) as [[c|]|] eqn:U; [discriminate| |discriminate]. destruct i; [injection S as <-; lia|]. destruct (Z.ltb_spec 0 (value s1)); [|discriminate]. injection S as <-. cbn [value busy]. rewrite pending_set by exact B. rewrite U. cbn [rest]. lia.
    + destruct (busy s1 u) eqn:U; [discriminate|]. destruct (Z.ltb_spec 0 (value s1)).
      * destruct (r =? 0); [|discriminate]. injection S as <-. cbn [value busy]. lia.
      * destruct (Z.eqb_spec r (-1)) as [->|]; [|discriminate]. injection S as <-. cbn. lia.
Qed.
Lemma bound : forall tr : list label, exists n, forall l, In l tr -> (who l < n)%nat.
Proof. induction tr as [|x tr [n H]]; [exists O; intros l []|]. exists (Nat.max n (S (who x))). intros l [<-|I]; [lia|]. specialize (H l I). lia. Qed.
