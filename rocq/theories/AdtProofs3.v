(** Each call on the memory is the call on the tree: insertion, removal and setting. *)
From Verif Require Import Base CStr Array ArraySpec ArrayProofs ArrayProofs2 Adt AdtSpec AdtProofs AdtProofs2.
Local Notation rep := (@ArrayProofs.rep node).

(** * Paths *)
Lemma nth_replace {A} (l : list A) i x z : nth_error l i = Some z -> nth_error (replace_nth l i x) i = Some x.
Proof. intros N. destruct (nth_split l i z N) as (_ & L). unfold replace_nth. replace i with (length (firstn i l)) at 3 by easy. rewrite nth_error_app2 by lia. now rewrite L, Nat.sub_diag. Qed.
Lemma len_replace {A} (l : list A) i x z : nth_error l i = Some z -> length (replace_nth l i x) = length l.
Proof. intros N. destruct (nth_split l i z N) as (E & _). rewrite E at 2. unfold replace_nth. rewrite !app_length. easy. Qed.
Lemma nth_replace_ne {A} (l : list A) i j x z : nth_error l i = Some z -> i <> j -> nth_error (replace_nth l i x) j = nth_error l j.
Proof.
  intros N H. destruct (nth_split l i z N) as (E & L). rewrite E at 2. unfold replace_nth. destruct (Nat.lt_ge_cases j i); [rewrite !nth_error_app1 by lia; easy|]. rewrite !nth_error_app2 by lia. rewrite L. destruct (j - i)%nat eqn:D; [lia|easy].
Qed.
Lemma pget_set path : forall t x t', pset t path x = Some t' -> pget t' path = Some x.
Proof.
  induction path as [|i r IH]; intros t x t' H; [cbn in H; injection H as ->; easy|]. destruct t as [| |nm k b ts]; try easy. cbn [pset pget] in *. destruct (nth_error ts i) as [c|] eqn:N; [|easy]. cbn [obind] in H.
  destruct (pset c r x) as [c'|] eqn:P; [|easy]. cbn [obind] in H. assert (E : t' = PBranch nm k b (replace_nth ts i c')) by congruence. subst t'. cbn [pget].
  rewrite (nth_replace ts i c' c N). cbn [obind]. eauto.
Qed.
Lemma pset_get path : forall t x t', pset t path x = Some t' -> exists y, pget t path = Some y.
Proof.
  induction path as [|i r IH]; intros t x t' H; [cbn; eauto|]. destruct t as [| |nm k b ts]; try easy. cbn [pset pget] in *. destruct (nth_error ts i) as [c|] eqn:N; [|easy]. cbn [obind] in *. destruct (pset c r x) eqn:P; [|easy]. eauto.
Qed.
Lemma replace_replace {A} (l : list A) i x y z : nth_error l i = Some z -> replace_nth (replace_nth l i x) i y = replace_nth l i y.
Proof. intros N. destruct (nth_split l i z N) as (_ & L). unfold replace_nth at 2 3. replace (replace_nth (firstn i l ++ x :: skipn (S i) l) i y) with (replace_nth (firstn i l ++ x :: skipn (S i) l) (length (firstn i l)) y) by (now rewrite L). apply replace_app. Qed.
Lemma pset_pset path : forall t x y t1, pset t path x = Some t1 -> pset t1 path y = pset t path y.
Proof.
  induction path as [|i r IH]; intros t x y t1 H; [easy|]. destruct t as [| |nm k b ts]; try easy. cbn [pset] in *. destruct (nth_error ts i) as [c|] eqn:N; [|easy]. cbn [obind] in *.
  destruct (pset c r x) as [c'|] eqn:P; [|easy]. cbn [obind] in H. assert (E : t1 = PBranch nm k b (replace_nth ts i c')) by congruence. subst t1. cbn [pset].
  rewrite (nth_replace ts i c' c N). cbn [obind]. rewrite (IH _ _ y _ P). destruct (pset c r y); [|easy]. cbn [obind]. now rewrite (replace_replace _ _ _ _ c).
Qed.
Lemma pget_app p : forall t q, pget t (p ++ q) = (c <- pget t p ;; pget c q).
Proof. induction p as [|i r IH]; intros t q; [easy|]. destruct t as [| |nm k b ts]; try easy. cbn [pget app]. destruct (nth_error ts i); [|easy]. cbn [obind]. apply IH. Qed.
Lemma pset_app p : forall t q y, pset t (p ++ q) y = (c <- pget t p ;; c <- pset c q y ;; pset t p c).
Proof.
  induction p as [|i r IH]; intros t q y; [cbn; destruct (pset t q y); easy|]. destruct t as [| |nm k b ts]; try easy. cbn [pget pset app]. destruct (nth_error ts i) as [c|]; [|easy]. cbn [obind]. rewrite IH. destruct (pget c r) as [d|]; [|easy]. cbn [obind]. destruct (pset d q y); easy.
Qed.
Lemma pset_self p : forall t x, pget t p = Some x -> pset t p x = Some t.
Proof.
  induction p as [|i r IH]; intros t x H; [cbn in *; congruence|]. destruct t as [| |nm k b ts]; try easy. cbn [pget pset] in *. destruct (nth_error ts i) as [c|] eqn:N; [|easy]. cbn [obind] in *. rewrite (IH c x H). cbn [obind]. now rewrite (replace_same _ _ _ N).
Qed.
Lemma pptr_set path : forall i t x t', pset t (i :: path) x = Some t' -> pptr t' i path = pptr t i path.
Proof.
  induction path as [|j r IH]; intros i t x t' H; destruct t as [| |nm k b ts]; try easy.
  - cbn [pset] in H. destruct (nth_error ts i) as [c|] eqn:N; [|easy]. cbn [obind] in H. assert (E : t' = PBranch nm k b (replace_nth ts i x)) by congruence. subst t'. cbn [pptr].
    now rewrite (len_replace ts i x c N).
  - remember (j :: r) as jr. cbn [pset] in H. destruct (nth_error ts i) as [c|] eqn:N; [|easy]. cbn [obind] in H. destruct (pset c jr x) as [c'|] eqn:P; [|easy]. cbn [obind] in H.
    assert (E : t' = PBranch nm k b (replace_nth ts i c')) by congruence. subst t' jr. cbn [pptr]. rewrite N.
    rewrite (nth_replace ts i c' c N). cbn [obind]. eauto.
Qed.
Lemma pptr_app p : forall i t j, pptr t i (p ++ [j]) = (c <- pget t (i :: p) ;; match c with PBranch _ _ b ts => if (j <? length ts)%nat then Some (b, Z.of_nat j) else None | _ => None end).
Proof.
  induction p as [|k0 r IH]; intros i t j; destruct t as [| |nm k b ts]; try easy.
  - cbn [app pptr pget]. destruct (nth_error ts i) as [c|]; [|easy]. cbn [obind]. destruct c; easy.
  - cbn [app pptr]. remember (k0 :: r) as kr. cbn [pget]. destruct (nth_error ts i) as [c|]; [|easy]. cbn [obind]. subst kr. apply IH.
Qed.
(** at the root *)
Lemma rptr_set m m' t t' path x : holds m t -> holds m' t' -> pset t path x = Some t' -> ptr_at m' root path = ptr_at m root path.
Proof. intros H H' E. rewrite (root_ptr m t), (root_ptr m' t') by easy. apply pptr_set with x. now rewrite root_set, E. Qed.
Lemma rptr_app m t p j : holds m t -> ptr_at m root (p ++ [j]) = (c <- pget t p ;; match c with PBranch _ _ b ts => if (j <? length ts)%nat then Some (b, Z.of_nat j) else None | _ => None end).
Proof. intros H. rewrite (root_ptr m t) by easy. now rewrite pptr_app, root_get. Qed.
Lemma rptr_get m t p q : holds m t -> ptr_at m root p = Some q -> exists x, pget t p = Some x.
Proof. intros H E. rewrite (root_ptr m t) in E by easy. destruct (proj1 (pptr_get p (V t) 0)) as (x & G); [eauto|]. rewrite root_get in G. eauto. Qed.
Lemma rget_ptr m t p x : holds m t -> pget t p = Some x -> exists q, ptr_at m root p = Some q.
Proof. intros H E. rewrite (root_ptr m t) by easy. apply pptr_get. rewrite root_get. eauto. Qed.

(** * Writing a node *)
Lemma holds_eq m m' t : holds m t -> (forall b, In b (ids (V t)) -> blocks m' b = blocks m b) -> (next m <= next m')%nat -> holds m' t.
Proof. intros (H & N & F) E L. split; [now apply (R_frame m)|]. split; [easy|]. eapply Forall_impl; [|exact F]. cbn. intros; lia. Qed.
Lemma ids_in t p x : pget t p = Some x -> forall b, In b (ids x) -> In b (ids t).
Proof. intros G b I. destruct (ids_focus p t x G) as (A & B & E & _). rewrite E. apply in_or_app. right. apply in_or_app. now left. Qed.
Lemma put m m1 t path q x nx n x' m' : holds m t -> ptr_at m root path = Some q -> pget t path = Some x -> deref m q = Some nx ->
  placed (fst q) n -> (forall b, In b (ids (V t)) -> ~ In b (ids x) -> blocks m1 b = blocks m b) -> (next m <= next m1)%nat -> store m1 q n = Some m' ->
  R m1 n x' -> NoDup (ids x') -> (forall b, In b (ids x') -> In b (ids (V t)) -> In b (ids x)) -> Forall (fun b => (b < next m1)%nat) (ids x') ->
  exists t', pset t path x' = Some t' /\ holds m' t'.
Proof.
  intros H Q G D Pl Fr Nx St Hx' ND Dj Bd. destruct (repl m t path q x H Q G) as (a & l1 & nx0 & l2 & B & Rp & Sq & Hx & Nq & Iq & Pq & K).
  assert (B1 : blocks m1 (fst q) = Some a) by (rewrite Fr; easy).
  assert (Nq' : ~ In (fst q) (ids x')) by (intros I; apply Nq; now apply Dj).
  destruct (store_cell m1 q nx0 n m') as (S1 & S2 & S3); [exists a, l1, l2; easy|easy|]. destruct (S1 a l1 l2 B1 Rp Sq) as (a' & B' & Rp').
  apply (K m' n x' a'); try easy.
  - apply (R_frame m1); [easy|]. intros b I. apply S2. intros ->. easy.
  - intros b I1 I2 I3. rewrite S2 by easy. now apply Fr.
  - now rewrite S3.
  - lia.
Qed.
Lemma store_next m q n m' : store m q n = Some m' -> next m' = next m.
Proof. unfold store. destruct (blocks m (fst q)); [|easy]. cbn [obind]. destruct (write_cells _ _ _); [|easy]. cbn [obind]. intros E. now injection E as <-. Qed.
(** what a pointer shows *)
Lemma shown m t path q x : holds m t -> ptr_at m root path = Some q -> pget t path = Some x -> exists n, deref m q = Some n /\ R m n x /\ placed (fst q) n.
Proof.
  intros H Q G. destruct (repl m t path q x H Q G) as (a & l1 & nx & l2 & B & Rp & Sq & Hx & Nq & Iq & Pq & K). exists nx. split; [|easy]. apply cell_deref. exists a, l1, l2. easy.
Qed.
Lemma deref_stored m m1 t path q x n m' : holds m t -> ptr_at m root path = Some q -> pget t path = Some x -> (forall b, In b (ids (V t)) -> ~ In b (ids x) -> blocks m1 b = blocks m b) ->
  store m1 q n = Some m' -> deref m' q = Some n.
Proof.
  intros H Q G Fr St. destruct (repl m t path q x H Q G) as (a & l1 & nx & l2 & B & Rp & Sq & _ & Nq & Iq & _).
  assert (B1 : blocks m1 (fst q) = Some a) by (rewrite Fr; easy).
  destruct (store_cell m1 q nx n m') as (S1 & _); [exists a, l1, l2; easy|easy|]. destruct (S1 a l1 l2 B1 Rp Sq) as (a' & B' & Rp'). apply cell_deref. exists a', l1, l2. easy.
Qed.
Lemma set_leaf_ok m t path q nm l m' : holds m t -> ptr_at m root path = Some q -> set_leaf m q nm l = Some m' ->
  (exists t', pset t path (PLeaf nm l) = Some t' /\ holds m' t') /\ (exists n n', deref m q = Some n /\ deref m' q = Some n' /\ parent n' = parent n).
Proof.
  intros H Q E. destruct (rptr_get m t path q H Q) as (x & G). destruct (shown m t path q x H Q G) as (n & D & Hn & Pn). unfold set_leaf in E. rewrite D in E. cbn [obind] in E.
  destruct (put m m t path q x n (Node nm (parent n) (Leaf l)) (PLeaf nm l) m') as (t' & P & H'); try easy; try (now constructor).
  split; [eauto|]. exists n. eexists. split; [easy|]. split; [exact (deref_stored m m t path q x _ m' H Q G (fun b _ _ => eq_refl) E)|easy].
Qed.
Lemma init_rep a : array_init zero_node true = Some a -> rep a [].
Proof. unfold array_init, array_init_reserve. intros E. injection E as <-. eexists. cbn [cells count capacity app]. split; [reflexivity|]. split; [easy|]. vm_compute. reflexivity. Qed.
Lemma init_fail ok : array_init zero_node ok = None <-> ok = false.
Proof. unfold array_init, array_init_reserve. destruct ok; split; easy. Qed.
Lemma fresh_next m t : holds m t -> ~ In (next m) (ids (V t)).
Proof. intros (_ & _ & F) I. rewrite Forall_forall in F. specialize (F _ I). cbn in F. lia. Qed.
Lemma make_branch_ok ok m t path q nm k e m' : holds m t -> ptr_at m root path = Some q -> make_branch ok m q nm k = Some (e, m') ->
  (exists t' x, pset t path x = Some t' /\ holds m' t' /\ ((ok = true /\ e = 0 /\ exists b, x = PBranch nm k b []) \/ (ok = false /\ e = 4 /\ x = PNull nm k))) /\
  (exists n n', deref m q = Some n /\ deref m' q = Some n' /\ parent n' = parent n).
Proof.
  intros H Q E. destruct (rptr_get m t path q H Q) as (x & G). destruct (shown m t path q x H Q G) as (n & D & Hn & Pn). unfold make_branch in E. rewrite D in E. cbn [obind] in E.
  destruct (array_init zero_node ok) as [a|] eqn:I.
  - assert (ok = true) as -> by (destruct ok; [easy|]; now rewrite (proj2 (init_fail false)) in I). pose proof (init_rep a I) as Ra. clear I. unfold alloc_block in E. set (m1 := Mem (fun k0 => if Nat.eqb k0 (next m) then Some a else blocks m k0) (S (next m))) in *.
    destruct (store m1 q _) as [m2|] eqn:St; [|easy]. cbn [obind] in E. injection E as <- <-.
    assert (Fr : forall b, In b (ids (V t)) -> ~ In b (ids x) -> blocks m1 b = blocks m b).
    { intros b I _. cbn. destruct (Nat.eqb_spec b (next m)) as [->|]; [now apply fresh_next in I|easy]. }
    split.
    + destruct (put m m1 t path q x n (Node nm (parent n) (Branch k (Some (next m)))) (PBranch nm k (next m) []) m2) as (t' & P & H'); try easy.
      * cbn. lia.
      * apply R_branch with (a := a) (ns := []); [|easy|constructor|constructor]. cbn. now rewrite Nat.eqb_refl.
      * cbn. constructor; [easy|constructor].
      * intros b [<-|I] J; [now apply fresh_next in J|easy].
      * cbn. constructor; [lia|constructor].
      * exists t', (PBranch nm k (next m) []). split; [easy|]. split; [easy|]. left. repeat split. eauto.
    + exists n. eexists. split; [easy|]. split; [eapply deref_stored; eauto|easy].
  - apply init_fail in I. subst ok. destruct (store m q _) as [m2|] eqn:St; [|easy]. cbn [obind] in E. injection E as <- <-. split.
    + destruct (put m m t path q x n (Node nm (parent n) (Branch k None)) (PNull nm k) m2) as (t' & P & H'); try easy; try (now constructor). exists t', (PNull nm k). split; [easy|]. split; [easy|]. now right.
    + exists n. eexists. split; [easy|]. split; [eapply deref_stored; eauto|easy].
Qed.
