(** C58: ADT trees. *)
From Verif Require Import Base CStr CStrSpec Array Adt AdtSpec AdtProofs AdtProofs2 AdtProofs3 AdtProofs4 AdtProofs7 AdtProofs8 AdtProofs9.

(** any history of calls that the code gets through does to the tree what the list operations do *)
Theorem C58_history : forall nm k m h rs m', start nm k = Some m -> steps m h = Some (rs, m') -> Forall (fun x => sensible (snd x)) h ->
  exists t, tsteps (TBranch nm k (Some [])) h rs t /\ root_shows m' t.
Proof.
  intros nm k m h rs m' S E Sn. destruct (start_ok nm k m S) as (t0 & E0 & H0). destruct (steps_ok h m t0 rs m' H0 E Sn) as (t & T & H). rewrite E0 in T. exists (erase t). split; [easy|now apply holds_shows].
Qed.
(** histories on the children of the root are always got through *)
Theorem C58_flat : forall nm k m h, start nm k = Some m -> all_flat (TBranch nm k (Some [])) h ->
  exists rs m' t, steps m h = Some (rs, m') /\ tsteps (TBranch nm k (Some [])) h rs t /\ root_shows m' t.
Proof.
  intros nm k m h S Fl. destruct (start_ok nm k m S) as (t0 & E0 & H0). pose proof (start_rooted nm k m S) as R0. rewrite <- E0 in Fl. destruct (flat_steps h m t0 H0 R0 Fl) as (rs & m' & E).
  pose proof (all_flat_sensible h m t0 rs m' H0 R0 Fl E) as Sn. destruct (C58_history nm k m h rs m' S E Sn) as (t & T & Sh). eauto 6.
Qed.
Theorem C58_start : forall nm k, exists m, start nm k = Some m.
Proof. exact start_some. Qed.

(** search: the place found is that of the first child with the name, or of the first deep hit *)
Theorem C58_find : forall nm k m h rs m' s deep, start nm k = Some m -> steps m h = Some (rs, m') -> Forall (fun x => sensible (snd x)) h -> cstring s ->
  exists t, tsteps (TBranch nm k (Some [])) h rs t /\ (all_named t -> forall f, (depth t <= f)%nat ->
    match tfind s deep t with
    | Some path => exists q, ptr_at m' root path = Some q /\ find f m' root (s ++ [0]) deep = Some (Some q)
    | None => find f m' root (s ++ [0]) deep = Some None
    end).
Proof.
  intros nm k m h rs m' s deep S E Sn Hs. destruct (start_ok nm k m S) as (t0 & E0 & H0). destruct (steps_ok h m t0 rs m' H0 E Sn) as (t & T & H). rewrite E0 in T. exists (erase t). split; [easy|]. intros Nm f L.
  destruct (shown m' t [] root t H eq_refl eq_refl) as (n & D & Hn & _). destruct (find_ok s deep Hs t f m' root n Hn D Nm L) as (F1 & F2). destruct (tfind s deep (erase t)) as [path|]; [|easy]. destruct (F2 path eq_refl) as (q & Q). exists q. rewrite Q in F1. easy.
Qed.
Theorem C58_find_first : forall s nm ts i, tfind s false (TBranch nm false (Some ts)) = Some [i] <->
  (exists x, nth_error ts i = Some x /\ tname x = Some (s ++ [0])) /\ (forall j x, (j < i)%nat -> nth_error ts j = Some x -> tname x <> Some (s ++ [0])).
Proof.
  intros s nm ts i. cbn [tfind].
  assert (Nmd : forall x, named s x = true <-> tname x = Some (s ++ [0])).
  { intros x. unfold named. destruct (tname x) as [n|]; [|easy]. destruct (list_eq_dec Z.eq_dec n (s ++ [0])) as [->|Ne]; split; try easy. intros F. injection F as F. easy. }
  assert (G : forall l k, index_of (named s) l k = Some i <-> (k <= i)%nat /\ (exists x, nth_error l (i - k) = Some x /\ tname x = Some (s ++ [0])) /\ (forall j x, (j < i - k)%nat -> nth_error l j = Some x -> tname x <> Some (s ++ [0]))).
  { induction l as [|y l IH]; intros k; cbn [index_of]; [split; [easy|]; intros (_ & (x & N & _) & _); destruct (i - k)%nat; easy|].
    destruct (named s y) eqn:Ny.
    - split.
      + intros F. injection F as ->. split; [lia|]. rewrite Nat.sub_diag. split; [exists y; split; [easy|now apply Nmd]|lia].
      + intros (L & (x & N & Nx) & Fst). destruct (i - k)%nat as [|d] eqn:Ed; [f_equal; lia|]. elim (Fst 0%nat y); [lia|easy|now apply Nmd].
    - rewrite IH. split.
      + intros (L & (x & N & Nx) & Fst). split; [lia|]. replace (i - k)%nat with (S (i - S k)) by lia. split; [exists x; easy|]. intros [|j] z Hj Nz; [cbn in Nz; injection Nz as <-; rewrite <- Nmd; congruence|]. apply (Fst j z); [lia|easy].
      + intros (L & (x & N & Nx) & Fst). destruct (i - k)%nat as [|d] eqn:Ed; [cbn in N; injection N as <-; apply Nmd in Nx; congruence|]. split; [lia|]. replace (i - S k)%nat with d by lia. split; [exists x; easy|]. intros j z Hj Nz. apply (Fst (S j) z); [lia|easy]. }
  specialize (G ts 0%nat). rewrite Nat.sub_0_r in G. destruct (index_of (named s) ts 0) as [i'|] eqn:Ix.
  - split; [intros F; injection F as ->; now apply G|]. intros F. f_equal. f_equal. assert (E : Some i' = Some i) by (apply G; split; [lia|easy]). now injection E.
  - split; [easy|]. intros F. assert (E : @None nat = Some i) by (apply G; split; [lia|easy]). easy.
Qed.

(** destruction frees the children of every node once, and nothing else *)
Theorem C58_destroy : forall nm k m h rs m', start nm k = Some m -> steps m h = Some (rs, m') -> Forall (fun x => sensible (snd x)) h ->
  exists t n, tsteps (TBranch nm k (Some [])) h rs t /\ deref m' root = Some n /\ forall f, (depth t <= f)%nat ->
    exists m'', destroy f m' n = Some m'' /\ (forall i path q, ptr_at m' root (i :: path) = Some q -> blocks m'' (fst q) = None) /\ (exists n', deref m'' root = Some n').
Proof.
  intros nm k m h rs m' S E Sn. destruct (start_ok nm k m S) as (t0 & E0 & H0). destruct (steps_ok h m t0 rs m' H0 E Sn) as (t & T & H). rewrite E0 in T.
  destruct (shown m' t [] root t H eq_refl eq_refl) as (n & D & Hn & _). exists (erase t), n. split; [easy|]. split; [easy|]. intros f L. destruct (NoDup_at m' t [] t H eq_refl) as (ND & N0 & _).
  destruct (destroy_ok t f m' n Hn ND L) as (m'' & De & Fr). exists m''. split; [easy|]. split.
  - intros i path q Q. rewrite (root_ptr m' t) in Q by easy. cbn [pptr V nth_error obind] in Q. rewrite Fr. destruct (in_dec Nat.eq_dec (fst q) (ids t)) as [|Ni]; [easy|]. elim Ni. clear - Q. revert t i Q. induction path as [|j path IH]; intros t i Q; destruct t as [| |nm k b ts]; try easy.
    + cbn [pptr] in Q. destruct (i <? length ts)%nat; [|easy]. injection Q as <-. now left.
    + cbn [pptr] in Q. destruct (nth_error ts i) as [c|] eqn:N; [|easy]. cbn [obind] in Q. right. apply in_flat_map. exists c. split; [eapply nth_error_In; eauto|eauto].
  - exists n. unfold deref in *. cbn [fst snd root] in *. rewrite Fr. now destruct (in_dec Nat.eq_dec 0%nat (ids t)).
Qed.

(** the parent link of a grandchild goes stale: after an insertion before its parent it cannot be removed *)
Definition nm (c : Z) : option (list Z) := Some [c; 0].
Definition stale : list ((bool * bool) * aop) :=
  [((true, true), AAppendBranch [] (nm 97) false); ((true, true), AAppend [0%nat] (nm 98) (LInt 1)); ((true, true), AInsert [] 0 (nm 99) (LInt 2)); ((true, true), ARemove [1%nat; 0%nat])].
Theorem C58_grandchild_refuted : (m <- start None false ;; ' (_, m) <- steps m (firstn 3 stale) ;; ptr_at m root [1%nat; 0%nat]) <> None /\ (m <- start None false ;; steps m stale) = None /\
  exists rs t, tsteps (TBranch None false (Some [])) stale rs t.
Proof.
  split; [vm_compute; discriminate|]. split; [vm_compute; reflexivity|]. exists [true; true; true; true]. eexists. unfold stale.
  eapply ts_cons; [eapply s_append_branch; vm_compute; reflexivity|]. eapply ts_cons; [eapply s_append; vm_compute; reflexivity|]. eapply ts_cons; [eapply s_insert; [lia|vm_compute; reflexivity]|].
  eapply ts_cons; [change [1%nat; 0%nat] with ([1%nat] ++ [0%nat]); eapply s_remove; vm_compute; reflexivity|]. constructor.
Qed.
(** moving a node within its own parent copies a neighbour *)
Definition child_names (m : mem) (n : nat) : option (list (option (list Z))) :=
  fold_right (fun i r => q <- ptr_at m root [i] ;; x <- deref m q ;; r <- r ;; Some (name x :: r)) (Some []) (seq 0 n).
Definition abc : list ((bool * bool) * aop) := [((true, true), AAppend [] (nm 97) (LInt 1)); ((true, true), AAppend [] (nm 98) (LInt 2)); ((true, true), AAppend [] (nm 99) (LInt 3))].
Theorem C58_move_within_parent_refuted :
  (m <- start None false ;; ' (_, m) <- steps m (abc ++ [((true, true), AMove [2%nat] [] 0)]) ;; c <- nodes_count m root ;; l <- child_names m 3 ;; Some (c, l)) = Some (3, [nm 98; nm 97; nm 99]).
Proof. vm_compute. reflexivity. Qed.
(** removing a branch does not free its children, which nothing reaches any more *)
Theorem C58_remove_leak_refuted :
  (m <- start None false ;; ' (_, m) <- steps m [((true, true), AAppendBranch [] (nm 97) false); ((true, true), ARemove [0%nat])] ;; n <- deref m root ;; m <- destroy 5 m n ;; Some (map (fun b => match blocks m b with Some _ => true | None => false end) [0%nat; 1%nat; 2%nat])) = Some [true; false; true].
Proof. vm_compute. reflexivity. Qed.

Definition sample : list ((bool * bool) * aop) :=
  abc ++ [((true, true), ASwap [0%nat] [2%nat]); ((true, true), ARemove [1%nat]); ((true, true), AAppendBranch [] (nm 100) true); ((true, true), AAppend [2%nat] None (LInt 7)); ((true, true), AMove [2%nat; 0%nat] [] 3)].
Example C58_sample : (m <- start None false ;; ' (rs, m) <- steps m sample ;; c <- nodes_count m root ;; l <- child_names m 4 ;; Some (rs, c, l)) = Some (repeat true 8, 4, [nm 99; nm 97; nm 100; None]).
Proof. vm_compute. reflexivity. Qed.
Example C58_sample_sensible : Forall (fun x => sensible (snd x)) sample.
Proof. repeat constructor; cbn; try (intros (? & ?); lia); try tauto; try lia; try (intros j F; discriminate). Qed.
(** a history within [all_flat], with an allocation failure *)
Example C58_flat_sample : all_flat (TBranch None false (Some [])) [((true, true), AAppend [] (nm 97) (LInt 1)); ((false, true), AAppendBranch [] (nm 98) true); ((true, true), ARemove [0%nat])].
Proof.
  cbn [all_flat flat]. split; [exact I|]. intros r t T. inversion T as [p nm0 l ts t1 C S| p nm0 l F| | | | | | | | | |]; subst.
  - cbn in C. injection C as <-. cbn in S. injection S as <-. split; [exact I|]. intros r2 t2 T2. inversion T2 as [| |p nm0 k0 ts t1 C S|p nm0 k0 F| | | | | | | |]; subst.
    + cbn in C. injection C as <-. cbn in S. injection S as <-. cbn. split; [lia|easy].
    + cbn. split; [lia|easy].
  - destruct F as [F|F]; easy.
Qed.
Example C58_find_sample : (m <- start None false ;; ' (_, m) <- steps m abc ;; find 3 m root [98; 0] false) = Some (Some (1%nat, 1)).
Proof. vm_compute. reflexivity. Qed.

Print Assumptions C58_history.
Print Assumptions C58_flat.
Print Assumptions C58_start.
Print Assumptions C58_find.
Print Assumptions C58_find_first.
Print Assumptions C58_destroy.
Print Assumptions C58_grandchild_refuted.
Print Assumptions C58_move_within_parent_refuted.
Print Assumptions C58_remove_leak_refuted.
