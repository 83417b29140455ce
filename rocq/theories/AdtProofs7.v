(** Every call refines the call on the tree; histories. *)
From Verif Require Import Base CStr Array ArraySpec ArrayProofs ArrayProofs2 Adt AdtSpec AdtProofs AdtProofs2 AdtProofs3 AdtProofs4 AdtProofs5 AdtProofs6.
Local Notation rep := (@ArrayProofs.rep node).

Lemma children_erase t p : children_at (erase t) p = match pget t p with Some (PBranch _ _ _ ts) => Some (map erase ts) | _ => None end.
Proof. unfold children_at. rewrite erase_get. destruct (pget t p) as [[| |]|]; easy. Qed.
Lemma set_children_erase t p nm k b b' ts ts' t' : pget t p = Some (PBranch nm k b ts) -> pset t p (PBranch nm k b' ts') = Some t' -> set_children (erase t) p (map erase ts') = Some (erase t').
Proof.
  intros G P. unfold set_children. rewrite erase_get, G. cbn [option_map obind erase]. pose proof (erase_set p t (PBranch nm k b' ts')) as E. rewrite P in E. exact E.
Qed.
Lemma insert_map {A B} (f : A -> B) l i x : map f (insert_nth l i x) = insert_nth (map f l) i (f x).
Proof. unfold insert_nth. rewrite map_app. cbn [map]. now rewrite firstn_map, skipn_map. Qed.
Lemma delete_map {A B} (f : A -> B) l i : map f (delete_nth l i) = delete_nth (map f l) i.
Proof. unfold delete_nth. rewrite map_app. now rewrite firstn_map, skipn_map. Qed.
Lemma insert_end {A} (l : list A) x : insert_nth l (length l) x = l ++ [x].
Proof. unfold insert_nth. now rewrite firstn_all, skipn_all. Qed.
Lemma tinsert_erase t p nm k b b' ts i x t' : pget t p = Some (PBranch nm k b ts) -> (i <= length ts)%nat -> pset t p (PBranch nm k b' (insert_nth ts i x)) = Some t' -> tinsert (erase t) p i (erase x) = Some (erase t').
Proof.
  intros G L P. unfold tinsert. rewrite children_erase, G. cbn [obind]. rewrite map_length. destruct (Nat.leb_spec i (length ts)); [|lia]. rewrite <- insert_map. eapply set_children_erase; eauto.
Qed.
Lemma tdelete_erase t p nm k b ts i t' : pget t p = Some (PBranch nm k b ts) -> (i < length ts)%nat -> pset t p (PBranch nm k b (delete_nth ts i)) = Some t' -> tdelete (erase t) p i = Some (erase t').
Proof.
  intros G L P. unfold tdelete. rewrite children_erase, G. cbn [obind]. rewrite map_length. destruct (Nat.ltb_spec i (length ts)); [|lia]. rewrite <- delete_map. eapply set_children_erase; eauto.
Qed.

(** setting the child just made *)
Lemma set_child t p nm k b' ts i z t1 x t2 : (i <= length ts)%nat -> pset t p (PBranch nm k b' (insert_nth ts i z)) = Some t1 -> pset t1 (p ++ [i]) x = Some t2 -> pset t p (PBranch nm k b' (insert_nth ts i x)) = Some t2.
Proof.
  intros L P Q. rewrite pset_app, (pget_set _ _ _ _ P) in Q. cbn [obind pset] in Q. assert (Lf : length (firstn i ts) = i) by (rewrite firstn_length; lia).
  assert (N : nth_error (insert_nth ts i z) i = Some z) by (unfold insert_nth; rewrite nth_error_app2 by lia; rewrite Lf, Nat.sub_diag; reflexivity).
  rewrite N in Q. cbn [obind] in Q. rewrite (pset_pset p t _ _ t1 P) in Q. now rewrite replace_insert in Q.
Qed.
Lemma alloc_ok ok m t path q r m' : holds m t -> ptr_at m root path = Some q -> alloc ok m q = Some (r, m') ->
  match r with
  | None => holds m' t /\ (ok = false \/ children_at (erase t) path = None)
  | Some o => exists nm k b b' ts t' no, pget t path = Some (PBranch nm k b ts) /\
      pset t path (PBranch nm k b' (insert_nth ts (length ts) (PLeaf None LUninit))) = Some t' /\ holds m' t' /\
      ptr_at m' root (path ++ [length ts]) = Some o /\ deref m' o = Some no /\ parent no = Some q
  end.
Proof.
  intros H Q E. destruct (rptr_get m t path q H Q) as (x & G). destruct (shown m t path q x H Q G) as (n & D & Hn & Pn). unfold alloc in E. rewrite D in E. cbn [obind] in E. rewrite children_erase, G.
  inversion Hn as [|nm par k Ey Ex|nm par k b a ns ts B Rp Pl F Ey Ex]; subst n; cbn [val] in E.
  1,2: injection E as <- <-; split; [easy|]; right; subst x; easy.
  subst x. rewrite B in E. cbn [obind] in E. pose proof Rp as (tl & Ec & Cn & Cp). assert (Ca : count a = Z.of_nat (length ts)) by (now rewrite Cn, (F2_len _ _ _ F)). rewrite Ca in E.
  pose proof (alloc_at_ok ok m t path q _ r m' H Q E) as K. destruct r as [o|].
  - destruct K as (nm0 & k0 & b0 & b' & ts0 & t' & no & G0 & _ & P & H' & Po & Do & Eo & _). rewrite G in G0. injection G0 as <- <- <- <-. rewrite Nat2Z.id in *. exists nm, k, b, b', ts, t', no. easy.
  - destruct K as (H' & [->|[L|L]]); [split; auto|lia|]. specialize (L nm k b ts G). lia.
Qed.

Lemma step_ok m t oks o r m' : holds m t -> step m oks o = Some (r, m') -> sensible o -> exists t', tstep oks (erase t) o r (erase t') /\ holds m' t'.
Proof.
  intros H E Sn. destruct o as [p nm l|p nm k|p i nm l|p nm l|p nm k|p|p q i|p q]; cbn [step] in E.
  all: destruct (ptr_at m root p) as [P|] eqn:HP; [|easy]; cbn [obind] in E.
  - unfold append_leaf in E. destruct (alloc (fst oks) m P) as [[[o|] m1]|] eqn:Al; cbn [obind] in E; [| |easy].
    + pose proof (alloc_ok _ _ _ _ _ _ _ H HP Al) as (nm0 & k0 & b0 & b' & ts & t1 & no & G & P1 & H1 & Ho & Do & Eo). destruct (set_leaf m1 o nm l) as [m2|] eqn:Sl; [|easy]. cbn [obind] in E. injection E as <- <-.
      destruct (set_leaf_ok _ _ _ _ _ _ _ H1 Ho Sl) as ((t2 & P2 & H2) & _). exists t2. split; [|easy]. pose proof (set_child _ _ _ _ _ _ _ _ _ _ _ (le_n _) P1 P2) as P3. rewrite insert_end in P3.
      apply s_append with (ts := map erase ts); [now rewrite children_erase, G|]. change [TLeaf nm l] with (map erase [PLeaf nm l]). rewrite <- map_app. eapply set_children_erase; eauto.
    + injection E as <- <-. destruct (alloc_ok _ _ _ _ _ _ _ H HP Al) as (H1 & C). exists t. split; [now constructor|easy].
  - unfold append_branch in E. destruct (alloc (fst oks) m P) as [[[o|] m1]|] eqn:Al; cbn [obind] in E; [| |easy].
    + pose proof (alloc_ok _ _ _ _ _ _ _ H HP Al) as (nm0 & k0 & b0 & b' & ts & t1 & no & G & P1 & H1 & Ho & Do & Eo). destruct (make_branch (snd oks) m1 o nm k) as [[e m2]|] eqn:Mb; [|easy]. cbn [obind] in E.
      destruct (make_branch_ok _ _ _ _ _ _ _ _ _ H1 Ho Mb) as ((t2 & x & P2 & H2 & Cs) & _). pose proof (set_child _ _ _ _ _ _ _ _ _ _ _ (le_n _) P1 P2) as P3.
      destruct Cs as [(Ok & -> & b2 & ->)|(Ok & -> & ->)]; cbn [Z.eqb negb] in E.
      * cbn [obind] in E. injection E as <- <-. exists t2. split; [|easy]. rewrite insert_end in P3. apply s_append_branch with (ts := map erase ts); [now rewrite children_erase, G|]. change [TBranch nm k (Some [])] with (map erase [PBranch nm k b2 []]). rewrite <- map_app. eapply set_children_erase; eauto.
      * change (negb false) with true in E. destruct (remove_node m2 o) as [m3|] eqn:Rm; [|easy]. cbn [obind] in E. injection E as <- <-.
        assert (Ho2 : ptr_at m2 root (p ++ [length ts]) = Some o) by (rewrite (rptr_set m1 m2 t1 t2 _ (PNull nm k)); easy).
        destruct (remove_ok _ _ _ _ _ H2 Ho2 Rm) as (p' & i' & nm2 & k2 & b2 & ts2 & t3 & Ep & G2 & L2 & P4 & H3). apply app_inj_tail in Ep. destruct Ep as (<- & <-).
        rewrite (pget_set _ _ _ _ P3) in G2. injection G2 as <- <- <- <-. exists t3. split; [|easy].
        assert (Er : erase t3 = erase t); [|rewrite Er; constructor; auto].
        rewrite (pset_pset p t _ _ t2 P3) in P4. rewrite insert_end in P4. replace (delete_nth (ts ++ [PNull nm k]) (length ts)) with ts in P4 by (symmetry; rewrite delete_app; apply app_nil_r).
        pose proof (erase_set p t (PBranch nm0 k0 b' ts)) as E1. rewrite P4 in E1. cbn [erase option_map] in E1. pose proof (erase_set p t (PBranch nm0 k0 b0 ts)) as E2. rewrite (pset_self _ _ _ G) in E2. cbn [erase option_map] in E2. congruence.
    + injection E as <- <-. destruct (alloc_ok _ _ _ _ _ _ _ H HP Al) as (H1 & C). exists t. split; [constructor; tauto|easy].
  - destruct (alloc_at (fst oks) m P i) as [[[o|] m1]|] eqn:Al; cbn [obind] in E; [| |easy].
    + pose proof (alloc_at_ok _ _ _ _ _ _ _ _ H HP Al) as (nm0 & k0 & b0 & b' & ts & t1 & no & G & Li & P1 & H1 & Ho & Do & Eo & _). destruct (set_leaf m1 o nm l) as [m2|] eqn:Sl; [|easy]. cbn [obind] in E. injection E as <- <-.
      destruct (set_leaf_ok _ _ _ _ _ _ _ H1 Ho Sl) as ((t2 & P2 & H2) & _). exists t2. split; [|easy]. assert (L : (Z.to_nat i <= length ts)%nat) by lia. pose proof (set_child _ _ _ _ _ _ _ _ _ _ _ L P1 P2) as P3.
      apply s_insert; [lia|]. change (TLeaf nm l) with (erase (PLeaf nm l)). eapply tinsert_erase; eauto.
    + injection E as <- <-. destruct (alloc_at_ok _ _ _ _ _ _ _ _ H HP Al) as (H1 & C). exists t. split; [|easy]. constructor. destruct C as [C|[C|C]]; [auto|auto|right].
      destruct (Z.ltb_spec i 0); [now left|right]. unfold tinsert. rewrite children_erase. destruct (pget t p) as [[| |nm0 k0 b0 ts]|] eqn:G; try easy. cbn [obind]. specialize (C _ _ _ _ eq_refl). rewrite map_length. destruct (Nat.leb_spec (Z.to_nat i) (length ts)); [lia|easy].
  - destruct (set_leaf m P nm l) as [m1|] eqn:Sl; [|easy]. cbn [obind] in E. injection E as <- <-. destruct (set_leaf_ok _ _ _ _ _ _ _ H HP Sl) as ((t1 & P1 & H1) & _). exists t1. split; [|easy]. constructor. pose proof (erase_set p t (PLeaf nm l)) as E1. rewrite P1 in E1. exact E1.
  - destruct (make_branch (fst oks) m P nm k) as [[e m1]|] eqn:Mb; [|easy]. cbn [obind] in E. injection E as <- <-. destruct (make_branch_ok _ _ _ _ _ _ _ _ _ H HP Mb) as ((t1 & x & P1 & H1 & Cs) & _). exists t1. split; [|easy].
    pose proof (erase_set p t x) as E1. rewrite P1 in E1. destruct Cs as [(Ok & -> & b2 & ->)|(Ok & -> & ->)]; [now constructor|]. cbn [Z.eqb]. now constructor.
  - destruct (remove_node m P) as [m1|] eqn:Rm; [|easy]. cbn [obind] in E. injection E as <- <-. destruct (remove_ok _ _ _ _ _ H HP Rm) as (p' & i' & nm2 & k2 & b2 & ts2 & t3 & -> & G2 & L2 & P4 & H3). exists t3. split; [|easy]. constructor. eapply tdelete_erase; eauto.
  - destruct (ptr_at m root q) as [Q|] eqn:HQ; [|easy]. cbn [obind] in E. destruct (move_node_at (fst oks) m P Q i) as [[o m1]|] eqn:Mv; [|easy]. cbn [obind] in E. injection E as <- <-. destruct Sn as (S1 & S2).
    destruct (move_ok _ _ _ _ _ _ _ _ _ _ H HP HQ S1 S2 Mv) as (p0 & j & x & nm & k & b & ts & b' & t1 & nm2 & k2 & b2 & ts2 & t' & -> & Hi & Gx & Gq & L & P1 & G1 & Lj & P2 & H'). exists t'. split; [|easy].
    apply s_move with (x := erase x) (t1 := erase t1); [easy|now rewrite erase_get, Gx|eapply tinsert_erase; eauto|eapply tdelete_erase; eauto].
  - destruct (ptr_at m root q) as [Q|] eqn:HQ; [|easy]. cbn [obind] in E. destruct (swap_nodes m P Q) as [m1|] eqn:Sw; [|easy]. cbn [obind] in E. injection E as <- <-. destruct Sn as (S1 & S2).
    destruct (swap_ok _ _ _ _ _ _ _ H HP HQ S1 S2 Sw) as (x & y & t1 & t' & Gx & Gy & P1 & P2 & H'). exists t'. split; [|easy].
    pose proof (erase_set p t y) as E1. rewrite P1 in E1. pose proof (erase_set q t1 x) as E2. rewrite P2 in E2. apply s_swap with (x := erase x) (y := erase y) (t1 := erase t1); [now rewrite erase_get, Gx|now rewrite erase_get, Gy|easy|easy].
Qed.
Lemma steps_ok h : forall m t rs m', holds m t -> steps m h = Some (rs, m') -> Forall (fun x => sensible (snd x)) h -> exists t', tsteps (erase t) h rs (erase t') /\ holds m' t'.
Proof.
  induction h as [|[oks o] h IH]; intros m t rs m' H E Sn; cbn [steps] in E.
  - injection E as <- <-. exists t. split; [constructor|easy].
  - destruct (step m oks o) as [[r m1]|] eqn:St; [|easy]. cbn [obind] in E. destruct (steps m1 h) as [[rs1 m2]|] eqn:Ss; [|easy]. cbn [obind] in E. injection E as <- <-. inversion Sn; subst.
    destruct (step_ok _ _ _ _ _ _ H St) as (t1 & T1 & H1); [easy|]. destruct (IH _ _ _ _ H1 Ss) as (t2 & T2 & H2'); [easy|]. exists t2. split; [econstructor; eauto|easy].
Qed.
Lemma start_ok nm k m : start nm k = Some m -> exists t, erase t = TBranch nm k (Some []) /\ holds m t.
Proof.
  unfold start. intros E. set (m0 := Mem (fun b => if Nat.eqb b 0 then Some (mkArr [zero_node] 1 1) else None) 1) in *.
  assert (H0 : holds m0 (PLeaf None LUninit)).
  { split; [|split].
    - apply R_branch with (a := mkArr [zero_node] 1 1) (ns := [zero_node]); [easy|exists []; easy|constructor; [split; easy|constructor]|constructor; [constructor|constructor]].
    - cbn. constructor; [easy|constructor].
    - cbn. constructor; [lia|constructor]. }
  destruct (make_branch true m0 root nm k) as [[e m1]|] eqn:Mb; [|easy]. cbn [obind] in E. injection E as <-.
  destruct (make_branch_ok true m0 _ [] root _ _ _ _ H0 eq_refl Mb) as ((t' & x & P & H' & [(_ & _ & b & ->)|(F & _)]) & _); [|easy]. exists t'. split; [|easy]. cbn in P. now injection P as <-.
Qed.
Lemma start_some nm k : exists m, start nm k = Some m.
Proof. unfold start, make_branch, array_init, array_init_reserve. cbn. eauto. Qed.
