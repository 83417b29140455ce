From Verif Require Import Base CStr Array ArraySpec ArrayProofs ArrayProofs2 Adt AdtSpec AdtProofs AdtProofs2 AdtProofs3.
Local Notation rep := (@ArrayProofs.rep node).

Lemma Forall_firstn' {A} (P : A -> Prop) n l : Forall P l -> Forall P (firstn n l).
Proof. intros H. revert n. induction H; intros [|n]; cbn; constructor; auto. Qed.
Lemma Forall_skipn' {A} (P : A -> Prop) n l : Forall P l -> Forall P (skipn n l).
Proof. intros H. revert n. induction H; intros [|n]; cbn; auto. Qed.
Lemma exists_last' {A} (l : list A) : l = [] \/ exists a x, l = a ++ [x].
Proof. destruct l as [|x l]; [now left|right]. destruct (@exists_last _ (x :: l)) as (a & y & E); [easy|eauto]. Qed.
Lemma F2_insert {A B} (P : A -> B -> Prop) l1 l2 i x y : Forall2 P l1 l2 -> P x y -> Forall2 P (insert_nth l1 i x) (insert_nth l2 i y).
Proof.
  intros H Pxy. unfold insert_nth. revert i. induction H as [|a b l1 l2 Pab H IH]; intros [|i]; cbn; repeat (constructor; try easy); try easy; try apply IH.
Qed.
Lemma F2_delete {A B} (P : A -> B -> Prop) l1 l2 i : Forall2 P l1 l2 -> Forall2 P (delete_nth l1 i) (delete_nth l2 i).
Proof. intros H. unfold delete_nth. revert i. induction H as [|a b l1 l2 Pab H IH]; intros [|i]; cbn; repeat (constructor; try easy); try easy; try apply IH. Qed.
Lemma F_insert {A} (P : A -> Prop) l i x : Forall P l -> P x -> Forall P (insert_nth l i x).
Proof. intros H Px. unfold insert_nth. apply Forall_app. split; [now apply Forall_firstn'|]. constructor; [easy|now apply Forall_skipn']. Qed.
Lemma F_delete {A} (P : A -> Prop) l i : Forall P l -> Forall P (delete_nth l i).
Proof. intros H. unfold delete_nth. apply Forall_app. split; [now apply Forall_firstn'|now apply Forall_skipn']. Qed.
Lemma ids_insert ts i nm l : flat_map ids (insert_nth ts i (PLeaf nm l)) = flat_map ids ts.
Proof. unfold insert_nth. rewrite flat_map_app. cbn [flat_map ids app]. rewrite <- flat_map_app. now rewrite firstn_skipn. Qed.
Lemma NoDup_delete ts i : NoDup (flat_map ids ts) -> NoDup (flat_map ids (delete_nth ts i)) /\ forall b, In b (flat_map ids (delete_nth ts i)) -> In b (flat_map ids ts).
Proof.
  intros H. destruct (nth_error ts i) as [x|] eqn:N.
  - destruct (nth_split ts i x N) as (E & L). unfold delete_nth. rewrite E in H. rewrite flat_map_app in *. cbn [flat_map] in H. split.
    + apply (NoDup_swap _ _ _ []) in H; [exact H|constructor|easy].
    + intros b I. rewrite E. rewrite flat_map_app. cbn [flat_map]. apply in_app_or in I. apply in_or_app. destruct I as [I|I]; [now left|right]. apply in_or_app. now right.
  - apply nth_error_None in N. unfold delete_nth. rewrite firstn_all2, skipn_all2 by lia. now rewrite app_nil_r.
Qed.
Lemma ids_V t p x : pget t p = Some x -> forall b, In b (ids x) -> In b (ids (V t)) /\ b <> 0%nat \/ b = 0%nat.
Proof. intros. destruct (Nat.eq_dec b 0); [now right|left]. split; [|easy]. right. cbn. rewrite app_nil_r. now apply (ids_in t p x). Qed.
Lemma in_V t b : In b (ids t) -> In b (ids (V t)).
Proof. intros I. right. cbn. now rewrite app_nil_r. Qed.
Lemma NoDup_at m t p x : holds m t -> pget t p = Some x -> NoDup (ids x) /\ ~ In 0%nat (ids x) /\ Forall (fun b => (b < next m)%nat) (ids x).
Proof.
  intros (_ & N & F) G. destruct (ids_focus p t x G) as (A & B & E & _). cbn [V ids flat_map] in N, F. rewrite app_nil_r in N, F. inversion N as [|? ? N0 N1]; subst. rewrite E in N1. split; [|split].
  - apply NoDup_app_r in N1. now apply NoDup_app_l in N1.
  - intros I. apply N0. now apply (ids_in t p x).
  - inversion F; subst. rewrite Forall_forall in *. intros b I. apply H2. now apply (ids_in t p x).
Qed.

Lemma alloc_at_ok ok m t path q i r m' : holds m t -> ptr_at m root path = Some q -> alloc_at ok m q i = Some (r, m') ->
  match r with
  | None => holds m' t /\ (ok = false \/ i < 0 \/ (forall nm k b ts, pget t path = Some (PBranch nm k b ts) -> Z.of_nat (length ts) < i))
  | Some o => exists nm k b b' ts t' no, pget t path = Some (PBranch nm k b ts) /\ 0 <= i <= Z.of_nat (length ts) /\
      pset t path (PBranch nm k b' (insert_nth ts (Z.to_nat i) (PLeaf None LUninit))) = Some t' /\ holds m' t' /\
      ptr_at m' root (path ++ [Z.to_nat i]) = Some o /\ deref m' o = Some no /\ parent no = Some q /\
      (forall c, c <> fst q -> c <> b -> c <> next m -> blocks m' c = blocks m c) /\ (b' = b \/ b' = next m)
  end.
Proof.
  intros H Q E. destruct (rptr_get m t path q H Q) as (x & G). destruct (shown m t path q x H Q G) as (n & D & Hn & Pn). unfold alloc_at in E. rewrite D in E. cbn [obind] in E.
  inversion Hn as [|nm par k Ey Ex|nm par k b a ns ts B Rp Pl F Ey Ex]; subst n; cbn [val] in E.
  1,2: injection E as <- <-; split; [easy|]; right; right; intros; subst x; congruence.
  subst x. rewrite B in E. cbn [obind] in E. pose proof Rp as (tl & Ec & Cn & Cp).
  destruct ((i <? 0) || (count a <? i)) eqn:Rg.
  { injection E as <- <-. split; [easy|]. right. rewrite orb_true_iff, !Z.ltb_lt in Rg. rewrite Cn, (F2_len _ _ _ F) in Rg. destruct Rg as [Rg|Rg]; [now left|right]. intros nm' k' b' ts' Eq. assert (ts' = ts) by congruence. now subst ts'. }
  rewrite orb_false_iff, !Z.ltb_ge in Rg. unfold append_child in E. rewrite B in E. cbn [obind] in E.
  destruct (append_at zero_node ok a _ i) as [[r0 a']|] eqn:Ap; [|easy]. cbn [obind] in E.
  destruct (NoDup_at m t path _ H G) as (ND & N0 & Bd). pose proof ND as ND'. cbn [ids] in ND'. inversion ND' as [|? ? NDb NDts]; subst.
  assert (Nb0 : b <> 0%nat) by (intros ->; apply N0; now left).
  assert (Fsib : forall m2, (forall c, c <> fst q -> c <> b -> In c (flat_map ids ts) -> blocks m2 c = blocks m c) -> ~ In (fst q) (flat_map ids ts) -> Forall2 (R m2) ns ts).
  { intros m2 Fr Nq. apply (siblings m); [easy|]. intros y ny Iy Hy. apply (R_frame m); [easy|]. intros c Ic. assert (In c (flat_map ids ts)) by (apply in_flat_map; eauto). apply Fr; [intros E0; subst c; easy|intros E0; subst c; easy|easy]. }
  destruct (repl m t path q _ H Q G) as (aq & l1 & nx & l2 & Bq & Rq & Sq & Hnx & Nq & Iq & Pq & K).
  assert (nx = Node nm par (Branch k (Some b))) by (assert (D2 : deref m q = Some nx) by (apply cell_deref; exists aq, l1, l2; easy); congruence). subst nx.
  assert (Nqb : fst q <> b) by (intros E0; apply Nq; rewrite E0; now left). assert (Nqt : ~ In (fst q) (flat_map ids ts)) by (intros I; apply Nq; now right).
  assert (Nn : next m <> b /\ next m <> fst q /\ ~ In (next m) (flat_map ids ts)).
  { pose proof (fresh_next m t H) as Fn. repeat split; [intros <-; apply Fn, in_V, (ids_in t path _ G); now left|intros E1; rewrite E1 in Fn; easy|intros I; apply Fn, in_V, (ids_in t path _ G); now right]. }
  destruct Nn as (Nn1 & Nn2 & Nn3).
  destruct (append_at_rep ok a ns _ i r0 a' Rp (conj (proj1 Rg) (proj2 Rg)) Ap) as [(-> & Ra)|(-> & Ek & Ra)].
  2:{ cbn [obind] in E. injection E as <- <-. split; [|now left].
      destruct (K (set_block m b (Some a')) (Node nm par (Branch k (Some b))) (PBranch nm k b ts) aq) as (t' & P & H').
      - apply R_branch with (a := a') (ns := ns); [cbn; now rewrite Nat.eqb_refl|easy|easy|]. apply Fsib; [|easy]. intros c Hc1 Hc2 _. cbn. destruct (Nat.eqb_spec c b); easy.
      - easy.
      - cbn. destruct (Nat.eqb_spec (fst q) b); easy.
      - easy.
      - intros c I1 I2 I3. cbn. destruct (Nat.eqb_spec c b) as [->|]; [elim I2; now left|easy].
      - easy.
      - easy.
      - easy.
      - easy.
      - rewrite (pset_self _ _ _ G) in P. now injection P as <-. }
  cbn [obind] in E. set (new := Node None (Some q) (Leaf LUninit)) in *. set (leaf := PLeaf None LUninit).
  assert (Li : 0 <= i <= Z.of_nat (length ts)) by (rewrite Cn, (F2_len _ _ _ F) in Rg; easy).
  assert (Pl' : forall c, c <> 0%nat -> Forall (placed b) ns -> Forall (placed c) (insert_nth ns (Z.to_nat i) new)).
  { intros c Hc Fp. apply F_insert; [|split; easy]. eapply Forall_impl; [|exact Fp]. unfold placed. intros n0 P0. split; [intros P1; now apply P0 in P1|easy]. }
  assert (Mid : nth_error (insert_nth ns (Z.to_nat i) new) (Z.to_nat i) = Some new).
  { unfold insert_nth. assert (length (firstn (Z.to_nat i) ns) = Z.to_nat i) by (rewrite firstn_length, (F2_len _ _ _ F); lia). rewrite nth_error_app2 by lia. rewrite H0, Nat.sub_diag. easy. }
  assert (Fins : forall m2, (forall c, c <> fst q -> c <> b -> In c (flat_map ids ts) -> blocks m2 c = blocks m c) -> Forall2 (R m2) (insert_nth ns (Z.to_nat i) new) (insert_nth ts (Z.to_nat i) leaf)).
  { intros m2 Fr. apply F2_insert; [now apply Fsib|constructor]. }
  assert (Lt : (Z.to_nat i <? length (insert_nth ts (Z.to_nat i) leaf))%nat = true).
  { apply Nat.ltb_lt. unfold insert_nth. rewrite app_length, firstn_length. cbn [length]. lia. }
  destruct (Z.eqb_spec (capacity a') (capacity a)) as [Cap|Cap].
  - cbn [obind] in E. set (m1 := set_block m b (Some a')) in *.
    assert (D1 : deref m1 q = Some (Node nm par (Branch k (Some b)))) by (unfold deref, m1; cbn; destruct (Nat.eqb_spec (fst q) b); [easy|exact D]).
    rewrite D1 in E. cbn [obind val] in E. injection E as <- <-.
    destruct (K m1 (Node nm par (Branch k (Some b))) (PBranch nm k b (insert_nth ts (Z.to_nat i) leaf)) aq) as (t' & P & H').
    + apply R_branch with (a := a') (ns := insert_nth ns (Z.to_nat i) new); [cbn; now rewrite Nat.eqb_refl|easy|now apply Pl'|]. apply Fins. intros c Hc1 Hc2 _. cbn. destruct (Nat.eqb_spec c b); easy.
    + easy.
    + cbn. destruct (Nat.eqb_spec (fst q) b); easy.
    + easy.
    + intros c I1 I2 I3. cbn. destruct (Nat.eqb_spec c b) as [->|]; [elim I2; now left|easy].
    + unfold leaf; cbn [ids]; now rewrite ids_insert.
    + unfold leaf; cbn [ids]; rewrite ids_insert. easy.
    + unfold leaf; cbn [ids]; rewrite ids_insert. easy.
    + easy.
    + exists nm, k, b, b, ts, t', new. split; [easy|]. split; [easy|]. split; [easy|]. split; [easy|].
      split; [rewrite (rptr_app m1 t') by easy; rewrite (pget_set _ _ _ _ P); cbn [obind]; rewrite Lt, Z2Nat.id by lia; easy|].
      split; [unfold deref; cbn; rewrite Nat.eqb_refl; cbn; rewrite <- (Z2Nat.id i) by lia; now apply (rep_get a' _ _ new Ra)|]. split; [easy|]. split; [|now left]. intros c H1 H2 _. cbn. destruct (Nat.eqb_spec c b); easy.
  - unfold alloc_block in E. cbn [val] in E. change (next (set_block m b None)) with (next m) in E. set (m1 := Mem (fun k0 => if Nat.eqb k0 (next m) then Some a' else blocks (set_block m b None) k0) (S (next m))) in *.
    cbn [obind name parent] in E. set (n' := Node nm par (Branch k (Some (next m)))) in *.
    destruct (store m1 q n') as [m2|] eqn:St; [|easy]. cbn [obind] in E.
    assert (Fr : forall c, In c (ids (V t)) -> ~ In c (ids (PBranch nm k b ts)) -> blocks m1 c = blocks m c).
    { intros c I1 I2. cbn. destruct (Nat.eqb_spec c (next m)) as [->|]; [now apply fresh_next in I1|]. destruct (Nat.eqb_spec c b) as [->|]; [elim I2; now left|easy]. }
    pose proof (deref_stored m m1 t path q _ n' m2 H Q G Fr St) as D2. rewrite D2 in E. cbn [obind val n'] in E. injection E as <- <-.
    destruct (put m m1 t path q (PBranch nm k b ts) (Node nm par (Branch k (Some b))) n' (PBranch nm k (next m) (insert_nth ts (Z.to_nat i) leaf)) m2) as (t' & P & H'); try easy.
    + cbn. lia.
    + apply R_branch with (a := a') (ns := insert_nth ns (Z.to_nat i) new); [cbn; now rewrite Nat.eqb_refl|easy|apply Pl'; [|easy]|].
      * intros E0. destruct H as (_ & _ & Fv). inversion Fv; subst. lia.
      * apply Fins. intros c Hc1 Hc2 Hc3. cbn. destruct (Nat.eqb_spec c (next m)) as [->|]; [easy|]. destruct (Nat.eqb_spec c b); easy.
    + unfold leaf; cbn [ids]; rewrite ids_insert. now constructor.
    + unfold leaf; cbn [ids]; rewrite ids_insert. intros c [<-|I] J; [now apply fresh_next in J|now right].
    + unfold leaf; cbn [ids]; rewrite ids_insert. cbn [ids] in Bd. inversion Bd; subst. constructor; [cbn; lia|]. eapply Forall_impl; [|exact H3]. cbn. intros; lia.
    + destruct (store_cell m1 q (Node nm par (Branch k (Some b))) n' m2) as (_ & S2 & _); [exists aq, l1, l2; split; [rewrite Fr; easy|easy]|easy|].
      exists nm, k, b, (next m), ts, t', new. split; [easy|]. split; [easy|]. split; [easy|]. split; [easy|].
      split; [rewrite (rptr_app m2 t') by easy; rewrite (pget_set _ _ _ _ P); cbn [obind]; rewrite Lt, Z2Nat.id by lia; easy|].
      split; [unfold deref; cbn [fst snd]; rewrite S2 by easy; cbn; rewrite Nat.eqb_refl; cbn; rewrite <- (Z2Nat.id i) by lia; now apply (rep_get a' _ _ new Ra)|]. split; [easy|]. split; [|now right].
      intros c H1 H2 H3. rewrite S2 by easy. cbn. destruct (Nat.eqb_spec c (next m)); [easy|]. destruct (Nat.eqb_spec c b); easy.
Qed.

Lemma remove_block_gen m t p i b a' m' : holds m t -> ptr_at m root (p ++ [i]) = Some (b, Z.of_nat i) -> (forall a ns, blocks m b = Some a -> rep a ns -> (i < length ns)%nat -> rep a' (delete_nth ns i)) ->
  blocks m' b = Some a' -> (forall c, c <> b -> blocks m' c = blocks m c) -> next m' = next m ->
  exists nm k ts t', pget t p = Some (PBranch nm k b ts) /\ (i < length ts)%nat /\ pset t p (PBranch nm k b (delete_nth ts i)) = Some t' /\ holds m' t'.
Proof.
  intros H Q Ra0 B' Fr' Nx'. rewrite (rptr_app m t) in Q by easy. destruct (pget t p) as [x|] eqn:G; [|easy]. cbn [obind] in Q. destruct x as [| |nm k b0 ts]; try easy. destruct (Nat.ltb_spec i (length ts)) as [L|L]; [|easy]. assert (b0 = b) by congruence. subst b0.
  destruct (rget_ptr m t p _ H G) as (q & Q'). destruct (repl m t p q _ H Q' G) as (aq & l1 & nx & l2 & Bq & Rq & Sq & Hnx & Nq & Iq & Pq & K).
  inversion Hnx as [| |nm' par k' b' a0 ns ts' B Rp Pl F]; subst.
  assert (Ra : rep a' (delete_nth ns i)) by (apply (Ra0 a0 ns B Rp); now rewrite (F2_len _ _ _ F)).
  destruct (NoDup_at m t p _ H G) as (ND & N0 & Bd). cbn [ids] in ND. inversion ND as [|? ? NDb NDts]; subst. destruct (NoDup_delete ts i NDts) as (ND2 & In2).
  assert (Nqb : fst q <> b) by (intros E0; apply Nq; rewrite E0; now left).
  destruct (K m' (Node nm par (Branch k (Some b))) (PBranch nm k b (delete_nth ts i)) aq) as (t' & P & H'); try easy.
  - apply R_branch with (a := a') (ns := delete_nth ns i); [easy|easy|now apply F_delete|]. apply F2_delete. apply (siblings m); [easy|]. intros y ny Iy Hy. apply (R_frame m); [easy|]. intros c Ic. apply Fr'. intros ->. elim NDb. apply in_flat_map. eauto.
  - rewrite Fr'; easy.
  - intros c I1 I2 I3. apply Fr'. intros ->. elim I2. now left.
  - cbn [ids]. constructor; [intros I; now apply NDb, In2|easy].
  - cbn [ids]. intros c [<-|I] _; [now left|right; now apply In2].
  - cbn [ids] in *. inversion Bd; subst. rewrite Nx'. constructor; [easy|]. rewrite Forall_forall in *. intros c I. apply H3. now apply In2.
  - lia.
  - exists nm, k, ts, t'. easy.
Qed.
Lemma remove_block m t p i b a a' : holds m t -> ptr_at m root (p ++ [i]) = Some (b, Z.of_nat i) -> blocks m b = Some a -> remove_at a (Z.of_nat i) = Some a' ->
  exists nm k ts t', pget t p = Some (PBranch nm k b ts) /\ (i < length ts)%nat /\ pset t p (PBranch nm k b (delete_nth ts i)) = Some t' /\ holds (set_block m b (Some a')) t'.
Proof.
  intros H Q B Rm. apply (remove_block_gen m t p i b a'); try easy.
  - intros a0 ns B0 Rp _. assert (a0 = a) by congruence. subst a0. destruct (remove_at_rep a ns (Z.of_nat i) a' Rp (Nat2Z.is_nonneg i) Rm) as (Ra & _). now rewrite Nat2Z.id in Ra.
  - cbn. now rewrite Nat.eqb_refl.
  - intros c Hc. cbn. destruct (Nat.eqb_spec c b); easy.
Qed.
Lemma remove_ok m t path q m' : holds m t -> ptr_at m root path = Some q -> remove_node m q = Some m' ->
  exists p i nm k b ts t', path = p ++ [i] /\ pget t p = Some (PBranch nm k b ts) /\ (i < length ts)%nat /\ pset t p (PBranch nm k b (delete_nth ts i)) = Some t' /\ holds m' t'.
Proof.
  intros H Q E. destruct (rptr_get m t path q H Q) as (x & G). destruct (shown m t path q x H Q G) as (n & D & Hn & Pn). unfold remove_node in E. rewrite D in E. cbn [obind] in E.
  destruct (parent n) as [par|] eqn:Ep; [|easy]. cbn [obind] in E. unfold child_index in E. destruct (deref m par) as [np|]; [|easy]. cbn [obind] in E. destruct (val np) as [|k' [b'|]]; cbn [obind] in E; try easy. destruct (Nat.eqb_spec b' (fst q)) as [Eb|]; cbn [obind] in E; [|easy]. subst b'. cbn [obind] in E.
  destruct (exists_last' path) as [->|(p & i & ->)].
  - cbn in Q. injection Q as <-. destruct Pn as (_ & Pn). now rewrite Pn in Ep.
  - exists p, i. assert (Eq : q = (fst q, Z.of_nat i)).
    { rewrite (rptr_app m t) in Q by easy. destruct (pget t p) as [y|]; [|easy]. cbn [obind] in Q. destruct y as [| |nm k b ts]; try easy. destruct (i <? length ts)%nat; [|easy]. now injection Q as <-. }
    rewrite Eq in Q, E. cbn [fst snd] in *. destruct (blocks m (fst q)) as [a|] eqn:B; [|easy]. cbn [obind] in E. destruct (remove_at a (Z.of_nat i)) as [a'|] eqn:Rm; [|easy]. cbn [obind] in E. injection E as <-.
    destruct (remove_block m t p i (fst q) a a' H Q B Rm) as (nm & k & ts & t' & P). exists nm, k, (fst q), ts, t'. easy.
Qed.
