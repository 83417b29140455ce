From Verif Require Import Base CStr Array ArraySpec ArrayProofs Adt AdtSpec.
Local Notation rep := (@ArrayProofs.rep node).

(** * Trees that know their blocks *)
Inductive pt := PLeaf (nm : option (list Z)) (l : leaf) | PNull (nm : option (list Z)) (k : bool) | PBranch (nm : option (list Z)) (k : bool) (b : nat) (children : list pt).
Fixpoint ids (t : pt) : list nat := match t with PBranch _ _ b ts => b :: flat_map ids ts | _ => [] end.
Fixpoint erase (t : pt) : tree := match t with PLeaf nm l => TLeaf nm l | PNull nm k => TBranch nm k None | PBranch nm k _ ts => TBranch nm k (Some (map erase ts)) end.
Fixpoint pget (t : pt) (path : list nat) : option pt :=
  match path with [] => Some t | i :: r => match t with PBranch _ _ _ ts => c <- nth_error ts i ;; pget c r | _ => None end end.
Fixpoint pset (t : pt) (path : list nat) (x : pt) : option pt :=
  match path with
  | [] => Some x
  | i :: r => match t with PBranch nm k b ts => c <- nth_error ts i ;; c <- pset c r x ;; Some (PBranch nm k b (replace_nth ts i c)) | _ => None end
  end.
(** the pointer to the node at a non-empty path *)
Fixpoint pptr (t : pt) (i : nat) (path : list nat) : option ptr :=
  match t with
  | PBranch _ _ b ts =>
    match path with
    | [] => if (i <? length ts)%nat then Some (b, Z.of_nat i) else None
    | j :: r => c <- nth_error ts i ;; pptr c j r
    end
  | _ => None
  end.
Section PtInd.
  Context (P : pt -> Prop) (HL : forall nm l, P (PLeaf nm l)) (HN : forall nm k, P (PNull nm k)) (HB : forall nm k b ts, Forall P ts -> P (PBranch nm k b ts)).
  Fixpoint pt_ind' (t : pt) : P t :=
    match t with
    | PLeaf nm l => HL nm l
    | PNull nm k => HN nm k
    | PBranch nm k b ts => HB nm k b ts ((fix go (l : list pt) : Forall P l := match l with [] => Forall_nil P | x :: r => Forall_cons x (pt_ind' x) (go r) end) ts)
    end.
End PtInd.

Lemma nth_split {A} (l : list A) i x : nth_error l i = Some x -> l = firstn i l ++ x :: skipn (S i) l /\ length (firstn i l) = i.
Proof.
  revert i. induction l as [|y l IH]; intros [|i] H; cbn in *; try easy; [injection H as ->; easy|]. destruct (IH i H) as (E & L). split; [now rewrite <- E|now rewrite L].
Qed.
Lemma replace_app {A} (l1 l2 : list A) x y : replace_nth (l1 ++ x :: l2) (length l1) y = l1 ++ y :: l2.
Proof.
  unfold replace_nth. rewrite firstn_app, Nat.sub_diag, firstn_all, firstn_O, app_nil_r. f_equal. f_equal.
  replace (S (length l1)) with (length (l1 ++ [x])) by (rewrite app_length; cbn; lia). replace (l1 ++ x :: l2) with ((l1 ++ [x]) ++ l2) by (rewrite <- app_assoc; easy). now rewrite skipn_app, Nat.sub_diag, skipn_all.
Qed.
Lemma insert_app {A} (l1 l2 : list A) y : insert_nth (l1 ++ l2) (length l1) y = l1 ++ y :: l2.
Proof. unfold insert_nth. rewrite firstn_app, Nat.sub_diag, firstn_all, firstn_O, app_nil_r, skipn_app, Nat.sub_diag, skipn_all. easy. Qed.
Lemma delete_app {A} (l1 l2 : list A) x : delete_nth (l1 ++ x :: l2) (length l1) = l1 ++ l2.
Proof.
  unfold delete_nth. rewrite firstn_app, Nat.sub_diag, firstn_all, firstn_O, app_nil_r. f_equal.
  replace (S (length l1)) with (length (l1 ++ [x])) by (rewrite app_length; cbn; lia). replace (l1 ++ x :: l2) with ((l1 ++ [x]) ++ l2) by (rewrite <- app_assoc; easy). now rewrite skipn_app, Nat.sub_diag, skipn_all.
Qed.
Lemma replace_map {A B} (f : A -> B) l i x : map f (replace_nth l i x) = replace_nth (map f l) i (f x).
Proof. unfold replace_nth. rewrite map_app. cbn [map]. now rewrite firstn_map, skipn_map. Qed.
Lemma replace_same {A} (l : list A) i x : nth_error l i = Some x -> replace_nth l i x = l.
Proof. intros H. destruct (nth_split l i x H) as (E & _). unfold replace_nth. now rewrite <- E. Qed.
Lemma nth_app_mid {A} (l1 l2 : list A) x : nth_error (l1 ++ x :: l2) (length l1) = Some x.
Proof. now rewrite nth_error_app2, Nat.sub_diag. Qed.

Lemma app_inj_len {A} (a b c d : list A) : a ++ b = c ++ d -> length a = length c -> a = c /\ b = d.
Proof. revert c. induction a as [|x a IH]; intros [|y c] E L; cbn in *; try easy. injection E as -> E. destruct (IH c E) as (-> & ->); [lia|easy]. Qed.
Lemma NoDup_app_l {A} (a b : list A) : NoDup (a ++ b) -> NoDup a.
Proof. induction a as [|x a IH]; intros H; [constructor|]. inversion H; subst. constructor; [|auto]. intros I. apply H2. apply in_or_app. now left. Qed.
Lemma NoDup_app_r {A} (a b : list A) : NoDup (a ++ b) -> NoDup b.
Proof. induction a as [|x a IH]; intros H; [easy|]. inversion H; subst. auto. Qed.
Lemma NoDup_app_disj {A} (a b : list A) x : NoDup (a ++ b) -> In x a -> In x b -> False.
Proof. induction a as [|y a IH]; intros H I J; [easy|]. inversion H; subst. destruct I as [->|I]; [apply H2, in_or_app; now right|auto]. Qed.
(** ** the two readings agree *)
Lemma erase_get path : forall t, tget (erase t) path = option_map erase (pget t path).
Proof.
  induction path as [|i r IH]; intros t; [easy|]. destruct t as [nm l|nm k|nm k b ts]; try easy. cbn [tget erase pget]. rewrite nth_error_map. destruct (nth_error ts i) as [c|]; [|easy]. cbn [option_map obind]. apply IH.
Qed.
Lemma erase_set path : forall t x, tset (erase t) path (erase x) = option_map erase (pset t path x).
Proof.
  induction path as [|i r IH]; intros t x; [easy|]. destruct t as [nm l|nm k|nm k b ts]; try easy. cbn [tset erase pset]. rewrite nth_error_map. destruct (nth_error ts i) as [c|]; [|easy]. cbn [option_map obind]. rewrite IH.
  destruct (pset c r x) as [c'|]; [|easy]. cbn [option_map obind erase]. now rewrite replace_map.
Qed.
Lemma pset_some path : forall t x y, pget t path = Some x -> exists t', pset t path y = Some t'.
Proof.
  induction path as [|i r IH]; intros t x y H; [now exists y|]. destruct t as [nm l|nm k|nm k b ts]; try easy. cbn [pget pset] in *. destruct (nth_error ts i) as [c|]; [|easy]. cbn [obind] in *. destruct (IH c x y H) as (c' & ->). cbn [obind]. eauto.
Qed.
Lemma ids_focus path : forall t x, pget t path = Some x -> exists A B, ids t = A ++ ids x ++ B /\ forall y t', pset t path y = Some t' -> ids t' = A ++ ids y ++ B.
Proof.
  induction path as [|i r IH]; intros t x H.
  - injection H as ->. exists [], []. rewrite !app_nil_r. split; [easy|]. intros y t' E. injection E as ->. now rewrite app_nil_r.
  - destruct t as [nm l|nm k|nm k b ts]; try easy. cbn [pget pset] in *. destruct (nth_error ts i) as [c|] eqn:N; [|easy]. cbn [obind] in *. destruct (IH c x H) as (A & B & E1 & E2).
    destruct (nth_split ts i c N) as (E & L).
    exists (b :: flat_map ids (firstn i ts) ++ A), (B ++ flat_map ids (skipn (S i) ts)). split.
    + cbn [ids]. rewrite E at 1. rewrite flat_map_app. cbn [flat_map]. rewrite E1. cbn [app]. now rewrite <- !app_assoc.
    + intros y t' Q. destruct (pset c r y) as [c'|] eqn:P; [|easy]. cbn [obind] in Q. assert (t' = PBranch nm k b (replace_nth ts i c')) by congruence. subst t'. cbn [ids]. unfold replace_nth. rewrite flat_map_app. cbn [flat_map]. rewrite (E2 y c' P). cbn [app]. now rewrite <- !app_assoc.
Qed.

(** * Memory holds a tree *)
(** the root alone, in block 0, has no parent *)
Definition placed (b : nat) (n : node) : Prop := parent n = None <-> b = 0%nat.
Inductive R (m : mem) : node -> pt -> Prop :=
| R_leaf nm par l : R m (Node nm par (Leaf l)) (PLeaf nm l)
| R_null nm par k : R m (Node nm par (Branch k None)) (PNull nm k)
| R_branch nm par k b a ns ts : blocks m b = Some a -> rep a ns -> Forall (placed b) ns -> Forall2 (R m) ns ts -> R m (Node nm par (Branch k (Some b))) (PBranch nm k b ts).

Lemma R_frame m m' t : forall n, R m n t -> (forall b, In b (ids t) -> blocks m' b = blocks m b) -> R m' n t.
Proof.
  induction t as [nm l|nm k|nm k b ts IH] using pt_ind'; intros n H F; inversion H as [| |nm' par k' b' a ns ts' B Rp Pl Fa]; subst; [constructor|constructor|].
  apply R_branch with (a := a) (ns := ns); [rewrite F by (now left); easy|easy|easy|].
  assert (G : forall b', In b' (flat_map ids ts) -> blocks m' b' = blocks m b') by (intros; apply F; now right). clear F H B Rp Pl.
  revert ns Fa. induction IH as [|t ts Ht IH IH2]; intros ns Fa; inversion Fa; subst; constructor.
  - apply Ht; [easy|]. intros b' I. apply G. cbn. apply in_or_app. now left.
  - apply IH2; [|easy]. intros b' I. apply G. cbn. apply in_or_app. now right.
Qed.
Lemma rep_get a l i x : rep a l -> nth_error l i = Some x -> get_at a (Z.of_nat i) = Some x /\ Z.of_nat i < count a.
Proof.
  intros (r & E & C & P) H. assert (i < length l)%nat by (apply nth_error_Some; congruence). split; [|lia]. unfold get_at. destruct (Z.leb_spec 0 (Z.of_nat i)); [|lia]. rewrite Nat2Z.id, E, nth_error_app1 by lia. easy.
Qed.
Lemma F2_nth {A B} (P : A -> B -> Prop) l1 l2 i y : Forall2 P l1 l2 -> nth_error l2 i = Some y -> exists x, nth_error l1 i = Some x /\ P x y.
Proof. intros H. revert i. induction H; intros [|i] E; cbn in *; try easy; [injection E as ->; eauto|auto]. Qed.
Lemma F2_len {A B} (P : A -> B -> Prop) l1 l2 : Forall2 P l1 l2 -> length l1 = length l2.
Proof. induction 1; cbn; congruence. Qed.

Lemma siblings m m' l1 l2 : Forall2 (R m) l1 l2 -> (forall y ny, In y l2 -> R m ny y -> R m' ny y) -> Forall2 (R m') l1 l2.
Proof. induction 1 as [|ny y l1 l2 Hy F IH]; intros H; constructor; [apply H; [now left|easy]|apply IH; intros y' n' I; apply H; now right]. Qed.
(** the cell a pointer shows *)
Definition cell (m : mem) (q : ptr) (n : node) : Prop := exists a l1 l2, blocks m (fst q) = Some a /\ rep a (l1 ++ n :: l2) /\ snd q = Z.of_nat (length l1).
Lemma cell_deref m q n : cell m q n -> deref m q = Some n.
Proof.
  intros (a & l1 & l2 & B & Rp & E). unfold deref. rewrite B. cbn [obind]. rewrite E. now apply (rep_get a _ (length l1) n Rp), nth_app_mid.
Qed.
(** everything of the tree but the node at the path *)
Lemma focus : forall path i m n t q x, R m n t -> NoDup (ids t) -> pptr t i path = Some q -> pget t (i :: path) = Some x ->
  exists a l1 nx l2, blocks m (fst q) = Some a /\ rep a (l1 ++ nx :: l2) /\ snd q = Z.of_nat (length l1) /\ R m nx x /\ In (fst q) (ids t) /\ ~ In (fst q) (ids x) /\ placed (fst q) nx /\
    forall m' nx' x' a', R m' nx' x' -> placed (fst q) nx' -> blocks m' (fst q) = Some a' -> rep a' (l1 ++ nx' :: l2) ->
      (forall b, In b (ids t) -> ~ In b (ids x) -> b <> fst q -> blocks m' b = blocks m b) ->
      exists t', pset t (i :: path) x' = Some t' /\ R m' n t'.
Proof.
  induction path as [|j r IH]; intros i m n t q x H ND Q G.
  - inversion H as [| |nm par k b a ns ts B Rp Pl F]; subst; cbn [pptr pget] in *; try easy. destruct (Nat.ltb_spec i (length ts)) as [L|L]; [|easy]. injection Q as <-. cbn [fst snd].
    destruct (nth_error ts i) as [c|] eqn:N; [|easy]. cbn [obind] in G. injection G as ->.
    destruct (F2_nth _ _ _ _ _ F N) as (nx & Nx & Hx). destruct (nth_split ns i nx Nx) as (E & Ln). destruct (nth_split ts i x N) as (E' & Lt).
    exists a, (firstn i ns), nx, (skipn (S i) ns). split; [easy|]. split; [now rewrite <- E|]. split; [now rewrite Ln|]. split; [easy|]. split; [now left|].
    cbn [ids] in ND. inversion ND as [|? ? NI ND2]; subst. split.
    { intros I. apply NI. apply in_flat_map. exists x. split; [eapply nth_error_In; eauto|easy]. }
    assert (Pl' : Forall (placed b) (firstn i ns ++ nx :: skipn (S i) ns)) by (now rewrite <- E). apply Forall_app in Pl'. destruct Pl' as (Pl1 & Pl2). inversion Pl2 as [|? ? Pl3 Pl4]; subst. split; [easy|].
    intros m' nx' x' a' Hx' Px' B' Rp' Fr. cbn [pset]. rewrite N. cbn [obind]. eexists. split; [reflexivity|]. apply R_branch with (a := a') (ns := firstn i ns ++ nx' :: skipn (S i) ns); [easy|easy|apply Forall_app; split; [easy|now constructor]|].
    assert (Sib : forall y ny, R m ny y -> (forall b', In b' (ids y) -> In b' (flat_map ids ts) /\ ~ In b' (ids x)) -> R m' ny y).
    { intros y ny Hy Iy. apply (R_frame m); [easy|]. intros b' I. destruct (Iy b' I) as (I1 & I2). apply Fr; [now right|easy|]. intros ->. now apply NI. }
    rewrite E in F. rewrite E' in F. apply Forall2_app_inv_l in F. destruct F as (k1 & k2 & F1 & F2 & Ek).
    assert (k1 = firstn i ts /\ k2 = x :: skipn (S i) ts) as (-> & ->).
    { apply app_inj_len in Ek; [now destruct Ek|]. rewrite <- (F2_len _ _ _ F1). now rewrite Ln, Lt. }
    inversion F2 as [|? ? ? ? _ F2']; subst. unfold replace_nth. rewrite E' in ND2. rewrite flat_map_app in ND2. cbn [flat_map] in ND2.
    apply Forall2_app; [|constructor; [easy|]].
    + clear - F1 Sib ND2 E'. assert (Q : forall y, In y (firstn i ts) -> forall b', In b' (ids y) -> In b' (flat_map ids ts) /\ ~ In b' (ids x)).
      { intros y Iy b' Ib. assert (I1 : In b' (flat_map ids (firstn i ts))) by (apply in_flat_map; eauto). split; [rewrite E', flat_map_app; apply in_or_app; now left|]. intros I2. eapply NoDup_app_disj; [exact ND2|exact I1|]. apply in_or_app. now left. }
      apply (siblings m); [exact F1|]. intros y ny I Hy. apply Sib; [easy|now apply Q].
    + clear - F2' Sib ND2 E'. assert (Q : forall y, In y (skipn (S i) ts) -> forall b', In b' (ids y) -> In b' (flat_map ids ts) /\ ~ In b' (ids x)).
      { intros y Iy b' Ib. assert (I1 : In b' (flat_map ids (skipn (S i) ts))) by (apply in_flat_map; eauto). split; [rewrite E', flat_map_app; apply in_or_app; right; cbn [flat_map]; apply in_or_app; now right|]. intros I2. apply NoDup_app_r in ND2. eapply NoDup_app_disj; [exact ND2|exact I2|easy]. }
      apply (siblings m); [exact F2'|]. intros y ny I Hy. apply Sib; [easy|now apply Q].
  - inversion H as [| |nm par k b a ns ts B Rp Pl F]; subst; cbn [pptr] in Q; try easy. remember (j :: r) as jr. cbn [pget] in G. destruct (nth_error ts i) as [c|] eqn:N; [|easy]. cbn [obind] in *. subst jr.
    destruct (F2_nth _ _ _ _ _ F N) as (nc & Nc & Hc). destruct (nth_split ns i nc Nc) as (E & Ln). destruct (nth_split ts i c N) as (E' & Lt).
    cbn [ids] in ND. inversion ND as [|? ? NI ND2]; subst. pose proof ND2 as ND3. rewrite E', flat_map_app in ND3. cbn [flat_map] in ND3.
    assert (NDc : NoDup (ids c)) by (apply NoDup_app_r in ND3; now apply NoDup_app_l in ND3).
    destruct (IH j m nc c q x Hc NDc Q G) as (a0 & l1 & nx & l2 & B0 & Rp0 & Sq & Hx & Iq & Nq & Pq & K).
    assert (Icb : forall b', In b' (ids c) -> In b' (flat_map ids ts)) by (intros b' I; apply in_flat_map; exists c; split; [eapply nth_error_In; eauto|easy]).
    exists a0, l1, nx, l2. split; [easy|]. split; [easy|]. split; [easy|]. split; [easy|]. split; [right; now apply Icb|]. split; [easy|]. split; [easy|].
    intros m' nx' x' a' Hx' Px' B' Rp' Fr.
    destruct (K m' nx' x' a' Hx' Px' B' Rp') as (c' & Ec & Hc'); [intros b' I1 I2 I3; apply Fr; [right; now apply Icb|easy|easy]|].
    remember (j :: r) as jr. cbn [pset]. rewrite N. cbn [obind]. rewrite Ec. cbn [obind]. eexists. split; [reflexivity|].
    assert (Bx : forall b', In b' (ids x) -> In b' (ids c)).
    { intros b' I. destruct (ids_focus jr c x G) as (A1 & B1 & E1 & _). rewrite E1. apply in_or_app. right. apply in_or_app. now left. }
    apply R_branch with (a := a) (ns := ns); [|easy|easy|].
    { rewrite Fr; [easy|now left|intros I; apply NI; now apply Icb, Bx|intros ->; apply NI; now apply Icb]. }
    assert (Sib : forall y ny, R m ny y -> (forall b', In b' (ids y) -> In b' (flat_map ids ts) /\ ~ In b' (ids c)) -> R m' ny y).
    { intros y ny Hy Iy. apply (R_frame m); [easy|]. intros b' I. destruct (Iy b' I) as (I1 & I2). apply Fr; [now right|intros I3; now apply I2, Bx|]. intros ->. now apply I2. }
    rewrite E in F. rewrite E' in F. apply Forall2_app_inv_l in F. destruct F as (k1 & k2 & F1 & F2 & Ek).
    assert (k1 = firstn i ts /\ k2 = c :: skipn (S i) ts) as (-> & ->).
    { apply app_inj_len in Ek; [now destruct Ek|]. rewrite <- (F2_len _ _ _ F1). now rewrite Ln, Lt. }
    inversion F2 as [|? ? ? ? _ F2']; subst. rewrite E. unfold replace_nth.
    apply Forall2_app; [|constructor; [easy|]].
    + clear - F1 Sib ND3 E'. assert (Q : forall y, In y (firstn i ts) -> forall b', In b' (ids y) -> In b' (flat_map ids ts) /\ ~ In b' (ids c)).
      { intros y Iy b' Ib. assert (I1 : In b' (flat_map ids (firstn i ts))) by (apply in_flat_map; eauto). split; [rewrite E', flat_map_app; apply in_or_app; now left|]. intros I2. eapply NoDup_app_disj; [exact ND3|exact I1|]. apply in_or_app. now left. }
      apply (siblings m); [exact F1|]. intros y ny I Hy. apply Sib; [easy|now apply Q].
    + clear - F2' Sib ND3 E'. assert (Q : forall y, In y (skipn (S i) ts) -> forall b', In b' (ids y) -> In b' (flat_map ids ts) /\ ~ In b' (ids c)).
      { intros y Iy b' Ib. assert (I1 : In b' (flat_map ids (skipn (S i) ts))) by (apply in_flat_map; eauto). split; [rewrite E', flat_map_app; apply in_or_app; right; cbn [flat_map]; apply in_or_app; now right|]. intros I2. apply NoDup_app_r in ND3. eapply NoDup_app_disj; [exact ND3|exact I2|easy]. }
      apply (siblings m); [exact F2'|]. intros y ny I Hy. apply Sib; [easy|now apply Q].
Qed.
