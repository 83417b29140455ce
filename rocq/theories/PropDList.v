(** C23: linked lists. *)
From Verif Require Import Base DList DListSpec.

Lemma deref_some st a n : a <> 0 -> st a = Some n -> deref st a = Some n.
Proof. intros H E. unfold deref. destruct (Z.eqb_spec a 0); easy. Qed.


(** the last node of a prefix points at the head of the rest *)
Lemma fwd_join st : forall l1 a r, fwd st a (l1 ++ r) -> fwd st (match r with x :: _ => x | [] => 0 end) r.
Proof.
  induction l1 as [|x l1 IH]; intros a r F; cbn [app] in F.
  - destruct r; [easy|]. cbn [fwd] in *. destruct F as (-> & ?). easy.
  - cbn [fwd] in F. destruct F as (_ & _ & n & _ & F). now apply IH in F.
Qed.
Lemma fwd_frame st st' : forall l a, (forall x, In x l -> st' x = st x) -> fwd st a l -> fwd st' a l.
Proof.
  induction l as [|x l IH]; intros a S F; [easy|]. cbn [fwd] in *. destruct F as (-> & ? & n & E & F).
  repeat split; try easy. exists n. rewrite S by (now left). split; [easy|]. apply IH; [|easy]. intros y Hy. apply S. now right.
Qed.
(** replacing the part after [c]: [c]'s next is redirected to [r'] *)
Lemma fwd_splice st st' c : forall l1 a r r', fwd st a (l1 ++ c :: r) -> (forall x, In x l1 -> st' x = st x) ->
  (exists n, st' c = Some n /\ fwd st' (n_next n) r') -> fwd st' a (l1 ++ c :: r').
Proof.
  induction l1 as [|x l1 IH]; intros a r r' F S H; cbn [app fwd] in *.
  - destruct F as (-> & ? & _). repeat split; try easy.
  - destruct F as (-> & ? & n & E & F). repeat split; try easy. exists n. rewrite S by (now left). split; [easy|].
    apply IH with r; [easy| |easy]. intros y Hy. apply S. now right.
Qed.
Lemma fwd_in st : forall l a x, fwd st a l -> In x l -> x <> 0 /\ exists n, st x = Some n.
Proof.
  induction l as [|y l IH]; intros a x F I; [easy|]. cbn [fwd] in F. destruct F as (-> & ? & n & E & F). destruct I as [->|I].
  - eauto.
  - now apply IH with (n_next n).
Qed.
Lemma back_frame st st' : forall l p, (forall x, In x l -> option_map n_prev (st' x) = option_map n_prev (st x)) -> back st p l -> back st' p l.
Proof.
  induction l as [|x l IH]; intros p S B; [easy|]. cbn [back] in *. destruct B as ((n & E & P) & B). split.
  - specialize (S x (or_introl eq_refl)). rewrite E in S. cbn in S. destruct (st' x) as [n'|]; [|easy]. injection S as S.
    exists n'. split; [easy|congruence].
  - apply IH; [|easy]. intros y Hy. apply S. now right.
Qed.
Lemma back_app st : forall l p r, back st p (l ++ r) <-> back st p l /\ back st (last l p) r.
Proof.
  induction l as [|x l IH]; intros p r; cbn [app back]; [cbn; tauto|]. rewrite IH.
  assert (E : last (x :: l) p = last l x).
  { destruct l as [|y l]; [easy|]. cbn [last]. clear. revert y. induction l as [|w l IH]; intros y; [easy|]. apply IH. }
  rewrite E. tauto.
Qed.

(** what list_add does to the store *)
Lemma add_eval st a item na ni : a <> 0 -> item <> 0 -> a <> item -> st a = Some na -> st item = Some ni ->
  exists st', list_add st a item = Some (st', item) /\
    st' a = Some (mkNode (n_ptr na) item (n_prev na)) /\
    st' item = Some (mkNode (n_ptr ni) (n_next na) a) /\
    forall x, x <> a -> x <> item -> st' x = st x.
Proof.
  intros Ha Hi Hne Ea Ei. unfold list_add, set_next at 1. rewrite (deref_some _ _ _ Hi Ei). cbn [obind].
  set (st1 := put _ _ _).
  assert (E1a : st1 a = Some na) by (unfold st1, put; destruct (Z.eqb_spec a item); easy).
  rewrite (deref_some _ _ _ Ha E1a). cbn [obind].
  assert (exists st2, (if n_next na =? 0 then Some st1 else set_next st1 item (n_next na)) = Some st2 /\
    st2 item = Some (mkNode (n_ptr ni) (n_next na) (n_prev ni)) /\ forall x, x <> item -> st2 x = st x) as (st2 & E2 & I2 & O2).
  { destruct (Z.eqb_spec (n_next na) 0) as [Z0|NZ].
    - exists st1. split; [easy|]. unfold st1, put. rewrite Z.eqb_refl, Z0. split; [easy|]. intros x Hx. destruct (Z.eqb_spec x item); easy.
    - unfold set_next. rewrite (deref_some st1 item (mkNode (n_ptr ni) 0 (n_prev ni)) Hi) by (unfold st1, put; now rewrite Z.eqb_refl).
      cbn [obind]. eexists. split; [reflexivity|]. unfold put at 1. rewrite Z.eqb_refl. split; [easy|].
      intros x Hx. unfold st1, put. destruct (Z.eqb_spec x item); easy. }
  rewrite E2. cbn [obind]. unfold set_next. rewrite (deref_some st2 a na Ha) by (rewrite O2 by easy; easy). cbn [obind].
  set (st3 := put st2 _ _).
  assert (E3 : st3 item = Some (mkNode (n_ptr ni) (n_next na) (n_prev ni))).
  { unfold st3, put. destruct (Z.eqb_spec item a); [congruence|easy]. }
  unfold set_prev. rewrite (deref_some _ _ _ Hi E3). cbn [obind n_ptr n_next].
  eexists. split; [reflexivity|]. unfold put at 1 2. rewrite Z.eqb_refl. destruct (Z.eqb_spec a item); [easy|].
  unfold st3. split; [unfold put; now rewrite Z.eqb_refl|]. split; [easy|].
  intros x Hx Hy. unfold put. destruct (Z.eqb_spec x item); [easy|]. destruct (Z.eqb_spec x a); [easy|]. now apply O2.
Qed.

Lemma remove_eval st a na : a <> 0 -> st a = Some na -> n_prev na <> a ->
  (n_prev na <> 0 -> exists p, st (n_prev na) = Some p) ->
  exists st', list_remove st a = Some (st', n_next na) /\
    (forall x, (x = n_prev na -> n_prev na = 0) -> st' x = st x) /\
    (forall p, n_prev na <> 0 -> st (n_prev na) = Some p -> st' (n_prev na) = Some (mkNode (n_ptr p) (n_next na) (n_prev p))).
Proof.
  intros Ha Ea Hne Hp. unfold list_remove. rewrite (deref_some _ _ _ Ha Ea). cbn [obind].
  destruct (Z.eqb_spec (n_prev na) 0) as [Z0|NZ].
  - cbn [obind]. rewrite (deref_some _ _ _ Ha Ea). cbn [obind]. exists st. split; [easy|]. split; [easy|]. congruence.
  - destruct (Hp NZ) as (p & Ep). unfold set_next. rewrite (deref_some _ _ _ NZ Ep). cbn [obind].
    set (st1 := put _ _ _).
    assert (E1 : st1 a = Some na) by (unfold st1, put; destruct (Z.eqb_spec a (n_prev na)); [congruence|easy]).
    rewrite (deref_some _ _ _ Ha E1). cbn [obind]. exists st1. split; [easy|]. split.
    + intros x Hx. unfold st1, put. destruct (Z.eqb_spec x (n_prev na)); [now destruct NZ; apply Hx|easy].
    + intros q _ Eq. rewrite Ep in Eq. injection Eq as <-. unfold st1, put. now rewrite Z.eqb_refl.
Qed.

(** C23. Adding after the tail appends and keeps the list well formed. *)
Theorem C23_add_tail st l t item ni : dlist st (l ++ [t]) -> item <> 0 -> ~ In item (l ++ [t]) -> st item = Some ni ->
  exists st', list_add st t item = Some (st', item) /\ dlist st' (l ++ [t; item]).
Proof.
  intros (D & F & B) Hi Hni Ei.
  assert (It : In t (l ++ [t])) by (apply in_or_app; right; now left).
  destruct (fwd_in _ _ _ _ F It) as (Ht & nt & Et).
  assert (Hne : t <> item) by (intros ->; auto).
  destruct (add_eval st t item nt ni Ht Hi Hne Et Ei) as (st' & X & Sa & Si & So).
  exists st'. split; [easy|].
  assert (Nt : n_next nt = 0).
  { apply fwd_join in F. cbn in F. destruct F as (_ & _ & n & En & F). congruence. }
  assert (Same : forall x, In x l -> st' x = st x).
  { intros x Hx. apply So; intros ->.
    - apply NoDup_remove_2 in D. rewrite app_nil_r in D. auto.
    - apply Hni. apply in_or_app. now left. }
  split; [|split].
  - replace (l ++ [t; item]) with ((l ++ [t]) ++ [item]) by now rewrite <- app_assoc.
    apply NoDup_Add with (a := item) (l := l ++ [t]); [|easy]. rewrite <- (app_nil_r (l ++ [t])) at 1. apply Add_app.
  - replace (hd 0 (l ++ [t; item])) with (hd 0 (l ++ [t])) by now destruct l.
    apply (fwd_splice st st' t l _ []); [exact F|easy|]. exists (mkNode (n_ptr nt) item (n_prev nt)). split; [easy|].
    cbn. repeat split; try easy. eexists. split; [exact Si|]. cbn. exact Nt.
  - replace (l ++ [t; item]) with ((l ++ [t]) ++ [item]) by now rewrite <- app_assoc.
    apply back_app. split.
    + apply (back_frame st); [|exact B]. intros x Hx. apply in_app_or in Hx. destruct Hx as [Hx|[<-|[]]].
      * now rewrite Same.
      * rewrite Sa, Et. easy.
    + rewrite last_last. cbn. split; [|easy]. eexists. split; [exact Si|]. easy.
Qed.

(** Adding anywhere inserts right after the given node, following [next]. *)
Theorem C23_add_inserts_forward st l1 a l2 item ni h : fwd st h (l1 ++ a :: l2) -> NoDup (l1 ++ a :: l2) ->
  item <> 0 -> ~ In item (l1 ++ a :: l2) -> st item = Some ni ->
  exists st', list_add st a item = Some (st', item) /\ fwd st' h (l1 ++ a :: item :: l2).
Proof.
  intros F D Hi Hni Ei.
  assert (Ia : In a (l1 ++ a :: l2)) by (apply in_or_app; right; now left).
  destruct (fwd_in _ _ _ _ F Ia) as (Ha & na & Ea).
  assert (Hne : a <> item) by (intros ->; auto).
  destruct (add_eval st a item na ni Ha Hi Hne Ea Ei) as (st' & X & Sa & Si & So).
  exists st'. split; [easy|].
  pose proof (NoDup_remove_2 _ _ _ D) as D2. rewrite in_app_iff in D2. rewrite in_app_iff in Hni. cbn in Hni.
  apply (fwd_splice st st' a l1 _ l2); [exact F| |].
  - intros x Hx. apply So; intros ->; tauto.
  - eexists. split; [exact Sa|]. cbn [n_next fwd]. repeat split; try easy. eexists. split; [exact Si|]. cbn [n_next].
    apply fwd_join in F. cbn [fwd] in F. destruct F as (_ & _ & n & En & F). rewrite Ea in En. injection En as <-.
    apply (fwd_frame st); [|exact F]. intros x Hx. apply So; intros ->; tauto.
Qed.

(** ... but whenever there is a successor its back link is left wrong. *)
Theorem C23_add_middle_breaks_back_link st l1 a b l2 item ni : dlist st (l1 ++ a :: b :: l2) ->
  item <> 0 -> ~ In item (l1 ++ a :: b :: l2) -> st item = Some ni ->
  exists st', list_add st a item = Some (st', item) /\ ~ dlist st' (l1 ++ a :: item :: b :: l2) /\
    exists nb, st' b = Some nb /\ n_prev nb = a.
Proof.
  intros (D & F & B) Hi Hni Ei.
  assert (Ia : In a (l1 ++ a :: b :: l2)) by (apply in_or_app; right; now left).
  destruct (fwd_in _ _ _ _ F Ia) as (Ha & na & Ea).
  assert (Hne : a <> item) by (intros ->; auto).
  destruct (add_eval st a item na ni Ha Hi Hne Ea Ei) as (st' & X & Sa & Si & So).
  exists st'. split; [easy|].
  rewrite back_app in B. cbn [back] in B. destruct B as (_ & _ & (nb & Eb & Pb) & _).
  assert (a <> b). { intros ->. apply NoDup_remove_2 in D. apply D. apply in_or_app. right. now left. }
  assert (item <> b). { intros ->. apply Hni. apply in_or_app. right. right. now left. }
  assert (Eb' : st' b = Some nb) by (rewrite So by auto; easy).
  split; [|eauto]. intros (_ & _ & B'). rewrite back_app in B'. cbn [back] in B'. destruct B' as (_ & _ & _ & (nb' & Eb2 & Pb2) & _).
  congruence.
Qed.

(** Removing a node of a well-formed list unlinks it (following [next]) and returns
    its successor. *)
Theorem C23_remove_unlinks st l1 a l2 : dlist st (l1 ++ a :: l2) ->
  exists st', list_remove st a = Some (st', hd 0 l2) /\ fwd st' (hd 0 (l1 ++ l2)) (l1 ++ l2).
Proof.
  intros (D & F & B).
  assert (Ia : In a (l1 ++ a :: l2)) by (apply in_or_app; right; now left).
  destruct (fwd_in _ _ _ _ F Ia) as (Ha & na & Ea).
  pose proof B as B0. rewrite back_app in B. cbn [back] in B. destruct B as (B1 & (na' & Ea' & Pa) & B2).
  rewrite Ea in Ea'. injection Ea' as <-.
  pose proof (NoDup_remove_2 _ _ _ D) as D2. rewrite in_app_iff in D2.
  pose proof (fwd_join _ _ _ _ F) as Fa. cbn [fwd] in Fa. destruct Fa as (_ & _ & n & En & Fr). rewrite Ea in En. injection En as <-.
  assert (Nx : n_next na = hd 0 l2). { destruct l2; cbn in *; [easy|]. easy. }
  assert (l1 = [] \/ exists l0 p, l1 = l0 ++ [p]) as [->|(l0 & p & ->)].
  { clear. destruct l1 using rev_ind; eauto. }
  - cbn in Pa. destruct (remove_eval st a na Ha Ea) as (st' & X & So & _); [congruence|congruence|].
    exists st'. rewrite X, Nx. split; [easy|]. cbn [app]. rewrite <- Nx. apply (fwd_frame st); [|exact Fr].
    intros x Hx. apply So. intros ->. easy.
  - rewrite last_last in Pa. rewrite in_app_iff in D2. cbn in D2.
    assert (Ip : In p ((l0 ++ [p]) ++ a :: l2)) by (apply in_or_app; left; apply in_or_app; right; now left).
    destruct (fwd_in _ _ _ _ F Ip) as (Hp & np & Ep).
    destruct (remove_eval st a na Ha Ea) as (st' & X & So & Sp); [intros E; rewrite Pa in E; subst; tauto|rewrite Pa; eauto|].
    rewrite Pa in *. specialize (Sp np Hp Ep). exists st'. rewrite X, Nx. split; [easy|].
    assert (D3 : ~ In p (l0 ++ a :: l2)).
    { rewrite <- app_assoc in D. cbn [app] in D. now apply NoDup_remove_2 in D. }
    rewrite <- app_assoc. cbn [app].
    replace (hd 0 (l0 ++ p :: l2)) with (hd 0 ((l0 ++ [p]) ++ a :: l2)) by now destruct l0.
    rewrite <- app_assoc in *. cbn [app] in *.
    apply (fwd_splice st st' p l0 _ (a :: l2)); [|..].
    + exact F.
    + intros x Hx. apply So. intros ->. exfalso. apply D3. apply in_or_app. now left.
    + eexists. split; [exact Sp|]. cbn [n_next]. apply (fwd_frame st); [|exact Fr].
      intros x Hx. apply So. intros ->. exfalso. apply D3. apply in_or_app. right. now right.
Qed.

(** Removing the tail keeps the list well formed. *)
Theorem C23_remove_tail st l p t : dlist st (l ++ [p; t]) ->
  exists st', list_remove st t = Some (st', 0) /\ dlist st' (l ++ [p]).
Proof.
  intros DL. replace (l ++ [p; t]) with ((l ++ [p]) ++ [t]) in DL by now rewrite <- app_assoc.
  destruct (C23_remove_unlinks st (l ++ [p]) t [] DL) as (st' & X & F). cbn [hd] in X.
  rewrite app_nil_r in F. exists st'. split; [exact X|]. destruct DL as (D & F0 & B).
  pose proof (NoDup_remove_1 _ _ _ D) as D1. rewrite app_nil_r in D1.
  split; [exact D1|]. split; [exact F|].
  rewrite back_app in B. destruct B as (B1 & Bt). cbn [back] in Bt. destruct Bt as ((nt & Et & Pt) & _).
  rewrite last_last in Pt.
  assert (It : In t ((l ++ [p]) ++ [t])) by (apply in_or_app; right; now left).
  assert (Ip : In p ((l ++ [p]) ++ [t])) by (apply in_or_app; left; apply in_or_app; right; now left).
  destruct (fwd_in _ _ _ _ F0 It) as (Ht & _). destruct (fwd_in _ _ _ _ F0 Ip) as (Hp & np & Ep).
  assert (p <> t). { intros ->. apply NoDup_remove_2 in D. rewrite app_nil_r in D. apply D. apply in_or_app. right. now left. }
  destruct (remove_eval st t nt Ht Et) as (st2 & X2 & So & Sp); [congruence|rewrite Pt; eauto|].
  rewrite X in X2. injection X2 as <- _. apply (back_frame st); [|exact B1].
  intros x Hx. destruct (Z.eq_dec x p) as [->|Hxp].
  - rewrite Pt in *. rewrite (Sp np Hp Ep), Ep. easy.
  - rewrite So; [easy|]. rewrite Pt. congruence.
Qed.

(** Two adds after the head and one remove: node 20 is lost although only 10 was removed. *)
Definition st0 : store := fun x => if (x =? 1) || (x =? 10) || (x =? 20) || (x =? 30) then Some (mkNode 0 0 0) else None.
Theorem C23_add_add_remove_loses_refuted : exists st1 st2 st3 r,
  list_add st0 1 10 = Some (st1, 10) /\ list_add st1 1 20 = Some (st2, 20) /\ fwd st2 1 [1; 20; 10] /\
  list_remove st2 10 = Some (st3, r) /\ fwd st3 1 [1].
Proof.
  do 4 eexists. split; [reflexivity|]. split; [reflexivity|]. split.
  { cbn. repeat split; try lia. eexists. split; [reflexivity|]. cbn. repeat split; try lia. eexists. split; [reflexivity|].
    cbn. repeat split; try lia. eexists. split; [reflexivity|]. easy. }
  split; [reflexivity|]. cbn. repeat split; try lia. eexists. split; [reflexivity|]. easy.
Qed.
(** Removing two neighbours in order: the second removal has no effect. *)
Theorem C23_remove_remove_keeps_refuted : exists st1 st2 r1 r2,
  exists st, dlist st [1; 10; 20; 30] /\
  list_remove st 10 = Some (st1, r1) /\ fwd st1 1 [1; 20; 30] /\
  list_remove st1 20 = Some (st2, r2) /\ fwd st2 1 [1; 20; 30].
Proof.
  do 4 eexists.
  exists (fun x => if x =? 1 then Some (mkNode 0 10 0) else if x =? 10 then Some (mkNode 0 20 1)
            else if x =? 20 then Some (mkNode 0 30 10) else if x =? 30 then Some (mkNode 0 0 20) else None).
  split.
  { split; [|split].
    - repeat constructor; cbn; lia.
    - cbn. repeat (split; [lia|]; split; [lia|]; eexists; split; [reflexivity|]; cbn). easy.
    - cbn. repeat (split; [eexists; split; [reflexivity|easy]|]). easy. }
  split; [reflexivity|]. split.
  { cbn. repeat (split; [lia|]; split; [lia|]; eexists; split; [reflexivity|]; cbn). easy. }
  split; [reflexivity|].
  cbn. repeat (split; [lia|]; split; [lia|]; eexists; split; [reflexivity|]; cbn). easy.
Qed.

Example C23_ex : exists st, dlist st [1; 10] /\ st 20 <> None.
Proof.
  exists (fun x => if x =? 1 then Some (mkNode 0 10 0) else if x =? 10 then Some (mkNode 0 0 1)
            else if x =? 20 then Some (mkNode 5 0 0) else None).
  split; [|easy]. split; [|split].
  - repeat constructor; cbn; lia.
  - cbn. repeat (split; [lia|]; split; [lia|]; eexists; split; [reflexivity|]; cbn). easy.
  - cbn. repeat (split; [eexists; split; [reflexivity|easy]|]). easy.
Qed.

(** A fresh node is a list of one, carries its payload, and nothing else changes. *)
Theorem C23_init st a ptr : a <> 0 -> st a <> None ->
  exists st', list_init st a ptr = Some st' /\ dlist st' [a] /\ st' a = Some (mkNode ptr 0 0) /\ forall x, x <> a -> st' x = st x.
Proof.
  intros Ha M. destruct (st a) as [n|] eqn:E; [|easy]. unfold list_init. rewrite (deref_some st a n Ha E). cbn [obind].
  eexists. split; [reflexivity|].
  assert (P : put st a (mkNode ptr 0 0) a = Some (mkNode ptr 0 0)) by (unfold put; now rewrite Z.eqb_refl).
  split; [|split; [exact P|]].
  - split; [repeat constructor; easy|]. split; cbn.
    + split; [easy|]. split; [easy|]. eexists. split; [exact P|easy].
    + split; [|easy]. eexists. split; [exact P|easy].
  - intros x Hx. unfold put. destruct (Z.eqb_spec x a); easy.
Qed.
(** Adding and removing never touch a payload. *)
Lemma set_next_ptr st a v st' : set_next st a v = Some st' -> forall x, option_map n_ptr (st' x) = option_map n_ptr (st x).
Proof.
  unfold set_next, deref. destruct (a =? 0); [easy|]. destruct (st a) as [n|] eqn:E; [|easy]. cbn [obind]. intros [= <-] x.
  unfold put. destruct (Z.eqb_spec x a) as [->|]; [now rewrite E|easy].
Qed.
Lemma set_prev_ptr st a v st' : set_prev st a v = Some st' -> forall x, option_map n_ptr (st' x) = option_map n_ptr (st x).
Proof.
  unfold set_prev, deref. destruct (a =? 0); [easy|]. destruct (st a) as [n|] eqn:E; [|easy]. cbn [obind]. intros [= <-] x.
  unfold put. destruct (Z.eqb_spec x a) as [->|]; [now rewrite E|easy].
Qed.
Theorem C23_payloads st a item st' r :
  list_add st a item = Some (st', r) \/ list_remove st a = Some (st', r) ->
  forall x, option_map n_ptr (st' x) = option_map n_ptr (st x).
Proof.
  intros [E|E] x.
  - unfold list_add in E. destruct (set_next st item 0) as [s1|] eqn:E1; [|easy]. cbn [obind] in E.
    destruct (deref s1 a) as [l|]; [|easy]. cbn [obind] in E.
    destruct (if n_next l =? 0 then Some s1 else set_next s1 item (n_next l)) as [s2|] eqn:E2; [|easy]. cbn [obind] in E.
    destruct (set_next s2 a item) as [s3|] eqn:E3; [|easy]. cbn [obind] in E.
    destruct (set_prev s3 item a) as [s4|] eqn:E4; [|easy]. cbn [obind] in E. injection E as <- <-.
    rewrite (set_prev_ptr _ _ _ _ E4), (set_next_ptr _ _ _ _ E3). destruct (n_next l =? 0).
    + injection E2 as <-. now apply (set_next_ptr _ _ _ _ E1).
    + rewrite (set_next_ptr _ _ _ _ E2). now apply (set_next_ptr _ _ _ _ E1).
  - unfold list_remove in E. destruct (deref st a) as [l|]; [|easy]. cbn [obind] in E.
    destruct (if n_prev l =? 0 then Some st else set_next st (n_prev l) (n_next l)) as [s2|] eqn:E2; [|easy]. cbn [obind] in E.
    destruct (deref s2 a) as [l2|]; [|easy]. cbn [obind] in E. injection E as <- <-. destruct (n_prev l =? 0).
    + now injection E2 as <-.
    + now apply (set_next_ptr _ _ _ _ E2).
Qed.
Example C23_init_ex : exists st, list_init (fun x => if x =? 8 then Some (mkNode 1 2 3) else None) 8 77 = Some st /\ st 8 = Some (mkNode 77 0 0).
Proof. eexists. split; reflexivity. Qed.

Print Assumptions C23_add_tail.
Print Assumptions C23_add_inserts_forward.
Print Assumptions C23_add_middle_breaks_back_link.
Print Assumptions C23_remove_unlinks.
Print Assumptions C23_remove_tail.
Print Assumptions C23_add_add_remove_loses_refuted.
Print Assumptions C23_remove_remove_keeps_refuted.
Print Assumptions C23_init.
Print Assumptions C23_payloads.
