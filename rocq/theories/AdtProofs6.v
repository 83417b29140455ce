From Verif Require Import Base CStr Array ArraySpec ArrayProofs ArrayProofs2 Adt AdtSpec AdtProofs AdtProofs2 AdtProofs3 AdtProofs4 AdtProofs5.
Local Notation rep := (@ArrayProofs.rep node).

Lemma same_cell (a b : ptr) : 0 <= snd a -> 0 <= snd b -> fst a = fst b -> Z.to_nat (snd a) = Z.to_nat (snd b) -> a = b.
Proof. destruct a, b. cbn. intros. f_equal; lia. Qed.
Lemma stores_agree m P Q m1 m2 m3 mA mB mC o z tmp : 0 <= snd P -> 0 <= snd Q -> P <> Q ->
  store m Q o = Some m1 -> store m1 P o = Some m2 -> store m2 Q tmp = Some m3 ->
  store m P z = Some mA -> store mA Q tmp = Some mB -> store mB P o = Some mC ->
  next m3 = next mC /\ forall b, blocks m3 b = blocks mC b.
Proof.
  intros HP HQ N E1 E2 E3 E4 E5 E6.
  destruct (store_nth _ _ _ _ E1 HQ) as (N1 & F1). destruct (store_nth _ _ _ _ E2 HP) as (N2 & F2). destruct (store_nth _ _ _ _ E3 HQ) as (N3 & F3).
  destruct (store_nth _ _ _ _ E4 HP) as (N4 & F4). destruct (store_nth _ _ _ _ E5 HQ) as (N5 & F5). destruct (store_nth _ _ _ _ E6 HP) as (N6 & F6).
  split; [congruence|]. intros b. specialize (F1 b). specialize (F2 b). specialize (F3 b). specialize (F4 b). specialize (F5 b). specialize (F6 b).
  destruct (blocks m b), (blocks m1 b), (blocks m2 b), (blocks m3 b), (blocks mA b), (blocks mB b), (blocks mC b); try easy.
  destruct F1 as (c1 & d1 & F1), F2 as (c2 & d2 & F2), F3 as (c3 & d3 & F3), F4 as (c4 & d4 & F4), F5 as (c5 & d5 & F5), F6 as (c6 & d6 & F6).
  f_equal. apply arr_ext; [congruence|congruence|]. intros k. rewrite F3, F2, F1, F6, F5, F4.
  destruct (Nat.eqb_spec b (fst P)) as [B1|B1], (Nat.eqb_spec b (fst Q)) as [B2|B2]; cbn [andb]; try easy.
  - destruct (Nat.eqb_spec k (Z.to_nat (snd P))) as [K1|K1], (Nat.eqb_spec k (Z.to_nat (snd Q))) as [K2|K2]; try easy. elim N. apply same_cell; congruence.
  - destruct (k =? Z.to_nat (snd P))%nat; easy.
  - destruct (k =? Z.to_nat (snd Q))%nat; easy.
Qed.
Lemma prefix_refl p : prefix p p.
Proof. induction p; cbn; auto. Qed.
Lemma disj_after m t p x z t1 : holds m t -> pget t p = Some x -> ids z = [] -> pset t p z = Some t1 -> forall b, In b (ids x) -> ~ In b (ids (V t1)).
Proof.
  intros (_ & ND & _) G Z P b I J. destruct (ids_focus p t x G) as (A & B & E1 & E2). specialize (E2 z t1 P). rewrite Z in E2. cbn [V ids flat_map app] in *. rewrite app_nil_r in *. rewrite E1 in ND. rewrite E2 in J. inversion ND as [|? ? N0 N1]; subst.
  destruct J as [<-|J]; [apply N0; apply in_or_app; right; apply in_or_app; now left|]. apply in_app_or in J. destruct J as [J|J]; [eapply NoDup_app_disj; [exact N1|exact J|apply in_or_app; now left]|]. apply NoDup_app_r in N1. eapply NoDup_app_disj; eauto.
Qed.
Lemma R_store m q n m' n0 x : R m n0 x -> ~ In (fst q) (ids x) -> store m q n = Some m' -> R m' n0 x.
Proof.
  intros H N E. apply (R_frame m); [easy|]. intros b I. unfold store in E. destruct (blocks m (fst q)) as [a|]; [|easy]. cbn [obind] in E. destruct (write_cells _ _ _); [|easy]. cbn [obind] in E. injection E as <-. cbn. destruct (Nat.eqb_spec b (fst q)) as [->|]; easy.
Qed.
Lemma R_parent m nm p p' v x : R m (Node nm p v) x -> R m (Node nm p' v) x.
Proof. intros H. inversion H; subst; econstructor; eauto. Qed.
Lemma not_in_node m t p q x : holds m t -> ptr_at m root p = Some q -> pget t p = Some x -> In (fst q) (ids (V t)) /\ ~ In (fst q) (ids x).
Proof. intros H Q G. destruct (repl m t p q x H Q G) as (a & l1 & nx & l2 & B & Rp & Sq & Hx & Nq & Iq & _). easy. Qed.
Lemma in_after m t p x z t1 b : holds m t -> pget t p = Some x -> pset t p z = Some t1 -> In b (ids (V t1)) -> In b (ids (V t)) \/ In b (ids z).
Proof.
  intros _ G P I. destruct (ids_focus p t x G) as (A & B & E1 & E2). specialize (E2 z t1 P). cbn [V ids flat_map] in *. rewrite app_nil_r in *. rewrite E1, E2 in *. destruct I as [<-|I]; [left; now left|]. apply in_app_or in I. destruct I as [I|I]; [left; right; apply in_or_app; now left|]. apply in_app_or in I. destruct I as [I|I]; [now right|]. left. right. apply in_or_app. right. apply in_or_app. now right.
Qed.

Lemma swap_ok m t p q P Q m' : holds m t -> ptr_at m root p = Some P -> ptr_at m root q = Some Q -> ~ prefix p q -> ~ prefix q p -> swap_nodes m P Q = Some m' ->
  exists x y t1 t', pget t p = Some x /\ pget t q = Some y /\ pset t p y = Some t1 /\ pset t1 q x = Some t' /\ holds m' t'.
Proof.
  intros H HP HQ Np Nq E. destruct (rptr_get m t p P H HP) as (x & Gx). destruct (rptr_get m t q Q H HQ) as (y & Gy).
  destruct (shown m t p P x H HP Gx) as (n & Dn & Hn & Pn). destruct (shown m t q Q y H HQ Gy) as (o & Do & Ho & Po).
  unfold swap_nodes in E. rewrite Dn, Do in E. cbn [obind] in E. destruct (parent n) as [par|] eqn:En; [|easy]. cbn [obind] in E. destruct (parent o) as [other|] eqn:Eo; [|easy]. cbn [obind] in E.
  destruct (child_index m par P) as [[b i]|] eqn:C1; [|easy]. cbn [obind] in E. destruct (child_index m other Q) as [[b2 i2]|] eqn:C2; [|easy]. cbn [obind] in E.
  assert (EP : (b, i) = P). { unfold child_index in C1. destruct (deref m par) as [z|]; [|easy]. cbn [obind] in C1. destruct (val z) as [|? [b'|]]; try easy. destruct (Nat.eqb_spec b' (fst P)) as [Eb|]; [|easy]. injection C1 as <- <-. rewrite Eb. now destruct P. }
  assert (EQ : (b2, i2) = Q). { unfold child_index in C2. destruct (deref m other) as [z|]; [|easy]. cbn [obind] in C2. destruct (val z) as [|? [b'|]]; try easy. destruct (Nat.eqb_spec b' (fst Q)) as [Eb|]; [|easy]. injection C2 as <- <-. rewrite Eb. now destruct Q. }
  clear C1 C2. rewrite EP, EQ in E. rewrite Dn, Do in E. cbn [obind] in E. set (o' := Node (name o) (Some par) (val o)) in *. set (tmp := Node (name n) (Some other) (val n)) in *.
  destruct (store m Q o') as [m1|] eqn:S1; [|easy]. cbn [obind] in E.
  rewrite (deref_stored m m t q Q y o' m1 H HQ Gy (fun _ _ _ => eq_refl) S1) in E. cbn [obind] in E. destruct (store m1 P o') as [m2|] eqn:S2; [|easy]. cbn [obind] in E.
  assert (Hne : P <> Q) by (intros ->; apply Np; rewrite (pptr_inj m t p q Q H HP HQ); apply prefix_refl).
  assert (Fp : forall nd, parent nd <> None -> placed (fst P) nd) by (intros nd Hd; split; intros F; [easy|]; apply Pn in F; congruence).
  assert (Fq : forall nd, parent nd <> None -> placed (fst Q) nd) by (intros nd Hd; split; intros F; [easy|]; apply Po in F; congruence).
  (* the node at p taken out *)
  set (z := Node None (Some root) (Leaf LUninit)). destruct (store_some m t p P z H HP) as (mA & SA).
  destruct (put m m t p P x n z (PLeaf None LUninit) mA) as (tA & PA & HA); try easy; try (now constructor); [now apply Fp|].
  assert (GyA : pget tA q = Some y) by (rewrite (pget_other p q t (PLeaf None LUninit) tA); easy).
  assert (HQA : ptr_at mA root q = Some Q) by (rewrite (rptr_other m mA t tA p q (PLeaf None LUninit)); easy).
  assert (HPA : ptr_at mA root p = Some P) by (rewrite (rptr_set m mA t tA p (PLeaf None LUninit)); easy).
  destruct (shown mA tA q Q y HA HQA GyA) as (oA & DoA & HoA & _).
  destruct (NoDup_at m t p x H Gx) as (NDx & _ & Bdx). pose proof (disj_after m t p x (PLeaf None LUninit) tA H Gx eq_refl PA) as Dx.
  destruct (not_in_node m t p P x H HP Gx) as (IP & NPx).
  destruct (store_some mA tA q Q tmp HA HQA) as (mB & SB).
  destruct (put mA mA tA q Q y oA tmp x mB) as (tB & PB & HB); try easy.
  { now apply Fq. }
  { apply (R_store m P z); [|easy|easy]. unfold tmp. apply R_parent with (parent n). now destruct n. }
  { intros b0 I J. now apply Dx in I. }
  { rewrite (store_next _ _ _ _ SA). easy. }
  assert (HPB : ptr_at mB root p = Some P) by (rewrite (rptr_other mA mB tA tB q p x); easy).
  assert (GpA : pget tA p = Some (PLeaf None LUninit)) by (now apply pget_set in PA).
  assert (GpB : pget tB p = Some (PLeaf None LUninit)) by (rewrite (pget_other q p tA x tB); easy).
  destruct (shown mB tB p P _ HB HPB GpB) as (nB & DnB & _). destruct (store_some mB tB p P o' HB HPB) as (mC & SC).
  destruct (NoDup_at mA tA q y HA GyA) as (NDy & _ & Bdy). destruct (not_in_node mA tA q Q y HA HQA GyA) as (IQ & NQy).
  assert (HyA : R mA o' y).
  { apply (R_store m P z); [|intros I; destruct (not_in_node mA tA p P (PLeaf None LUninit) HA HPA GpA) as (IPA & _)|easy].
    - unfold o'. apply R_parent with (parent o). now destruct o.
    - (* a node does not contain the array that holds it or a node outside it *)
      destruct (rget_ptr mB tB p (PLeaf None LUninit) HB GpB) as (P2 & HP2). assert (P2 = P) by congruence. subst P2.
      destruct (not_in_node mB tB p P (PLeaf None LUninit) HB HPB GpB) as (IPB & _).
      destruct (ids_focus q tA y GyA) as (A & B & E1 & E2). specialize (E2 x tB PB).
      destruct HA as (_ & NDA & _). cbn [V ids flat_map] in NDA, IPB. rewrite app_nil_r in NDA, IPB. rewrite E1 in NDA. rewrite E2 in IPB. inversion NDA as [|? ? Z0 NDA1]; subst.
      destruct IPB as [F|IPB]; [rewrite <- F in I; apply Z0; apply in_or_app; right; apply in_or_app; now left|]. apply in_app_or in IPB. destruct IPB as [F|F]; [eapply NoDup_app_disj; [exact NDA1|exact F|apply in_or_app; now left]|].
      apply in_app_or in F. destruct F as [F|F]; [easy|]. apply NoDup_app_r in NDA1. eapply NoDup_app_disj; eauto. }
  destruct (put mB mB tB p P (PLeaf None LUninit) nB o' y mC) as (tC & PC & HC); try easy.
  { now apply Fp. }
  { now apply (R_store mA Q tmp). }
  { intros b0 I J. exfalso. destruct (ids_focus q tA y GyA) as (A & B & E1 & E2). specialize (E2 x tB PB).
    assert (Ix : ~ In b0 (ids x)) by (intros Ix; apply (Dx b0 Ix); now apply in_V, (ids_in tA q y)).
    destruct HA as (_ & NDA & _). cbn [V ids flat_map] in NDA, J. rewrite app_nil_r in NDA, J. rewrite E1 in NDA. rewrite E2 in J. inversion NDA as [|? ? Z0 NDA1]; subst.
    destruct J as [F|J]; [rewrite <- F in I; apply Z0; apply in_or_app; right; apply in_or_app; now left|]. apply in_app_or in J. destruct J as [F|F]; [eapply NoDup_app_disj; [exact NDA1|exact F|apply in_or_app; now left]|].
    apply in_app_or in F. destruct F as [F|F]; [easy|]. apply NoDup_app_r in NDA1. eapply NoDup_app_disj; eauto. }
  { rewrite (store_next _ _ _ _ SB). easy. }
  destruct (stores_agree m P Q m1 m2 m' mA mB mC o' z tmp) as (Nx & Ag); try easy; [exact (ptr_pos m t p P H HP)|exact (ptr_pos m t q Q H HQ)|].
  destruct (pset_comm q p tA x y tB tC) as (t3 & E3 & E4); [easy|easy|easy|easy|]. rewrite (pset_pset p t _ y tA PA) in E3.
  exists x, y, t3, tC. split; [easy|]. split; [easy|]. split; [easy|]. split; [easy|]. apply (holds_eq mC); [easy|intros; apply Ag|lia].
Qed.

(** * Moving *)
Lemma delete_replace {A} (l : list A) j x w : nth_error l j = Some w -> delete_nth (replace_nth l j x) j = delete_nth l j.
Proof.
  intros N. destruct (nth_split l j w N) as (_ & L). unfold replace_nth, delete_nth at 2. pose proof (delete_app (firstn j l) (skipn (S j) l) x) as E. now rewrite L in E.
Qed.
Lemma replace_insert {A} (l : list A) i x y : (i <= length l)%nat -> replace_nth (insert_nth l i y) i x = insert_nth l i x.
Proof. intros H. assert (Lf : length (firstn i l) = i) by (rewrite firstn_length; lia). pose proof (replace_app (firstn i l) (skipn i l) y x) as E. rewrite Lf in E. exact E. Qed.
Lemma shift_len q i p : length (shift q i p) = length p.
Proof. revert p. induction q as [|a q IH]; intros [|b p]; cbn; try easy. destruct (a =? b)%nat; cbn; congruence. Qed.
Lemma shift_last q i p j : p <> q -> shift q i (p ++ [j]) = shift q i p ++ [j].
Proof.
  revert p. induction q as [|a q IH]; intros [|b p] N; cbn in *; try easy.
  - destruct (Nat.eqb_spec a j); [subst; destruct q; easy|easy].
  - destruct (Nat.eqb_spec a b) as [->|]; [|easy]. cbn. rewrite IH; [easy|]. intros ->. now apply N.
Qed.
Lemma shift_not_new q i p : ~ prefix (q ++ [i]) (shift q i p).
Proof.
  revert p. induction q as [|a q IH]; intros [|b p]; cbn; try tauto.
  - intros (E & _). destruct (Nat.leb_spec i b); lia.
  - destruct (Nat.eqb_spec a b) as [->|N]; cbn; [intros (_ & F); now apply (IH p)|intros (E & _); easy].
Qed.
Lemma shift_outside q i p : ~ prefix p q -> ~ prefix (shift q i p) (q ++ [i]).
Proof.
  revert p. induction q as [|a q IH]; intros [|b p] N; cbn in *; try tauto.
  - intros (E & _). destruct (Nat.leb_spec i b); lia.
  - destruct (Nat.eqb_spec a b) as [->|Ne]; cbn; [intros (_ & F); apply (IH p); [intros G; apply N; now split|easy]|intros (E & _); congruence].
Qed.
Lemma insert_nth_shift {A} (l : list A) i x k : (i <= length l)%nat -> nth_error (insert_nth l i x) (if (i <=? k)%nat then S k else k) = nth_error l k.
Proof.
  intros L. unfold insert_nth. assert (Lf : length (firstn i l) = i) by (rewrite firstn_length; lia). destruct (Nat.leb_spec i k).
  - rewrite nth_error_app2 by lia. rewrite Lf. replace (S k - i)%nat with (S (k - i)) by lia. cbn [nth_error]. rewrite <- (firstn_skipn i l) at 2. rewrite nth_error_app2 by lia. now rewrite Lf.
  - rewrite nth_error_app1 by lia. rewrite <- (firstn_skipn i l) at 2. now rewrite nth_error_app1 by lia.
Qed.
(** a node outside the branch that got a child *)
Lemma shift_get : forall q i p t nm k b b' ts z t', ~ prefix p q -> pget t q = Some (PBranch nm k b ts) -> (i <= length ts)%nat -> pset t q (PBranch nm k b' (insert_nth ts i z)) = Some t' -> pget t' (shift q i p) = pget t p.
Proof.
  induction q as [|a q IH]; intros i p t nm k b b' ts z t' N G L P.
  - destruct p as [|c p]; [elim N; exact I|]. cbn in G, P. injection G as ->. injection P as <-. cbn [shift pget]. now rewrite insert_nth_shift.
  - destruct p as [|c p]; [elim N; exact I|]. destruct t as [| |nm0 k0 b0 ts0]; try easy. cbn [pget pset] in G, P. destruct (nth_error ts0 a) as [d|] eqn:Nd; [|easy]. cbn [obind] in *. destruct (pset d q _) as [d'|] eqn:P'; [|easy]. cbn [obind] in P. injection P as <-.
    cbn [shift]. destruct (Nat.eqb_spec a c) as [<-|Ne]; cbn [pget].
    + rewrite (nth_replace ts0 a d' d Nd), Nd. cbn [obind]. apply (IH i p d nm k b b' ts z d'); [intros F; apply N; now split|easy|easy|easy].
    + now rewrite (nth_replace_ne ts0 a c d' d Nd Ne).
Qed.
Lemma prefix_app p q j : prefix p q -> prefix p (q ++ [j]).
Proof. revert q. induction p as [|a p IH]; intros [|b q]; cbn; try tauto. intros (-> & H). auto. Qed.

Lemma move_ok ok m t p q P Q i o m' : holds m t -> ptr_at m root p = Some P -> ptr_at m root q = Some Q -> ~ prefix p q -> (forall j, p <> q ++ [j]) -> move_node_at ok m P Q i = Some (o, m') ->
  exists p0 j x nm k b ts b' t1 nm2 k2 b2 ts2 t',
    p = p0 ++ [j] /\ 0 <= i /\ pget t p = Some x /\ pget t q = Some (PBranch nm k b ts) /\ (Z.to_nat i <= length ts)%nat /\
    pset t q (PBranch nm k b' (insert_nth ts (Z.to_nat i) x)) = Some t1 /\
    pget t1 (shift q (Z.to_nat i) p0) = Some (PBranch nm2 k2 b2 ts2) /\ (j < length ts2)%nat /\ pset t1 (shift q (Z.to_nat i) p0) (PBranch nm2 k2 b2 (delete_nth ts2 j)) = Some t' /\ holds m' t'.
Proof.
  intros H HP HQ Np Nj E. destruct (exists_last' p) as [->|(p0 & j & ->)]; [elim Np; exact I|].
  assert (Hp0 : p0 <> q) by (intros ->; now apply (Nj j)).
  destruct (rptr_get m t _ P H HP) as (x & Gx). destruct (shown m t _ P x H HP Gx) as (n & Dn & Hn & Pn).
  unfold move_node_at in E. rewrite Dn in E. cbn [obind] in E. destruct (alloc_at ok m Q i) as [[[o0|] m1]|] eqn:Al; [|easy|easy]. cbn [obind] in E.
  destruct (alloc_at_ok ok m t q Q i (Some o0) m1 H HQ Al) as (nm & k & b & b' & ts & t1 & no & Gq & Hi & P1 & H1 & Ho & Do & Eo & Fr & Hb'). set (iz := Z.to_nat i) in *.
  set (p1 := shift q iz p0). assert (Sp : shift q iz (p0 ++ [j]) = p1 ++ [j]) by (now apply shift_last).
  assert (N1 : ~ prefix (q ++ [iz]) (p1 ++ [j])) by (rewrite <- Sp; apply shift_not_new). assert (N2 : ~ prefix (p1 ++ [j]) (q ++ [iz])) by (rewrite <- Sp; now apply shift_outside).
  assert (Gx1 : pget t1 (p1 ++ [j]) = Some x) by (rewrite <- Sp, (shift_get q iz _ t nm k b b' ts (PLeaf None LUninit) t1); [easy|easy|easy|lia|easy]).
  (* where p's array is *)
  assert (Gp : exists nmp kp tsp, pget t p0 = Some (PBranch nmp kp (fst P) tsp) /\ snd P = Z.of_nat j).
  { rewrite (rptr_app m t) in HP by easy. destruct (pget t p0) as [[| |nmp kp bp tsp]|] eqn:Gp; try easy. cbn [obind] in HP. destruct (j <? length tsp)%nat; [|easy]. injection HP as <-. cbn [fst snd]. eauto. }
  destruct Gp as (nmp & kp & tsp & Gp & SP).
  assert (HP1 : ptr_at m1 root (p1 ++ [j]) = Some P).
  { rewrite (rptr_app m1 t1) by easy.
    assert (Case : exists nm' k' ts', pget t1 p1 = Some (PBranch nm' k' (fst P) ts')).
    { clear - Gp Hp0 Gq P1 Hi. subst p1. assert (L : (iz <= length ts)%nat) by (subst iz; lia). clear Hi. clearbody iz. revert t t1 p0 nmp kp tsp Hp0 Gp Gq P1. induction q as [|a q IH]; intros t t1 p0 nmp kp tsp Hp0 Gp Gq P1.
      - destruct p0 as [|c p0]; [easy|]. cbn in Gq, P1. injection Gq as ->. injection P1 as <-. cbn [shift pget] in *. rewrite insert_nth_shift by easy. eauto.
      - destruct t as [| |nm0 k0 b0 ts0]; try easy. cbn [pget pset] in Gq, P1. destruct (nth_error ts0 a) as [d|] eqn:Nd; [|easy]. cbn [obind] in *. destruct (pset d q _) as [d'|] eqn:P'; [|easy]. cbn [obind] in P1. injection P1 as <-.
        destruct p0 as [|c p0]; [cbn in Gp; injection Gp as -> -> -> ->; cbn; eauto|]. cbn [pget shift] in *. destruct (Nat.eqb_spec a c) as [<-|Ne]; cbn [pget].
        + rewrite (nth_replace ts0 a d' d Nd). rewrite Nd in Gp. cbn [obind] in *. apply (IH d d' p0 nmp kp tsp); [intros ->; easy|easy|easy|easy].
        + rewrite (nth_replace_ne ts0 a c d' d Nd Ne). eauto. }
    destruct Case as (nm' & k' & ts' & G'). rewrite G'. cbn [obind]. pose proof Gx1 as Gx2. rewrite pget_app, G' in Gx2. cbn [obind pget] in Gx2. destruct (nth_error ts' j) eqn:Nx; [|easy]. assert (j < length ts')%nat by (apply nth_error_Some; congruence). destruct (Nat.ltb_spec j (length ts')); [|lia]. f_equal. rewrite <- SP. now destruct P. }
  destruct (shown m1 t1 _ P x H1 HP1 Gx1) as (n1 & Dn1 & Hn1 & Pn1). rewrite Dn1 in E. cbn [obind] in E.
  set (n' := Node (name n1) (Some Q) (val n1)) in *. destruct (store m1 o0 n') as [m2|] eqn:S2; [|easy]. cbn [obind] in E.
  assert (Ho' : ptr_at m1 root (q ++ [iz]) = Some o0) by exact Ho.
  assert (Hne : o0 <> P) by (intros ->; pose proof (pptr_inj m1 t1 _ _ P H1 HP1 Ho') as F; apply N1; rewrite F; apply prefix_refl).
  assert (Hnb : fst o0 <> fst P).
  { intros F. (* same block: same branch *) rewrite (rptr_app m1 t1) in Ho', HP1 by easy. rewrite (pget_set _ _ _ _ P1) in Ho'. cbn [obind] in Ho'. destruct (iz <? _)%nat; [|easy]. injection Ho' as <-. cbn [fst] in F.
    destruct (pget t1 p1) as [[| |nm' k' b0 ts']|] eqn:G'; try easy. cbn [obind] in HP1. destruct (j <? length ts')%nat eqn:Lj; [|easy]. injection HP1 as <-. cbn [fst] in F. subst b0.
    assert (Q0 : ptr_at m1 root (p1 ++ [j]) = Some (b', Z.of_nat j)) by (rewrite (rptr_app m1 t1), G' by easy; cbn [obind]; now rewrite Lj).
    set (tsi := insert_nth ts iz (PLeaf None LUninit)) in *.
    (* the two branches share a block *)
    assert (p1 = q).
    { assert (L0 : (0 < length tsi)%nat) by (unfold tsi, insert_nth; rewrite app_length; cbn; lia). assert (L1 : (0 < length ts')%nat) by (apply Nat.ltb_lt in Lj; lia).
      assert (A0 : ptr_at m1 root (q ++ [0%nat]) = Some (b', 0)) by (rewrite (rptr_app m1 t1), (pget_set _ _ _ _ P1) by easy; cbn [obind]; apply Nat.ltb_lt in L0; now rewrite L0).
      assert (A1 : ptr_at m1 root (p1 ++ [0%nat]) = Some (b', 0)) by (rewrite (rptr_app m1 t1), G' by easy; cbn [obind]; apply Nat.ltb_lt in L1; now rewrite L1).
      pose proof (pptr_inj m1 t1 _ _ _ H1 A1 A0) as F. now apply app_inj_tail in F. }
    subst p1. assert (Lq : length p0 = length q) by (rewrite <- H0 at 1; now rewrite shift_len). clear - H0 Hp0 Lq. revert p0 H0 Hp0 Lq. induction q as [|a q IH]; intros [|c p0] S N L; try easy. cbn [shift] in S. destruct (Nat.eqb_spec a c) as [<-|Ne]; [|congruence]. injection S as S. apply (IH p0); [easy|congruence|cbn in L; congruence]. }
  destruct (parent n) as [par|] eqn:Epn.
  2:{ exfalso. destruct Pn as (Pn & _). specialize (Pn Epn). rewrite (rptr_app m t) in HP by easy. rewrite Gp in HP. destruct (NoDup_at m t p0 _ H Gp) as (_ & N0 & _). apply N0. left. easy. }
  (* the node taken out before it is stored again *)
  set (z := Node None (Some root) (Leaf LUninit)). destruct (store_some m1 t1 _ P z H1 HP1) as (mA & SA).
  assert (Fp : forall nd, parent nd <> None -> placed (fst P) nd) by (intros nd Hd; split; intros F; [easy|]; apply Pn in F; congruence).
  destruct (put m1 m1 t1 (p1 ++ [j]) P x n1 z (PLeaf None LUninit) mA) as (tA & PA & HA); try easy; try (now constructor); [now apply Fp|].
  pose proof (disj_after m1 t1 _ x (PLeaf None LUninit) tA H1 Gx1 eq_refl PA) as Dx. destruct (NoDup_at m1 t1 _ x H1 Gx1) as (NDx & _ & Bdx). destruct (not_in_node m1 t1 _ P x H1 HP1 Gx1) as (IP & NPx).
  assert (HoA : ptr_at mA root (q ++ [iz]) = Some o0) by (rewrite (rptr_other m1 mA t1 tA (p1 ++ [j]) (q ++ [iz]) (PLeaf None LUninit)); easy).
  destruct (rptr_get mA tA _ o0 HA HoA) as (y & Gy). destruct (shown mA tA _ o0 y HA HoA Gy) as (oA & DoA & _ & PoA).
  destruct (store_some mA tA _ o0 n' HA HoA) as (mB & SB).
  destruct (shown m1 t1 (q ++ [iz]) o0 y) as (no' & Dno' & _ & Pno'); [easy|easy|rewrite <- (pget_other (p1 ++ [j]) (q ++ [iz]) t1 (PLeaf None LUninit) tA); easy|]. assert (no' = no) by congruence. subst no'.
  destruct (put mA mA tA (q ++ [iz]) o0 y oA n' x mB) as (tB & PB & HB); try easy.
  { split; [easy|]. intros F. apply Pno' in F. congruence. }
  { apply (R_store m1 P z); [|easy|easy]. unfold n'. apply R_parent with (parent n1). now destruct n1. }
  { intros c I J. now apply Dx in I. }
  { rewrite (store_next _ _ _ _ SA). easy. }
  (* removal *)
  assert (HPB : ptr_at mB root (p1 ++ [j]) = Some P).
  { rewrite (rptr_other mA mB tA tB (q ++ [iz]) (p1 ++ [j]) x); [|easy|easy|easy|easy]. rewrite (rptr_set m1 mA t1 tA (p1 ++ [j]) (PLeaf None LUninit)); easy. }
  unfold remove_node in E. assert (Dn2 : deref m2 P = Some n1).
  { destruct (store_nth _ _ _ _ S2 (ptr_pos m1 t1 _ o0 H1 Ho')) as (_ & F). specialize (F (fst P)). unfold deref in *. destruct (blocks m1 (fst P)) as [a1|]; [|easy]. destruct (blocks m2 (fst P)) as [a2|]; [|easy]. cbn [obind] in *. destruct F as (_ & _ & F). unfold get_at in *. destruct (0 <=? snd P); [|easy]. rewrite F. destruct (Nat.eqb_spec (fst P) (fst o0)); [congruence|]. easy. }
  rewrite Dn2 in E. cbn [obind] in E. destruct (parent n1) as [par1|] eqn:Ep1; [|easy]. cbn [obind] in E. unfold child_index in E. destruct (deref m2 par1) as [np|]; [|easy]. cbn [obind] in E. destruct (val np) as [|kk [bb|]]; cbn [obind] in E; try easy. destruct (Nat.eqb_spec bb (fst P)) as [Ebb|]; cbn [obind] in E; [|easy]. subst bb.
  destruct (blocks m2 (fst P)) as [a2|] eqn:B2; [|easy]. cbn [obind] in E. destruct (remove_at a2 (snd P)) as [a3|] eqn:Rm; [|easy]. cbn [obind] in E. injection E as <- <-.
  (* the staged memory and the real one *)
  destruct (store_nth _ _ _ _ S2 (ptr_pos m1 t1 _ o0 H1 Ho')) as (X2 & F2). destruct (store_nth _ _ _ _ SA (ptr_pos m1 t1 _ P H1 HP1)) as (XA & FA). destruct (store_nth _ _ _ _ SB (ptr_pos m1 t1 _ o0 H1 Ho')) as (XB & FB).
  assert (Ag : forall c, c <> fst P -> blocks m2 c = blocks mB c).
  { intros c Hc. specialize (F2 c). specialize (FA c). specialize (FB c). destruct (blocks m1 c), (blocks m2 c), (blocks mA c), (blocks mB c); try easy. destruct F2 as (c1 & d1 & F2), FA as (c2 & d2 & FA), FB as (c3 & d3 & FB). f_equal. apply arr_ext; [congruence|congruence|]. intros kk0. rewrite F2, FB, FA. destruct (Nat.eqb_spec c (fst P)); [easy|]. easy. }
  destruct (blocks mB (fst P)) as [aB|] eqn:BB.
  2:{ destruct (repl mB tB (p1 ++ [j]) P (PLeaf None LUninit) HB HPB) as (aB & _ & _ & _ & BB' & _); [rewrite (pget_other (q ++ [iz]) (p1 ++ [j]) tA x tB); [now apply pget_set in PA|easy|easy|easy]|]. congruence. }
  assert (EP : P = (fst P, Z.of_nat j)) by (rewrite <- SP; now destruct P).
  destruct (remove_block_gen mB tB p1 j (fst P) a3 (set_block m2 (fst P) (Some a3))) as (nm2 & k2 & ts2 & t' & G2 & L2 & P2 & H2).
  { easy. }
  { now rewrite <- EP. }
  { intros a ns Ba Rp Lj. assert (a = aB) by congruence. subst a. specialize (F2 (fst P)). specialize (FA (fst P)). specialize (FB (fst P)). rewrite B2 in F2. rewrite BB in FB. destruct (blocks m1 (fst P)) as [a1|]; [|easy]. destruct (blocks mA (fst P)) as [aA|]; [|easy].
    destruct F2 as (c1 & d1 & F2), FA as (c2 & d2 & FA), FB as (c3 & d3 & FB).
    assert (Cell : forall kk0, kk0 <> j -> nth_error (cells a2) kk0 = nth_error (cells aB) kk0).
    { intros kk0 Hk. rewrite F2, FB, FA. destruct (Nat.eqb_spec (fst P) (fst o0)); [congruence|]. cbn [andb]. rewrite Nat.eqb_refl, SP, Nat2Z.id. cbn [andb]. destruct (Nat.eqb_spec kk0 j); easy. }
    destruct (nth_error ns j) as [w|] eqn:Nw; [|apply nth_error_None in Nw; lia].
    assert (Cj : exists w', nth_error (cells a2) j = Some w').
    { rewrite F2. destruct (Nat.eqb_spec (fst P) (fst o0)); [congruence|]. cbn [andb]. assert (Dn1' := Dn1). unfold deref in Dn1'. destruct (nth_error (cells a1) j) as [w'|] eqn:E1; [eauto|]. exfalso. assert (E3 : nth_error (cells aA) j <> None) by (rewrite FA, Nat.eqb_refl, SP, Nat2Z.id, Nat.eqb_refl; easy). clear - F2 E1 FB E3 Cell n0 Dn2 B2 SP. unfold deref in Dn2. rewrite B2 in Dn2. cbn [obind] in Dn2. unfold get_at in Dn2. destruct (0 <=? snd P); [|easy]. rewrite SP, Nat2Z.id, F2 in Dn2. destruct (Nat.eqb_spec (fst P) (fst o0)); [congruence|]. cbn [andb] in Dn2. congruence. }
    destruct Cj as (w' & Cj). destruct Rp as (r & Ec & Cn & Cp).
    assert (Rp2 : rep a2 (replace_nth ns j w')).
    { exists r. assert (Lr : length (replace_nth ns j w') = length ns) by (now rewrite (len_replace ns j w' w)). split; [|rewrite ?app_length in Cp |- *; rewrite Lr; split; congruence].
      apply nth_error_ext. intros kk0. destruct (Nat.eq_dec kk0 j) as [->|Hk].
      - rewrite Cj. rewrite nth_error_app1 by lia. now rewrite (nth_replace ns j w' w).
      - rewrite Cell by easy. rewrite Ec. destruct (Nat.lt_ge_cases kk0 (length ns)); [rewrite !nth_error_app1 by lia; now rewrite (nth_replace_ne ns j kk0 w' w) by auto|]. rewrite !nth_error_app2 by lia. now rewrite Lr. }
    rewrite SP in Rm. destruct (remove_at_rep a2 _ (Z.of_nat j) a3 Rp2 (Nat2Z.is_nonneg j) Rm) as (Ra & _). rewrite Nat2Z.id in Ra.
    replace (delete_nth ns j) with (delete_nth (replace_nth ns j w') j); [easy|]. now apply delete_replace with w. }
  { cbn. now rewrite Nat.eqb_refl. }
  { intros c Hc. cbn. destruct (Nat.eqb_spec c (fst P)); [easy|]. now apply Ag. }
  { cbn. congruence. }
  (* the trees *)
  destruct (pset_comm (p1 ++ [j]) (q ++ [iz]) t1 (PLeaf None LUninit) x tA tB) as (t2 & E2 & E3); [easy|easy|easy|easy|].
  assert (E4 : pset t q (PBranch nm k b' (insert_nth ts iz x)) = Some t2).
  { rewrite pset_app in E2. rewrite (pget_set _ _ _ _ P1) in E2. cbn [obind pset] in E2.
    assert (Lf : length (firstn iz ts) = iz) by (rewrite firstn_length; lia).
    assert (Ni : nth_error (insert_nth ts iz (PLeaf None LUninit)) iz = Some (PLeaf None LUninit)) by (unfold insert_nth; rewrite nth_error_app2 by lia; rewrite Lf, Nat.sub_diag; easy).
    rewrite Ni in E2. cbn [obind] in E2. rewrite (pset_pset q t _ _ t1 P1) in E2. rewrite <- E2. f_equal. f_equal. symmetry. apply replace_insert. lia. }
  rewrite pset_app in E3. destruct (pget t2 p1) as [[| |nm3 k3 b3 ts3]|] eqn:G3; try easy. cbn [obind pset] in E3. destruct (nth_error ts3 j) as [w|] eqn:Nw; [|easy]. cbn [obind] in E3.
  pose proof (pget_set _ _ _ _ E3) as G4. rewrite G2 in G4. injection G4 as -> -> Eb3 ->. subst b3.
  exists p0, j, x, nm, k, b, ts, b', t2, nm3, k3, (fst P), ts3, t'.
  split; [easy|]. split; [lia|]. split; [easy|]. split; [easy|]. split; [lia|]. split; [easy|]. fold iz; fold p1. split; [rewrite G3; congruence|]. split; [apply nth_error_Some; congruence|]. split; [|easy].
  rewrite (pset_pset _ _ _ _ _ E3) in P2. rewrite <- P2. f_equal. f_equal. symmetry. now apply delete_replace with w.
Qed.
