(** Calls on the children of the root are defined. *)
From Verif Require Import Base CStr Array ArraySpec ArrayProofs ArrayProofs2 Adt AdtSpec AdtProofs AdtProofs2 AdtProofs3 AdtProofs4 AdtProofs5 AdtProofs6 AdtProofs7.
Local Notation rep := (@ArrayProofs.rep node).

(** the children of the root know their parent *)
Definition rooted_at (m : mem) (b : nat) (l : list node) : Prop :=
  exists nm par k a, deref m root = Some (Node nm par (Branch k (Some b))) /\ b <> 0%nat /\ blocks m b = Some a /\ rep a l /\ Forall (fun n => parent n = Some root) l.
Definition rooted (m : mem) : Prop := (0 < next m)%nat /\ exists b l, rooted_at m b l.

Lemma append_at_total ok a l x i : rep a l -> 0 <= i <= Z.of_nat (length l) -> exists r a', append_at zero_node ok a x i = Some (r, a').
Proof.
  intros Rp Hi. destruct ok.
  - destruct (exec_ok zero_node a l (OAppendAt x i) Rp Hi) as (a1 & l1 & E1 & _). cbn [exec] in E1. eauto.
  - destruct (exec_fail zero_node a l (OAppendAt x i) Rp Hi) as (b1 & a1 & l1 & E1 & _). cbn [exec] in E1. eauto.
Qed.
Lemma remove_at_total a l i : rep a l -> 0 <= i < Z.of_nat (length l) -> exists a', remove_at a i = Some a'.
Proof. intros Rp Hi. destruct (exec_ok zero_node a l (ORemoveAt i) Rp Hi) as (a1 & l1 & E1 & _). cbn [exec lift] in E1. destruct (remove_at a i); [eauto|easy]. Qed.
Lemma store_rep m q a l n n0 : blocks m (fst q) = Some a -> rep a l -> nth_error l (Z.to_nat (snd q)) = Some n0 -> 0 <= snd q ->
  exists m' a', store m q n = Some m' /\ blocks m' (fst q) = Some a' /\ rep a' (replace_nth l (Z.to_nat (snd q)) n) /\ (forall c, c <> fst q -> blocks m' c = blocks m c) /\ next m' = next m.
Proof.
  intros B Rp N Hq. destruct (nth_split l _ n0 N) as (E & L). pose proof Rp as (r & Ec & Cn & Cp). set (i := Z.to_nat (snd q)) in *.
  assert (St : exists m', store m q n = Some m').
  { unfold store. rewrite B. cbn [obind]. rewrite Ec, E. rewrite <- app_assoc. change ((n0 :: skipn (S i) l) ++ r) with ([n0] ++ (skipn (S i) l ++ r)). rewrite write_app; [cbn [obind]; eauto|rewrite L; lia|easy]. }
  destruct St as (m' & St). exists m'. rewrite E in Rp. destruct (store_cell m q n0 n m') as (S1 & S2 & S3); [exists a, (firstn i l), (skipn (S i) l); repeat split; [easy|easy|rewrite L; lia]|easy|].
  destruct (S1 a _ _ B Rp) as (a' & B' & Rp'); [rewrite L; lia|]. exists a'. easy.
Qed.
Lemma root_frame m m' : (forall c, c = 0%nat -> blocks m' c = blocks m c) -> deref m' root = deref m root.
Proof. intros F. unfold deref. cbn [fst root]. now rewrite F. Qed.

Lemma rooted_alloc ok m b l i : (0 < next m)%nat -> rooted_at m b l -> 0 <= i <= Z.of_nat (length l) ->
  exists r m', alloc_at ok m root i = Some (r, m') /\ (0 < next m')%nat /\
    match r with
    | Some o => exists b', o = (b', i) /\ rooted_at m' b' (insert_nth l (Z.to_nat i) (Node None (Some root) (Leaf LUninit)))
    | None => rooted_at m' b l
    end.
Proof.
  intros Nx (nm & par & k & a & D & Nb & B & Rp & Fp) Hi. unfold alloc_at. rewrite D. cbn [obind val]. rewrite B. cbn [obind]. pose proof Rp as (r0 & _ & Cn & _).
  destruct (Z.ltb_spec i 0); [lia|]. destruct (Z.ltb_spec (count a) i); [lia|]. cbn [orb]. unfold append_child. rewrite B. cbn [obind]. set (new := Node None (Some root) (Leaf LUninit)).
  destruct (append_at_total ok a l new i Rp Hi) as (r & a' & Ap). rewrite Ap. cbn [obind]. assert (Hc : 0 <= i <= count a) by lia.
  assert (Fn : Forall (fun n => parent n = Some root) (insert_nth l (Z.to_nat i) new)) by (apply F_insert; easy).
  destruct (append_at_rep ok a l new i r a' Rp Hc Ap) as [(-> & Ra)|(-> & _ & Ra)].
  2:{ cbn [obind]. eexists None, _. split; [reflexivity|]. split; [easy|]. exists nm, par, k, a'. rewrite (root_frame m) by (intros c ->; cbn; destruct b; easy). cbn. rewrite Nat.eqb_refl. easy. }
  destruct (Z.eqb_spec (capacity a') (capacity a)).
  - cbn [obind]. rewrite (root_frame m) by (intros c ->; cbn; destruct b; easy). rewrite D. cbn [obind val]. eexists _, _. split; [reflexivity|]. split; [easy|]. exists b. split; [easy|]. exists nm, par, k, a'. rewrite (root_frame m) by (intros c ->; cbn; destruct b; easy). cbn. rewrite Nat.eqb_refl. easy.
  - unfold alloc_block. cbn [val name parent]. change (next (set_block m b None)) with (next m). set (m1 := Mem _ _). assert (Nn : next m <> 0%nat) by lia.
    assert (D1 : deref m1 root = Some (Node nm par (Branch k (Some b)))).
    { rewrite <- D. apply root_frame. intros c ->. cbn. destruct (next m); [lia|]. destruct b; easy. }
    set (n' := Node nm par (Branch k (Some (next m)))).
    assert (St : exists m2, store m1 root n' = Some m2 /\ deref m2 root = Some n' /\ (forall c, c <> 0%nat -> blocks m2 c = blocks m1 c) /\ next m2 = next m1).
    { unfold deref, store in *. cbn [fst snd root] in *. destruct (blocks m1 0) as [a0|] eqn:B0; [|easy]. cbn [obind] in *. unfold get_at in D1. change (0 <=? 0) with true in D1. cbn iota in D1. change (Z.to_nat 0) with 0%nat in D1. destruct (cells a0) as [|y ys] eqn:Ec; [easy|]. unfold write_cells. cbn [length]. change (0 <=? 0) with true. cbn [andb]. destruct (Z.leb_spec (0 + Z.of_nat 1) (Z.of_nat (S (length ys)))); [|lia]. cbn [obind]. eexists. split; [reflexivity|]. cbn. split; [easy|]. split; [|easy]. intros c Hc0. destruct c; easy. }
    destruct St as (m2 & St & D2 & Fr & Nx2). rewrite St. cbn [obind]. rewrite D2. cbn [obind val n']. eexists _, _. split; [reflexivity|]. split; [rewrite Nx2; cbn; lia|]. exists (next m). split; [easy|]. exists nm, par, k, a'. split; [easy|]. split; [easy|]. rewrite Fr by easy. cbn. rewrite Nat.eqb_refl. easy.
Qed.
Lemma rooted_store m b l i n n0 : (0 < next m)%nat -> rooted_at m b l -> nth_error l i = Some n0 -> parent n = Some root ->
  exists m', store m (b, Z.of_nat i) n = Some m' /\ next m' = next m /\ rooted_at m' b (replace_nth l i n) /\ deref m' (b, Z.of_nat i) = Some n.
Proof.
  intros Nx (nm & par & k & a & D & Nb & B & Rp & Fp) N Pn. destruct (store_rep m (b, Z.of_nat i) a l n n0) as (m' & a' & St & B' & Ra & Fr & Nx'); cbn [fst snd]; rewrite ?Nat2Z.id; try easy; [lia|].
  cbn [fst snd] in *. rewrite Nat2Z.id in Ra. exists m'. split; [easy|]. split; [easy|]. split.
  - exists nm, par, k, a'. split; [rewrite (root_frame m); [easy|intros c ->; apply Fr; auto]|]. split; [easy|]. split; [easy|]. split; [easy|]. unfold replace_nth. apply Forall_app. split; [now apply Forall_firstn'|]. constructor; [easy|now apply Forall_skipn'].
  - unfold deref. cbn [fst snd]. rewrite B'. cbn [obind]. apply (rep_get a' _ i n Ra). now rewrite (nth_replace l i n n0).
Qed.
Lemma rooted_deref m b l i n : rooted_at m b l -> nth_error l i = Some n -> deref m (b, Z.of_nat i) = Some n /\ parent n = Some root /\ ptr_at m root [i] = Some (b, Z.of_nat i).
Proof.
  intros (nm & par & k & a & D & Nb & B & Rp & Fp) N. split; [unfold deref; cbn [fst snd]; rewrite B; cbn [obind]; now apply (rep_get a l i n Rp)|]. split; [rewrite Forall_forall in Fp; apply Fp; eapply nth_error_In; eauto|].
  cbn [ptr_at]. rewrite D. cbn [obind val]. rewrite B. cbn [obind]. destruct (rep_get a l i n Rp N) as (_ & L). destruct (Z.ltb_spec (Z.of_nat i) (count a)); [easy|lia].
Qed.
Lemma rooted_set m b l i n nm v : (0 < next m)%nat -> rooted_at m b l -> nth_error l i = Some n ->
  exists m', set_leaf m (b, Z.of_nat i) nm v = Some m' /\ next m' = next m /\ rooted_at m' b (replace_nth l i (Node nm (Some root) (Leaf v))).
Proof.
  intros Nx Rt N. destruct (rooted_deref m b l i n Rt N) as (D & P & _). unfold set_leaf. rewrite D. cbn [obind]. rewrite P. destruct (rooted_store m b l i (Node nm (Some root) (Leaf v)) n Nx Rt N eq_refl) as (m' & St & Nx' & Rt' & _). eauto.
Qed.
Lemma rooted_make ok m b l i n nm k : (0 < next m)%nat -> (b < next m)%nat -> rooted_at m b l -> nth_error l i = Some n ->
  exists e m' v, make_branch ok m (b, Z.of_nat i) nm k = Some (e, m') /\ (next m <= next m')%nat /\ rooted_at m' b (replace_nth l i (Node nm (Some root) v)).
Proof.
  intros Nx Lb Rt N. destruct (rooted_deref m b l i n Rt N) as (D & P & _). unfold make_branch. rewrite D. cbn [obind]. rewrite P. destruct (array_init zero_node ok) as [a|].
  - unfold alloc_block. set (m1 := Mem _ _). assert (Rt1 : rooted_at m1 b l).
    { destruct Rt as (nm0 & par & k0 & a0 & D0 & Nb & B & Rp & Fp). exists nm0, par, k0, a0. split; [rewrite (root_frame m); [easy|intros c ->; cbn; destruct (next m); [lia|easy]]|]. split; [easy|]. split; [|easy]. cbn. destruct (Nat.eqb_spec b (next m)); [lia|easy]. }
    destruct (rooted_store m1 b l i (Node nm (Some root) (Branch k (Some (next m)))) n) as (m' & St & Nx' & Rt' & _); [cbn; lia|easy|easy|easy|]. rewrite St. cbn [obind]. eexists _, m', _. split; [reflexivity|]. split; [rewrite Nx'; cbn; lia|eassumption].
  - destruct (rooted_store m b l i (Node nm (Some root) (Branch k None)) n Nx Rt N eq_refl) as (m' & St & Nx' & Rt' & _). rewrite St. cbn [obind]. eexists _, m', _. split; [reflexivity|]. split; [lia|eassumption].
Qed.
Lemma rooted_remove m b l i n : (0 < next m)%nat -> rooted_at m b l -> nth_error l i = Some n -> exists m', remove_node m (b, Z.of_nat i) = Some m' /\ next m' = next m /\ rooted_at m' b (delete_nth l i).
Proof.
  intros Nx Rt N. destruct (rooted_deref m b l i n Rt N) as (D & P & _). destruct Rt as (nm0 & par & k0 & a0 & D0 & Nb & B & Rp & Fp). unfold remove_node. rewrite D. cbn [obind]. rewrite P. cbn [obind]. unfold child_index. rewrite D0. cbn [obind val fst snd]. rewrite Nat.eqb_refl. cbn [obind]. rewrite B. cbn [obind].
  assert (L : (i < length l)%nat) by (apply nth_error_Some; congruence). destruct (remove_at_total a0 l (Z.of_nat i) Rp) as (a' & Rm); [lia|]. rewrite Rm. cbn [obind]. eexists. split; [reflexivity|]. split; [easy|].
  destruct (remove_at_rep a0 l (Z.of_nat i) a' Rp) as (Ra & _); [lia|easy|]. rewrite Nat2Z.id in Ra. exists nm0, par, k0, a'. split; [rewrite (root_frame m); [easy|intros c ->; cbn; destruct b; easy]|]. split; [easy|]. cbn. rewrite Nat.eqb_refl. split; [easy|]. split; [easy|now apply F_delete].
Qed.
Lemma rooted_swap m b l i j x y : (0 < next m)%nat -> rooted_at m b l -> nth_error l i = Some x -> nth_error l j = Some y -> exists m' l', swap_nodes m (b, Z.of_nat i) (b, Z.of_nat j) = Some m' /\ next m' = next m /\ rooted_at m' b l'.
Proof.
  intros Nx Rt Ni Nj. destruct (rooted_deref m b l i x Rt Ni) as (Di & Pi & _). destruct (rooted_deref m b l j y Rt Nj) as (Dj & Pj & _). pose proof Rt as (nm0 & par & k0 & a0 & D0 & Nb & B & Rp & Fp).
  unfold swap_nodes. rewrite Di. cbn [obind]. rewrite Dj. cbn [obind]. rewrite Pi. cbn [obind]. rewrite Pj. cbn [obind]. unfold child_index. rewrite D0. cbn [obind val fst snd]. rewrite Nat.eqb_refl. cbn [obind]. rewrite Di. cbn [obind]. rewrite Dj. cbn [obind].
  destruct (rooted_store m b l j (Node (name y) (Some root) (val y)) y Nx Rt Nj eq_refl) as (m1 & S1 & N1 & R1 & D1). rewrite S1. cbn [obind]. rewrite D1. cbn [obind].
  assert (E1 : exists x', nth_error (replace_nth l j (Node (name y) (Some root) (val y))) i = Some x') by (destruct (Nat.eq_dec j i) as [->|Ne]; [rewrite (nth_replace l i _ y); eauto|rewrite (nth_replace_ne l j i _ y); eauto]). destruct E1 as (x' & E1).
  destruct (rooted_store m1 b _ i (Node (name y) (Some root) (val y)) x' ltac:(lia) R1 E1 eq_refl) as (m2 & S2 & N2 & R2 & D2). rewrite S2. cbn [obind].
  assert (E2 : exists y', nth_error (replace_nth (replace_nth l j (Node (name y) (Some root) (val y))) i (Node (name y) (Some root) (val y))) j = Some y').
  { destruct (Nat.eq_dec i j) as [->|Ne]; [rewrite (nth_replace _ j _ x'); eauto|rewrite (nth_replace_ne _ i j _ x'); eauto]. rewrite (nth_replace l j _ y); eauto. } destruct E2 as (y' & E2).
  destruct (rooted_store m2 b _ j (Node (name x) (Some root) (val x)) y' ltac:(lia) R2 E2 eq_refl) as (m3 & S3 & N3 & R3 & _). exists m3. eexists. split; [exact S3|]. split; [lia|eassumption].
Qed.

Lemma flat_step m t oks o : holds m t -> rooted m -> flat (erase t) o -> exists r m', step m oks o = Some (r, m') /\ rooted m'.
Proof.
  intros H (Nx & b & l & Rt) Fl.
  assert (Lt : forall nm k ts, erase t = TBranch nm k (Some ts) -> length l = length ts /\ (b < next m)%nat).
  { intros nm k ts E. destruct Rt as (nm0 & par & k0 & a0 & D0 & Nb & B & Rp & _). destruct (shown m t [] root t H eq_refl eq_refl) as (n & D & Hn & _). rewrite D0 in D. injection D as <-. inversion Hn as [| |nm' par' k' b' a ns ts' B' Rp' Pl F]; subst. assert (a = a0) by congruence. subst a.
    cbn [erase] in E. injection E as <- <- <-. rewrite map_length. destruct Rp as (? & _ & C1 & _), Rp' as (? & _ & C2 & _). split; [rewrite <- (F2_len _ _ _ F); lia|]. destruct H as (_ & _ & Bd). cbn [V ids flat_map] in Bd. inversion Bd; subst. inversion H2; subst. easy. }
  assert (At : forall i, (i < length l)%nat -> exists n, nth_error l i = Some n) by (intros i Hi; destruct (nth_error l i) eqn:E; [eauto|apply nth_error_None in E; lia]).
  assert (Alc : forall ok, exists r m', alloc ok m root = Some (r, m') /\ (0 < next m')%nat /\ match r with Some o => exists b', o = (b', Z.of_nat (length l)) /\ rooted_at m' b' (insert_nth l (length l) (Node None (Some root) (Leaf LUninit))) | None => rooted_at m' b l end).
  { intros ok. destruct (rooted_alloc ok m b l (Z.of_nat (length l)) Nx Rt) as (r & m' & E & K); [lia|]. exists r, m'. unfold alloc. pose proof Rt as (nm0 & par & k0 & a0 & D0 & Nb & B & (? & _ & Cn & _) & _). rewrite D0. cbn [obind val]. rewrite B. cbn [obind]. rewrite Cn. rewrite Nat2Z.id in K. easy. }
  destruct o as [p nm v|p nm k|p i nm v|p nm v|p nm k|p|p q i|p q]; cbn [flat step] in *.
  - destruct p; [|easy]. cbn [ptr_at obind]. unfold append_leaf. destruct (Alc (fst oks)) as (r & m1 & E & N1 & K). rewrite E. cbn [obind]. destruct r as [o|].
    + destruct K as (b' & -> & R1). rewrite insert_end in R1. destruct (rooted_set m1 b' _ (length l) (Node None (Some root) (Leaf LUninit)) nm v N1 R1) as (m2 & E2 & N2 & R2); [now rewrite nth_error_app2, Nat.sub_diag by lia|]. rewrite E2. cbn [obind]. eexists _, _. split; [reflexivity|]. split; [lia|eauto].
    + cbn [obind]. eexists _, _. split; [reflexivity|]. split; eauto.
  - destruct p; [|easy]. cbn [ptr_at obind]. unfold append_branch. destruct (Alc (fst oks)) as (r & m1 & E & N1 & K). rewrite E. cbn [obind]. destruct r as [o|].
    + destruct K as (b' & -> & R1). rewrite insert_end in R1.
      assert (Lb : (b' < next m1)%nat).
      { pose proof (alloc_ok (fst oks) m t [] root _ m1 H eq_refl E) as (nm1 & k1 & b1 & b2 & ts1 & t1 & no & _ & P1 & H1 & _). cbn in P1. injection P1 as <-. destruct R1 as (nm0 & par & k0 & a0 & D0 & Nb & B & _). destruct (shown m1 _ [] root _ H1 eq_refl eq_refl) as (n & D & Hn & _). rewrite D0 in D. injection D as <-. inversion Hn; subst. destruct H1 as (_ & _ & Bd). cbn [V ids flat_map] in Bd. inversion Bd as [|? ? _ Bd2]; subst. inversion Bd2; subst. easy. }
      assert (Nl : nth_error (l ++ [Node None (Some root) (Leaf LUninit)]) (length l) = Some (Node None (Some root) (Leaf LUninit))) by (now rewrite nth_error_app2, Nat.sub_diag by lia).
      destruct (rooted_make (snd oks) m1 b' _ (length l) _ nm k N1 Lb R1 Nl) as (e & m2 & w & E2 & N2 & R2). rewrite E2. cbn [obind].
      destruct (negb (e =? 0)).
      * destruct (rooted_remove m2 b' _ (length l) (Node nm (Some root) w) ltac:(lia) R2) as (m3 & E3 & N3 & R3); [eapply nth_replace; eauto|]. rewrite E3. cbn [obind]. eexists _, _. split; [reflexivity|]. split; [lia|eauto].
      * cbn [obind]. eexists _, _. split; [reflexivity|]. split; [lia|eauto].
    + cbn [obind]. eexists _, _. split; [reflexivity|]. split; eauto.
  - destruct p; [|easy]. cbn [ptr_at obind]. destruct (Z_lt_dec i 0) as [Hi|Hi].
    { unfold alloc_at. destruct Rt as (nm0 & par & k0 & a0 & D0 & Nb & B & Rp & Fp). rewrite D0. cbn [obind val]. rewrite B. cbn [obind]. destruct (Z.ltb_spec i 0); [|lia]. cbn [orb obind]. eexists _, _. split; [reflexivity|]. split; [easy|]. exists b, l, nm0, par, k0, a0. easy. }
    destruct (Z_le_dec i (Z.of_nat (length l))) as [Hi2|Hi2].
    2:{ unfold alloc_at. destruct Rt as (nm0 & par & k0 & a0 & D0 & Nb & B & Rp & Fp). rewrite D0. cbn [obind val]. rewrite B. cbn [obind]. pose proof Rp as (? & _ & Cn & _). destruct (Z.ltb_spec (count a0) i); [|lia]. rewrite orb_true_r. cbn [obind]. eexists _, _. split; [reflexivity|]. split; [easy|]. exists b, l, nm0, par, k0, a0. easy. }
    destruct (rooted_alloc (fst oks) m b l i Nx Rt) as (r & m1 & E & N1 & K); [lia|]. rewrite E. cbn [obind]. destruct r as [o|].
    + destruct K as (b' & -> & R1). rewrite <- (Z2Nat.id i) by lia.
      assert (Ni : nth_error (insert_nth l (Z.to_nat i) (Node None (Some root) (Leaf LUninit))) (Z.to_nat i) = Some (Node None (Some root) (Leaf LUninit))).
      { unfold insert_nth. assert (Lf : length (firstn (Z.to_nat i) l) = Z.to_nat i) by (rewrite firstn_length; lia). rewrite nth_error_app2 by lia. rewrite Lf, Nat.sub_diag. reflexivity. }
      destruct (rooted_set m1 b' _ (Z.to_nat i) _ nm v N1 R1 Ni) as (m2 & E2 & N2 & R2). rewrite E2. cbn [obind]. eexists _, _. split; [reflexivity|]. split; [lia|eauto].
    + eexists _, _. split; [reflexivity|]. split; eauto.
  - destruct p as [|i [|]]; try easy. destruct (erase t) as [|nm1 k1 [ts|]] eqn:Et; try easy. destruct (Lt _ _ _ eq_refl) as (Ll & _). destruct (At i) as (n & Ni); [lia|]. destruct (rooted_deref m b l i n Rt Ni) as (_ & _ & Ep). rewrite Ep. cbn [obind].
    destruct (rooted_set m b l i n nm v Nx Rt Ni) as (m2 & E2 & N2 & R2). rewrite E2. cbn [obind]. eexists _, _. split; [reflexivity|]. split; [lia|eauto].
  - destruct p as [|i [|]]; try easy. destruct (erase t) as [|nm1 k1 [ts|]] eqn:Et; try easy. destruct (Lt _ _ _ eq_refl) as (Ll & Lb). destruct (At i) as (n & Ni); [lia|]. destruct (rooted_deref m b l i n Rt Ni) as (_ & _ & Ep). rewrite Ep. cbn [obind].
    destruct (rooted_make (fst oks) m b l i n nm k Nx Lb Rt Ni) as (e & m2 & w & E2 & N2 & R2). rewrite E2. cbn [obind]. eexists _, _. split; [reflexivity|]. split; [lia|eauto].
  - destruct p as [|i [|]]; try easy. destruct (erase t) as [|nm1 k1 [ts|]] eqn:Et; try easy. destruct (Lt _ _ _ eq_refl) as (Ll & Lb). destruct (At i) as (n & Ni); [lia|]. destruct (rooted_deref m b l i n Rt Ni) as (_ & _ & Ep). rewrite Ep. cbn [obind].
    destruct (rooted_remove m b l i n Nx Rt Ni) as (m2 & E2 & N2 & R2). rewrite E2. cbn [obind]. eexists _, _. split; [reflexivity|]. split; [lia|eauto].
  - easy.
  - destruct p as [|i [|]]; try easy. destruct q as [|j [|]]; try easy. destruct (erase t) as [|nm1 k1 [ts|]] eqn:Et; try easy. destruct (Lt _ _ _ eq_refl) as (Ll & Lb). destruct (At i) as (x & Ni); [lia|]. destruct (At j) as (y & Nj); [lia|].
    destruct (rooted_deref m b l i x Rt Ni) as (_ & _ & Ep). destruct (rooted_deref m b l j y Rt Nj) as (_ & _ & Eq). rewrite Ep. cbn [obind]. rewrite Eq. cbn [obind].
    destruct (rooted_swap m b l i j x y Nx Rt Ni Nj) as (m2 & l' & E2 & N2 & R2). rewrite E2. cbn [obind]. eexists _, _. split; [reflexivity|]. split; [lia|eauto].
Qed.
Lemma flat_sensible t o : flat t o -> sensible o.
Proof.
  destruct o as [p nm v|p nm k|p i nm v|p nm v|p nm k|p|p q i|p q]; try (intros; exact I).
  - intros F. now destruct t as [|? ? [|]].
  - intros F. cbn [flat] in F. destruct p as [|i [|]]; try easy. destruct q as [|j [|]]; try easy. destruct t as [|? ? [|]]; try easy. destruct F as (_ & _ & N). cbn. split; intros (E & _); auto.
Qed.
Lemma flat_steps h : forall m t, holds m t -> rooted m -> all_flat (erase t) h -> exists rs m', steps m h = Some (rs, m').
Proof.
  induction h as [|[oks o] h IH]; intros m t H Rt Fl; [cbn; eauto|]. cbn [all_flat steps] in *. destruct Fl as (F1 & F2). destruct (flat_step m t oks o H Rt F1) as (r & m1 & E & R1). rewrite E. cbn [obind].
  destruct (step_ok m t oks o r m1 H E (flat_sensible _ _ F1)) as (t1 & T1 & H1). destruct (IH m1 t1 H1 R1 (F2 _ _ T1)) as (rs & m2 & E2). rewrite E2. cbn [obind]. eauto.
Qed.
Lemma all_flat_sensible h : forall m t rs m', holds m t -> rooted m -> all_flat (erase t) h -> steps m h = Some (rs, m') -> Forall (fun x => sensible (snd x)) h.
Proof.
  induction h as [|[oks o] h IH]; intros m t rs m' H Rt Fl E; [constructor|]. cbn [all_flat steps] in *. destruct Fl as (F1 & F2). destruct (flat_step m t oks o H Rt F1) as (r & m1 & E1 & R1). rewrite E1 in E. cbn [obind] in E.
  destruct (steps m1 h) as [[rs1 m2]|] eqn:Es; [|easy]. destruct (step_ok m t oks o r m1 H E1 (flat_sensible _ _ F1)) as (t1 & T1 & H1). constructor; [now apply (flat_sensible (erase t))|]. eapply IH; eauto.
Qed.
Lemma start_rooted nm k m : start nm k = Some m -> rooted m.
Proof.
  unfold start, make_branch, array_init, array_init_reserve. cbn. intros E. injection E as <-. split; [cbn; lia|]. exists 1%nat, []. eexists nm, None, k, _. split; [reflexivity|]. split; [easy|]. split; [reflexivity|]. split; [|constructor]. eexists. cbn. split; [reflexivity|]. easy.
Qed.
