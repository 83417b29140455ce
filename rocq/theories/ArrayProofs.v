(** Dynamic arrays refine lists. *)
From Verif Require Import Base Array ArraySpec.

Section Cells.
  Context {T : Type}.
  Implicit Types l xs : list T.

  Lemma read_app l1 xs l2 i n : i = Z.of_nat (length l1) -> n = Z.of_nat (length xs) ->
    read_cells (l1 ++ xs ++ l2) i n = Some xs.
  Proof.
    intros -> ->. unfold read_cells. rewrite !app_length.
    replace (_ && _) with true.
    - rewrite !Nat2Z.id, skipn_app, skipn_all, Nat.sub_diag. cbn [skipn app].
      rewrite firstn_app, firstn_all, Nat.sub_diag. cbn [firstn]. now rewrite app_nil_r.
    - symmetry. rewrite !andb_true_iff, !Z.leb_le. lia.
  Qed.

  Lemma write_app l1 old l2 i xs : i = Z.of_nat (length l1) -> length old = length xs ->
    write_cells (l1 ++ old ++ l2) i xs = Some (l1 ++ xs ++ l2).
  Proof.
    intros -> E. unfold write_cells. rewrite !app_length.
    replace (_ && _) with true.
    - rewrite !Nat2Z.id, firstn_app, firstn_all, Nat.sub_diag. cbn [firstn]. rewrite app_nil_r.
      do 3 f_equal. rewrite <- E, app_assoc, <- app_length, skipn_app, skipn_all, Nat.sub_diag. reflexivity.
    - symmetry. rewrite !andb_true_iff, !Z.leb_le. lia.
  Qed.

  Lemma write_length l i xs l' : write_cells l i xs = Some l' -> length l' = length l.
  Proof.
    unfold write_cells. destruct (_ && _) eqn:E; [|discriminate]. intros [= <-].
    rewrite andb_true_iff, !Z.leb_le in E. rewrite !app_length, firstn_length, skipn_length. lia.
  Qed.

  Lemma split_at (n : nat) l : (n <= length l)%nat -> exists a b, l = a ++ b /\ length a = n.
  Proof. intros H. exists (firstn n l), (skipn n l). rewrite firstn_skipn, firstn_length. split; [easy|lia]. Qed.
End Cells.

Section Arr.
  Context {T : Type} (z : T).
  Implicit Types l xs r : list T.

  Definition rep (a : arr T) l : Prop :=
    exists r, cells a = l ++ r /\ count a = Z.of_nat (length l) /\ capacity a = Z.of_nat (length l + length r).

  Lemma rep_iff a l : rep a l <-> well_formed a /\ contents a = l.
  Proof.
    unfold rep, well_formed, contents. split.
    - intros (r & E & C & P). rewrite E, C, P, app_length, Nat2Z.id, firstn_app, firstn_all, Nat.sub_diag.
      cbn [firstn]. rewrite app_nil_r. repeat split; lia.
    - intros ((H1 & H2) & <-). exists (skipn (Z.to_nat (count a)) (cells a)).
      rewrite firstn_skipn, firstn_length, skipn_length. split; [easy|lia].
  Qed.

  Lemma rep_mk l r c p : c = Z.of_nat (length l) -> p = Z.of_nat (length l + length r) -> rep (mkArr (l ++ r) c p) l.
  Proof. intros. exists r. cbn. easy. Qed.

  Lemma set_capacity_ok a l n : rep a l -> 0 <= n ->
    exists a', set_capacity z true a n = Some (true, a') /\ rep a' (firstn (Z.to_nat n) l) /\ capacity a' = n.
  Proof.
    intros (r & E & C & P) Hn. unfold set_capacity.
    destruct (Z.eqb_spec n (capacity a)) as [->|Hne].
    - exists a. split; [easy|]. split; [|easy]. rewrite firstn_all2 by lia. exists r. easy.
    - cbn [negb]. replace (n <? 0) with false by (symmetry; rewrite Z.ltb_ge; lia).
      set (c := if n <? count a then n else count a).
      assert (Hc : c = Z.of_nat (length (firstn (Z.to_nat n) l))).
      { unfold c. rewrite firstn_length. destruct (Z.ltb_spec n (count a)); lia. }
      replace (cells a) with ([] ++ firstn (Z.to_nat n) l ++ skipn (Z.to_nat n) l ++ r)
        by (cbn [app]; rewrite app_assoc, firstn_skipn; easy).
      rewrite (read_app [] _ _ 0 c) by (cbn; easy). cbn [obind].
      set (k := length (firstn (Z.to_nat n) l)) in *.
      assert (Hk : (k <= Z.to_nat n)%nat) by (unfold k; rewrite firstn_length; lia).
      replace (repeat z (Z.to_nat n)) with ([] ++ repeat z k ++ repeat z (Z.to_nat n - k))
        by (cbn [app]; rewrite <- repeat_app; f_equal; lia).
      rewrite write_app by (rewrite ?repeat_length; easy). cbn [obind app].
      eexists. split; [reflexivity|]. split; [|reflexivity].
      apply rep_mk; [easy|]. fold k. rewrite repeat_length. lia.
  Qed.

  Lemma set_capacity_fail a l n : rep a l -> 0 <= n ->
    exists b a', set_capacity z false a n = Some (b, a') /\ rep a' (firstn (Z.to_nat n) l) /\ capacity a' = capacity a.
  Proof.
    intros (r & E & C & P) Hn. unfold set_capacity.
    destruct (Z.eqb_spec n (capacity a)) as [->|Hne].
    - exists true, a. split; [easy|]. split; [|easy]. rewrite firstn_all2 by lia. exists r. easy.
    - cbn [negb]. do 2 eexists. split; [reflexivity|]. split; [|reflexivity].
      exists (skipn (Z.to_nat n) l ++ r). cbn. rewrite app_assoc, firstn_skipn. split; [easy|].
      rewrite app_length, firstn_length, skipn_length.
      destruct (Z.ltb_spec n (count a)); lia.
  Qed.

  Lemma grow_ok a l m : rep a l -> exists a', grow z true a m = Some (true, a') /\ rep a' l /\
    capacity a' = Z.max m (2 * capacity a + 8).
  Proof.
    intros R. pose proof R as (r & E & C & P). unfold grow, grow_formula.
    set (n := if _ : bool then m else _).
    assert (n = Z.max m (2 * capacity a + 8)) by (unfold n; destruct (Z.ltb_spec (2 * capacity a + 8) m); lia).
    destruct (set_capacity_ok a l n R) as (a' & S & R' & C'); [lia|].
    exists a'. split; [easy|]. split; [|lia]. rewrite firstn_all2 in R' by lia. easy.
  Qed.

  Lemma grow_fail a l m : rep a l -> grow z false a m = Some (false, a).
  Proof.
    intros (r & E & C & P). unfold grow, grow_formula, set_capacity.
    set (n := if _ : bool then m else _).
    assert (n = Z.max m (2 * capacity a + 8)) by (unfold n; destruct (Z.ltb_spec (2 * capacity a + 8) m); lia).
    destruct (Z.eqb_spec n (capacity a)); [lia|]. cbn [negb].
    destruct (Z.ltb_spec n (count a)); [lia|]. destruct a; easy.
  Qed.

  (** making room for [k] more elements *)
  Lemma room_ok a l k m : rep a l -> count a + k <= Z.max m (2 * capacity a + 8) ->
    exists a', (if capacity a <? count a + k then grow z true a m else Some (true, a)) = Some (true, a') /\
      rep a' l /\ count a + k <= capacity a'.
  Proof.
    intros R Hm. destruct (Z.ltb_spec (capacity a) (count a + k)).
    - destruct (grow_ok a l m R) as (a' & G & R' & C). exists a'. repeat split; [easy..|lia].
    - exists a. repeat split; easy.
  Qed.
  Lemma room_fail a l k m : rep a l ->
    (if capacity a <? count a + k then grow z false a m else Some (true, a)) = Some (false, a) \/
    (if capacity a <? count a + k then grow z false a m else Some (true, a)) = Some (true, a) /\ count a + k <= capacity a.
  Proof.
    intros R. destruct (Z.ltb_spec (capacity a) (count a + k)).
    - left. now apply grow_fail with (l := l).
    - right. easy.
  Qed.

  Lemma rep_room a l k : rep a l -> 0 <= k -> count a + k <= capacity a ->
    exists s r, cells a = l ++ s ++ r /\ Z.of_nat (length s) = k /\ count a = Z.of_nat (length l) /\
      capacity a = Z.of_nat (length l + length s + length r).
  Proof.
    intros (r & E & C & P) Hk H. destruct (split_at (Z.to_nat k) r) as (s & t & -> & L); [lia|].
    exists s, t. rewrite E. split; [easy|]. rewrite app_length in P. lia.
  Qed.

  Lemma exists_last_dec {A} (l : list A) : l = [] \/ exists (l1 : list A) w, l = l1 ++ [w].
  Proof. destruct l using rev_ind; [now left|right; eauto]. Qed.
  Lemma len1 {A} (s : list A) : length s = 1%nat -> exists x : A, s = [x].
  Proof. destruct s as [|x [|]]; cbn; try lia. now exists x. Qed.

  (** storing [xs] after the contents *)
  Lemma tail_store a l xs : rep a l -> count a + Z.of_nat (length xs) <= capacity a ->
    exists c, write_cells (cells a) (count a) xs = Some c /\
      rep (mkArr c (count a + Z.of_nat (length xs)) (capacity a)) (l ++ xs).
  Proof.
    intros R H. destruct (rep_room a l _ R (Nat2Z.is_nonneg _) H) as (s & r & E & L & C & P).
    exists (l ++ xs ++ r). rewrite E, C, write_app by (lia || easy). split; [easy|].
    rewrite app_assoc. apply rep_mk; rewrite ?app_length; lia.
  Qed.

  (** opening a gap at [i] and storing [xs] there *)
  Lemma gap_store a l xs i : rep a l -> 0 <= i <= count a -> count a + Z.of_nat (length xs) <= capacity a ->
    exists c c', move_cells (cells a) (i + Z.of_nat (length xs)) i (count a - i) = Some c /\
      write_cells c i xs = Some c' /\
      rep (mkArr c' (count a + Z.of_nat (length xs)) (capacity a)) (insert l xs i).
  Proof.
    intros R Hi H. destruct (rep_room a l _ R (Nat2Z.is_nonneg _) H) as (s & r & E & L & C & P).
    destruct (split_at (Z.to_nat i) l) as (l1 & l2 & -> & L1); [lia|].
    rewrite app_length in C, P.
    unfold move_cells. rewrite E, <- app_assoc, (read_app l1 l2 _ i) by lia. cbn [obind].
    assert (exists g h, l2 ++ s = g ++ h /\ length g = length xs /\ length h = length l2) as (g & h & G & Lg & Lh).
    { destruct (split_at (length xs) (l2 ++ s)) as (g & h & G & Lg); [rewrite app_length; lia|].
      exists g, h. repeat split; try easy. apply (f_equal (@length T)) in G. rewrite !app_length in G. lia. }
    rewrite (app_assoc l2), G, <- (app_assoc g), (app_assoc l1 g).
    rewrite write_app by (rewrite ?app_length; lia).
    exists ((l1 ++ g) ++ l2 ++ r), (l1 ++ xs ++ l2 ++ r). split; [easy|].
    rewrite <- app_assoc, write_app by lia. split; [easy|].
    unfold insert. rewrite firstn_app, skipn_app, <- L1, firstn_all, skipn_all, Nat.sub_diag.
    cbn [firstn skipn app]. rewrite app_nil_r.
    replace (l1 ++ xs ++ l2 ++ r) with ((l1 ++ xs ++ l2) ++ r) by (rewrite <- !app_assoc; easy).
    apply rep_mk; rewrite !app_length; lia.
  Qed.

  (** the append_at shuffle: clamped gap of one, then the store at the original index *)
  Lemma gap_store1 a l x i : rep a l -> 0 <= i <= count a -> count a + 1 <= capacity a ->
    let j := if count a <=? i then count a - 1 else i in
    let j := if j <? 0 then 0 else j in
    exists c c', move_cells (cells a) (j + 1) j (count a - j) = Some c /\
      write_cells c i [x] = Some c' /\
      rep (mkArr c' (count a + 1) (capacity a)) (insert l [x] i).
  Proof.
    intros R Hi H j0 j. pose proof R as (r & E & C & P).
    destruct (Z.eq_dec i (count a)) as [->|Hne].
    2:{ assert (j = i) as ->.
        { unfold j, j0. destruct (Z.leb_spec (count a) i); [lia|]. destruct (Z.ltb_spec i 0); lia. }
        apply (gap_store a l [x] i R Hi). exact H. }
    assert (EI : insert l [x] (count a) = l ++ [x]).
    { unfold insert. rewrite C, Nat2Z.id, firstn_all, skipn_all. cbn. easy. }
    rewrite EI.
    destruct (rep_room a l 1 R ltac:(lia) H) as (s & r' & E' & L & _ & P').
    apply Nat2Z.inj_iff with (m := 1%nat) in L. destruct (len1 s L) as (y & ->).
    destruct (exists_last_dec l) as [->|(l1 & w & ->)].
    - cbn in C. assert (j = 0) as -> by (unfold j, j0; rewrite C; easy). rewrite C.
      unfold move_cells. rewrite E'. change ([] ++ [y] ++ r') with ([] ++ [] ++ [y] ++ r').
      rewrite (read_app [] []) by easy. cbn [obind app].
      exists (y :: r'), (x :: r'). split.
      { change (y :: r') with ([y] ++ [] ++ r'). rewrite write_app by easy. easy. }
      split. { change (y :: r') with ([] ++ [y] ++ r'). rewrite write_app by easy. easy. }
      change (x :: r') with ([x] ++ r'). apply rep_mk; cbn in *; lia.
    - rewrite app_length in C. cbn [length] in C.
      assert (j = Z.of_nat (length l1)) as ->.
      { unfold j, j0. destruct (Z.leb_spec (count a) (count a)); [|lia]. destruct (Z.ltb_spec (count a - 1) 0); lia. }
      unfold move_cells. rewrite E', <- app_assoc, (read_app l1 [w]) by (cbn [length]; lia). cbn [obind].
      rewrite (app_assoc l1), write_app by (rewrite ?app_length; cbn; lia).
      do 2 eexists. split; [reflexivity|].
      rewrite write_app by (rewrite ?app_length; cbn; lia). split; [reflexivity|].
      rewrite app_assoc. apply rep_mk; rewrite !app_length; rewrite ?app_length in P'; cbn [length] in *; lia.
  Qed.
End Arr.
