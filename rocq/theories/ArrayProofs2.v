(** Every array operation refines its list meaning; histories; growth. *)
From Verif Require Import Base Array ArraySpec ArrayProofs.

Section Arr.
  Context {T : Type} (z : T).
  Implicit Types l xs r : list T.

  Lemma fill_loop_spec (v : T) : forall n c i, 0 <= i -> i + Z.of_nat n <= Z.of_nat (length c) ->
    exists c', fill_loop c i n v = Some c' /\ length c' = length c /\
      forall k, nth_error c' k = if (i <=? Z.of_nat k) && (Z.of_nat k <? i + Z.of_nat n) then Some v else nth_error c k.
  Proof.
    induction n as [|n IH]; intros c i Hi H; cbn [fill_loop].
    - exists c. repeat split. intros k. destruct (_ && _) eqn:E; [|easy].
      rewrite andb_true_iff, Z.leb_le, Z.ltb_lt in E. lia.
    - destruct (split_at (Z.to_nat i) c) as (c1 & c2 & -> & L1); [lia|].
      destruct c2 as [|y c2]; [rewrite app_nil_r in H; lia|].
      change (y :: c2) with ([y] ++ c2). rewrite write_app by (cbn; lia). cbn [obind].
      destruct (IH (c1 ++ [v] ++ c2) (i + 1)) as (c' & F & L & N); [lia|rewrite app_length in *; cbn in *; lia|].
      exists c'. split; [easy|]. split; [rewrite L, !app_length; easy|].
      intros k. rewrite N.
      destruct (Z.eq_dec (Z.of_nat k) i) as [Ek|Ek].
      + replace ((i + 1 <=? Z.of_nat k) && _) with false
          by (symmetry; apply andb_false_iff; left; apply Z.leb_gt; lia).
        replace (_ && _) with true by (symmetry; rewrite andb_true_iff, Z.leb_le, Z.ltb_lt; lia).
        rewrite nth_error_app2 by lia. replace (k - length c1)%nat with 0%nat by lia. easy.
      + replace (i + 1 <=? Z.of_nat k) with (i <=? Z.of_nat k)
          by (apply eq_true_iff_eq; rewrite !Z.leb_le; lia).
        replace (i + 1 + Z.of_nat n) with (i + Z.of_nat (S n)) by lia.
        destruct (_ && _); [easy|].
        destruct (Nat.lt_ge_cases k (length c1)).
        * rewrite !nth_error_app1 by lia. easy.
        * rewrite (nth_error_app2 c1 ([v] ++ c2)), (nth_error_app2 c1 ([y] ++ c2)) by lia. destruct (k - length c1)%nat eqn:D; [lia|]. easy.
  Qed.

  Lemma rep_firstn a l n r : cells a = l ++ r -> 0 <= n <= Z.of_nat (length l) -> capacity a = Z.of_nat (length l + length r) ->
    rep (mkArr (cells a) n (capacity a)) (firstn (Z.to_nat n) l).
  Proof.
    intros E H P. exists (skipn (Z.to_nat n) l ++ r). cbn.
    rewrite app_assoc, firstn_skipn, app_length, firstn_length, skipn_length. split; [easy|]. lia.
  Qed.

  Lemma removelast_firstn' l : removelast l = firstn (length l - 1) l.
  Proof.
    destruct (exists_last_dec l) as [->|(l1 & w & ->)]; [easy|].
    rewrite removelast_last, app_length. cbn [length]. replace (length l1 + 1 - 1)%nat with (length l1) by lia.
    rewrite firstn_app, firstn_all, Nat.sub_diag. cbn. now rewrite app_nil_r.
  Qed.

  (** when room is available *)
  Lemma exec_ok a l o : rep a l -> valid l o ->
    exists a' l', exec z true a o = Some (true, a') /\ rep a' l' /\ means l o l'.
  Proof.
    intros R V. pose proof R as (r & E & C & P). destruct o; cbn [exec means valid] in *.
    - unfold append, append_helper.
      destruct (room_ok z a l 1 0 R) as (a1 & G & R1 & C1); [lia|]. rewrite G. cbn [obind].
      pose proof R1 as (_ & _ & CC & _). rewrite C, <- CC in C1.
      destruct (tail_store a1 l [x] R1) as (c & W & R2); [cbn; lia|]. rewrite W. cbn [obind].
      eauto.
    - unfold append_at, append_at_helper.
      destruct (room_ok z a l 1 0 R) as (a1 & G & R1 & C1); [lia|]. rewrite G. cbn [obind].
      pose proof R1 as (_ & _ & CC & _). rewrite C, <- CC in *.
      destruct (gap_store1 a1 l x i R1) as (c & c' & M & W & R2); [lia|cbn; lia|].
      rewrite M. cbn [obind cells count capacity]. rewrite W. cbn [obind]. eauto.
    - unfold appendv.
      destruct (room_ok z a l (Z.of_nat (length xs)) (count a + Z.of_nat (length xs)) R) as (a1 & G & R1 & C1); [lia|].
      rewrite G. cbn [obind]. pose proof R1 as (_ & _ & CC & _). rewrite C, <- CC in C1.
      destruct (tail_store a1 l xs R1) as (c & W & R2); [lia|]. rewrite W. cbn [obind]. eauto.
    - unfold appendv_at. destruct (Z.leb_spec (count a) i).
      + unfold appendv.
        destruct (room_ok z a l (Z.of_nat (length xs)) (count a + Z.of_nat (length xs)) R) as (a1 & G & R1 & C1); [lia|].
        rewrite G. cbn [obind]. pose proof R1 as (_ & _ & CC & _). rewrite C, <- CC in C1.
        destruct (tail_store a1 l xs R1) as (c & W & R2); [lia|]. rewrite W. cbn [obind].
        do 2 eexists. split; [reflexivity|]. split; [exact R2|].
        unfold insert. rewrite firstn_all2, skipn_all2, app_nil_r by lia. easy.
      + destruct (room_ok z a l (Z.of_nat (length xs)) (count a + Z.of_nat (length xs)) R) as (a1 & G & R1 & C1); [lia|].
        rewrite G. cbn [obind]. pose proof R1 as (_ & _ & CC & _). rewrite C, <- CC in *.
        destruct (gap_store a1 l xs i R1) as (c & c' & M & W & R2); [lia|lia|].
        rewrite M. cbn [obind]. rewrite W. cbn [obind]. eauto.
    - unfold array_fill. replace (_ && _) with true by (symmetry; rewrite andb_true_iff, !Z.leb_le; lia).
      destruct (Z.le_gt_cases e b) as [He|He].
      + replace (Z.to_nat (e - b)) with 0%nat by lia. cbn [fill_loop obind lift option_map].
        do 2 eexists. split; [reflexivity|]. split; [destruct a; exact R|]. split; [easy|].
        intros i Hi. replace (_ && _) with false; [easy|]. symmetry. apply andb_false_iff.
        rewrite Z.leb_gt, Z.ltb_ge. lia.
      + destruct (fill_loop_spec x (Z.to_nat (e - b)) (cells a) b) as (c' & F & L & N);
          [lia|rewrite E, app_length; lia|].
        rewrite F. cbn [obind lift option_map].
        rewrite E, app_length in L.
        destruct (split_at (length l) c') as (c1 & c2 & -> & L1); [lia|].
        rewrite app_length in L.
        exists (mkArr (c1 ++ c2) (count a) (capacity a)), c1. split; [easy|].
        split; [apply rep_mk; lia|]. split; [easy|].
        intros i Hi. specialize (N i). rewrite E, !nth_error_app1 in N by lia.
        rewrite N. replace (b + Z.of_nat (Z.to_nat (e - b))) with e by lia. easy.
    - unfold remove_at. destruct (Z.ltb_spec i (count a)); [|lia].
      destruct (split_at (Z.to_nat i) l) as (l1 & l2 & -> & L1); [lia|].
      destruct l2 as [|y l2]; [rewrite app_nil_r in *; lia|].
      rewrite app_length in C, P. cbn [length] in C, P.
      unfold move_cells. rewrite E.
      replace ((l1 ++ y :: l2) ++ r) with ((l1 ++ [y]) ++ l2 ++ r) by (rewrite <- !app_assoc; easy).
      rewrite read_app by (rewrite ?app_length; cbn [length]; lia). cbn [obind].
      assert (exists g h, [y] ++ l2 = g ++ h /\ length g = length l2 /\ length h = 1%nat) as (g & h & G & Lg & Lh).
      { destruct (split_at (length l2) ([y] ++ l2)) as (g & h & G & Lg); [cbn; lia|].
        exists g, h. repeat split; try easy. apply (f_equal (@length T)) in G. rewrite !app_length in G. cbn in G. lia. }
      replace ((l1 ++ [y]) ++ l2 ++ r) with (l1 ++ g ++ h ++ r)
        by (rewrite (app_assoc g), <- G, <- !app_assoc; easy).
      rewrite write_app by lia. cbn [obind lift option_map].
      do 2 eexists. split; [reflexivity|]. split; [|reflexivity].
      unfold delete. rewrite firstn_app, skipn_app, <- L1, firstn_all, Nat.sub_diag, skipn_all2 by lia.
      replace (S (length l1) - length l1)%nat with 1%nat by lia. cbn [firstn skipn]. rewrite app_nil_r. cbn [app].
      rewrite app_assoc. apply rep_mk; rewrite !app_length; lia.
    - unfold pop. destruct l as [|y l]; [easy|]. destruct (Z.ltb_spec 0 (count a)); [|cbn in C; lia].
      cbn [lift option_map]. do 2 eexists. split; [reflexivity|]. split; [|reflexivity].
      rewrite removelast_firstn'. replace (length (y :: l) - 1)%nat with (Z.to_nat (count a - 1)) by lia.
      apply rep_firstn with (r := r); [easy|lia..].
    - do 2 eexists. split; [reflexivity|]. split; [|reflexivity].
      apply (rep_firstn a l 0 r E); lia.
    - unfold resize.
      assert (exists a1, (if capacity a <? n then grow z true a n else Some (true, a)) = Some (true, a1)
                         /\ rep a1 l /\ n <= capacity a1) as (a1 & G & R1 & C1).
      { destruct (Z.ltb_spec (capacity a) n).
        - destruct (grow_ok z a l n R) as (a1 & G & R1 & C1). exists a1. repeat split; [easy..|lia].
        - exists a. easy. }
      rewrite G. cbn [obind]. pose proof R1 as (r1 & E1 & CC & P1).
      exists (mkArr (cells a1) n (capacity a1)), (firstn (Z.to_nat n) (cells a1)). split; [easy|].
      split.
      { exists (skipn (Z.to_nat n) (cells a1)). cbn. rewrite firstn_skipn, firstn_length, skipn_length, E1, app_length.
        split; [easy|lia]. }
      rewrite firstn_length, E1, app_length. split; [lia|].
      rewrite firstn_firstn. replace (min (min (length l) (Z.to_nat n)) (Z.to_nat n)) with (min (length l) (Z.to_nat n)) by lia.
      rewrite firstn_app. replace (min (length l) (Z.to_nat n) - length l)%nat with 0%nat by lia. cbn [firstn].
      now rewrite app_nil_r.
    - unfold reserve. destruct (Z.ltb_spec (capacity a) n).
      + destruct (set_capacity_ok z a l n R V) as (a' & G & R' & _). rewrite firstn_all2 in R' by lia. eauto.
      + eauto.
    - destruct (set_capacity_ok z a l n R V) as (a' & G & R' & _). eauto.
    - destruct (grow_ok z a l n R) as (a' & G & R' & _). eauto.
  Qed.

  (** with a failing allocator: either the operation needed no memory and did its
      work, or it reports failure and the contents are those it started with *)
  Lemma exec_fail a l o : rep a l -> valid l o ->
    exists b a' l', exec z false a o = Some (b, a') /\ rep a' l' /\
      (if b then means l o l' else means_failed l o l').
  Proof.
    intros R V. pose proof R as (r & E & C & P).
    assert (Same : forall k m, (if capacity a <? count a + k then grow z false a m else Some (true, a)) = Some (true, a) ->
       count a + k <= capacity a ->
       (if capacity a <? count a + k then grow z true a m else Some (true, a)) = Some (true, a)).
    { intros k m _ H. destruct (Z.ltb_spec (capacity a) (count a + k)); [lia|easy]. }
    destruct (exec_ok a l o R V) as (a' & l' & X & R' & M).
    destruct o; cbn [exec] in *.
    all: try (exists true, a', l'; split; [exact X|]; split; [exact R'|exact M]).
    - unfold append, append_helper in *. destruct (room_fail z a l 1 0 R) as [F|[F H]].
      + rewrite F. cbn. do 3 eexists. split; [reflexivity|]. split; [exact R|]. easy.
      + rewrite (Same _ _ F H) in X. rewrite F, X. do 3 eexists. split; [reflexivity|]. split; [exact R'|]. easy.
    - unfold append_at, append_at_helper in *. destruct (room_fail z a l 1 0 R) as [F|[F H]].
      + rewrite F. cbn. do 3 eexists. split; [reflexivity|]. split; [exact R|]. easy.
      + rewrite (Same _ _ F H) in X. rewrite F, X. do 3 eexists. split; [reflexivity|]. split; [exact R'|]. easy.
    - unfold appendv in *.
      destruct (room_fail z a l (Z.of_nat (length xs)) (count a + Z.of_nat (length xs)) R) as [F|[F H]].
      + rewrite F. cbn. do 3 eexists. split; [reflexivity|]. split; [exact R|]. easy.
      + rewrite (Same _ _ F H) in X. rewrite F, X. do 3 eexists. split; [reflexivity|]. split; [exact R'|]. easy.
    - unfold appendv_at, appendv in *.
      destruct (room_fail z a l (Z.of_nat (length xs)) (count a + Z.of_nat (length xs)) R) as [F|[F H]].
      + rewrite F. cbn. exists false, a, l. split; [destruct (_ <=? _); easy|]. split; [exact R|]. easy.
      + rewrite (Same _ _ F H) in X. rewrite F, X. do 3 eexists. split; [reflexivity|]. split; [exact R'|]. easy.
    - unfold resize in *. destruct (Z.ltb_spec (capacity a) n).
      + rewrite (grow_fail z a l n R). cbn. do 3 eexists. split; [reflexivity|]. split; [exact R|]. easy.
      + rewrite X. do 3 eexists. split; [reflexivity|]. split; [exact R'|]. easy.
    - unfold reserve in *. destruct (Z.ltb_spec (capacity a) n).
      + destruct (set_capacity_fail z a l n R V) as (b & a1 & S & R1 & _). rewrite S.
        rewrite firstn_all2 in R1 by lia.
        do 3 eexists. split; [reflexivity|]. split; [exact R1|]. destruct b; easy.
      + rewrite X. do 3 eexists. split; [reflexivity|]. split; [exact R'|]. easy.
    - destruct (set_capacity_fail z a l n R V) as (b & a1 & S & R1 & _). rewrite S.
      do 3 eexists. split; [reflexivity|]. split; [exact R1|]. destruct b; easy.
    - rewrite (grow_fail z a l n R). do 3 eexists. split; [reflexivity|]. split; [exact R|]. easy.
  Qed.

  Lemma run_refines : forall h a l, rep a l -> all_valid l h ->
    exists bs a' l', run z a h = Some (bs, a') /\ rep a' l' /\ list_run l h bs l'.
  Proof.
    induction h as [|[ok o] h IH]; intros a l R V; cbn [run].
    - exists [], a, l. repeat split; [easy|]. constructor.
    - cbn [all_valid] in V. destruct V as (V & Vt & Vf).
      assert (exists b a1 l1, exec z ok a o = Some (b, a1) /\ rep a1 l1 /\
        (if b then means l o l1 else ok = false /\ means_failed l o l1)) as (b & a1 & l1 & X & R1 & M).
      { destruct ok.
        - destruct (exec_ok a l o R V) as (a1 & l1 & ? & ? & ?). exists true. eauto.
        - destruct (exec_fail a l o R V) as (b & a1 & l1 & ? & ? & ?). exists b, a1, l1.
          destruct b; easy. }
      rewrite X. cbn [obind].
      destruct b.
      + destruct (IH a1 l1 R1 (Vt l1 M)) as (bs & a2 & l2 & Y & R2 & L2). rewrite Y. cbn [obind].
        do 3 eexists. split; [reflexivity|]. split; [exact R2|]. eapply LR_ok; eauto.
      + destruct M as (-> & M). destruct (IH a1 l1 R1 (Vf eq_refl l1 M)) as (bs & a2 & l2 & Y & R2 & L2).
        rewrite Y. cbn [obind].
        do 3 eexists. split; [reflexivity|]. split; [exact R2|]. eapply LR_fail; eauto.
  Qed.

  (** copy_init duplicates *)
  Lemma copy_init_ok a l : rep a l -> exists a', copy_init z true a = Some a' /\ rep a' l /\ capacity a' = capacity a.
  Proof.
    intros (r & E & C & P). unfold copy_init, array_init_reserve. cbn [obind cells capacity].
    rewrite E. replace (l ++ r) with ([] ++ (l ++ r) ++ []) by (rewrite app_nil_r; easy).
    rewrite read_app by (rewrite ?app_length; cbn; lia). cbn [obind].
    replace (repeat z _) with ([] ++ repeat z (Z.to_nat (capacity a)) ++ []) by (rewrite app_nil_r; easy).
    rewrite write_app by (rewrite ?repeat_length, ?app_length; cbn; lia). cbn [obind app].
    eexists. split; [reflexivity|]. split; [|easy]. rewrite app_nil_r. apply rep_mk; lia.
  Qed.

  (** growth by appends only *)
  Fixpoint appends (a : arr T) (xs : list T) : option (bool * arr T) :=
    match xs with
    | [] => Some (true, a)
    | x :: r => '(b, a) <- append z true a x ;; if b : bool then appends a r else Some (false, a)
    end.
  (** elements copied by the reallocation an append performs, if any *)
  Definition copies (a : arr T) : Z := if capacity a <? count a + 1 then count a else 0.
  Fixpoint total_copies (a : arr T) (xs : list T) : Z :=
    match xs with
    | [] => 0
    | x :: r => copies a + match append z true a x with Some (_, a') => total_copies a' r | None => 0 end
    end.

  Lemma append_cap a l x : rep a l -> exists a', append z true a x = Some (true, a') /\ rep a' (l ++ [x]) /\
    capacity a' = if capacity a <? count a + 1 then 2 * capacity a + 8 else capacity a.
  Proof.
    intros R. pose proof R as (r & E & C & P). unfold append, append_helper.
    assert (exists a1, (if capacity a <? count a + 1 then grow z true a 0 else Some (true, a)) = Some (true, a1) /\
      rep a1 l /\ capacity a1 = (if capacity a <? count a + 1 then 2 * capacity a + 8 else capacity a)) as (a1 & G & R1 & C1).
    { destruct (Z.ltb_spec (capacity a) (count a + 1)).
      - destruct (grow_ok z a l 0 R) as (a1 & G & R1 & C1). exists a1. repeat split; [easy..|lia].
      - exists a. easy. }
    rewrite G. cbn [obind]. pose proof R1 as (r1 & E1 & CC & P1).
    destruct (tail_store a1 l [x] R1) as (c & W & R2).
    { cbn. destruct (Z.ltb_spec (capacity a) (count a + 1)); lia. }
    rewrite W. cbn [obind]. do 2 eexists; [reflexivity|]. split; [exact R2|]. exact C1.
  Qed.

  Lemma appends_growth : forall xs a l k, rep a l ->
    capacity a < 2 * count a + 16 -> k <= capacity a - 8 -> 0 <= k ->
    exists a', appends a xs = Some (true, a') /\ rep a' (l ++ xs) /\ capacity a' < 2 * count a' + 16 /\
      k + total_copies a xs <= capacity a' - 8.
  Proof.
    induction xs as [|x xs IH]; intros a l k R Hc Hk Hk0; cbn [appends total_copies].
    - exists a. rewrite app_nil_r. repeat split; try easy. lia.
    - destruct (append_cap a l x R) as (a1 & A & R1 & C1). rewrite A. cbn [obind].
      pose proof R as (r & E & C & P). pose proof R1 as (r1 & E1 & CC & P1). rewrite app_length in CC. cbn [length] in CC.
      destruct (IH a1 (l ++ [x]) (k + copies a) R1) as (a' & X & R' & H1 & H2).
      + destruct (Z.ltb_spec (capacity a) (count a + 1)); lia.
      + unfold copies. destruct (Z.ltb_spec (capacity a) (count a + 1)); lia.
      + unfold copies. destruct (Z.ltb_spec (capacity a) (count a + 1)); lia.
      + exists a'. rewrite <- app_assoc in R'. repeat split; try easy. lia.
  Qed.
End Arr.
