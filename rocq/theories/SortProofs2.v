(** Bounds for arbitrary comparators, binary search, shuffle and reverse. *)
From Verif Require Import Base Sort SortSpec SortProofs.

Section P.
  Context {T : Type} (cmp : T -> T -> Z).
  Implicit Types l : list T.

  (** whatever the comparator, a normal result is a permutation *)
  Lemma rd_inv l i x : rd l i = Ok x -> at_ l i = Some x.
  Proof. rewrite rd_at. destruct (at_ l i); [|easy]. now intros [= ->]. Qed.
  Lemma swap_perm l i j l' : swap l i j = Ok l' -> Permutation l l'.
  Proof.
    intros H. destruct (rd l i) as [x| |] eqn:Ei; unfold swap in H; rewrite Ei in H; cbn [rbind] in H; try easy.
    destruct (rd l j) as [y| |] eqn:Ej; cbn [rbind] in H; try easy.
    apply rd_inv in Ei, Ej. destruct (swap_ok l i j x y Ei Ej) as (l1 & S & P & _).
    assert (Ok l1 = Ok l') as [= <-]; [|exact P]. rewrite <- S, <- H. unfold swap.
    now rewrite (rd_ok _ _ _ Ei), (rd_ok _ _ _ Ej).
  Qed.
  Lemma swap_if_perm l i j l' : swap_if_greater cmp l i j = Ok l' -> Permutation l l'.
  Proof.
    unfold swap_if_greater. destruct (cmp_at cmp l i j) as [c| |]; cbn [rbind]; try easy.
    destruct (0 <? c); [apply swap_perm|now intros [= ->]].
  Qed.
  Lemma part_loop_perm b : forall fuel l i j l' i' j', part_loop cmp fuel l b i j = Ok (l', i', j') -> Permutation l l'.
  Proof.
    induction fuel as [|fuel IH]; intros l i j l' i' j'; [easy|]. cbn [part_loop].
    destruct (scan_up _ _ _ _ _) as [i1| |]; cbn [rbind]; try easy.
    destruct (scan_down _ _ _ _ _) as [j1| |]; cbn [rbind]; try easy.
    destruct (j1 <? i1); [now intros [= -> _ _]|].
    destruct (swap l i1 j1) as [l1| |] eqn:E; cbn [rbind]; try easy.
    intros H. apply IH in H. apply swap_perm in E. now transitivity l1.
  Qed.
  Lemma partition_perm l b L l' i j : partition cmp l b L = Ok (l', i, j) -> Permutation l l'.
  Proof.
    unfold partition. destruct (swap _ _ _) as [l0| |] eqn:E0; cbn [rbind]; try easy.
    destruct (swap_if_greater cmp l0 _ _) as [l1| |] eqn:E1; cbn [rbind]; try easy.
    destruct (swap_if_greater cmp l1 _ _) as [l2| |] eqn:E2; cbn [rbind]; try easy.
    destruct (swap_if_greater cmp l2 _ _) as [l3| |] eqn:E3; cbn [rbind]; try easy.
    destruct (part_loop _ _ _ _ _ _) as [[[l4 i4] j4]| |] eqn:E4; cbn [rbind]; try easy.
    destruct (swap l4 _ _) as [l5| |] eqn:E5; cbn [rbind]; try easy. intros [= <- _ _].
    apply swap_perm in E0, E5. apply swap_if_perm in E1, E2, E3. apply part_loop_perm in E4.
    transitivity l0; [easy|]. transitivity l1; [easy|]. transitivity l2; [easy|]. transitivity l3; [easy|]. now transitivity l4.
  Qed.
  Lemma sift_perm b : forall fuel l j l', sift cmp fuel l b j = Ok l' -> Permutation l l'.
  Proof.
    induction fuel as [|fuel IH]; intros l j l'; [easy|]. cbn [sift].
    destruct (cmp_at _ _ _ _) as [c| |]; cbn [rbind]; try easy. destruct (0 <? c); [|now intros [= ->]].
    destruct (swap _ _ _) as [l1| |] eqn:E; cbn [rbind]; try easy. apply swap_perm in E.
    destruct (j =? b); [now intros [= <-]|]. intros H. apply IH in H. now transitivity l1.
  Qed.
  Lemma insertion_perm b L : forall fuel l j i l', insertion cmp fuel l b L j i = Ok l' -> Permutation l l'.
  Proof.
    induction fuel as [|fuel IH]; intros l j i l'; [easy|]. cbn [insertion].
    destruct (i <? L); [|now intros [= ->]].
    destruct (sift _ _ _ _ _) as [l1| |] eqn:E; cbn [rbind]; try easy. apply sift_perm in E.
    intros H. apply IH in H. now transitivity l1.
  Qed.
  Lemma sort_loop_perm : forall fuel l b L st l', sort_loop cmp fuel l b L st = Ok l' -> Permutation l l'.
  Proof.
    induction fuel as [|fuel IH]; intros l b L st l'; [easy|]. cbn [sort_loop].
    destruct (threshold <? L - b).
    - destruct (partition _ _ _ _) as [[[l1 i] j]| |] eqn:E; cbn [rbind]; try easy. apply partition_perm in E.
      destruct (_ >? _); destruct (push _ _ _) as [st'| |]; cbn [rbind]; try easy;
        intros H; apply IH in H; now transitivity l1.
    - destruct (insertion _ _ _ _ _ _ _) as [l1| |] eqn:E; cbn [rbind]; try easy. apply insertion_perm in E.
      destruct st as [|[? ?] st]; [now intros [= <-]|]. intros H. apply IH in H. now transitivity l1.
  Qed.

  (** up to eight elements: no comparator can make it leave the array *)
  Lemma sift_any b : 0 <= b -> forall fuel l j, b <= j -> j + 1 < Z.of_nat (length l) -> j - b < Z.of_nat fuel ->
    exists l', sift cmp fuel l b j = Ok l' /\ length l' = length l.
  Proof.
    intros Hb. induction fuel as [|fuel IH]; intros l j Hj Hi Hf; [lia|]. cbn [sift].
    destruct (at_some l j) as (u & Eu); [lia|]. destruct (at_some l (j + 1)) as (v & Ev); [lia|].
    rewrite (cmp_at_ok _ _ _ _ _ _ Eu Ev). cbn [rbind]. destruct (0 <? cmp u v); [|eauto].
    destruct (swap_ok l j (j + 1) u v Eu Ev) as (l1 & Sw & P & _). rewrite Sw. cbn [rbind].
    apply Permutation_length in P. destruct (Z.eqb_spec j b); [eauto|].
    destruct (IH l1 (j - 1)) as (l2 & X & Y); [lia..|]. exists l2. split; [easy|lia].
  Qed.
  Lemma insertion_any b L : 0 <= b -> forall fuel l i, b < i -> L <= Z.of_nat (length l) -> L - i < Z.of_nat fuel -> (0 < fuel)%nat ->
    exists l', insertion cmp fuel l b L (i - 1) i = Ok l'.
  Proof.
    intros Hb. induction fuel as [|fuel IH]; intros l i Hi HL Hf Hf0; [lia|]. cbn [insertion].
    destruct (Z.ltb_spec i L) as [H|H]; [|eauto].
    destruct (sift_any b Hb (S (length l)) l (i - 1)) as (l1 & X & Y); [lia..|]. rewrite X. cbn [rbind].
    destruct (IH l1 (i + 1)) as (l2 & X2); [lia..|]. replace (i + 1 - 1) with i in X2 by lia. eauto.
  Qed.
  Lemma sort_small l : Z.of_nat (length l) <= 8 -> exists l', (forall f, zpl_sort cmp (S f) l = Ok l') /\ Permutation l l'.
  Proof.
    intros H. destruct (insertion_any 0 (Z.of_nat (length l)) ltac:(lia) (S (length l)) l 1) as (l' & X); [lia..|].
    exists l'. split; [|now apply insertion_perm in X]. intros f. unfold zpl_sort. cbn [sort_loop]. unfold threshold.
    destruct (Z.ltb_spec 8 (Z.of_nat (length l) - 0)); [lia|]. change (1 - 1) with 0 in X. change (0 + 1) with 1.
    rewrite X. easy.
  Qed.

  (** binary search *)
  Lemma bsearch_any key l : forall fuel s e, 0 <= s -> e <= Z.of_nat (length l) -> e - s < Z.of_nat fuel -> (0 < fuel)%nat ->
    exists m, bsearch_loop cmp fuel l key s e = Ok m /\
      (m = -1 \/ exists x, s <= m < e /\ at_ l m = Some x /\ cmp key x = 0).
  Proof.
    induction fuel as [|fuel IH]; intros s e Hs He Hf Hf0; [lia|]. cbn [bsearch_loop].
    destruct (Z.ltb_spec s e) as [H|H]; [|eauto].
    rewrite Z.quot_div_nonneg by lia. set (m := s + (e - s) / 2).
    assert (Hm : s <= m < e) by (unfold m; Z.div_mod_to_equations; lia).
    destruct (at_some l m) as (x & Ex); [lia|]. rewrite (rd_ok _ _ _ Ex). cbn [rbind]. cbv zeta.
    destruct (Z.ltb_spec (cmp key x) 0).
    - destruct (IH s m) as (r & X & [->|(y & Hr & Ey & C)]); [lia..| |]; eauto. exists r. split; [easy|]. right. exists y. split; [lia|easy].
    - destruct (Z.ltb_spec 0 (cmp key x)).
      + destruct (IH (m + 1) e) as (r & X & [->|(y & Hr & Ey & C)]); [lia..| |]; eauto. exists r. split; [easy|]. right. exists y. split; [lia|easy].
      + exists m. split; [easy|]. right. exists x. split; [lia|]. split; [easy|lia].
  Qed.
  Lemma bsearch_miss key l : preorder cmp -> sorted_on cmp 0 (Z.of_nat (length l)) l ->
    forall fuel s e, 0 <= s -> e <= Z.of_nat (length l) -> bsearch_loop cmp fuel l key s e = Ok (-1) ->
      forall k x, s <= k < e -> at_ l k = Some x -> cmp key x <> 0.
  Proof.
    intros PO So. induction fuel as [|fuel IH]; intros s e Hs He; [easy|]. cbn [bsearch_loop].
    destruct (Z.ltb_spec s e) as [H|H]; [|lia].
    rewrite Z.quot_div_nonneg by lia. set (m := s + (e - s) / 2).
    assert (Hm : s <= m < e) by (unfold m; Z.div_mod_to_equations; lia).
    destruct (at_some l m) as (x & Ex); [lia|]. rewrite (rd_ok _ _ _ Ex). cbn [rbind]. cbv zeta.
    destruct (Z.ltb_spec (cmp key x) 0) as [C|C]; [|destruct (Z.ltb_spec 0 (cmp key x)) as [C2|C2]].
    - intros R k y Hk Ey E. destruct (Z.lt_ge_cases k m); [now apply (IH s m ltac:(lia) ltac:(lia) R k y ltac:(lia) Ey)|].
      assert (L : cmp x y <= 0).
      { destruct (Z.eq_dec k m) as [->|]; [|apply (So m k x y); (easy || lia)]. rewrite Ex in Ey. injection Ey as <-. apply (le_refl cmp PO). }
      destruct PO as (A & Tr). assert (cmp x key <= 0); [|apply A in C; lia].
      apply Tr with y; [easy|]. destruct (Z.le_gt_cases (cmp y key) 0); [easy|]. assert (cmp key y < 0) by (apply A; lia). lia.
    - intros R k y Hk Ey E. destruct (Z.lt_ge_cases m k); [now apply (IH (m + 1) e ltac:(lia) ltac:(lia) R k y ltac:(lia) Ey)|].
      assert (L : cmp y x <= 0).
      { destruct (Z.eq_dec k m) as [->|]; [|apply (So k m y x); (easy || lia)]. rewrite Ex in Ey. injection Ey as <-. apply (le_refl cmp PO). }
      destruct PO as (A & Tr). assert (cmp key x <= 0); [|lia]. apply Tr with y; [lia|easy].
    - intros [= R]. lia.
  Qed.

  (** shuffle *)
  Lemma shuffle_step l a n rs : shuffle_loop l a (S (S n)) rs =
    rbind (swap l a (Z.rem (rs O) (Z.of_nat (S (S n))))) (fun l => shuffle_loop l (a - 1) (S n) (fun k => rs (S k))).
  Proof. reflexivity. Qed.
  Lemma shuffle_iff : forall n l rs, (n <= length l)%nat ->
    (exists l', shuffle_loop l (Z.of_nat n - 1) n rs = Ok l') <->
    (forall k, (S k < n)%nat -> 0 <= Z.rem (rs k) (Z.of_nat (n - k))).
  Proof.
    induction n as [|n IH]; intros l rs Hn; [split; [lia|cbn; eauto]|].
    destruct n as [|n]; [split; [lia|cbn; eauto]|].
    rewrite shuffle_step. set (n1 := S n) in *.
    destruct (Z.lt_ge_cases (Z.rem (rs 0%nat) (Z.of_nat (S n1))) 0) as [Neg|Pos].
    - split.
      + intros (l' & E). unfold swap in E. destruct (rd l (Z.of_nat (S n1) - 1)); cbn [rbind] in E; try easy.
        unfold rd in E. destruct (Z.leb_spec 0 (Z.rem (rs 0%nat) (Z.of_nat (S n1)))); [lia|]. easy.
      + intros H. specialize (H 0%nat ltac:(lia)). rewrite Nat.sub_0_r in H. lia.
    - assert (Hlt : Z.rem (rs 0%nat) (Z.of_nat (S n1)) < Z.of_nat (S n1)).
      { pose proof (Z.rem_bound_abs (rs 0%nat) (Z.of_nat (S n1)) ltac:(lia)). lia. }
      destruct (at_some l (Z.of_nat (S n1) - 1)) as (x & Ex); [lia|].
      destruct (at_some l (Z.rem (rs 0%nat) (Z.of_nat (S n1)))) as (y & Ey); [lia|].
      destruct (swap_ok _ _ _ _ _ Ex Ey) as (l1 & Sw & P & _). rewrite Sw. cbn [rbind].
      apply Permutation_length in P.
      replace (Z.of_nat (S n1) - 1 - 1) with (Z.of_nat n1 - 1) by lia.
      specialize (IH l1 (fun k => rs (S k)) ltac:(lia)). rewrite IH. split.
      + intros H [|k] Hk; [now rewrite Nat.sub_0_r|]. replace (S n1 - S k)%nat with (n1 - k)%nat by lia. apply H. lia.
      + intros H k Hk. specialize (H (S k) ltac:(lia)). now replace (S n1 - S k)%nat with (n1 - k)%nat in H by lia.
  Qed.
  Lemma shuffle_perm : forall n l a rs l', shuffle_loop l a n rs = Ok l' -> Permutation l l'.
  Proof.
    induction n as [|n IH]; intros l a rs l'; cbn [shuffle_loop]; [now intros [= ->]|].
    destruct n as [|n]; [now intros [= ->]|]. change (shuffle_loop l a (S (S n)) rs = Ok l' -> Permutation l l'). rewrite shuffle_step.
    destruct (swap _ _ _) as [l1| |] eqn:E; cbn [rbind]; try easy. apply swap_perm in E.
    intros H. apply IH in H. now transitivity l1.
  Qed.
  (** no normal result: the failure is a fault *)
  Lemma shuffle_fault : forall n l a rs, shuffle_loop l a n rs <> Fuel.
  Proof.
    induction n as [|n IH]; intros l a rs; [easy|]. destruct n as [|n]; [easy|]. rewrite shuffle_step.
    unfold swap, rd. destruct (0 <=? a); cbn [rbind]; [|easy]. destruct (nth_error l _); cbn [rbind]; [|easy].
    destruct (0 <=? _); cbn [rbind]; [|easy]. destruct (nth_error l _); cbn [rbind]; [|easy]. apply IH.
  Qed.
  (** every rearrangement is the result of some sequence *)
  Lemma shuffle_reach : forall n l l', Permutation l l' -> (n <= length l)%nat -> skipn n l = skipn n l' ->
    exists rs, (forall k, 0 <= rs k) /\ shuffle_loop l (Z.of_nat n - 1) n rs = Ok l'.
  Proof.
    induction n as [|n IH]; intros l l' P Hn E.
    { exists (fun _ => 0). split; [lia|]. cbn in *. now f_equal. }
    assert (PF : Permutation (firstn (S n) l) (firstn (S n) l')).
    { apply Permutation_app_inv_r with (skipn (S n) l). rewrite firstn_skipn. rewrite E, firstn_skipn. easy. }
    destruct n as [|n].
    { exists (fun _ => 0). split; [lia|]. cbn [shuffle_loop]. f_equal.
      destruct l as [|x r], l' as [|x' r']; cbn in *; try easy; try lia.
      - now apply Permutation_nil_cons in P || (symmetry in P; now apply Permutation_nil_cons in P).
      - apply Permutation_length_1 in PF. now subst. }
    set (n1 := S n) in *.
    pose proof (Permutation_length P) as PL.
    destruct (nth_error l' n1) as [x|] eqn:Ex.
    2: { apply nth_error_None in Ex. lia. }
    assert (In x (firstn (S n1) l)) as I.
    { symmetry in PF. apply (Permutation_in x PF).
      assert (nth_error (firstn (S n1) l') n1 = Some x).
      { rewrite <- Ex. rewrite <- (firstn_skipn (S n1) l') at 2. rewrite nth_error_app1; [easy|]. rewrite firstn_length. lia. }
      eapply nth_error_In; eauto. }
    apply In_nth_error in I. destruct I as (j & Ej).
    assert (Hj : (j < S n1)%nat).
    { assert (j < length (firstn (S n1) l))%nat by (apply nth_error_Some; congruence). rewrite firstn_length in *. lia. }
    assert (Ej' : nth_error l j = Some x).
    { rewrite <- (firstn_skipn (S n1) l), nth_error_app1; [easy|]. rewrite firstn_length. lia. }
    destruct (at_some l (Z.of_nat (S n1) - 1)) as (y & Ey); [lia|].
    assert (Ax : at_ l (Z.of_nat j) = Some x).
    { unfold at_. destruct (Z.leb_spec 0 (Z.of_nat j)); [|lia]. now rewrite Nat2Z.id. }
    destruct (swap_ok _ _ _ _ _ Ey Ax) as (l1 & Sw & P1 & A).
    pose proof (Permutation_length P1) as PL1.
    assert (N : forall k, (n1 <= k)%nat -> nth_error l1 k = nth_error l' k).
    { intros k Hk. specialize (A (Z.of_nat k)). unfold at_ in A. destruct (Z.leb_spec 0 (Z.of_nat k)); [|lia].
      rewrite !Nat2Z.id in A. rewrite A. destruct (Z.eqb_spec (Z.of_nat k) (Z.of_nat j)) as [e|e].
      - assert (k = n1 /\ j = n1) as (-> & ->) by lia. rewrite Ex. rewrite <- Ey. unfold at_.
        destruct (Z.leb_spec 0 (Z.of_nat (S n1) - 1)); [|lia]. replace (Z.to_nat (Z.of_nat (S n1) - 1)) with n1 by lia. congruence.
      - destruct (Z.eqb_spec (Z.of_nat k) (Z.of_nat (S n1) - 1)) as [e2|e2]; [replace k with n1 by lia; congruence|].
        assert (S n1 <= k)%nat by lia. rewrite <- (firstn_skipn (S n1) l), <- (firstn_skipn (S n1) l').
        rewrite !nth_error_app2 by (rewrite firstn_length; lia). rewrite E. f_equal. rewrite !firstn_length. lia. }
    destruct (IH l1 l') as (rs & Rp & X).
    { transitivity l; [now symmetry|easy]. }
    { lia. }
    { clear -N PL PL1.
      assert (L : forall k, nth_error (skipn n1 l1) k = nth_error (skipn n1 l') k).
      { intros k. destruct (Nat.le_gt_cases (length l1) n1) as [H|H].
        - rewrite !skipn_all2 by lia. easy.
        - pose proof (N (n1 + k)%nat ltac:(lia)) as Q. rewrite <- (firstn_skipn n1 l1), <- (firstn_skipn n1 l') in Q.
          rewrite !nth_error_app2 in Q by (rewrite firstn_length; lia). rewrite !firstn_length in Q.
          replace (n1 + k - Nat.min n1 (length l1))%nat with k in Q by lia.
          replace (n1 + k - Nat.min n1 (length l'))%nat with k in Q by lia. exact Q. }
      revert L. generalize (skipn n1 l1) as u, (skipn n1 l') as v. induction u as [|x u IHu]; intros [|y v] L; [easy|..].
      - now specialize (L 0%nat).
      - now specialize (L 0%nat).
      - f_equal; [specialize (L 0%nat); cbn in L; congruence|]. apply IHu. intros k. exact (L (S k)). }
    exists (fun k => match k with O => Z.of_nat j | S k => rs k end). split; [intros [|k]; [lia|easy]|].
    unfold n1. rewrite shuffle_step. fold n1. rewrite Z.rem_small by lia. rewrite Sw. cbn [rbind].
    replace (Z.of_nat (S n1) - 1 - 1) with (Z.of_nat n1 - 1) by lia. exact X.
  Qed.

  Lemma reverse_fault l : (2 <= length l)%nat -> forall f, reverse (S (S f)) l = Fault.
  Proof.
    intros H f. unfold reverse. cbn [reverse_loop].
    destruct (Z.ltb_spec 0 (Z.of_nat (length l) - 1)); [|lia].
    destruct (at_some l 0) as (x & Ex); [lia|]. destruct (at_some l (Z.of_nat (length l) - 1)) as (y & Ey); [lia|].
    destruct (swap_ok _ _ _ _ _ Ex Ey) as (l1 & Sw & P & _). rewrite Sw. cbn [rbind].
    destruct (Z.ltb_spec (0 + 1) (Z.of_nat (length l) - 1 + 1)); [|lia].
    unfold swap. destruct (at_some l1 (0 + 1)) as (z & Ez); [apply Permutation_length in P; lia|].
    rewrite (rd_ok _ _ _ Ez). cbn [rbind]. unfold rd.
    destruct (Z.leb_spec 0 (Z.of_nat (length l) - 1 + 1)); [|lia].
    destruct (nth_error l1 _) eqn:E; [|easy]. assert (Z.to_nat (Z.of_nat (length l) - 1 + 1) < length l1)%nat by (apply nth_error_Some; congruence).
    apply Permutation_length in P. lia.
  Qed.
End P.
