(** C24-C28, C69: sorting, searching, shuffling. *)
From Verif Require Import Base Sort SortSpec SortProofs SortProofs2 SortProofs3.
From Coq Require Import Sorted.

(** C24. For a total preorder zpl_sort ends with a sorted permutation. [c] is the
    number of loop rounds it needs; any larger fuel gives the same. *)
Theorem C24_sorts : forall (T : Type) (cmp : T -> T -> Z) (l : list T),
  preorder cmp -> Z.of_nat (length l) <= 2 ^ 35 ->
  exists c l', (forall f, zpl_sort cmp (c + f) l = Ok l') /\ Permutation l l' /\ sorted cmp l'.
Proof.
  intros T cmp l PO H.
  destruct (sort_loop_ok cmp PO (length l) 0 (Z.of_nat (length l)) l []) as (c & l' & R & Sg & So); try lia; [cbn [length]; lia|].
  exists c, l'. split; [exact R|]. split; [apply Sg|]. apply sorted_on_all.
  now rewrite (seg_length _ _ _ _ Sg).
Qed.
(** The numeric comparators zpl_u8_cmp .. zpl_isize_cmp are total preorders. *)
Theorem C24_num_cmp_preorder : preorder num_cmp.
Proof.
  split.
  - intros a b. unfold num_cmp. destruct (Z.ltb_spec a b), (Z.ltb_spec b a); lia.
  - intros a b c. unfold num_cmp. destruct (Z.ltb_spec a b), (Z.ltb_spec b a), (Z.ltb_spec b c), (Z.ltb_spec c b),
      (Z.ltb_spec a c), (Z.ltb_spec c a); lia.
Qed.
Theorem C24_sorts_numbers : forall l : list Z, Z.of_nat (length l) <= 2 ^ 35 ->
  exists c l', (forall f, zpl_sort num_cmp (c + f) l = Ok l') /\ Permutation l l' /\
    StronglySorted Z.le l'.
Proof.
  intros l H. destruct (C24_sorts Z num_cmp l C24_num_cmp_preorder H) as (c & l' & R & P & So).
  exists c, l'. split; [easy|]. split; [easy|]. clear -So.
  assert (So' : forall i j a b, (i < j)%nat -> nth_error l' i = Some a -> nth_error l' j = Some b -> a <= b).
  { intros i j a b H1 H2 H3. specialize (So i j a b H1 H2 H3). unfold num_cmp in So. destruct (Z.ltb_spec a b), (Z.ltb_spec b a); lia. }
  clear So. induction l' as [|x l' IH]; constructor.
  - apply IH. intros i j a b Hij Ea Eb. apply (So' (S i) (S j) a b); [lia|easy|easy].
  - apply Forall_forall. intros y Hy. apply In_nth_error in Hy as (j & Ej). apply (So' 0%nat (S j) x y); [lia|easy|easy].
Qed.
Example C24_example : zpl_sort num_cmp 20 [5; 3; 9; 1; 7; 7; 2; 8; 4; 6; 0; 3]
  = Ok [0; 1; 2; 3; 3; 4; 5; 6; 7; 7; 8; 9].
Proof. vm_compute. reflexivity. Qed.

(** C25. A total preorder never leaves the array nor the 64-entry stack. *)
Theorem C25_in_bounds : forall (T : Type) (cmp : T -> T -> Z) (l : list T) fuel,
  preorder cmp -> Z.of_nat (length l) <= 2 ^ 35 -> zpl_sort cmp fuel l <> Fault.
Proof.
  intros T cmp l fuel PO H. destruct (C24_sorts T cmp l PO H) as (c & l' & R & _).
  (* more fuel never turns a fault into a result *)
  assert (M : forall f g l b L st, sort_loop cmp f l b L st = Fault -> sort_loop cmp (f + g) l b L st = Fault).
  { clear. induction f as [|f IH]; intros g l b L st; [easy|]. cbn [Nat.add sort_loop].
    destruct (threshold <? L - b).
    - destruct (partition cmp l b L) as [[[l1 i] j]| |]; cbn [rbind]; try easy.
      destruct (_ >? _); destruct (push _ _ _); cbn [rbind]; try easy; apply IH.
    - destruct (insertion _ _ _ _ _ _ _); cbn [rbind]; try easy. destruct st as [|[? ?] ?]; [easy|apply IH]. }
  intros E. unfold zpl_sort in *. specialize (M fuel c _ _ _ _ E). specialize (R fuel). rewrite Nat.add_comm in R. congruence.
Qed.
(** With at most eight elements no comparator, however inconsistent, can break it. *)
Theorem C25_small_any_comparator : forall (T : Type) (cmp : T -> T -> Z) (l : list T),
  Z.of_nat (length l) <= 8 -> exists l', (forall f, zpl_sort cmp (S f) l = Ok l') /\ Permutation l l'.
Proof. intros T cmp l. apply sort_small. Qed.
(** Whenever it returns, for any comparator, no element was lost or duplicated. *)
Theorem C25_permutation_any_comparator : forall (T : Type) (cmp : T -> T -> Z) fuel (l l' : list T),
  zpl_sort cmp fuel l = Ok l' -> Permutation l l'.
Proof. intros T cmp fuel l l'. apply sort_loop_perm. Qed.
(** Disagreement: an inconsistent comparator (here: always "less") makes it read past
    the end of every array of more than eight elements. *)
Theorem C25_inconsistent_comparator_refuted : forall (T : Type) (l : list T), (8 < length l)%nat ->
  forall fuel, zpl_sort (fun _ _ => -1) (S fuel) l = Fault.
Proof.
  intros T l H fuel. unfold zpl_sort. cbn [sort_loop]. unfold threshold.
  destruct (Z.ltb_spec 8 (Z.of_nat (length l) - 0)); [|lia].
  assert (U : forall f (l1 : list T) i, 0 <= i < Z.of_nat (length l1) -> Z.of_nat (length l1) - i <= Z.of_nat f ->
    scan_up (fun _ _ => -1) f l1 0 i = Fault).
  { induction f as [|f IH]; intros l1 i Hi Hf; [lia|]. cbn [scan_up].
    unfold cmp_at. destruct (Z.eq_dec (i + 1) (Z.of_nat (length l1))) as [e|e].
    - unfold rd at 1. destruct (Z.leb_spec 0 (i + 1)); [|lia]. rewrite e, Nat2Z.id.
      destruct (nth_error l1 (length l1)) eqn:E; [|easy]. assert (length l1 < length l1)%nat by (apply nth_error_Some; congruence). lia.
    - destruct (at_some l1 (i + 1)) as (x & Ex); [lia|]. destruct (at_some l1 0) as (y & Ey); [lia|].
      rewrite (rd_ok _ _ _ Ex), (rd_ok _ _ _ Ey). cbn [rbind]. change (-1 <? 0) with true. cbn match. apply IH; lia. }
  unfold partition.
  assert (Q : 0 <= Z.quot (Z.of_nat (length l) - 0) 2 < Z.of_nat (length l)).
  { rewrite Z.quot_div_nonneg by lia. split; [apply Z.div_pos; lia|]. rewrite Z.sub_0_r. apply Z.div_lt; lia. }
  destruct (at_some l (Z.quot (Z.of_nat (length l) - 0) 2 + 0)) as (x & Ex); [lia|].
  destruct (at_some l 0) as (y & Ey); [lia|].
  destruct (swap_ok _ _ _ _ _ Ex Ey) as (l1 & Sw & P & _). rewrite Sw. cbn [rbind].
  apply Permutation_length in P.
  assert (G : forall i j, 0 <= i < Z.of_nat (length l1) -> 0 <= j < Z.of_nat (length l1) -> swap_if_greater (fun _ _ : T => -1) l1 i j = Ok l1).
  { intros i j Hi Hj. unfold swap_if_greater, cmp_at. destruct (at_some l1 i Hi) as (u & Eu). destruct (at_some l1 j Hj) as (v & Ev).
    now rewrite (rd_ok _ _ _ Eu), (rd_ok _ _ _ Ev). }
  do 3 (rewrite G by lia; cbn [rbind]). cbn [part_loop]. rewrite U by lia. reflexivity.
Qed.
Example C25_example : exists l', zpl_sort (fun a b => if a =? b then 1 else -1) 3 [4; 4; 1; 4; 2] = Ok l'.
Proof. eexists. vm_compute. reflexivity. Qed.

(** C26. With an even number of byte passes the sorted data ends in [items]. *)
Lemma radix_even (n : nat) items temp : Nat.even n = true -> length temp = length items ->
  Forall (fun x => 0 <= x < 2 ^ (8 * Z.of_nat n)) items ->
  exists out t, radix_sort n items temp = Ok (out, t) /\ Permutation items out /\ sorted num_cmp out.
Proof.
  intros E L F. unfold radix_sort.
  destruct (radix_loop_ok n 0 items temp ltac:(lia) L (ss_trivial items)) as (s & d & X & P & _ & S).
  rewrite X. cbn [rbind]. rewrite E. exists s, d. split; [easy|]. split; [easy|].
  apply ss_sorted with (8 * Z.of_nat n); [|exact S]. eapply Permutation_Forall; eauto.
Qed.
Theorem C26_radix_u16 : forall items temp, length temp = length items -> Forall (fun x => 0 <= x < 2 ^ 16) items ->
  exists out t, radix_sort_u16 items temp = Ok (out, t) /\ Permutation items out /\ sorted num_cmp out.
Proof. intros. now apply (radix_even 2). Qed.
Theorem C26_radix_u32 : forall items temp, length temp = length items -> Forall (fun x => 0 <= x < 2 ^ 32) items ->
  exists out t, radix_sort_u32 items temp = Ok (out, t) /\ Permutation items out /\ sorted num_cmp out.
Proof. intros. now apply (radix_even 4). Qed.
Theorem C26_radix_u64 : forall items temp, length temp = length items -> Forall (fun x => 0 <= x < 2 ^ 64) items ->
  exists out t, radix_sort_u64 items temp = Ok (out, t) /\ Permutation items out /\ sorted num_cmp out.
Proof. intros. now apply (radix_even 8). Qed.
(** The u8 variant makes one pass: the caller's array is not sorted, the temporary is. *)
Theorem C26_radix_u8_leaves_items_refuted : forall items temp, length temp = length items ->
  Forall (fun x => 0 <= x < 2 ^ 8) items ->
  exists t, radix_sort_u8 items temp = Ok (items, t) /\ Permutation items t /\ sorted num_cmp t.
Proof.
  intros items temp L F. unfold radix_sort_u8, radix_sort. cbn [radix_loop].
  rewrite (radix_pass_ok 0 items temp L). cbn [rbind Nat.even].
  exists (target 0 items 256). split; [easy|]. split; [apply target_all|].
  apply ss_sorted with 8; [eapply Permutation_Forall; [apply target_all|easy]|].
  apply (target_sorted 0 ltac:(lia) items (ss_trivial items) 256).
Qed.
Example C26_example :
  radix_sort_u16 [515; 3; 256; 65535; 2] [0; 0; 0; 0; 0] = Ok ([2; 3; 256; 515; 65535], [256; 2; 515; 3; 65535]) /\
  radix_sort_u8 [3; 1; 2] [0; 0; 0] = Ok ([3; 1; 2], [1; 2; 3]).
Proof. split; vm_compute; reflexivity. Qed.

(** C27. *)
Theorem C27_found_or_miss : forall (T : Type) (cmp : T -> T -> Z) (l : list T) key,
  preorder cmp -> sorted cmp l ->
  exists m, binary_search cmp l key = Ok m /\
    ((m = -1 /\ forall x, In x l -> cmp key x <> 0) \/
     (exists x, 0 <= m /\ nth_error l (Z.to_nat m) = Some x /\ cmp key x = 0)).
Proof.
  intros T cmp l key PO So. unfold binary_search.
  destruct (bsearch_any cmp key l (S (length l)) 0 (Z.of_nat (length l))) as (m & X & C); [lia..|].
  exists m. split; [easy|]. destruct C as [->|(x & Hm & Ex & C)].
  - left. split; [easy|]. intros x Hx. apply In_nth_error in Hx as (k & Ek).
    assert (k < length l)%nat by (apply nth_error_Some; congruence).
    refine (bsearch_miss cmp key l PO _ _ 0 (Z.of_nat (length l)) (Z.le_refl _) (Z.le_refl _) X (Z.of_nat k) x _ _); [|lia|].
    + intros i j p q H1 H2 H3 E1 E2. unfold at_ in E1, E2. destruct (Z.leb_spec 0 i), (Z.leb_spec 0 j); try lia.
      apply (So (Z.to_nat i) (Z.to_nat j)); [lia|easy|easy].
    + unfold at_. destruct (Z.leb_spec 0 (Z.of_nat k)); [|lia]. now rewrite Nat2Z.id.
  - right. exists x. unfold at_ in Ex. destruct (Z.leb_spec 0 m); [easy|lia].
Qed.
(** On any array and any comparator: it stops, stays inside, and never reports a wrong index. *)
Theorem C27_any_array : forall (T : Type) (cmp : T -> T -> Z) (l : list T) key,
  exists m, binary_search cmp l key = Ok m /\
    (m = -1 \/ exists x, 0 <= m < Z.of_nat (length l) /\ nth_error l (Z.to_nat m) = Some x /\ cmp key x = 0).
Proof.
  intros T cmp l key. unfold binary_search.
  destruct (bsearch_any cmp key l (S (length l)) 0 (Z.of_nat (length l))) as (m & X & C); [lia..|].
  exists m. split; [easy|]. destruct C as [->|(x & Hm & Ex & C)]; [now left|]. right. exists x. split; [easy|].
  unfold at_ in Ex. destruct (Z.leb_spec 0 m); [easy|lia].
Qed.
Example C27_example : binary_search num_cmp [1; 3; 5; 7; 9; 11] 7 = Ok 3 /\ binary_search num_cmp [1; 3; 5; 7] 4 = Ok (-1) /\
  sorted num_cmp [1; 3; 5; 7].
Proof.
  split; [reflexivity|]. split; [reflexivity|]. apply ss_sorted with 8.
  - repeat (constructor; [lia|]). constructor.
  - repeat (constructor; [|repeat (constructor; [vm_compute; easy|]); constructor]). constructor.
Qed.

(** C28. zpl_shuffle returns exactly when no remainder is negative, and then permutes. *)
Theorem C28_shuffle_exact : forall (T : Type) (l : list T) rs,
  (exists l', shuffle l rs = Ok l' /\ Permutation l l') <->
  (forall k, (S k < length l)%nat -> 0 <= Z.rem (rs k) (Z.of_nat (length l - k))).
Proof.
  intros T l rs. unfold shuffle. rewrite <- (shuffle_iff (length l) l rs (Nat.le_refl _)). split.
  - intros (l' & E & _). eauto.
  - intros (l' & E). exists l'. split; [easy|]. eapply shuffle_perm; eauto.
Qed.
Theorem C28_shuffle_every_order : forall (T : Type) (l l' : list T), Permutation l l' ->
  exists rs, (forall k, 0 <= rs k) /\ shuffle l rs = Ok l'.
Proof.
  intros T l l' P. apply shuffle_reach; [easy|easy|]. rewrite skipn_all, (Permutation_length P), skipn_all. easy.
Qed.
Theorem C28_shuffle_negative_refuted : forall (T : Type) (l : list T) rs k, (S k < length l)%nat ->
  Z.rem (rs k) (Z.of_nat (length l - k)) < 0 -> shuffle l rs = Fault.
Proof.
  intros T l rs k Hk Hn. destruct (shuffle l rs) as [l'| |] eqn:E; [exfalso|easy|exfalso].
  - assert (X : exists l', shuffle l rs = Ok l' /\ Permutation l l') by (exists l'; split; [easy|eapply shuffle_perm; eauto]).
    apply C28_shuffle_exact with (k := k) in X; [lia|easy].
  - now apply shuffle_fault in E.
Qed.
Theorem C28_reverse_refuted : forall (T : Type) (l : list T), (2 <= length l)%nat -> forall f, reverse (S (S f)) l = Fault.
Proof. intros T l. apply reverse_fault. Qed.
Theorem C28_reverse_small : forall (T : Type) (l : list T) f, (length l <= 1)%nat -> reverse (S f) l = Ok l.
Proof.
  intros T l f H. unfold reverse. cbn [reverse_loop]. destruct (Z.ltb_spec 0 (Z.of_nat (length l) - 1)); [lia|easy].
Qed.
Example C28_example : shuffle [1; 2; 3; 4] (fun k => Z.of_nat k + 1) = Ok [1; 4; 3; 2] /\
  shuffle [1; 2; 3] (fun _ => -1) = Fault.
Proof. split; vm_compute; reflexivity. Qed.

(** C69. A comparator compares at the offset of the latest request for its key type. *)
Theorem C69_latest_offset : forall (T : Type) (field : T -> nat -> Z -> Z) st ty off later a b,
  (forall o, ~ In (ty, o) later) ->
  let '(st1, fn) := make_cmp st ty off in
  call_cmp field (make_all st1 later) fn a b = num_cmp (field a ty off) (field b ty off).
Proof.
  intros T field st ty off later a b H. cbn [make_cmp]. unfold call_cmp.
  assert (E : forall l st, (forall o, ~ In (ty, o) l) -> make_all st l ty = st ty).
  { clear. induction l as [|[t o] l IH]; intros st H; [easy|]. unfold make_all in *. cbn [fold_left].
    rewrite IH by (intros o' I; apply (H o'); now right). cbn. destruct (Nat.eqb_spec ty t) as [->|]; [|easy].
    destruct (H o). now left. }
  rewrite E by exact H. now rewrite Nat.eqb_refl.
Qed.
Theorem C69_shared_offset_refuted : forall (T : Type) (field : T -> nat -> Z -> Z) st ty off off' a b,
  let '(st1, fn) := make_cmp st ty off in
  let '(st2, fn') := make_cmp st1 ty off' in
  fn = fn' /\ call_cmp field st2 fn a b = num_cmp (field a ty off') (field b ty off').
Proof. intros. cbn [make_cmp]. split; [easy|]. unfold call_cmp. now rewrite Nat.eqb_refl. Qed.
Example C69_example :
  let field := fun (x : Z * Z) (_ : nat) off => if off =? 0 then fst x else snd x in
  let '(st1, f1) := make_cmp (fun _ => 0) 2 0 in
  let '(st2, f2) := make_cmp st1 2 8 in
  call_cmp field st1 f1 (1, 9) (2, 3) = -1 /\ call_cmp field st2 f1 (1, 9) (2, 3) = 1.
Proof. vm_compute. split; reflexivity. Qed.

Print Assumptions C24_sorts.
Print Assumptions C24_num_cmp_preorder.
Print Assumptions C24_sorts_numbers.
Print Assumptions C25_in_bounds.
Print Assumptions C25_small_any_comparator.
Print Assumptions C25_permutation_any_comparator.
Print Assumptions C25_inconsistent_comparator_refuted.
Print Assumptions C26_radix_u16.
Print Assumptions C26_radix_u32.
Print Assumptions C26_radix_u64.
Print Assumptions C26_radix_u8_leaves_items_refuted.
Print Assumptions C27_found_or_miss.
Print Assumptions C27_any_array.
Print Assumptions C28_shuffle_exact.
Print Assumptions C28_shuffle_every_order.
Print Assumptions C28_shuffle_negative_refuted.
Print Assumptions C28_reverse_refuted.
Print Assumptions C28_reverse_small.
Print Assumptions C69_latest_offset.
Print Assumptions C69_shared_offset_refuted.
