(** C16, C17: dynamic arrays and buffers. *)
From Verif Require Import Base Array ArraySpec ArrayProofs ArrayProofs2.

(** C16. Any history of operations within the documented ranges, with any
    pattern of allocation outcomes, started from a fresh array: no access leaves
    the allocation (the run is not [None]), the header stays consistent and the
    elements are those of the same history on mathematical lists. *)
Theorem C16_array_refines_list (T : Type) (z : T) (h : list (bool * aop T)) (a0 : arr T) :
  array_init z true = Some a0 -> all_valid [] h ->
  exists bs a, run z a0 h = Some (bs, a) /\ well_formed a /\ list_run [] h bs (contents a).
Proof.
  intros [= <-] V. destruct (run_refines z h (mkArr (repeat z 8) 0 8) []) as (bs & a & l & X & R & L).
  - exists (repeat z 8). cbn. easy.
  - exact V.
  - apply rep_iff in R. destruct R as (W & <-). eauto.
Qed.

(** The same from an array of any initial reservation or any well-formed state. *)
Theorem C16_array_refines_list_from (T : Type) (z : T) (h : list (bool * aop T)) (a0 : arr T) :
  well_formed a0 -> all_valid (contents a0) h ->
  exists bs a, run z a0 h = Some (bs, a) /\ well_formed a /\ list_run (contents a0) h bs (contents a).
Proof.
  intros W V. destruct (run_refines z h a0 (contents a0)) as (bs & a & l & X & R & L).
  - now apply rep_iff.
  - exact V.
  - apply rep_iff in R. destruct R as (W' & <-). eauto.
Qed.

(** One step, allocation succeeding: the operation reports success. *)
Theorem C16_step (T : Type) (z : T) (a : arr T) (o : aop T) : well_formed a -> valid (contents a) o ->
  exists a', exec z true a o = Some (true, a') /\ well_formed a' /\ means (contents a) o (contents a').
Proof.
  intros W V. destruct (exec_ok z a (contents a) o) as (a' & l & X & R & M); [now apply rep_iff|easy|].
  apply rep_iff in R. destruct R as (W' & <-). eauto.
Qed.

(** Element access [x[i]] reads the list element. *)
Theorem C16_index (T : Type) (a : arr T) (i : Z) : well_formed a -> 0 <= i < count a ->
  exists x, get_at a i = Some x /\ nth_error (contents a) (Z.to_nat i) = Some x.
Proof.
  intros W Hi. assert (rep a (contents a)) as (r & E & C & P) by now apply rep_iff.
  destruct (nth_error (contents a) (Z.to_nat i)) as [x|] eqn:N.
  - exists x. split; [|easy]. unfold get_at. destruct (Z.leb_spec 0 i); [|lia].
    rewrite E, nth_error_app1; [easy|lia].
  - apply nth_error_None in N. lia.
Qed.

(** copy_init gives an equal array. *)
Theorem C16_copy (T : Type) (z : T) (a : arr T) : well_formed a ->
  exists a', copy_init z true a = Some a' /\ well_formed a' /\ contents a' = contents a.
Proof.
  intros W. destruct (copy_init_ok z a (contents a)) as (a' & X & R & _); [now apply rep_iff|].
  apply rep_iff in R. exists a'. easy.
Qed.

(** Outside the range [0 <= i <= count] append_at goes wrong: the item is stored
    at the caller's index although the gap was opened elsewhere, so the item is not
    in the array and an element is duplicated. *)
Theorem C16_append_at_out_of_range_refuted :
  exists a a' : arr Z, well_formed a /\ append_at 0 true a 9 3 = Some (true, a') /\
    contents a = [1; 2] /\ contents a' = [1; 2; 2].
Proof.
  exists (mkArr [1; 2; 0; 0; 0; 0; 0; 0] 2 8). eexists. repeat split; try (cbn; lia); reflexivity.
Qed.
(** remove_at only checks the upper bound: a negative index writes before the buffer. *)
Theorem C16_remove_at_negative_refuted :
  exists a : arr Z, well_formed a /\ -1 < count a /\ remove_at a (-1) = None.
Proof. exists (mkArr [1; 2] 2 2). repeat split; cbn; lia. Qed.

Lemma firstn_exact {A} (l r : list A) : firstn (length l) (l ++ r) = l.
Proof. rewrite firstn_app, firstn_all, Nat.sub_diag. cbn [firstn]. now rewrite app_nil_r. Qed.

(** zpl_buffer: append is in bounds exactly while there is room; with room it appends. *)
Theorem C16_buffer_append (T : Type) (b : buf T) (x : T) :
  0 <= b_count b <= b_capacity b -> Z.of_nat (length (b_cells b)) = b_capacity b ->
  (b_count b < b_capacity b -> exists b', buffer_append b x = Some b' /\
     firstn (Z.to_nat (b_count b')) (b_cells b') = firstn (Z.to_nat (b_count b)) (b_cells b) ++ [x] /\
     b_count b' <= b_capacity b' /\ b_capacity b' = b_capacity b) /\
  (b_count b = b_capacity b -> buffer_append b x = None).
Proof.
  intros Hc Hl. unfold buffer_append. split.
  - intros H.
    destruct (split_at (Z.to_nat (b_count b)) (b_cells b)) as (c1 & c2 & E & L1); [lia|].
    rewrite E in *. rewrite app_length in Hl. destruct c2 as [|y c2]; [cbn in Hl; lia|].
    change (y :: c2) with ([y] ++ c2). rewrite write_app by (cbn; lia). cbn [obind].
    eexists. split; [reflexivity|]. cbn [b_cells b_count b_capacity]. split; [|lia].
    replace (Z.to_nat (b_count b + 1)) with (length c1 + 1)%nat by lia.
    rewrite <- L1, firstn_app_2. cbn [firstn app].
    rewrite firstn_app, firstn_all, Nat.sub_diag. cbn [firstn]. now rewrite app_nil_r.
  - intros H. unfold write_cells. cbn [length]. replace (_ && _) with false; [easy|].
    symmetry. apply andb_false_iff. right. apply Z.leb_gt. lia.
Qed.
Theorem C16_buffer_appendv (T : Type) (b : buf T) (xs : list T) :
  0 <= b_count b -> b_count b + Z.of_nat (length xs) <= b_capacity b -> Z.of_nat (length (b_cells b)) = b_capacity b ->
  exists b', buffer_appendv b xs = Some b' /\
     firstn (Z.to_nat (b_count b')) (b_cells b') = firstn (Z.to_nat (b_count b)) (b_cells b) ++ xs /\
     b_count b' <= b_capacity b' /\ b_capacity b' = b_capacity b.
Proof.
  intros Hc H Hl. unfold buffer_appendv. destruct (Z.leb_spec (b_count b + Z.of_nat (length xs)) (b_capacity b)); [|lia].
  destruct (split_at (Z.to_nat (b_count b)) (b_cells b)) as (c1 & c2 & E & L1); [lia|].
  rewrite E in *. rewrite app_length in Hl.
  destruct (split_at (length xs) c2) as (c3 & c4 & -> & L3); [lia|].
  rewrite write_app by lia. cbn [obind].
  eexists. split; [reflexivity|]. cbn [b_cells b_count b_capacity]. split; [|lia].
  replace (Z.to_nat (b_count b + Z.of_nat (length xs))) with (length c1 + length xs)%nat by lia.
  rewrite <- L1, firstn_app_2, !firstn_exact. easy.
Qed.

(** C17. After any number of appends to a fresh array capacity < 2*count+16, and all
    the reallocations together copied fewer elements than twice the count plus eight. *)
Theorem C17_growth (T : Type) (z : T) (a0 : arr T) (xs : list T) :
  array_init z true = Some a0 ->
  exists a, appends z a0 xs = Some (true, a) /\ contents a = xs /\ capacity a < 2 * count a + 16 /\
    total_copies z a0 xs <= capacity a - 8.
Proof.
  intros [= <-].
  destruct (appends_growth z xs (mkArr (repeat z 8) 0 8) [] 0) as (a & X & R & H1 & H2); cbn [capacity count]; try lia.
  { exists (repeat z 8). cbn. easy. }
  apply rep_iff in R. exists a. cbn [Z.add] in H2. repeat split; easy.
Qed.

(** When the allocator fails, append either needs no memory (and works) or returns
    false and leaves the array, header included, exactly as it was. *)
Theorem C17_append_failure (T : Type) (z : T) (a : arr T) (x : T) : well_formed a ->
  (count a = capacity a /\ append z false a x = Some (false, a)) \/
  (count a < capacity a /\ exists a', append z false a x = Some (true, a') /\ contents a' = contents a ++ [x]).
Proof.
  intros W. assert (R : rep a (contents a)) by now apply rep_iff. destruct W as (W & WL).
  destruct (Z.eq_dec (count a) (capacity a)) as [E|E].
  - left. split; [easy|]. unfold append, append_helper.
    destruct (Z.ltb_spec (capacity a) (count a + 1)); [|lia].
    rewrite (grow_fail z a (contents a) 0 R). easy.
  - right. split; [lia|]. unfold append, append_helper.
    destruct (Z.ltb_spec (capacity a) (count a + 1)); [lia|]. cbn [obind].
    destruct (tail_store a (contents a) [x] R) as (c & W' & R'); [cbn; lia|]. rewrite W'. cbn [obind].
    eexists. split; [reflexivity|]. apply rep_iff in R'. exact (proj2 R').
Qed.
(** Every other failing operation likewise keeps the contents ([means_failed]), except
    set_capacity below the count, which drops the tail although it reports failure. *)
Theorem C17_failure (T : Type) (z : T) (a : arr T) (o : aop T) : well_formed a -> valid (contents a) o ->
  exists b a', exec z false a o = Some (b, a') /\ well_formed a' /\
    (if b then means (contents a) o (contents a') else means_failed (contents a) o (contents a')).
Proof.
  intros W V. destruct (exec_fail z a (contents a) o) as (b & a' & l & X & R & M); [now apply rep_iff|easy|].
  apply rep_iff in R. destruct R as (W' & <-). eauto.
Qed.
Theorem C17_set_capacity_failure_loses_elements_refuted :
  exists a a' : arr Z, well_formed a /\ set_capacity 0 false a 1 = Some (false, a') /\
    contents a = [1; 2] /\ contents a' = [1].
Proof. exists (mkArr [1; 2] 2 2). eexists. repeat split; try (cbn; lia); reflexivity. Qed.

(** Concrete histories meeting the hypotheses. *)
Example C16_ex_valid : all_valid (T := Z) []
  [(true, OAppend 1); (true, OAppendV [2; 3]); (true, OAppendAt 7 1); (true, ORemoveAt 0); (false, OReserve 100); (true, OPop)].
Proof.
  cbn [all_valid valid means means_failed]. repeat (split; [cbn; try lia; easy|]; split; intros; subst; try discriminate);
  cbn; try lia; try easy; repeat (split; [cbn; try lia; easy|]; split; intros; subst; try discriminate); easy.
Qed.
Example C16_ex_run :
  option_map (fun '(bs, a) => (bs, contents a))
    (run 0 (mkArr (repeat 0 8) 0 8)
       [(true, OAppend 1); (true, OAppendV [2; 3]); (true, OAppendAt 7 1); (true, ORemoveAt 0); (false, OReserve 100); (true, OPop)])
  = Some ([true; true; true; true; false; true], [7; 2]).
Proof. reflexivity. Qed.
Example C17_ex : option_map (fun '(b, a) => (b, count a, capacity a)) (appends 0 (mkArr (repeat 0 8) 0 8) (repeat 5 30))
  = Some (true, 30, 56).
Proof. reflexivity. Qed.

Print Assumptions C16_array_refines_list.
Print Assumptions C16_array_refines_list_from.
Print Assumptions C16_step.
Print Assumptions C16_index.
Print Assumptions C16_copy.
Print Assumptions C16_append_at_out_of_range_refuted.
Print Assumptions C16_remove_at_negative_refuted.
Print Assumptions C16_buffer_append.
Print Assumptions C16_buffer_appendv.
Print Assumptions C17_growth.
Print Assumptions C17_append_failure.
Print Assumptions C17_failure.
Print Assumptions C17_set_capacity_failure_loses_elements_refuted.
