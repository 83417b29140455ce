(** C107: the heap allocator with statistics. *)
From Verif Require Import Base HeapStats HeapStatsProofs.

(** The calls allowed in a reachable state are defined: what [reach] needs of them is no restriction. *)
Theorem C107_defined (h : heap) (v : list block) : reach h v ->
  (forall size al clear p, 0 <= size -> good_alignment al -> answers h (alignment_of al) (request size (alignment_of al)) p -> exists h' u, heap_alloc h size al clear p = Some (h', u) /\ u <> 0) /\
  (forall b, In b v -> exists h', zpl_free h (addr b) = Some h') /\
  zpl_free h 0 = Some h /\
  (forall b old new al p, In b v -> 0 <= old <= size_of b -> 0 <= new -> good_alignment al -> answers h (alignment_of al) (request new (alignment_of al)) p -> exists h' u, heap_resize h (addr b) old new al p = Some (h', u)) /\
  (forall old new al p, 0 <= new -> good_alignment al -> answers h (alignment_of al) (request new (alignment_of al)) p -> exists h' u, heap_resize h 0 old new al p = Some (h', u)).
Proof.
  intros R. destruct (reach_inv h v R) as (l & J & ->). split; [|split; [|split; [reflexivity|split]]].
  - intros size al clear p S G A. destruct (alloc_inv h l size al clear p J S (alignment_power al G) A) as (h' & c & E & (_ & _ & _ & _ & _ & OK & _) & _). exists h', (c_u c). split; [exact E|]. apply Forall_inv in OK. unfold cell_ok in OK. lia.
  - intros b B. destruct (in_view b l B) as (c & C & <- & _). destruct (free_inv h l c J C) as (h' & E & _). now exists h'.
  - intros b old new al p B O S G A. destruct (in_view b l B) as (c & C & <- & K). rewrite <- K in O. destruct (resize_inv h l c old new al p J C O S G A) as (h' & u & _ & E & _). now exists h', u.
  - intros old new al p S G A. destruct (resize_null_inv h l old new al p J S G A) as (h' & u & _ & E & _). now exists h', u.
Qed.

(** The statistics are the sum of the sizes and the number of the blocks in use. *)
Theorem C107_stats (h : heap) (v : list block) : reach h v -> stats_used h = Some (total v) /\ stats_count h = Some (Z.of_nat (length v)).
Proof.
  intros R. destruct (reach_inv h v R) as (l & (_ & _ & M & U & N & _) & ->). unfold stats_used, stats_count. rewrite M, Z.eqb_refl, U, N, map_length. now split.
Qed.
(** The check passes exactly when nothing is in use, and then everything has gone back to the C library; there are always as many blocks of the C library as blocks in use. *)
Theorem C107_check (h : heap) (v : list block) : reach h v -> (stats_check h = Some tt <-> v = []) /\ length (blocks h) = length v.
Proof.
  intros R. destruct (reach_inv h v R) as (l & (B & _ & M & U & N & _) & ->). rewrite B, !map_length. split; [|reflexivity]. unfold stats_check. rewrite M, Z.eqb_refl, U, N. split.
  - destruct l as [|c l]; [reflexivity|]. cbn [length]. rewrite (proj2 (Z.eqb_neq (Z.of_nat (S (length l))) 0)) by lia. now rewrite andb_false_r.
  - intros E. apply map_eq_nil in E. now subst l.
Qed.

(** Each block in use lies, with the 16 bytes before it, in a block of the C library, and no two of these overlap: neither blocks nor the bytes before them, where the record is. *)
Theorem C107_blocks (h : heap) (v : list block) : reach h v ->
  ForallOrdPairs (fun b c => addr b + size_of b <= addr c - 16 \/ addr c + size_of c <= addr b - 16) v /\
  (forall b, In b v -> 0 <= size_of b /\ exists p n, In (p, n) (blocks h) /\ p <= addr b - 16 /\ addr b + size_of b <= p + n).
Proof.
  intros R. destruct (reach_inv h v R) as (l & (B & _ & _ & _ & _ & OK & AP) & ->). split.
  - clear B R. induction AP as [|a m F AP IH]; [constructor|]. inversion OK as [|? ? K OK']; subst. cbn [map]. constructor; [|now apply IH]. apply Forall_forall. intros b I. apply in_view in I. destruct I as (c & C & <- & <-). change (addr (c_block a)) with (c_u a). change (size_of (c_block a)) with (c_n a). pose proof (proj1 (Forall_forall _ _) F c C) as Q. pose proof (proj1 (Forall_forall _ _) OK' c C) as K'. unfold apart, cell_ok in *. lia.
  - intros b I. apply in_view in I. destruct I as (c & C & <- & <-). pose proof (proj1 (Forall_forall _ _) OK c C) as K. unfold cell_ok in K. split; [lia|]. exists (c_p c), (c_len c). split; [rewrite B; now apply (in_map c_phys)|]. lia.
Qed.

(** Blocks are aligned as asked up to 32, and to 16 at least when that or more was asked. *)
Theorem C107_aligned (h : heap) (v : list block) (b : block) : reach h v -> In b v -> align_of b <= 32 -> (align_of b | addr b).
Proof.
  intros R I L. destruct (reach_inv h v R) as (l & (_ & _ & _ & _ & _ & OK & _) & ->). apply in_map_iff in I. destruct I as (c & <- & C). change (align_of (c_block c)) with (c_al c) in *. change (addr (c_block c)) with (c_u c). pose proof (proj1 (Forall_forall _ _) OK c C) as (P & PM & K & _ & -> & _). pose proof (power_pos _ P) as PP. apply Z.mod_divide in PM; [|lia]. destruct (remainder_cases _ P) as [(L' & -> & D)|(L' & -> & D)].
  - rewrite Z.add_0_r. now apply Z.divide_add_r.
  - replace (c_al c) with 32 in * by lia. replace (c_p c + 16 + 16) with (c_p c + 32) by lia. apply Z.divide_add_r; [exact PM|]. now exists 1.
Qed.
(** From 64 on no block is aligned: its address is 32 more than a multiple. *)
Theorem C107_aligned_refuted (h : heap) (v : list block) (b : block) : reach h v -> In b v -> 32 < align_of b -> addr b mod align_of b = 32 /\ ~ (align_of b | addr b).
Proof.
  intros R I L. destruct (reach_inv h v R) as (l & (_ & _ & _ & _ & _ & OK & _) & ->). apply in_map_iff in I. destruct I as (c & <- & C). change (align_of (c_block c)) with (c_al c) in *. change (addr (c_block c)) with (c_u c). pose proof (proj1 (Forall_forall _ _) OK c C) as (P & PM & K & _ & -> & _). destruct (remainder_cases _ P) as [(L' & _)|(L' & -> & D)]; [lia|].
  assert (E : (c_p c + 16 + 16) mod c_al c = 32). { replace (c_p c + 16 + 16) with (32 + c_p c) by lia. rewrite Z.add_mod, PM, Z.add_0_r, Z.mod_mod by lia. apply Z.mod_small. lia. }
  split; [exact E|]. intros F. apply Z.mod_divide in F; lia.
Qed.
(** Making a block smaller, but not empty, changes nothing: the statistics keep the size it had. *)
Theorem C107_shrink (h : heap) (u old new al p : Z) : u <> 0 -> 0 < new <= old -> heap_resize h u old new al p = Some (h, u).
Proof.
  intros U N. unfold heap_resize. rewrite (proj2 (Z.eqb_neq u 0)), (proj2 (Z.eqb_neq new 0)) by lia. destruct (Z.ltb_spec new old) as [L|L]; [now rewrite Z.eqb_refl|]. assert (old = new) by lia. subst. now rewrite Z.eqb_refl.
Qed.
(** When the C library has no memory, the allocator does not give NULL: it writes the record at NULL. *)
Theorem C107_no_memory_refuted (h : heap) (size al : Z) (clear : bool) : heap_alloc h size al clear 0 = None /\ (forall old, heap_resize h 0 old size al 0 = None).
Proof. split; [reflexivity|]. intros old. reflexivity. Qed.

(** a history: two blocks, one of them made larger, then both freed *)
Example C107_ex :
  let h1 := Heap [(4096, 32)] [Info 4096 10 4096] MAGIC 10 1 in
  let h2 := Heap [(8192, 192); (4096, 32)] [Info 8208 100 8192; Info 4096 10 4096] MAGIC 110 2 in
  let h3 := Heap [(12288, 80); (8192, 192)] [Info 12288 50 12288; Info 8208 100 8192] MAGIC 150 2 in
  let h4 := Heap [(12288, 80)] [Info 12288 50 12288] MAGIC 50 1 in
  let h5 := Heap [] [] MAGIC 0 0 in
  heap_alloc (stats_init (Heap [] [] 0 0 0)) 10 0 true 4096 = Some (h1, 4112) /\ heap_alloc h1 100 64 false 8192 = Some (h2, 8224) /\
  heap_resize h2 4112 10 50 0 12288 = Some (h3, 12304) /\ zpl_free h3 8224 = Some h4 /\ zpl_free h4 12304 = Some h5 /\
  reach h1 [(4112, 10, 16)] /\ reach h2 [(8224, 100, 64); (4112, 10, 16)] /\ reach h3 [(12304, 50, 16); (8224, 100, 64)] /\ stats_used h3 = Some 150 /\ reach h5 [] /\ stats_check h5 = Some tt.
Proof.
  intros h1 h2 h3 h4 h5.
  assert (E1 : heap_alloc (stats_init (Heap [] [] 0 0 0)) 10 0 true 4096 = Some (h1, 4112)) by reflexivity.
  assert (E2 : heap_alloc h1 100 64 false 8192 = Some (h2, 8224)) by reflexivity.
  assert (E3 : heap_resize h2 4112 10 50 0 12288 = Some (h3, 12304)) by reflexivity.
  assert (E4 : zpl_free h3 8224 = Some h4) by reflexivity. assert (E5 : zpl_free h4 12304 = Some h5) by reflexivity.
  assert (R1 : reach h1 [(4112, 10, 16)]). { apply (reach_alloc (stats_init (Heap [] [] 0 0 0)) [] 10 0 true 4096 h1 4112); [apply reach_init|lia|now left| |exact E1]. split; [reflexivity|]. split; [reflexivity|]. intros q m []. }
  assert (R2 : reach h2 [(8224, 100, 64); (4112, 10, 16)]). { apply (reach_alloc h1 [(4112, 10, 16)] 100 64 false 8192 h2 8224); [exact R1|lia|right; exists 6; split; [lia|reflexivity]| |exact E2]. split; [reflexivity|]. split; [reflexivity|]. intros q m [Q|[]]. injection Q as <- <-. right. discriminate. }
  assert (R3 : reach h3 [(12304, 50, 16); (8224, 100, 64)]). { apply (reach_resize h2 [(8224, 100, 64); (4112, 10, 16)] (4112, 10, 16) 10 50 0 12288 h3 12304); [exact R2|right; now left|cbn; lia|lia|now left| |exact E3]. split; [reflexivity|]. split; [reflexivity|]. intros q m [Q|[Q|[]]]; injection Q as <- <-; right; discriminate. }
  assert (R4 : reach h4 [(12304, 50, 16)]). { apply (reach_free h3 [(12304, 50, 16); (8224, 100, 64)] (8224, 100, 64) h4 R3); [right; now left|exact E4]. }
  assert (R5 : reach h5 []). { apply (reach_free h4 [(12304, 50, 16)] (12304, 50, 16) h5 R4); [now left|exact E5]. }
  auto 20.
Qed.
Print Assumptions C107_defined.
Print Assumptions C107_stats.
Print Assumptions C107_check.
Print Assumptions C107_blocks.
Print Assumptions C107_aligned.
Print Assumptions C107_aligned_refuted.
Print Assumptions C107_shrink.
Print Assumptions C107_no_memory_refuted.
