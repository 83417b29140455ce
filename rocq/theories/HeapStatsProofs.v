(** The invariant of the heap allocator with statistics. *)
From Verif Require Import Base HeapStats.

(** ** What the caller sees *)
(** the blocks in use: address, size, alignment *)
Definition block := (Z * Z * Z)%type.
Definition addr (b : block) : Z := fst (fst b).
Definition size_of (b : block) : Z := snd (fst b).
Definition align_of (b : block) : Z := snd b.
Definition without (u : Z) (v : list block) : list block := filter (fun b => negb (addr b =? u)) v.
Definition power (a : Z) : Prop := exists k, 0 <= k /\ a = 2 ^ k.
Definition good_alignment (a : Z) : Prop := a = 0 \/ power a.
(** aligned_alloc(3): a non-null multiple of the alignment, where n bytes are free *)
Definition answers (h : heap) (alignment n p : Z) : Prop :=
  0 < p /\ p mod alignment = 0 /\ forall q m, In (q, m) (blocks h) -> p + n <= q \/ q + m <= p.
(** the blocks in use after a call of zpl_resize_align that gives r *)
Definition resized (v : list block) (u old new al r : Z) : list block :=
  if u =? 0 then (r, new, al) :: v else
  if new =? 0 then without u v else
  if new <=? old then v else (r, new, al) :: without u v.
(** the states that calls lead to, with the blocks in use *)
Inductive reach : heap -> list block -> Prop :=
| reach_init m u c : reach (stats_init (Heap [] [] m u c)) []
| reach_alloc h v size al clear p h' u : reach h v -> 0 <= size -> good_alignment al ->
    answers h (alignment_of al) (request size (alignment_of al)) p ->
    heap_alloc h size al clear p = Some (h', u) -> reach h' ((u, size, alignment_of al) :: v)
| reach_free h v b h' : reach h v -> In b v -> zpl_free h (addr b) = Some h' -> reach h' (without (addr b) v)
| reach_resize_null h v old new al p h' u : reach h v -> 0 <= new -> good_alignment al ->
    answers h (alignment_of al) (request new (alignment_of al)) p ->
    heap_resize h 0 old new al p = Some (h', u) -> reach h' (resized v 0 old new (alignment_of al) u)
| reach_resize h v b old new al p h' u : reach h v -> In b v -> 0 <= old <= size_of b -> 0 <= new -> good_alignment al ->
    answers h (alignment_of al) (request new (alignment_of al)) p ->
    heap_resize h (addr b) old new al p = Some (h', u) -> reach h' (resized v (addr b) old new (alignment_of al) u)
| reach_write h v b a n : reach h v -> In b v -> addr b <= a -> 0 <= n -> a + n <= addr b + size_of b -> reach (overwrite h a n) v.

(** ** The invariant *)
(** a block in use with the block of the C library it is in *)
Record cell := Cell { c_u : Z; c_n : Z; c_al : Z; c_p : Z; c_len : Z }.
Definition c_block (c : cell) : block := (c_u c, c_n c, c_al c).
Definition c_phys (c : cell) : Z * Z := (c_p c, c_len c).
Definition c_info (c : cell) : info := Info (c_u c - 16) (c_n c) (c_p c).
Definition cell_ok (c : cell) : Prop :=
  power (c_al c) /\ c_p c mod c_al c = 0 /\ 0 < c_p c /\ 0 <= c_n c /\ c_u c = c_p c + remainder_of (c_al c) + 16 /\ c_p c + 16 <= c_u c /\ c_u c + c_n c <= c_p c + c_len c.
Definition apart (c d : cell) : Prop := c_p c + c_len c <= c_p d \/ c_p d + c_len d <= c_p c.
Definition total (v : list block) : Z := fold_right (fun b s => size_of b + s) 0 v.
Definition Inv (h : heap) (l : list cell) : Prop :=
  blocks h = map c_phys l /\ infos h = map c_info l /\ magic h = MAGIC /\ used_memory h = total (map c_block l) /\ alloc_count h = Z.of_nat (length l) /\
  Forall cell_ok l /\ ForallOrdPairs apart l.

Lemma power_pos a : power a -> 0 < a.
Proof. intros (k & K & ->). lia. Qed.
Lemma alignment_power a : good_alignment a -> power (alignment_of a).
Proof.
  intros [->|P]; [exists 4; split; [lia|reflexivity]|]. unfold alignment_of. pose proof (power_pos a P). rewrite (proj2 (Z.eqb_neq a 0)) by lia. exact P.
Qed.
Lemma remainder_cases a : power a -> (a <= 16 /\ remainder_of a = 0 /\ (a | 16)) \/ (32 <= a /\ remainder_of a = 16 /\ (32 | a)).
Proof.
  intros (k & K & ->). unfold remainder_of, info_size. destruct (Z.le_gt_cases k 4) as [H|H].
  - left. assert (D : (2 ^ k | 16)). { exists (2 ^ (4 - k)). rewrite <- Z.pow_add_r by lia. replace (4 - k + k) with 4 by lia. reflexivity. }
    assert (L : 2 ^ k <= 2 ^ 4) by (apply Z.pow_le_mono_r; lia). split; [exact L|]. split; [|exact D]. rewrite Z.rem_mod_nonneg by lia. now apply Z.mod_divide; [lia|].
  - right. assert (L : 2 ^ 5 <= 2 ^ k) by (apply Z.pow_le_mono_r; lia). change (2 ^ 5) with 32 in L. split; [exact L|]. split; [rewrite Z.rem_small by lia; reflexivity|]. exists (2 ^ (k - 5)). change 32 with (2 ^ 5). rewrite <- Z.pow_add_r by lia. f_equal. lia.
Qed.
Lemma request_bounds n a : power a -> 0 <= n -> n + track_size a <= request n a.
Proof.
  intros P N. unfold request. set (s := n + track_size a). destruct P as (k & K & ->). replace (2 ^ k - 1) with (Z.ones k) by (rewrite Z.ones_equiv; lia). replace (s + 2 ^ k - 1) with (s + (2 ^ k - 1)) by lia. set (x := s + (2 ^ k - 1)). rewrite <- Z.ldiff_land, Z.ldiff_ones_r by exact K. rewrite Z.shiftl_mul_pow2, Z.shiftr_div_pow2 by exact K.
  pose proof (Z.div_mod x (2 ^ k) ltac:(lia)) as D. pose proof (Z.mod_pos_bound x (2 ^ k) ltac:(lia)) as B. unfold x in *. lia.
Qed.
Lemma filter_id {A} (f : A -> bool) l : (forall x, In x l -> f x = true) -> filter f l = l.
Proof. induction l as [|a l IH]; intros H; [reflexivity|]. cbn. rewrite (H a) by now left. f_equal. apply IH. intros x X. apply H. now right. Qed.
Lemma filter_map {A B} (g : A -> B) (f : B -> bool) l : filter f (map g l) = map g (filter (fun x => f (g x)) l).
Proof. induction l as [|a l IH]; [reflexivity|]. cbn. destruct (f (g a)); cbn; now rewrite IH. Qed.
Lemma filter_ext_in {A} (f g : A -> bool) l : (forall x, In x l -> f x = g x) -> filter f l = filter g l.
Proof. induction l as [|a l IH]; intros H; [reflexivity|]. cbn. rewrite (H a) by now left. rewrite IH; [reflexivity|]. intros x X. apply H. now right. Qed.

Section Cells.
Context (l : list cell) (OK : Forall cell_ok l) (AP : ForallOrdPairs apart l).
Lemma cell_in c : In c l -> cell_ok c.
Proof. apply Forall_forall, OK. Qed.
Lemma cells_apart c d : In c l -> In d l -> c = d \/ apart c d.
Proof.
  clear OK. induction AP as [|a l F AP' IH]; [intros []|]. intros [<-|C] [<-|D]; [now left|right|right|now apply IH].
  - now apply (proj1 (Forall_forall _ _) F).
  - apply (proj1 (Forall_forall _ _) F) in C. unfold apart in *. tauto.
Qed.
Lemma cells_eq c d : In c l -> In d l -> c_p c = c_p d -> c = d.
Proof.
  intros C D E. destruct (cells_apart c d C D) as [|A]; [assumption|]. apply cell_in in C, D. unfold cell_ok, apart in *. lia.
Qed.
Lemma cells_eq_u c d : In c l -> In d l -> c_u c = c_u d -> c = d.
Proof.
  intros C D E. destruct (cells_apart c d C D) as [|A]; [assumption|]. apply cell_in in C, D. unfold cell_ok, apart in *. lia.
Qed.
Lemma find_info c : In c l -> find (fun i => at_addr i =? c_u c - 16) (map c_info l) = Some (c_info c).
Proof.
  intros C. assert (U : forall d, In d l -> c_u d = c_u c -> d = c) by (intros; now apply cells_eq_u). clear OK AP. induction l as [|a m IH]; [destruct C|]. cbn [map find c_info at_addr]. destruct (Z.eqb_spec (c_u a - 16) (c_u c - 16)) as [E|E].
  - now rewrite (U a (or_introl eq_refl)) by lia.
  - apply IH; [destruct C as [->|C]; [lia|exact C]|]. intros d D. apply U. now right.
Qed.
Lemma find_phys c : In c l -> find (fun b => fst b =? c_p c) (map c_phys l) = Some (c_phys c).
Proof.
  intros C. assert (U : forall d, In d l -> c_p d = c_p c -> d = c) by (intros; now apply cells_eq). clear OK AP. induction l as [|a m IH]; [destruct C|]. cbn [map find c_phys fst]. destruct (Z.eqb_spec (c_p a) (c_p c)) as [E|E].
  - now rewrite (U a (or_introl eq_refl)) by lia.
  - apply IH; [destruct C as [->|C]; [lia|exact C]|]. intros d D. apply U. now right.
Qed.
(** writing inside a block leaves the records alone *)
Lemma clear_inside c a n : In c l -> c_u c <= a -> 0 <= n -> a + n <= c_u c + c_n c -> filter (clear_of a n) (map c_info l) = map c_info l.
Proof.
  intros C A N B. apply filter_id. intros i I. apply in_map_iff in I. destruct I as (d & <- & D). unfold clear_of, c_info, info_size. cbn [at_addr]. apply orb_true_iff. rewrite !Z.leb_le. destruct (cells_apart c d C D) as [<-|P]; [right; lia|]. apply cell_in in C, D. unfold cell_ok, apart in *. lia.
Qed.
(** so does writing anywhere outside the C library's blocks *)
Lemma clear_outside a n : (forall q m, In (q, m) (map c_phys l) -> a + n <= q \/ q + m <= a) -> filter (clear_of a n) (map c_info l) = map c_info l.
Proof.
  intros H. apply filter_id. intros i I. apply in_map_iff in I. destruct I as (d & <- & D). pose proof (H (c_p d) (c_len d) (in_map c_phys l d D)) as P. unfold clear_of, c_info, info_size. cbn [at_addr]. apply orb_true_iff. rewrite !Z.leb_le. apply cell_in in D. unfold cell_ok in D. lia.
Qed.
Definition drop (p : Z) : list cell := filter (fun c => negb (c_p c =? p)) l.
Lemma drop_in p d : In d (drop p) <-> In d l /\ c_p d <> p.
Proof. unfold drop. rewrite filter_In, negb_true_iff, Z.eqb_neq. tauto. Qed.
Lemma drop_ok p : Forall cell_ok (drop p).
Proof. apply Forall_forall. intros d D. apply drop_in in D. now apply cell_in. Qed.
Lemma drop_apart p : ForallOrdPairs apart (drop p).
Proof.
  unfold drop. clear OK. induction AP as [|a m F AP' IH]; [constructor|]. cbn. destruct (negb (c_p a =? p)); [|now apply IH]. constructor; [|now apply IH]. apply Forall_forall. intros d D. apply filter_In in D. now apply (proj1 (Forall_forall _ _) F).
Qed.
Lemma drop_without c : In c l -> map c_block (drop (c_p c)) = without (c_u c) (map c_block l).
Proof.
  intros C. unfold without, drop. rewrite filter_map. f_equal. apply filter_ext_in. intros d D. change (addr (c_block d)) with (c_u d). f_equal. destruct (Z.eqb_spec (c_p d) (c_p c)) as [E|E]; symmetry; [apply Z.eqb_eq|apply Z.eqb_neq].
  - now rewrite (cells_eq d c D C E).
  - intros F. apply E. now rewrite (cells_eq_u d c D C F).
Qed.
Lemma drop_infos c : In c l -> filter (clear_of (c_p c) (c_len c)) (map c_info l) = map c_info (drop (c_p c)).
Proof.
  intros C. rewrite filter_map. f_equal. apply filter_ext_in. intros d D. unfold clear_of, c_info, info_size. cbn [at_addr]. destruct (Z.eqb_spec (c_p d) (c_p c)) as [E|E]; cbn [negb].
  - rewrite (cells_eq d c D C E). pose proof (cell_in c C) as K. unfold cell_ok in K. apply orb_false_iff. rewrite !Z.leb_gt. lia.
  - apply orb_true_iff. rewrite !Z.leb_le. destruct (cells_apart c d C D) as [->|P]; [now destruct E|]. apply cell_in in D. unfold cell_ok, apart in *. lia.
Qed.
Lemma drop_total c : In c l -> total (map c_block (drop (c_p c))) = total (map c_block l) - c_n c /\ Z.of_nat (length (drop (c_p c))) = Z.of_nat (length l) - 1.
Proof.
  intros C. assert (U : forall d, In d l -> c_p d = c_p c -> d = c) by (intros; now apply cells_eq).
  assert (ND : NoDup l). { clear - OK AP. induction AP as [|a m F AP' IH]; [constructor|]. inversion OK as [|? ? K OK']; subst. constructor; [|now apply IH]. intros I. apply (proj1 (Forall_forall _ _) F) in I. unfold apart, cell_ok in *. lia. }
  unfold drop. clear OK AP. induction l as [|a m IH]; [destruct C|]. inversion ND as [|? ? NI ND']; subst. cbn [filter]. destruct (Z.eqb_spec (c_p a) (c_p c)) as [E|E]; cbn [negb].
  - assert (a = c) by (apply U; [now left|exact E]). subst a. rewrite filter_id; [cbn [map total fold_right]; unfold total, size_of; cbn [fst snd c_block length]; lia|]. intros d D. rewrite negb_true_iff, Z.eqb_neq. intros F. apply NI. now rewrite <- (U d (or_intror D) F).
  - destruct C as [->|C]; [now destruct E|]. destruct IH as [I1 I2]; [exact C| |exact ND'|]. { intros d D. apply U. now right. } unfold total in *. cbn [map fold_right length]. rewrite I1. split; lia.
Qed.
End Cells.

(** ** Calls *)
Lemma alloc_inv h l size al clear p : Inv h l -> 0 <= size -> power (alignment_of al) -> answers h (alignment_of al) (request size (alignment_of al)) p ->
  exists h' c, heap_alloc h size al clear p = Some (h', c_u c) /\ Inv h' (c :: l) /\ c_block c = (c_u c, size, alignment_of al).
Proof.
  intros (B & I & M & U & N & OK & AP) S P (P0 & PM & PA). set (a := alignment_of al) in *. pose proof (request_bounds size a P S) as RB. pose proof (remainder_cases a P) as RC. rewrite B in PA.
  set (c := Cell (p + remainder_of a + 16) size a p (request size a)).
  assert (CK : cell_ok c). { unfold cell_ok, c; cbn [c_u c_n c_al c_p c_len]. unfold track_size, info_size in RB. repeat split; try assumption; lia. }
  assert (CA : Forall (apart c) l). { apply Forall_forall. intros d D. unfold apart, c; cbn [c_p c_len]. apply (PA (c_p d) (c_len d)). now apply (in_map c_phys). }
  assert (F1 : filter (clear_of p (size + track_size a)) (map c_info l) = map c_info l). { apply clear_outside; [exact OK|]. intros q m Q. apply PA in Q. lia. }
  assert (F2 : filter (clear_of (p + remainder_of a) info_size) (map c_info l) = map c_info l). { apply clear_outside; [exact OK|]. intros q m Q. apply PA in Q. unfold track_size, info_size in *. lia. }
  unfold heap_alloc. fold a. rewrite (proj2 (Z.eqb_neq p 0)) by lia. eexists. exists c. split; [|split; [|reflexivity]].
  - unfold c; cbn [c_u]. reflexivity.
  - unfold Inv. cbn [blocks infos magic used_memory alloc_count in_size]. repeat split.
    + destruct clear; cbn [overwrite blocks]; rewrite B; reflexivity.
    + destruct clear; cbn [overwrite infos]; rewrite I, ?F1, F2; cbn [map]; f_equal; unfold c_info, c; cbn [c_u c_n c_p]; f_equal; lia.
    + destruct clear; exact M.
    + destruct clear; cbn [overwrite used_memory]; rewrite U; unfold total; cbn [map fold_right]; unfold size_of at 2; cbn [c_block c fst snd c_n]; lia.
    + destruct clear; cbn [overwrite alloc_count]; rewrite N; cbn [length]; lia.
    + now constructor.
    + now constructor.
Qed.
Lemma free_inv h l c : Inv h l -> In c l -> exists h', zpl_free h (c_u c) = Some h' /\ Inv h' (drop l (c_p c)).
Proof.
  intros (B & I & M & U & N & OK & AP) C. pose proof (cell_in l OK c C) as K. unfold cell_ok in K. unfold zpl_free, heap_free. rewrite (proj2 (Z.eqb_neq (c_u c) 0)) by lia. unfold lookup, info_size. rewrite I, (find_info l OK AP c C). cbn [obind]. unfold libc_free. cbn [c_info in_start in_size blocks infos]. rewrite (proj2 (Z.eqb_neq (c_p c) 0)) by lia. rewrite B, (find_phys l OK AP c C). cbn [c_phys magic used_memory alloc_count]. eexists. split; [reflexivity|]. destruct (drop_total l OK AP c C) as [T1 T2].
  unfold Inv. cbn [blocks infos magic used_memory alloc_count]. repeat split.
  - rewrite filter_map. reflexivity.
  - rewrite ?I. now apply drop_infos.
  - exact M.
  - rewrite U, T1. reflexivity.
  - rewrite N, T2. reflexivity.
  - now apply drop_ok.
  - now apply drop_apart.
Qed.
Lemma write_inv h l c a n : Inv h l -> In c l -> c_u c <= a -> 0 <= n -> a + n <= c_u c + c_n c -> Inv (overwrite h a n) l.
Proof.
  intros (B & I & M & U & N & OK & AP) C A S L. unfold Inv, overwrite. cbn [blocks infos magic used_memory alloc_count]. rewrite I, (clear_inside l OK AP c a n C A S L). repeat split; assumption.
Qed.
Lemma answers_same h h' al n p : blocks h = blocks h' -> answers h al n p -> answers h' al n p.
Proof. unfold answers. intros ->. auto. Qed.
Lemma alignment_twice al : good_alignment al -> alignment_of (alignment_of al) = alignment_of al.
Proof. intros G. pose proof (power_pos _ (alignment_power al G)). unfold alignment_of at 1. now rewrite (proj2 (Z.eqb_neq _ 0)) by lia. Qed.
Lemma resize_inv h l c old new al p : Inv h l -> In c l -> 0 <= old <= c_n c -> 0 <= new -> good_alignment al -> answers h (alignment_of al) (request new (alignment_of al)) p ->
  exists h' u l', heap_resize h (c_u c) old new al p = Some (h', u) /\ Inv h' l' /\ map c_block l' = resized (map c_block l) (c_u c) old new (alignment_of al) u.
Proof.
  intros J C O S G A. pose proof J as (B & I & M & U & N & OK & AP). pose proof (cell_in l OK c C) as K. unfold cell_ok in K. unfold heap_resize, resized. rewrite (proj2 (Z.eqb_neq (c_u c) 0)) by lia. destruct (Z.eqb_spec new 0) as [->|NZ].
  - destruct (free_inv h l c J C) as (h' & -> & J'). cbn [obind]. do 3 eexists. split; [reflexivity|]. split; [exact J'|]. now apply drop_without.
  - destruct (Z.leb_spec new old) as [L|L].
    + destruct (Z.ltb_spec new old); [rewrite Z.eqb_refl|assert (old = new) by lia; subst; rewrite Z.eqb_refl]; (do 3 eexists; split; [reflexivity|]; split; [exact J|reflexivity]).
    + destruct (Z.ltb_spec new old); [lia|]. rewrite (proj2 (Z.eqb_neq old new)) by lia.
      pose proof (alignment_power al G) as P. pose proof (alignment_twice al G) as AT.
      destruct (alloc_inv h l new (alignment_of al) true p J S) as (h1 & d & E & J1 & D); [now rewrite AT|now rewrite AT|]. rewrite E. cbn [obind]. rewrite AT in D.
      pose proof J1 as (_ & _ & _ & _ & _ & OK1 & AP1). pose proof (Forall_inv OK1) as K1. unfold cell_ok in K1. rewrite (proj2 (Z.eqb_neq (c_u d) 0)) by lia.
      assert (DN : c_n d = new) by (unfold c_block in D; congruence).
      pose proof (write_inv h1 (d :: l) d (c_u d) (Z.min new old) J1 (or_introl eq_refl) ltac:(lia) ltac:(lia) ltac:(lia)) as J2.
      destruct (free_inv _ _ c J2 (or_intror C)) as (h3 & -> & J3). cbn [obind]. do 3 eexists. split; [reflexivity|]. split; [exact J3|]. rewrite (drop_without (d :: l) OK1 AP1 c (or_intror C)). cbn [map without filter]. rewrite D. unfold without; cbn [filter]. change (addr (c_u d, new, alignment_of al)) with (c_u d).
      assert (NE : c_u d <> c_u c). { inversion AP1 as [|? ? F _]; subst. pose proof (proj1 (Forall_forall _ _) F c C) as Q. unfold apart in Q. lia. }
      rewrite (proj2 (Z.eqb_neq _ _) NE). reflexivity.
Qed.
Lemma resize_null_inv h l old new al p : Inv h l -> 0 <= new -> good_alignment al -> answers h (alignment_of al) (request new (alignment_of al)) p ->
  exists h' u l', heap_resize h 0 old new al p = Some (h', u) /\ Inv h' l' /\ map c_block l' = resized (map c_block l) 0 old new (alignment_of al) u.
Proof.
  intros J S G A. unfold heap_resize, resized. rewrite !Z.eqb_refl. pose proof (alignment_power al G) as P. pose proof (alignment_twice al G) as AT.
  destruct (alloc_inv h l new (alignment_of al) true p J S) as (h1 & d & E & J1 & D); [now rewrite AT|now rewrite AT|]. do 3 eexists. split; [exact E|]. split; [exact J1|]. cbn [map]. rewrite D, AT. reflexivity.
Qed.
Lemma in_view (b : block) l : In b (map c_block l) -> exists c, In c l /\ c_u c = addr b /\ c_n c = size_of b.
Proof. intros H. apply in_map_iff in H. destruct H as (c & <- & C). exists c. now split. Qed.
Lemma reach_inv h v : reach h v -> exists l, Inv h l /\ v = map c_block l.
Proof.
  induction 1 as [m u c|h v size al clear p h' u R (l & J & ->) S G A E|h v b h' R (l & J & ->) B E|h v old new al p h' u R (l & J & ->) S G A E|h v b old new al p h' u R (l & J & ->) B O S G A E|h v b a n R (l & J & ->) B A N L].
  - exists []. split; [|reflexivity]. unfold Inv, stats_init. cbn. repeat split; constructor.
  - destruct (alloc_inv h l size al clear p J S (alignment_power al G) A) as (h1 & d & E' & J1 & D). rewrite E in E'. injection E' as -> ->. exists (d :: l). split; [exact J1|]. cbn [map]. now rewrite D.
  - destruct (in_view b l B) as (c & C & U & _). destruct (free_inv h l c J C) as (h1 & E' & J1). rewrite U, E in E'. injection E' as ->. exists (drop l (c_p c)). split; [exact J1|]. destruct J as (_ & _ & _ & _ & _ & OK & AP). rewrite <- U. symmetry. now apply drop_without.
  - destruct (resize_null_inv h l old new al p J S G A) as (h1 & u1 & l1 & E' & J1 & D). rewrite E in E'. injection E' as -> ->. exists l1. now split.
  - destruct (in_view b l B) as (c & C & U & K). rewrite <- K in O. destruct (resize_inv h l c old new al p J C O S G A) as (h1 & u1 & l1 & E' & J1 & D). rewrite U in E', D. rewrite E in E'. injection E' as -> ->. exists l1. now split.
  - destruct (in_view b l B) as (c & C & U & K). exists l. split; [|reflexivity]. apply (write_inv h l c a n J C); lia.
Qed.
