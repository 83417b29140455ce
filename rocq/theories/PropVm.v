(** C63: zpl_vm_trim on Unix. *)
From Verif Require Import Base Vm VmSpec.

Lemma div_cover ps a n x : 0 < ps -> a mod ps = 0 -> n mod ps = 0 ->
  covers ps a n (x / ps) = true <-> within x a n.
Proof.
  intros Hp Ha Hn. unfold covers, within. rewrite andb_true_iff, Z.leb_le, Z.ltb_lt.
  pose proof (Z.div_mod a ps ltac:(lia)). pose proof (Z.div_mod n ps ltac:(lia)). pose proof (Z.div_mod x ps ltac:(lia)).
  pose proof (Z.mod_pos_bound x ps Hp). rewrite Ha, Z.add_0_r in H. rewrite Hn, Z.add_0_r in H0.
  set (qa := a / ps) in *. set (qn := n / ps) in *. set (qx := x / ps) in *. split; intros [A B].
  - assert (qx < qa + qn) by nia. split; nia.
  - assert (qa < qx + 1) by nia. split; nia.
Qed.
Lemma mapped_munmap ps s a n x : 0 < ps -> a mod ps = 0 -> n mod ps = 0 -> 0 <= n ->
  mapped ps (munmap ps s a n) x = true <-> mapped ps s x = true /\ ~ within x a n.
Proof.
  intros Hp Ha Hn H0. unfold munmap. rewrite Ha, Z.eqb_refl. cbn [negb orb].
  destruct (Z.leb_spec n 0).
  - split; [|tauto]. intros. split; [easy|]. unfold within. lia.
  - unfold mapped. rewrite andb_true_iff, negb_true_iff, <- not_true_iff_false, div_cover by easy. tauto.
Qed.

(** The exact effect: the lead goes as it should, but the second release takes the
    first [trail] bytes of what was to be kept (and of the trail, if it is longer). *)
Theorem C63_trim_effect (ps : Z) (s : space) (v : vm) (lead size : Z) :
  aligned_cut ps v lead size ->
  exists s', vm_trim ps s v lead size = Some (mkVm (vdata v + lead) size, s') /\
  forall x, mapped ps s' x = true <->
    mapped ps s x = true /\ ~ within x (vdata v) lead /\
    ~ within x (vdata v + lead) (vsize v - lead - size).
Proof.
  intros (Hp & Hd & Hs & Hl & Hz & L0 & S0 & Hle). unfold vm_trim.
  assert (A1 : (vdata v + lead) mod ps = 0) by (rewrite Z.add_mod, Hd, Hl by lia; now rewrite Z.mod_0_l by lia).
  assert (A2 : (vsize v - lead - size) mod ps = 0).
  { pose proof (Z.div_mod (vsize v) ps ltac:(lia)). pose proof (Z.div_mod lead ps ltac:(lia)). pose proof (Z.div_mod size ps ltac:(lia)).
    replace (vsize v - lead - size) with ((vsize v / ps - lead / ps - size / ps) * ps) by lia. now apply Z.mod_mul; lia. }
  replace (lead + size <=? vsize v) with true by (symmetry; now apply Z.leb_le).
  cbn [negb]. eexists. split; [reflexivity|]. intros x. unfold vm_free. cbn [snd vdata vsize].
  set (s1 := if negb (lead =? 0) then munmap ps s (vdata v) lead else s).
  assert (M1 : mapped ps s1 x = true <-> mapped ps s x = true /\ ~ within x (vdata v) lead).
  { subst s1. destruct (Z.eqb_spec lead 0) as [->|N]; cbn [negb]; [|now apply mapped_munmap].
    unfold within. intuition lia. }
  destruct (Z.eqb_spec (vsize v - lead - size) 0) as [->|N]; cbn [negb].
  - rewrite M1. unfold within. intuition lia.
  - rewrite mapped_munmap by (try easy; lia). tauto.
Qed.
(** It does what it should exactly when nothing trails (or nothing was to be kept). *)
Theorem C63_trim_right_iff (ps : Z) (s : space) (v : vm) (lead size : Z) (r : vm) (s' : space) :
  aligned_cut ps v lead size ->
  (forall x, within x (vdata v) (vsize v) -> mapped ps s x = true) ->
  vm_trim ps s v lead size = Some (r, s') ->
  (trims_exactly ps s s' v lead size <-> vsize v = lead + size \/ size = 0).
Proof.
  intros Hc HM E. destruct (C63_trim_effect ps s v lead size Hc) as (s2 & E2 & M). rewrite E2 in E.
  injection E as <- <-. destruct Hc as (Hp & Hd & Hs & Hl & Hz & L0 & S0 & Hle).
  unfold trims_exactly, within in *. split.
  - intros T. destruct (Z.eq_dec (vsize v) (lead + size)); [tauto|]. destruct (Z.eq_dec size 0); [tauto|].
    exfalso. specialize (M (vdata v + lead)). specialize (T (vdata v + lead)).
    specialize (HM (vdata v + lead) ltac:(lia)).
    assert (mapped ps s2 (vdata v + lead) = true) by (apply T; split; [easy|]; lia).
    apply M in H. lia.
  - intros [A| ->] x; rewrite M; split; intros H; intuition lia.
Qed.
(** The claim as one would want it fails: whenever something is kept and something
    trails, the very first byte of the result is no longer mapped. *)
Theorem C63_trim_refuted (ps : Z) (s : space) (v : vm) (lead size : Z) (r : vm) (s' : space) :
  aligned_cut ps v lead size -> 0 < size -> lead + size < vsize v ->
  vm_trim ps s v lead size = Some (r, s') ->
  mapped ps s' (vdata r) = false /\
  (* and the last byte of the trail, which was to be released, stays if it is not longer than the kept part *)
  (vsize v - lead - size <= size ->
    mapped ps s' (vdata v + vsize v - 1) = mapped ps s (vdata v + vsize v - 1)).
Proof.
  intros Hc Hs Ht E. destruct (C63_trim_effect ps s v lead size Hc) as (s2 & E2 & M). rewrite E2 in E.
  injection E as <- <-. cbn [vdata]. unfold within in M. split.
  - apply not_true_iff_false. rewrite M. lia.
  - intros Hk. specialize (M (vdata v + vsize v - 1)).
    destruct Hc as (Hp & Hd & _ & _ & _ & L0 & _).
    destruct (mapped ps s (vdata v + vsize v - 1)) eqn:E1.
    + apply M. split; [easy|]. lia.
    + apply not_true_iff_false. rewrite M. easy.
Qed.
(** A lead that is not a multiple of the page size: both releases round differently. The
    second one, at a misaligned address, does nothing at all, and the page holding the
    first kept bytes is gone with the lead. *)
Theorem C63_trim_misaligned_refuted (ps : Z) (s : space) (v : vm) (lead size : Z) (r : vm) (s' : space) :
  0 < ps -> vdata v mod ps = 0 -> 0 < lead -> lead mod ps <> 0 -> 0 < size -> lead + size <= vsize v ->
  vm_trim ps s v lead size = Some (r, s') ->
  mapped ps s' (vdata r) = false /\
  forall x, vdata v + lead + ps <= x -> mapped ps s' x = mapped ps s x.
Proof.
  intros Hp Hd L0 Hl S0 Hle E. unfold vm_trim in E.
  replace (lead + size <=? vsize v) with true in E by (symmetry; now apply Z.leb_le).
  cbn [negb] in E. destruct (Z.eqb_spec lead 0); [lia|]. cbn [negb] in E. unfold vm_free in E. cbn [snd vdata vsize] in E.
  set (s1 := munmap ps s (vdata v) lead) in E.
  assert (A1 : (vdata v + lead) mod ps <> 0).
  { intros C. apply Hl. rewrite Z.add_mod, Hd, Z.add_0_l, Z.mod_mod in C by lia. exact C. }
  assert (S1 : s' = s1 /\ r = mkVm (vdata v + lead) size).
  { unfold munmap in E at 1. apply Z.eqb_neq in A1. rewrite A1 in E. cbn [negb orb] in E.
    destruct (negb (vsize v - lead - size =? 0)); injection E as <- <-; easy. }
  destruct S1 as [-> ->]. cbn [vdata]. subst s1. unfold munmap, mapped, covers. rewrite Hd, Z.eqb_refl. cbn [negb orb].
  destruct (Z.leb_spec lead 0); [lia|].
  pose proof (Z.div_mod (vdata v) ps ltac:(lia)). pose proof (Z.div_mod (vdata v + lead) ps ltac:(lia)).
  pose proof (Z.mod_pos_bound (vdata v + lead) ps Hp). split.
  - rewrite andb_false_iff. right. rewrite negb_false_iff, andb_true_iff, Z.leb_le, Z.ltb_lt. nia.
  - intros x Hx. pose proof (Z.div_mod x ps ltac:(lia)). pose proof (Z.mod_pos_bound x ps Hp).
    replace ((x / ps) * ps <? vdata v + lead) with false by (symmetry; apply Z.ltb_ge; nia).
    now rewrite andb_false_r, andb_true_r.
Qed.
(** A region is mapped and unmapped as a whole; both take whole pages. No empty region, and no cut beyond
    the end of a region, is accepted (assertions). *)
Theorem C63_alloc_free (ps : Z) (s : space) (a size : Z) : 0 < ps -> a mod ps = 0 ->
  (size <= 0 -> vm_alloc ps s a size = None) /\
  (0 < size -> exists s', vm_alloc ps s a size = Some (mkVm a size, s') /\
     (forall x, mapped ps s' x = true <-> mapped ps s x = true \/ (a <= x /\ x / ps * ps < a + size)) /\
     fst (vm_free ps s' (mkVm a size)) = true /\
     forall x, mapped ps (snd (vm_free ps s' (mkVm a size))) x = true <-> mapped ps s x = true /\ ~ (a <= x /\ x / ps * ps < a + size)).
Proof.
  intros Hp Ha. unfold vm_alloc. split; [intros H; destruct (Z.leb_spec size 0); [easy|lia]|]. intros Hs. destruct (Z.leb_spec size 0); [lia|].
  assert (C : forall x, covers ps a size (x / ps) = true <-> a <= x /\ x / ps * ps < a + size).
  { intros x. unfold covers. rewrite andb_true_iff, Z.leb_le, Z.ltb_lt. pose proof (Z.div_mod a ps ltac:(lia)). pose proof (Z.div_mod x ps ltac:(lia)). pose proof (Z.mod_pos_bound x ps Hp). rewrite Ha, Z.add_0_r in H0. split; intros [A B]; (split; [nia|exact B]). }
  eexists. split; [reflexivity|]. split; [|split; [reflexivity|]]; intros x.
  - unfold mapped, mmap. rewrite orb_true_iff, C. reflexivity.
  - unfold vm_free, munmap. cbn [snd vdata vsize]. rewrite Ha. cbn [Z.eqb negb orb]. destruct (Z.leb_spec size 0); [lia|]. unfold mapped, mmap. rewrite andb_true_iff, orb_true_iff, negb_true_iff, <- not_true_iff_false, C. tauto.
Qed.
Theorem C63_trim_beyond (ps : Z) (s : space) (v : vm) (lead size : Z) : vsize v < lead + size <-> vm_trim ps s v lead size = None.
Proof. unfold vm_trim. destruct (Z.leb_spec (lead + size) (vsize v)); cbn [negb]; split; try easy; lia. Qed.
(** zpl_vm_purge answers true exactly when madvise failed. *)
Theorem C63_purge_inverted (err : Z) : vm_purge err = true <-> err <> 0.
Proof. unfold vm_purge. rewrite negb_true_iff. apply Z.eqb_neq. Qed.

(** four pages of 4096, keep the middle two: the kept first page is gone, the last stays *)
Example C63_ex :
  exists v s r s', vm_alloc 4096 (fun _ => false) 8192 16384 = Some (v, s) /\
    aligned_cut 4096 v 4096 8192 /\ vm_trim 4096 s v 4096 8192 = Some (r, s') /\
    map (fun p => mapped 4096 s (8192 + 4096 * p)) [0;1;2;3;4] = [true;true;true;true;false] /\
    map (fun p => mapped 4096 s' (8192 + 4096 * p)) [0;1;2;3;4] = [false;false;true;true;false].
Proof. do 4 eexists. split; [reflexivity|]. repeat split; try easy. Qed.
(** with nothing trailing it is right *)
Example C63_ex2 :
  exists v s r s', vm_alloc 4096 (fun _ => false) 8192 16384 = Some (v, s) /\
    vm_trim 4096 s v 4096 12288 = Some (r, s') /\
    map (fun p => mapped 4096 s' (8192 + 4096 * p)) [0;1;2;3;4] = [false;true;true;true;false].
Proof. do 4 eexists. repeat split. Qed.
Print Assumptions C63_trim_effect.
Print Assumptions C63_trim_right_iff.
Print Assumptions C63_trim_refuted.
Print Assumptions C63_trim_misaligned_refuted.
Print Assumptions C63_purge_inverted.
Print Assumptions C63_alloc_free.
Print Assumptions C63_trim_beyond.
