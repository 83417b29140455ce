From Verif Require Import Base Mem MemSpec Bits BitsSpec BitsProofs MemProofs.

Local Arguments Z.of_nat : simpl never.
Local Arguments Z.mul : simpl never.
Local Arguments Z.add : simpl never.
Local Arguments Z.sub : simpl never.
Local Arguments Z.pow : simpl never.
Local Arguments Z.modulo : simpl never.
Local Arguments Z.div : simpl never.

(** ** memset *)

(** [m'] is [m] with the set [P] overwritten by [c]. *)
Definition fills (m m' : mem) (P : Z -> Prop) (c : Z) : Prop :=
  (forall x, P x -> m' x = Some c) /\ (forall x, ~ P x -> m' x = m x) /\
  (forall x, m x <> None -> m' x <> None).

Lemma fills_start m c : fills m m (fun _ => False) c.
Proof. repeat split; intros; try tauto. Qed.

Lemma fills_store8 m m' P c a : byte c -> fills m m' P c -> m a <> None ->
  exists m'', store8 m' a c = Some m'' /\ fills m m'' (fun x => P x \/ a <= x < a + 1) c.
Proof.
  intros Hc (F1 & F2 & F3) Ha. unfold byte in Hc.
  destruct (store8_ok m' a c (F3 a Ha)) as (m'' & Hs & Hm). exists m''. split; [assumption|].
  rewrite Z.mod_small in Hm by lia. repeat split.
  - intros x Hx. rewrite Hm. destruct (Z.eqb_spec x a); [reflexivity|]. apply F1. destruct Hx; [assumption|lia].
  - intros x Hx. rewrite Hm. destruct (Z.eqb_spec x a); [exfalso; apply Hx; right; lia|]. apply F2. tauto.
  - intros x Hx. rewrite Hm. destruct (x =? a); [discriminate|]. apply F3. assumption.
Qed.

Fixpoint rep (k : nat) (c : Z) : Z := match k with O => 0 | S k' => c + 256 * rep k' c end.

Lemma fills_storen m c k : byte c -> forall m' P a, fills m m' P c ->
  (forall x, a <= x < a + Z.of_nat k -> m x <> None) ->
  exists m'', storen m' a k (rep k c) = Some m'' /\ fills m m'' (fun x => P x \/ a <= x < a + Z.of_nat k) c.
Proof.
  intros Hc. unfold byte in Hc. induction k; intros m' P a F A.
  - exists m'. simpl. split; [reflexivity|]. destruct F as (F1 & F2 & F3). repeat split.
    + intros x [?|?]; [auto|lia].
    + intros x Hx. apply F2. tauto.
    + assumption.
  - simpl.
    assert (E: store8 m' a (c + 256 * rep k c) = store8 m' a c).
    { unfold store8. destruct (m' a); [|reflexivity]. do 2 f_equal.
      replace ((c + 256 * rep k c) mod 256) with (c mod 256); [reflexivity|].
      rewrite (Z.mul_comm 256), Z.mod_add by lia. reflexivity. }
    rewrite E. destruct (fills_store8 m m' P c a Hc F) as (m1 & Hs & F1); [apply A; lia|].
    rewrite Hs. simpl. replace ((c + 256 * rep k c) / 256) with (rep k c) by (apply (Z.div_unique _ _ _ c); lia).
    destruct (IHk m1 _ (a+1) F1) as (m2 & Hs2 & F2). { intros x Hx. apply A. lia. }
    exists m2. split; [assumption|]. destruct F2 as (G1 & G2 & G3). repeat split.
    + intros x Hx. apply G1. destruct Hx; [tauto|]. assert (a <= x < a+1 \/ a + 1 <= x < a+1+Z.of_nat k) by lia. tauto.
    + intros x Hx. apply G2. intros [[?|?]|?]; apply Hx; [tauto|right; lia|right; lia].
    + assumption.
Qed.

Lemma fills_store32a m m' P c a : byte c -> a mod 4 = 0 -> fills m m' P c ->
  (forall x, a <= x < a + 4 -> m x <> None) ->
  exists m'', store32a m' a (rep 4 c) = Some m'' /\ fills m m'' (fun x => P x \/ a <= x < a + 4) c.
Proof.
  intros Hc Ha F A. unfold store32a. rewrite Ha, Z.eqb_refl. apply (fills_storen m c 4); assumption.
Qed.

Lemma fills_store64a m m' P c a : byte c -> a mod 8 = 0 -> fills m m' P c ->
  (forall x, a <= x < a + 8 -> m x <> None) ->
  exists m'', store64a m' a (rep 8 c) = Some m'' /\ fills m m'' (fun x => P x \/ a <= x < a + 8) c.
Proof.
  intros Hc Ha F A. unfold store64a. rewrite Ha, Z.eqb_refl. apply (fills_storen m c 8); assumption.
Qed.

Lemma c32_rep c : byte c -> u32 ((2^32 - 1) / 255 * c) = rep 4 c.
Proof.
  unfold byte, u32. intros Hc. change ((2^32-1)/255) with 16843009. simpl rep.
  rewrite Z.mod_small by lia. lia.
Qed.

Lemma c64_rep c : byte c -> Z.lor (u64 (Z.shiftl (rep 4 c) 32)) (rep 4 c) = rep 8 c.
Proof.
  intros Hc. unfold byte in Hc.
  assert (R: 0 <= rep 4 c < 2^32) by (simpl rep; lia).
  unfold u64. rewrite Z.shiftl_mul_pow2 by lia. rewrite Z.mod_small by lia.
  assert (L0: Z.land (rep 4 c * 2^32) (rep 4 c) = 0).
  { apply Z.bits_inj'. intros n Hn. rewrite Z.land_spec, Z.bits_0.
    destruct (Z.lt_ge_cases n 32).
    + rewrite Z.mul_pow2_bits_low by lia. reflexivity.
    + rewrite (high_bits_zero (rep 4 c) 32) by lia. apply andb_false_r. }
  rewrite <- Z.lxor_lor, <- Z.add_nocarry_lxor by assumption. simpl rep. lia.
Qed.

Lemma ms_loop_ok m c : byte c -> forall fuel m' P s n, fills m m' P c -> n <= 32 * Z.of_nat fuel + 31 -> s mod 8 = 0 ->
  (forall x, s <= x < s + n -> m x <> None) ->
  exists m'' e, ms_loop fuel m' s n (rep 8 c) = Some m'' /\ s <= e /\ s + n - 31 <= e /\ (0 <= n -> e <= s + n) /\ (exists j, e = s + 32 * j) /\ (n < 0 -> e = s) /\
    fills m m'' (fun x => P x \/ s <= x < e) c.
Proof.
  intros Hc. induction fuel; intros m' P s n F Hn Hs A.
  - cbn [ms_loop]. destruct (Z.ltb_spec 31 n); [lia|]. exists m', s. split; [reflexivity|].
    split; [lia|]. split; [lia|]. split; [lia|]. split; [exists 0; lia|]. split; [lia|].
    destruct F as (F1 & F2 & F3). repeat split; try assumption.
    + intros x [?|?]; [auto|lia].
    + intros x Hx. apply F2. tauto.
  - cbn [ms_loop]. destruct (Z.ltb_spec 31 n).
    + assert (K: forall j, j mod 8 = 0 -> (s + j) mod 8 = 0).
      { intros j Hj. rewrite Z.add_mod, Hs, Hj by lia. reflexivity. }
      destruct (fills_store64a m m' P c (s+0) Hc (K 0 eq_refl) F) as (m1 & E1 & F1); [intros; apply A; lia|]. rewrite E1; unfold obind at 1.
      destruct (fills_store64a m m1 _ c (s+8) Hc (K 8 eq_refl) F1) as (m2 & E2 & F2); [intros; apply A; lia|]. rewrite E2; unfold obind at 1.
      destruct (fills_store64a m m2 _ c (s+16) Hc (K 16 eq_refl) F2) as (m3 & E3 & F3); [intros; apply A; lia|]. rewrite E3; unfold obind at 1.
      destruct (fills_store64a m m3 _ c (s+24) Hc (K 24 eq_refl) F3) as (m4 & E4 & F4); [intros; apply A; lia|]. rewrite E4; unfold obind at 1.
      destruct (IHfuel m4 _ (s+32) (n-32) F4) as (m5 & e & E5 & H1 & H2 & H3 & (j & Hj) & H4 & F5); try lia.
      * apply K. reflexivity.
      * intros x Hx. apply A. lia.
      * exists m5, e. split; [exact E5|].
        split; [lia|]. split; [lia|]. split; [lia|]. split; [exists (j+1); lia|]. split; [lia|].
        destruct F5 as (G1 & G2 & G3). repeat split; [| |assumption].
        -- intros x Hx. apply G1. destruct Hx as [?|?]; [tauto|].
           assert (s+0 <= x < s+0+8 \/ s+8<=x<s+8+8 \/ s+16<=x<s+16+8 \/ s+24<=x<s+24+8 \/ s+32<=x<e) by lia. tauto.
        -- intros x Hx. apply G2. intros Hy. apply Hx. 
           assert (Hy': P x \/ s+0 <= x < s+0+8 \/ s+8<=x<s+8+8 \/ s+16<=x<s+16+8 \/ s+24<=x<s+24+8 \/ s+32<=x<e) by tauto.
           destruct Hy' as [?|?]; [tauto|right; lia].
    + exists m', s. split; [reflexivity|].
      split; [lia|]. split; [lia|]. split; [lia|]. split; [exists 0; lia|]. split; [lia|].
      destruct F as (F1 & F2 & F3). repeat split; try assumption.
      * intros x [?|?]; [auto|lia].
      * intros x Hx. apply F2. tauto.
Qed.

Lemma fills_done m m' P c p n : fills m m' P c ->
  (forall x, p <= x < p + n -> P x) -> (forall x, P x -> p <= x < p + n) -> is_fill m p c n m'.
Proof.
  intros (F1 & F2 & _) H1 H2. split.
  - intros x Hx. apply F1. auto.
  - intros x Hx. apply F2. intros Hp. apply Hx. auto.
Qed.

Lemma land3 s : Z.land s 3 = s mod 4.
Proof. change 3 with (Z.ones 2). rewrite Z.land_ones by lia. reflexivity. Qed.
Lemma land_m4 n : Z.land n (-4) = n - n mod 4.
Proof.
  change (-4) with (Z.lnot (Z.ones 2)). rewrite <- Z.ldiff_land, Z.ldiff_ones_r by lia.
  rewrite Z.shiftl_mul_pow2, Z.shiftr_div_pow2 by lia. change (2^2) with 4.
  pose proof (Z.div_mod n 4). lia.
Qed.
Lemma land4 s : s mod 4 = 0 -> Z.land s 4 = s mod 8.
Proof.
  intros H. apply Z.bits_inj'. intros n Hn. rewrite Z.land_spec.
  change 8 with (2^3). change 4 with (2^2) at 1. rewrite Z.pow2_bits_eqb by lia.
  destruct (Z.lt_ge_cases n 3).
  - rewrite Z.mod_pow2_bits_low by lia. destruct (Z.eqb_spec 2 n) as [<-|N]; [apply andb_true_r|].
    rewrite andb_false_r. symmetry.
    assert (B: Z.testbit (s mod 2^2) n = false) by (change (2^2) with 4; rewrite H; apply Z.bits_0).
    rewrite Z.mod_pow2_bits_low in B by lia. assumption.
  - rewrite Z.mod_pow2_bits_high by lia. destruct (Z.eqb_spec 2 n); [lia|]. apply andb_false_r.
Qed.

Ltac st8 Hc F A a :=
  let m1 := fresh "m" in let E := fresh "E" in let F1 := fresh "F" in
  destruct (fills_store8 _ _ _ _ a Hc F) as (m1 & E & F1); [apply A; lia|];
  rewrite E; unfold obind at 1; clear E F; rename F1 into F.
Ltac st32 Hc F A a :=
  let m1 := fresh "m" in let E := fresh "E" in let F1 := fresh "F" in
  destruct (fills_store32a _ _ _ _ a Hc ltac:(Z.div_mod_to_equations; lia) F) as (m1 & E & F1); [intros; apply A; lia|];
  rewrite E; unfold obind at 1; clear E F; rename F1 into F.

Lemma memset_correct m p c n : p <> 0 -> byte c -> 0 <= n -> (forall x, p <= x < p + n -> m x <> None) ->
  exists m', memset m p c n = Some (m', p) /\ is_fill m p c n m'.
Proof.
  intros Hp Hc Hn A. unfold memset. destruct (Z.eqb_spec p 0) as [?|Hp0]; [lia|].
  destruct (Z.eqb_spec n 0) as [?|Hn0]. { exists m. split; [reflexivity|]. split; intros; [lia|reflexivity]. }
  rewrite c32_rep by assumption. rewrite c64_rep by assumption.
  pose proof (fills_start m c) as F.
  st8 Hc F A (p + (n-1)). st8 Hc F A (p+0).
  destruct (Z.ltb_spec n 3).
  { eexists. split; [reflexivity|]. eapply fills_done; [exact F| |]; cbv beta; intros; lia. }
  st8 Hc F A (p+(n-2)). st8 Hc F A (p+1). st8 Hc F A (p+(n-3)). st8 Hc F A (p+2).
  destruct (Z.ltb_spec n 7).
  { eexists. split; [reflexivity|]. eapply fills_done; [exact F| |]; cbv beta; intros; lia. }
  st8 Hc F A (p+(n-4)). st8 Hc F A (p+3).
  destruct (Z.ltb_spec n 9).
  { eexists. split; [reflexivity|]. eapply fills_done; [exact F| |]; cbv beta; intros; lia. }
  cbv zeta. rewrite land3, land_m4.
  set (k := (- p) mod 4). set (s := p + k).
  assert (Hk: 0 <= k < 4) by (apply Z.mod_pos_bound; lia).
  assert (Hs4: s mod 4 = 0).
  { unfold s, k. rewrite Z.add_mod_idemp_r by lia. rewrite Z.add_opp_diag_r. reflexivity. }
  set (n1 := n - k - (n-k) mod 4).
  assert (Hn4: n1 mod 4 = 0).
  { unfold n1. rewrite Zminus_mod_idemp_r, Z.sub_diag. reflexivity. }
  assert (Hn1: n - k - 3 <= n1 <= n - k) by (unfold n1; pose proof (Z.mod_pos_bound (n-k) 4); lia).
  assert (H4n: 4 <= n1) by (clear - Hn4 Hn1 Hk H1; Z.div_mod_to_equations; lia).
  clearbody n1.
  assert (Hk': k = 0 \/ k = 1 \/ k = 2 \/ k = 3) by lia.
  assert (HsE: s = p + k) by reflexivity. clearbody s. clearbody k.
  st32 Hc F A (s+0). st32 Hc F A (s+n1-4).
  destruct (Z.ltb_spec n1 9).
  { eexists. split; [reflexivity|]. eapply fills_done; [exact F| |]; cbv beta; intros; lia. }
  assert (H12n: 12 <= n1) by (clear - Hn4 H2; Z.div_mod_to_equations; lia).
  st32 Hc F A (s+4). st32 Hc F A (s+8). st32 Hc F A (s+n1-12). st32 Hc F A (s+n1-8).
  destruct (Z.ltb_spec n1 25).
  { eexists. split; [reflexivity|]. eapply fills_done; [exact F| |]; cbv beta; intros; lia. }
  assert (H28n: 28 <= n1) by (clear - Hn4 H3; Z.div_mod_to_equations; lia).
  st32 Hc F A (s+12). st32 Hc F A (s+16). st32 Hc F A (s+20). st32 Hc F A (s+24).
  st32 Hc F A (s+n1-28). st32 Hc F A (s+n1-24). st32 Hc F A (s+n1-20). st32 Hc F A (s+n1-16).
  rewrite land4 by assumption.
  assert (Hs8: s mod 8 = 0 \/ s mod 8 = 4) by (clear - Hs4; Z.div_mod_to_equations; lia).
  set (k2 := 24 + s mod 8).
  assert (Hk2: k2 = 24 \/ k2 = 28) by (unfold k2; lia).
  assert (Ha: (s + k2) mod 8 = 0).
  { unfold k2. clear - Hs8. Z.div_mod_to_equations. lia. }
  clearbody k2.
  destruct (ms_loop_ok m c Hc (Z.to_nat (n1 - k2)) _ _ (s+k2) (n1-k2) F) as (m' & e & El & L1 & L2 & L3 & (j & Hj) & L4 & F').
  - lia.
  - assumption.
  - intros x Hx. apply A. lia.
  - rewrite El. simpl.
    assert (s + n1 - 28 <= e) by (clear - Hj L2 Hk2 Hn4; Z.div_mod_to_equations; lia).
    eexists. split; [reflexivity|]. eapply fills_done; [exact F'| |]; cbv beta; intros; lia.
Qed.
