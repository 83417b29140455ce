From Verif Require Import Base CStr CStrSpec CStrProofs Num NumSpec NumProofs PropNum Print PrintSpec.

(** * Flags *)
Lemma has_lor a b f : has (Z.lor a b) f = has a f || has b f.
Proof.
  unfold has. rewrite Z.land_lor_distr_l. destruct (Z.eqb_spec (Z.land a f) 0) as [E|E].
  - rewrite E, Z.lor_0_l. easy.
  - destruct (Z.eqb_spec (Z.lor (Z.land a f) (Z.land b f)) 0) as [E2|E2]; [|easy]. apply Z.lor_eq_0_iff in E2. easy.
Qed.
(** minus, zero, width; and none of the flags set later *)
Definition flg (fl : Z) (m z w : bool) : Prop :=
  has fl FMT_MINUS = m /\ has fl FMT_ZERO = z /\ has fl FMT_WIDTH = w /\
  has fl FMT_UNSIGNED = false /\ has fl FMT_UPPER = false /\ has fl FMT_LOWER = false /\ Z.land fl FMT_INTS = 0 /\ has fl FMT_ALT = false.
Lemma flg_minus fl m z w : flg fl m z w -> flg (Z.lor fl FMT_MINUS) true z w.
Proof. intros (A & B & C & D & E & F & G & H). unfold flg. rewrite !has_lor, A, B, C, D, E, F, H, Z.land_lor_distr_l, G. cbn. rewrite !orb_false_r, orb_true_r. easy. Qed.
Lemma flg_width fl m z w : flg fl m z w -> flg (Z.lor fl FMT_WIDTH) m z true.
Proof. intros (A & B & C & D & E & F & G & H). unfold flg. rewrite !has_lor, A, B, C, D, E, F, H, Z.land_lor_distr_l, G. cbn. rewrite !orb_false_r, orb_true_r. easy. Qed.
Lemma flg_zero fl m z w : flg fl m z w -> flg (Z.lor fl (Z.lor FMT_ZERO FMT_WIDTH)) m true true.
Proof. intros (A & B & C & D & E & F & G & H). unfold flg. rewrite !has_lor, A, B, C, D, E, F, H, Z.land_lor_distr_l, G. cbn. rewrite !orb_false_r, !orb_true_r. easy. Qed.
Lemma flg_prec fl m z w : flg fl m z w -> flg (Z.ldiff fl FMT_ZERO) m false w.
Proof.
  assert (L : forall b, Z.land (Z.lnot 16) b = b -> Z.land (Z.ldiff fl FMT_ZERO) b = Z.land fl b).
  { intros b Hb. unfold FMT_ZERO. rewrite Z.ldiff_land, <- Z.land_assoc, Hb. easy. }
  intros (A & B & C & D & E & F & G & H). unfold flg, has in *.
  rewrite (L FMT_MINUS), (L FMT_WIDTH), (L FMT_UNSIGNED), (L FMT_UPPER), (L FMT_LOWER), (L FMT_INTS), (L FMT_ALT) by reflexivity.
  split; [easy|]. split; [|easy]. rewrite Z.ldiff_land, <- Z.land_assoc. change (Z.land (Z.lnot FMT_ZERO) FMT_ZERO) with 0. now rewrite Z.land_0_r.
Qed.
Lemma flg_0 : flg 0 false false false.
Proof. repeat split. Qed.
Lemma flags_ok lft zero c r : ~ In c [45; 43; 35; 32; 48] -> exists fl,
  flags_loop ((if lft : bool then [45] else []) ++ (if zero : bool then [48] else []) ++ c :: r) 0 = Some (c :: r, fl) /\ flg fl lft zero zero.
Proof.
  intros N. assert (E : forall fl, flags_loop (c :: r) fl = Some (c :: r, fl)).
  { intros fl. cbn [flags_loop]. cbn [In] in N. destruct (Z.eqb_spec c 45), (Z.eqb_spec c 43), (Z.eqb_spec c 35), (Z.eqb_spec c 32), (Z.eqb_spec c 48); try easy; exfalso; apply N; lia. }
  destruct lft, zero; cbn [app]; eexists; (split; [|]).
  - cbn [flags_loop Z.eqb Pos.eqb]. now apply (E (Z.lor (Z.lor 0 FMT_MINUS) (Z.lor FMT_ZERO FMT_WIDTH))).
  - repeat split.
  - cbn [flags_loop Z.eqb Pos.eqb]. now apply (E (Z.lor 0 FMT_MINUS)).
  - repeat split.
  - cbn [flags_loop Z.eqb Pos.eqb]. now apply (E (Z.lor 0 (Z.lor FMT_ZERO FMT_WIDTH))).
  - repeat split.
  - now apply (E 0).
  - repeat split.
Qed.

(** * Numbers in the format *)
Lemma i32_id x : - 2^31 <= x < 2^31 -> i32 x = x.
Proof.
  intros H. unfold i32, sx. change (2^(32-1)) with (2^31). destruct (Z.ltb_spec x 0).
  - replace (x mod 2^32) with (x + 2^32) by (apply (Z.mod_unique x (2^32) (-1)); lia). destruct (Z.ltb_spec (x + 2^32) (2^31)); lia.
  - rewrite Z.mod_small by lia. destruct (Z.ltb_spec x (2^31)); lia.
Qed.
Lemma digits_denote ds : Forall (fun d => 0 <= d < 10) ds -> Forall2 (denotes 10) (map (fun d => 48 + d) ds) ds.
Proof. induction 1; cbn [map]; constructor; [unfold denotes; lia|easy]. Qed.
Lemma fmt_num_ok ds c r : Forall (fun d => 0 <= d < 10) ds -> number 10 ds < 2^31 -> ~ (48 <= c <= 57) -> (ds = [] -> c <> 45) ->
  fmt_num (map (fun d => 48 + d) ds ++ c :: r) = Some (number 10 ds, c :: r).
Proof.
  intros F L N M. pose proof (digits_denote ds F) as D. unfold fmt_num, str_to_i64, guess_base. cbn [Z.eqb obind].
  assert (P : 0 <= number 10 ds) by (eapply number_nonneg; [|eassumption]; lia).
  rewrite (scan_i64_pos 10 _ ds); [|lia|easy|intros d; unfold denotes; lia|easy|].
  - destruct (Z.ltb_spec (number 10 ds) (2^63)); [|lia]. cbn [obind]. rewrite skipn_len, i32_id by lia. easy.
  - intros E. apply M. now destruct ds.
Qed.
Lemma va_int_ok n va : - 2^31 <= n < 2^31 -> va_int (AInt n :: va) = Some (n, va).
Proof. intros H. unfold va_int, va_slot. cbn [obind]. now rewrite i32_id. Qed.

Definition num_args (n : fnum) : list arg := match n with Star n => [AInt n] | _ => [] end.
Lemma num_start w c r : good_num w -> exists x y, num_text w ++ c :: r = x :: y /\ (In x [42; 48; 49; 50; 51; 52; 53; 54; 55; 56; 57] \/ x = c).
Proof.
  intros G. destruct w as [|ds|n]; cbn [num_text app]; [eauto| |].
  - destruct ds as [|d ds]; cbn [map app]; [eauto|]. destruct G as (G & _). inversion G; subst. do 2 eexists. split; [reflexivity|]. left. cbn [In]. lia.
  - do 2 eexists. split; [reflexivity|]. left. cbn. tauto.
Qed.
Lemma rd_num ds c r : Forall (fun d => 0 <= d < 10) ds -> c <> 42 -> exists x, rd (map (fun d => 48 + d) ds ++ c :: r) 0 = Some x /\ x <> 42.
Proof. intros F N. destruct F as [|d ds Hd Hs]; cbn [map app rd nth_error]; eexists; (split; [reflexivity|lia]). Qed.
Lemma width_ok lft zero w c r fl va : good_width zero w -> flg fl lft zero zero -> ~ (48 <= c <= 57) -> c <> 45 -> c <> 42 ->
  exists fl', get_width (num_text w ++ c :: r) fl (num_args w ++ va) = Some (Z.abs (value w), c :: r, fl', va) /\
    flg fl' (lft || (value w <? 0)) zero (negb (value w =? 0)).
Proof.
  intros (G & GW) F N1 N2 N3. unfold get_width. destruct w as [|ds|n]; cbn [num_text value num_args app good_num] in *.
  - cbn [rd nth_error obind]. destruct (Z.eqb_spec c 42); [easy|]. pose proof (fmt_num_ok [] c r ltac:(constructor) ltac:(cbn; lia) N1 ltac:(easy)) as E. cbn [map app] in E.
    rewrite E. cbn [obind]. change (number 10 []) with 0. cbn [Z.eqb negb]. eexists. split; [reflexivity|]. subst zero. now rewrite orb_false_r.
  - destruct G as (G & L). destruct GW as (d & q & E & Hd). destruct (rd_num ds c r G N3) as (x & -> & Nx). cbn [obind].
    destruct (Z.eqb_spec x 42); [easy|]. rewrite fmt_num_ok by easy. cbn [obind].
    assert (P : 0 < number 10 ds).
    { apply (good_pos 10 ds ltac:(lia)). split; [easy|]. now exists d, q. }
    destruct (Z.eqb_spec (number 10 ds) 0); [lia|]. destruct (Z.ltb_spec (number 10 ds) 0); [lia|]. cbn [negb]. rewrite orb_false_r.
    eexists. rewrite Z.abs_eq by lia. split; [reflexivity|]. eapply flg_width, F.
  - cbn [rd nth_error obind]. change (42 =? 42) with true. cbn match. rewrite va_int_ok by lia. cbn [obind tl].
    destruct (Z.eqb_spec n 0); [easy|]. destruct (Z.ltb_spec n 0); cbn [negb].
    + destruct (Z.eqb_spec n (-2^31)); [lia|]. cbn [obind]. rewrite Z.abs_neq by lia. eexists. split; [reflexivity|]. rewrite orb_true_r. eapply flg_width, flg_minus, F.
    + cbn [obind]. rewrite Z.abs_eq by lia. rewrite orb_false_r. eexists. split; [reflexivity|]. eapply flg_width, F.
Qed.
(** the precision as the code sees it: negative means none *)
Definition prec_of (p : fnum) : Z := match p with Absent => -1 | _ => value p end.
Definition no_prec (p : fnum) : bool := match p with Absent => true | _ => false end.
Lemma prec_ok m z w p c r fl va : good_num p -> flg fl m z w -> ~ (48 <= c <= 57) -> c <> 45 -> c <> 42 -> c <> 46 ->
  exists fl', get_precision ((match p with Absent => [] | _ => 46 :: num_text p end) ++ c :: r) fl (num_args p ++ va) = Some (prec_of p, c :: r, fl', va) /\
    flg fl' m (z && no_prec p) w.
Proof.
  intros G F N1 N2 N3 N4. unfold get_precision. destruct p as [|ds|n]; cbn [num_text value num_args app good_num prec_of no_prec] in *.
  - cbn [rd nth_error obind]. destruct (Z.eqb_spec c 46); [easy|]. exists fl. rewrite andb_true_r. easy.
  - unfold rd at 1. cbn [nth_error obind tl]. change (46 =? 46) with true. cbn match. destruct G as (G & L). destruct (rd_num ds c r G N3) as (x & E & Nx). rewrite E. cbn [obind].
    destruct (Z.eqb_spec x 42); [easy|]. rewrite fmt_num_ok by easy. cbn [obind]. eexists. split; [reflexivity|]. rewrite andb_false_r. eapply flg_prec, F.
  - cbn [rd nth_error obind tl]. change (46 =? 46) with true. change (42 =? 42) with true. cbn match. rewrite va_int_ok by lia. cbn [obind].
    eexists. split; [reflexivity|]. rewrite andb_false_r. eapply flg_prec, F.
Qed.

(** * Strings *)
(** the same characters are NUL *)
Definition keeps (r r' : list Z) : Prop := Forall2 (fun a b => a = 0 <-> b = 0) r r'.
Lemma keeps_refl r : keeps r r.
Proof. induction r; constructor; easy. Qed.
Lemma keeps_trans a b c : keeps a b -> keeps b c -> keeps a c.
Proof. intros H. revert c. induction H as [|x y a b E H IH]; intros c K; inversion K; subst; constructor; [tauto|]. now apply IH. Qed.
Lemma keeps_len a b : keeps a b -> length b = length a.
Proof. induction 1; cbn; lia. Qed.
Lemma pad_ok : forall n rem a old b c, length old = n -> Z.of_nat n <= rem ->
  pad_loop n rem (a ++ old ++ b) (length a) c = Some (a ++ repeat c n ++ b, (length a + n)%nat).
Proof.
  induction n as [|n IH]; intros rem a old b c L R; destruct old as [|o old]; try easy.
  - cbn [pad_loop repeat app]. now rewrite Nat.add_0_r.
  - cbn [pad_loop]. destruct (Z.ltb_spec 0 rem); [|lia]. cbn [app]. rewrite wr_at. cbn [obind].
    specialize (IH (rem - 1) (a ++ [c]) old b c ltac:(now injection L) ltac:(lia)). rewrite <- !app_assoc in IH. cbn [app] in IH. rewrite app_length in IH. cbn [length] in IH.
    replace (length a + 1)%nat with (S (length a)) in IH by lia. rewrite IH. cbn [repeat app]. do 2 f_equal. lia.
Qed.
Lemma strlcpy_part s x n old r : cstring s -> (n <= length s)%nat -> length old = n ->
  strlcpy (old ++ r) (s ++ 0 :: x) (Z.of_nat n) = Some (firstn n s ++ r, Z.of_nat n).
Proof.
  intros C L E. rewrite strlcpy_ok by easy. rewrite Nat2Z.id, app_length. destruct (Nat.leb_spec n (length old + length r)); [|lia].
  rewrite padded_full by easy. rewrite <- E at 2. rewrite skipn_len. now rewrite Nat.min_r by easy.
Qed.
Lemma map_case f : (forall c, c <> 0 -> f c <> 0) -> forall out r, cstring out -> In 0 r ->
  exists r', str_map f (out ++ r) = Some (map f out ++ r') /\ keeps r r'.
Proof.
  intros Hf out r C I. induction C as [|c out Hc C IH]; cbn [app map].
  - induction r as [|c r IH]; [easy|]. cbn [str_map]. destruct (Z.eqb_spec c 0) as [->|N].
    + exists (0 :: r). split; [easy|apply keeps_refl].
    + destruct IH as (r' & -> & K); [now destruct I|]. cbn [obind]. exists (f c :: r'). split; [easy|]. constructor; [|easy].
      specialize (Hf c N). tauto.
  - destruct IH as (r' & E & K). cbn [str_map]. destruct (Z.eqb_spec c 0); [lia|]. rewrite E. cbn [obind]. exists r'. easy.
Qed.
Lemma upper_nz c : c <> 0 -> char_to_upper c <> 0.
Proof. intros H. unfold char_to_upper. destruct (Z.leb_spec 97 c), (Z.leb_spec c 122); cbn [andb]; lia. Qed.
Lemma lower_nz c : c <> 0 -> char_to_lower c <> 0.
Proof. intros H. unfold char_to_lower. destruct (Z.leb_spec 65 c), (Z.leb_spec c 90); cbn [andb]; lia. Qed.
Definition case_fun (fl : Z) : Z -> Z := if has fl FMT_UPPER then char_to_upper else if has fl FMT_LOWER then char_to_lower else fun c => c.
Definition has_case (fl : Z) : bool := has fl FMT_UPPER || has fl FMT_LOWER.
Definition cut (p : Z) (s : list Z) : list Z := if p <? 0 then s else firstn (Z.to_nat p) s.
Lemma cs_firstn n s : cstring s -> cstring (firstn n s).
Proof. intros H. revert n. induction H; intros [|n]; cbn; constructor; try easy. apply IHForall. Qed.
Lemma cut_cs p s : cstring s -> cstring (cut p s).
Proof. intros H. unfold cut. destruct (p <? 0); [easy|now apply cs_firstn]. Qed.
Lemma cs_repeat c n : 0 < c < 256 -> cstring (repeat c n).
Proof. intros H. induction n; constructor; easy. Qed.
Lemma print_string_ok old r max b fl m z w p s x :
  has fl FMT_MINUS = m /\ has fl FMT_ZERO = z /\ has fl FMT_WIDTH = negb (w =? 0) ->
  0 <= w -> cstring s -> length old = length (apply_width m z w (cut p s)) -> Z.of_nat (length old) <= max ->
  (has_case fl = true -> In 0 r) ->
  exists r', print_string (old ++ r) max (Info b fl w p) (Some (s ++ 0 :: x)) = Some (map (case_fun fl) (apply_width m z w (cut p s)) ++ r', Z.of_nat (length old)) /\ keeps r r'.
Proof.
  intros (F1 & F2 & F3) Hw C L M HC.
  unfold print_string. cbn [precision width flags].
  assert (Lc : (if 0 <=? p then strnlen (s ++ 0 :: x) (Z.to_nat p) else strlen (s ++ 0 :: x)) = Some (length (cut p s))).
  { unfold cut. destruct (Z.leb_spec 0 p), (Z.ltb_spec p 0); try lia; [rewrite strnlen_ok, firstn_length by easy|rewrite strlen_ok by easy; easy]. f_equal. lia. }
  rewrite Lc. cbn [obind]. clear Lc. rewrite F3. replace ((w =? 0) && negb (w =? 0)) with false by now destruct (w =? 0).
  set (u := cut p s) in *. assert (Cu : cstring u) by now apply cut_cs.
  assert (Lu : (length u <= length s)%nat) by (unfold u, cut; destruct (p <? 0); [easy|rewrite firstn_length; lia]).
  assert (Fu : firstn (length u) s = u).
  { unfold u, cut. destruct (p <? 0); [apply firstn_all|]. rewrite firstn_length. destruct (Nat.min_spec (Z.to_nat p) (length s)) as [[? ->]|[? ->]]; [easy|]. rewrite firstn_all. now rewrite firstn_all2. }
  rewrite F1, F2. set (pad := if z then 48 else 32). cbn zeta.
  assert (B : (if (w =? 0) || m then
           let len := if 0 <? p then (if p <? Z.of_nat (length u) then p else Z.of_nat (length u)) else Z.of_nat (length u) in
           if max <? len then Some (true, old ++ r, 0)
           else
             ' (t, res) <- strlcpy (old ++ r) (s ++ 0 :: x) len ;;
             if res <? w then
               ' (t, k) <- pad_loop (Z.to_nat (w - len)) max t (Z.to_nat res) pad ;; Some (false, t, Z.of_nat k)
             else Some (false, t, res)
         else
           ' (t, k) <- (if 0 <? w then pad_loop (Z.to_nat (w - Z.of_nat (length u))) max (old ++ r) 0 pad else Some (old ++ r, O)) ;;
           if max <? Z.of_nat k + Z.of_nat (length u) then Some (true, t, Z.of_nat k)
           else ' (t, n) <- strlcpy_at t k (s ++ 0 :: x) (Z.of_nat (length u)) ;; Some (false, t, Z.of_nat k + n)) = Some (false, apply_width m z w u ++ r, Z.of_nat (length old))).
  { unfold apply_width in *. rewrite Z.abs_eq in * by lia. fold pad in L |- *. destruct (Z.ltb_spec w 0); [lia|]. rewrite orb_false_r in *.
    destruct ((w =? 0) || m) eqn:Em.
    - cbn zeta. assert (El : (if 0 <? p then (if p <? Z.of_nat (length u) then p else Z.of_nat (length u)) else Z.of_nat (length u)) = Z.of_nat (length u)).
      { destruct (Z.ltb_spec 0 p); [|easy]. destruct (Z.ltb_spec p (Z.of_nat (length u))) as [Q|Q]; [|easy]. unfold u, cut in Q. destruct (Z.ltb_spec p 0); [lia|]. rewrite firstn_length in Q. lia. }
      rewrite El. clear El.
      assert (L' : length old = (length u + (Z.to_nat w - length u))%nat).
      { destruct m; rewrite app_length, repeat_length in L; lia. }
      destruct (Z.ltb_spec max (Z.of_nat (length u))); [lia|].
      destruct (split_at old (length u)) as (o1 & o2 & -> & E1); [lia|]. rewrite <- app_assoc. rewrite strlcpy_part by easy. cbn [obind]. rewrite Fu.
      rewrite app_length in *. destruct (Z.ltb_spec (Z.of_nat (length u)) w) as [Q|Q].
      + rewrite Nat2Z.id. rewrite pad_ok by lia. cbn [obind]. destruct m; [|destruct (Z.eqb_spec w 0); [lia|easy]].
        rewrite <- app_assoc. replace (Z.to_nat (w - Z.of_nat (length u))) with (Z.to_nat w - length u)%nat by lia. do 3 f_equal. lia.
      + assert (o2 = []) by (destruct o2; [easy|cbn [length] in *; lia]). subst o2. cbn [app]. replace (Z.to_nat w - length u)%nat with O by lia. cbn [repeat]. rewrite app_nil_r. cbn [app length].
        replace (if m then u else u) with u by now destruct m. do 3 f_equal. lia.
    - apply orb_false_iff in Em. destruct Em as (Ew & ->). apply Z.eqb_neq in Ew. destruct (Z.ltb_spec 0 w); [|lia].
      rewrite app_length, repeat_length in L.
      destruct (split_at old (Z.to_nat w - length u)) as (o1 & o2 & -> & E1); [lia|]. rewrite app_length in *. rewrite <- app_assoc.
      replace (Z.to_nat (w - Z.of_nat (length u))) with (Z.to_nat w - length u)%nat by lia.
      pose proof (pad_ok (Z.to_nat w - length u) max [] o1 (o2 ++ r) pad E1 ltac:(lia)) as P. cbn [app length Nat.add] in P. rewrite P. clear P. cbn [obind].
      destruct (Z.ltb_spec max (Z.of_nat (Z.to_nat w - length u) + Z.of_nat (length u))); [lia|].
      unfold strlcpy_at. pose proof (repeat_length pad (Z.to_nat w - length u)) as Lr. set (q := repeat pad (Z.to_nat w - length u)) in *. 
      replace (skipn (Z.to_nat w - length u) (q ++ o2 ++ r)) with (o2 ++ r) by (rewrite <- Lr; now rewrite skipn_len).
      replace (firstn (Z.to_nat w - length u) (q ++ o2 ++ r)) with q by (rewrite <- Lr; now rewrite firstn_len).
      rewrite strlcpy_part by (easy || lia). cbn [obind]. rewrite Fu. rewrite <- app_assoc. do 3 f_equal. lia. }
  cbn zeta in B. rewrite B. clear B. cbn [obind].
  set (out := apply_width m z w u) in *.
  assert (Co : cstring out).
  { unfold out, apply_width. assert (cstring (repeat (if z then 48 else 32) (Z.to_nat (Z.abs w) - length u))) by (apply cs_repeat; destruct z; lia). destruct (m || (w <? 0)); apply Forall_app; easy. }
  unfold has_case, case_fun in *. destruct (has fl FMT_UPPER); [|destruct (has fl FMT_LOWER)]; cbn [orb] in HC.
  - specialize (HC eq_refl). destruct (map_case char_to_upper upper_nz out r Co HC) as (r' & E & K). unfold str_to_upper. rewrite E. cbn [obind]. eauto.
  - specialize (HC eq_refl). destruct (map_case char_to_lower lower_nz out r Co HC) as (r' & E & K). unfold str_to_lower. rewrite E. cbn [obind]. eauto.
  - cbn [obind]. exists r. rewrite map_id. split; [easy|apply keeps_refl].
Qed.

(** * Integers *)
Lemma numfrom_pow b : 1 <= b -> forall ds a, Forall (fun d => 0 <= d) ds -> 0 <= a -> a * b ^ Z.of_nat (length ds) <= numfrom b a ds.
Proof.
  intros Hb. induction ds as [|d ds IH]; intros a H Ha; cbn [numfrom fold_left length].
  - change (Z.of_nat 0) with 0. rewrite Z.pow_0_r. lia.
  - inversion H; subst. fold (numfrom b (a * b + d) ds). specialize (IH (a * b + d) ltac:(easy) ltac:(nia)).
    rewrite Nat2Z.inj_succ, Z.pow_succ_r by lia. pose proof (Z.pow_pos_nonneg b (Z.of_nat (length ds)) ltac:(lia) ltac:(lia)). nia.
Qed.
Lemma canonical_len b ds : 2 <= b -> canonical b ds -> number b ds < 2^64 -> (length ds <= 64)%nat.
Proof.
  intros Hb (F & [->|(d & r & -> & Hd)]) L; [cbn; lia|]. inversion F; subst. cbn [length].
  assert (Fr : Forall (fun d => 0 <= d) r) by (eapply Forall_impl; [|eassumption]; cbn; lia).
  pose proof (numfrom_pow b ltac:(lia) r d Fr ltac:(lia)) as P. assert (E : number b (d :: r) = numfrom b d r) by (unfold number, numfrom; cbn [fold_left]; f_equal; lia).
  destruct (Nat.leb_spec (S (length r)) 64) as [Q|Q]; [easy|]. exfalso.
  assert (2 ^ 64 <= b ^ Z.of_nat (length r)).
  { transitivity (2 ^ Z.of_nat (length r)); [apply Z.pow_le_mono_r; lia|apply Z.pow_le_mono_l; lia]. }
  nia.
Qed.
Lemma canon_cs b ds : b <= 64 -> canonical b ds -> cstring (map digit_char ds).
Proof. intros Hb C. apply (chars_cs b); [easy|apply C]. Qed.
Lemma numeral_unique b v t t' : 2 <= b -> numeral b v t -> numeral b v t' -> t = t'.
Proof.
  intros Hb (ds & C & N & ->) (es & D & M & ->). do 2 f_equal. apply (canonical_unique b); [easy|easy|easy|congruence].
Qed.
Lemma numeral_cs b v t : 2 <= b <= 64 -> numeral b v t -> cstring t.
Proof. intros Hb (ds & C & N & ->). apply Forall_app. split; [destruct (v <? 0); repeat constructor; lia|]. apply (canon_cs b); [lia|easy]. Qed.
Lemma u64_text b v t : 2 <= b <= 64 -> 0 <= v < 2^64 -> numeral b v t -> exists x, u64_to_str v num_buf b = Some (t ++ 0 :: x).
Proof.
  intros Hb Hv N. destruct (C40_u64_print b v num_buf Hb Hv) as (ds & C & E & P & _).
  assert (Et : t = map digit_char ds).
  { apply (numeral_unique b v); [lia|easy|]. exists ds. rewrite Z.abs_eq by lia. split; [easy|]. split; [easy|]. destruct (Z.ltb_spec v 0); [lia|easy]. }
  assert (L : (length ds <= 64)%nat) by (apply (canonical_len b); [lia|easy|lia]).
  rewrite P by (change (length num_buf) with 130%nat; lia). subst t. eauto.
Qed.
Lemma i64_text b v t : 2 <= b <= 64 -> - 2^63 < v < 2^63 -> numeral b v t -> exists x, i64_to_str v num_buf b = Some (t ++ 0 :: x).
Proof.
  intros Hb Hv N. destruct (C41_i64_print b v num_buf Hb Hv) as (ds & C & E & P & _).
  assert (Et : t = (if v <? 0 then [45] else []) ++ map digit_char ds).
  { apply (numeral_unique b v); [lia|easy|]. exists ds. easy. }
  assert (L : (length ds <= 64)%nat) by (apply (canonical_len b); [lia|easy|lia]).
  rewrite P by (rewrite app_length, map_length; change (length num_buf) with 130%nat; destruct (v <? 0); cbn [length]; lia). subst t. eauto.
Qed.
Lemma int_dir m i rest fl mi z w : flg fl mi z w -> exists fl1 fl2,
  get_length (size_text m ++ conv_text i :: rest) fl = Some (conv_text i :: rest, fl1) /\ Print.int_conv (conv_text i) fl1 = Some (radix i, fl2) /\
  (has fl2 FMT_MINUS = mi /\ has fl2 FMT_ZERO = z /\ has fl2 FMT_WIDTH = w) /\ has fl2 FMT_UNSIGNED = negb (is_signed m i) /\
  case_fun fl2 = (match i with Ix => char_to_lower | IX => char_to_upper | _ => fun c => c end) /\ has_case fl2 = (match i with Ix | IX => true | _ => false end) /\
  forall slot va, get_int fl2 (AInt slot :: va) = Some (wrap (is_signed m i) (bits m) slot, va).
Proof.
  intros (A & B & C & D & E & F & G & H).
  destruct m, i; do 2 eexists; (split; [reflexivity|]); (split; [reflexivity|]); unfold case_fun, has_case; rewrite ?has_lor, ?A, ?B, ?C, ?D, ?E, ?F;
  (split; [cbn; rewrite ?orb_false_r; easy|]); (split; [reflexivity|]); (split; [reflexivity|]); (split; [reflexivity|]); intros slot va; unfold get_int; cbn [va_slot obind]; rewrite ?has_lor, ?D, ?Z.land_lor_distr_l, ?G; reflexivity.
Qed.
