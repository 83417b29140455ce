(** C88: numbers in documents, zpl_adt_parse_number and zpl_adt_print_number. *)
From Coq Require Import String Reals Psatz SpecFloat.
From Flocq Require Import Core BinarySingleNaN.
From Verif Require Import Base CStr CStrSpec CStrProofs Num NumSpec NumProofs PropNum Float FloatSpec FloatProofs FloatProofs2 FloatProofs3 PropFloat.
From Verif Require Import Print PrintSpec PrintFSpec PrintProofs PrintProofs2 PrintProofs3 PrintProofs4 PropPrint PropPrintF Node NodeProofs AdtNumSpec AdtNumProofs AdtNumProofs2 AdtNumProofs3 AdtNumProofs4 AdtNumProofs5.
Open Scope string_scope. Open Scope Z_scope. Open Scope list_scope.
Set Default Timeout 120. 

Definition room (neg : bool) (n : nat) : nat := if neg then S n else n.
Lemma room_kept neg w : List.length (kept neg ++ w) = room neg (List.length w).
Proof. destruct neg; reflexivity. Qed.

(** ** Integers *)
(** whatever run of digits and letters a-f x follows the sign, the decimal digits at its beginning are the value; below 2^63 *)
Theorem C88_integer : forall A sg neg w ds c x, sign_text sg neg -> run_start sg w -> Forall run_char w -> run_end c -> leading ds w -> (room neg (List.length w) < 48)%nat ->
  (neg = false -> ~ exists r, w = 48 :: 120 :: r /\ r <> []) ->
  exists p, (hex_prefix w -> p = PROPS_IS_HEX) /\ (~ hex_prefix w -> p = PROPS_NONE) /\
  parse_number (A := A) (sg ++ w ++ c :: x) =
    if number 10 ds <? 2^63 then Some (Some (p, VInt (signed neg (number 10 ds)) (Analysis 0 0 0 0 (neg && (number 10 ds =? 0)) false)), List.length (sg ++ w)) else None.
Proof.
  intros A sg neg w ds c x S St R E Ld L NH. exists (run_props w). unfold run_props.
  split; [intros H; now apply hexb_ok in H as ->|]. split; [intros H; destruct (hexb w) eqn:B; [exfalso; now apply H, hexb_ok|easy]|].
  rewrite int_eq with (neg := neg) by (try easy; rewrite room_kept; lia).
  destruct (to_i64_dec neg w ds (repeat 0 (47 - List.length (kept neg ++ w))) R Ld NH) as (m & ->).
  destruct (number 10 ds <? 2^63); [|reflexivity]. cbn [obind]. do 5 f_equal. destruct neg; cbn [signed andb]; [|now rewrite andb_false_r]. rewrite andb_true_r.
  destruct (Z.eqb_spec (- number 10 ds) 0), (Z.eqb_spec (number 10 ds) 0); try easy; lia.
Qed.
(** after 0x without a minus, the hexadecimal digits *)
Theorem C88_hex : forall A sg w hs c x, sign_text sg false -> Forall run_char w -> w <> [] -> run_end c -> leading16 hs w -> (List.length w < 46)%nat ->
  parse_number (A := A) (sg ++ (48 :: 120 :: w) ++ c :: x) =
    if number 16 hs <? 2^63 then Some (Some (PROPS_IS_HEX, VInt (number 16 hs) zero_analysis), List.length (sg ++ 48 :: 120 :: w)) else None.
Proof.
  intros A sg w hs c x S R NE E Ld L. assert (R' : Forall run_char (48 :: 120 :: w)) by (repeat constructor; unfold run_char; try lia; easy).
  rewrite int_eq with (neg := false) by (first [easy|do 2 eexists; split; [reflexivity|lia]|cbn [kept app List.length]; lia]).
  cbn [kept]. rewrite app_nil_l. destruct (to_i64_hex w hs (repeat 0 (47 - List.length (48 :: 120 :: w))) R' Ld NE) as (m & ->).
  destruct (number 16 hs <? 2^63); [|reflexivity]. cbn [obind]. unfold run_props. cbn [hexb]. now rewrite andb_false_r.
Qed.
(** 48 characters and more overrun the buffer *)
Theorem C88_integer_long : forall A sg neg w c x, sign_text sg neg -> run_start sg w -> Forall run_char w -> run_end c -> (48 <= room neg (List.length w))%nat ->
  parse_number (A := A) (sg ++ w ++ c :: x) = None.
Proof. intros. eapply int_long; try eassumption. now rewrite room_kept. Qed.

(** ** Reals *)
Theorem C88_real : forall A sg neg ds fs ex minus es c x, sign_text sg neg -> Forall dig ds -> Forall dig fs -> ds ++ fs <> [] -> expo ex minus es -> ends c ->
  (room neg (List.length (or0 ds) + List.length (or0 fs)) < 47)%nat -> (List.length es < 6)%nat -> number 10 ds < 2^63 -> number 10 fs < 2^63 ->
  parse_number (A := A) (sg ++ chars ds ++ 46 :: chars fs ++ ex ++ c :: x) =
  Some (Some (if exp8 es =? 0 then (match ds with [] => PROPS_IS_PARSED_REAL | _ => PROPS_NONE end) else PROPS_IS_EXP,
              VReal (RText (real_text neg ds fs) minus (Z.to_nat (exp8 es)))
                (Analysis (i32 (signed neg (number 10 ds))) (i32 (number 10 fs)) (Z.of_nat (zeros (or0 fs)) mod 16) (exp4 minus es)
                          (neg && (number 10 ds mod 2^32 =? 0)) (match ds with [] => false | _ => true end))),
        List.length (sg ++ chars ds ++ 46 :: chars fs ++ ex)).
Proof.
  intros A sg neg ds fs ex minus es c x S D F NE Ex E L Le Ld Lf.
  assert (Lr : (List.length (real_text neg ds fs) <= 47)%nat) by (unfold real_text; rewrite !app_length; cbn [List.length]; rewrite !chars_len; destruct neg; cbn [List.length room] in *; lia).
  rewrite (real_eq sg neg ds fs ex minus es c x) by easy.
  destruct (Nat.leb_spec (List.length es) 5); [|lia]. destruct (Z.ltb_spec (number 10 ds) (2^63)); [|lia]. destruct (Z.ltb_spec (number 10 fs) (2^63)); [|lia]. cbn [andb].
  do 6 f_equal. unfold i32, sx. destruct neg; [|cbn; now rewrite andb_false_r]. cbn [signed andb]. rewrite andb_true_r.
  pose proof (Z.mod_pos_bound (- number 10 ds) (2^32) ltac:(lia)) as B. change (2^32) with (2 * 2^31) in *. 
  destruct (Z.eqb_spec (number 10 ds mod (2 * 2^31)) 0) as [Z0|Z0].
  - apply Z_mod_zero_opp_full in Z0. rewrite Z0. reflexivity.
  - assert (N0 : (- number 10 ds) mod (2 * 2^31) <> 0) by (intros Y; apply Z0; apply Z_mod_zero_opp_full in Y; now rewrite Z.opp_involutive in Y).
    change (32 - 1) with 31. destruct (Z.ltb_spec ((- number 10 ds) mod (2 * 2^31)) (2^31)); apply Z.eqb_neq; lia.
Qed.
(** a text of 48 characters, an exponent of six digits, a whole part or a fraction whose digits make 2^63 or more: undefined *)
Theorem C88_real_undefined : forall A sg neg ds fs ex minus es c x, sign_text sg neg -> Forall dig ds -> Forall dig fs -> ds ++ fs <> [] -> expo ex minus es -> ends c ->
  ((47 <= room neg (List.length (or0 ds) + List.length (or0 fs)))%nat \/ (6 <= List.length es)%nat \/ 2^63 <= number 10 ds \/ 2^63 <= number 10 fs) ->
  parse_number (A := A) (sg ++ chars ds ++ 46 :: chars fs ++ ex ++ c :: x) = None.
Proof.
  intros A sg neg ds fs ex minus es c x Sg D F NE Ex E H.
  assert (Lr : List.length (real_text neg ds fs) = S (room neg (List.length (or0 ds) + List.length (or0 fs)))) by (unfold real_text; rewrite !app_length; cbn [List.length]; rewrite !chars_len; destruct neg; cbn [List.length room] in *; lia).
  destruct (Nat.leb_spec 48 (List.length (real_text neg ds fs))) as [L|L]; [eapply real_long; eassumption|].
  rewrite (real_eq sg neg ds fs ex minus es c x) by (try easy; lia).
  destruct (Nat.leb_spec (List.length es) 5); [|reflexivity]. destruct (Z.ltb_spec (number 10 ds) (2^63)); [|reflexivity]. destruct (Z.ltb_spec (number 10 fs) (2^63)); [|reflexivity]. lia.
Qed.
(** the double is the number up to n+2 units of 2^-51, if it has an exponent from 0 to 127 or none *)
Theorem C88_value : forall neg ds fs n, Forall dig ds -> Forall dig fs -> number 10 ds < 2 ^ 53 -> (List.length fs <= 22)%nat -> (n <= 127)%nat ->
  exists x r, real_value (RText (real_text neg ds fs) false n) = Some x /\ is_real x r /\
    (Rabs (r - (if neg then -1 else 1) * decimal ds fs * 10 ^ n) <= INR (List.length fs + n + 2) * / 2 ^ 51 * (IZR (number 10 ds) + 1) * 10 ^ n)%R.
Proof. exact value_ok. Qed.

(** ** Writing *)
Lemma digit_48 ds : Forall dig ds -> map digit_char ds = chars ds.
Proof. intros D. unfold chars. induction D as [|d ds Hd _ IH]; [reflexivity|]. cbn [map]. rewrite IH, digit_char_small by exact Hd. reflexivity. Qed.
Lemma canonical_dig ds : canonical 10 ds -> Forall dig ds.
Proof. intros (H & _). exact H. Qed.
Lemma numeral_chars ds neg : canonical 10 ds -> (neg = true -> 0 < number 10 ds) -> numeral 10 (signed neg (number 10 ds)) ((if neg then [45] else []) ++ chars ds).
Proof.
  intros C H. pose proof (number_nonneg ds (canonical_dig _ C)) as P. exists ds. split; [easy|]. rewrite digit_48 by now apply canonical_dig. destruct neg; cbn [signed].
  - specialize (H eq_refl). split; [lia|]. now destruct (Z.ltb_spec (- number 10 ds) 0); [|lia].
  - split; [lia|]. now destruct (Z.ltb_spec (number 10 ds) 0); [lia|].
Qed.
(** decimal integers are written as they were read *)
Theorem C88_round_trip_decimal : forall A (n : option A) st v t c x, - 2^63 < v < 2^63 -> numeral 10 v t -> run_end c -> exists p w,
  parse_number (A := A) (t ++ c :: x) = Some (Some (p, w), List.length t) /\ print_number (Tree n p st w) = Some t.
Proof.
  intros A n st v t c x Hv Nt E. do 2 eexists. split; [apply (parse_number_int v); try easy; now apply run_end_after|].
  unfold print_number. cbn [t_value t_props neg_zero zero_analysis obind]. change (0 =? PROPS_IS_HEX) with false. cbn match. now rewrite (fprintf_lld v t).
Qed.
(** so are hexadecimal ones in small letters *)
Theorem C88_round_trip_hex : forall A (n : option A) st v t c x, 0 <= v < 2^63 -> numeral 16 v t -> run_end c -> exists p w,
  parse_number (A := A) ((48 :: 120 :: map hex_lower t) ++ c :: x) = Some (Some (p, w), List.length (48 :: 120 :: map hex_lower t)) /\ print_number (Tree n p st w) = Some (48 :: 120 :: map hex_lower t).
Proof.
  intros A n st v t c x Hv Nt E. pose proof Nt as (ds & (F & C) & N & Et). assert (Et' : t = map digit_char ds) by (destruct (Z.ltb_spec v 0); [lia|exact Et]). clear Et.
  assert (Dn : Forall2 (denotes 16) (map hex_lower t) ds).
  { subst t. clear - F. induction F as [|d ds Hd _ IH]; cbn [map]; constructor; [|exact IH]. unfold denotes, hex_lower, digit_char.
    destruct (Z.ltb_spec d 10); [left|right; destruct (Z.ltb_spec d 36); [|lia]]; [destruct (Z.leb_spec 65 (48 + d)); [lia|]; cbn [andb]; lia|].
    destruct (Z.leb_spec 65 (65 + (d - 10))); [|lia]. destruct (Z.leb_spec (65 + (d - 10)) 90); [|lia]. cbn [andb]. lia. }
  assert (Ln : (List.length ds <= 16)%nat).
  { destruct C as [->|(d & r & -> & D)]; [cbn; lia|]. cbn [List.length].
    assert (F' : Forall (fun d => 0 <= d) r) by (inversion F; subst; eapply Forall_impl; [|eassumption]; cbn; lia).
    pose proof (numfrom_pow 16 ltac:(lia) r d F' ltac:(lia)) as P. change (number 16 (d :: r)) with (numfrom 16 d r) in N.
    destruct (Nat.leb_spec (List.length r) 15) as [|G]; [lia|]. exfalso.
    assert (16 ^ 16 <= 16 ^ Z.of_nat (List.length r)) by (apply Z.pow_le_mono_r; lia).
    assert (2^63 < 16^16) by reflexivity. nia. }
  do 2 eexists. split.
  - pose proof (C88_hex A [] (map hex_lower t) ds c x) as H. cbn [app List.length] in H |- *. rewrite H; clear H.
    + rewrite N. destruct (Z.ltb_spec (Z.abs v) (2^63)); [reflexivity|lia].
    + constructor.
    + clear - Dn. induction Dn as [|a d l m Hd _ IH]; constructor; [|exact IH]. unfold denotes in Hd. unfold run_char. lia.
    + intros H. apply map_eq_nil in H. subst t. destruct C as [->|(d & r & -> & _)]; discriminate H.
    + exact E.
    + exists (map hex_lower t), []. rewrite app_nil_r. split; [easy|]. split; [exact Dn|]. intros c' q X. discriminate X.
    + subst t. rewrite !map_length. lia.
  - unfold print_number. cbn [t_value t_props neg_zero zero_analysis obind]. rewrite Z.eqb_refl, (Z.abs_eq v) by lia. rewrite (fprintf_hex v t) by easy. reflexivity.
Qed.
Lemma zeros_app z gs : (forall d r, gs = d :: r -> 0 < d) -> zeros (repeat 0 z ++ gs) = z.
Proof. intros H. induction z as [|z IH]; cbn [repeat app zeros]; [|now rewrite IH]. destruct gs as [|d r]; [reflexivity|]. cbn [zeros]. specialize (H d r eq_refl). now destruct (Z.eqb_spec d 0); [lia|]. Qed.
Lemma number_zeros z gs : number 10 (repeat 0 z ++ gs) = number 10 gs.
Proof. unfold number. rewrite fold_left_app. f_equal. induction z as [|z IH]; [reflexivity|exact IH]. Qed.
Lemma dig_zeros z gs : Forall dig gs -> Forall dig (repeat 0 z ++ gs).
Proof. intros H. apply Forall_app. split; [|easy]. induction z; cbn; constructor; [unfold dig; lia|easy]. Qed.
Lemma chars_zeros z gs : chars (repeat 0 z ++ gs) = repeat 48 z ++ chars gs.
Proof. unfold chars. rewrite map_app. f_equal. induction z as [|z IH]; [reflexivity|]. cbn [repeat map]. now rewrite IH. Qed.
Lemma short_number gs : canonical 10 gs -> number 10 gs < 2^31 -> (List.length gs <= 10)%nat.
Proof.
  intros (F & C) L. destruct C as [->|(d & r & -> & D)]; [cbn; lia|]. cbn [List.length].
  assert (F' : Forall (fun d => 0 <= d) r) by (inversion F; subst; eapply Forall_impl; [|eassumption]; cbn; lia).
  pose proof (numfrom_pow 10 ltac:(lia) r d F' ltac:(lia)) as P. change (number 10 (d :: r)) with (numfrom 10 d r) in L.
  destruct (Nat.leb_spec (List.length r) 9) as [|G]; [lia|]. exfalso.
  assert (10 ^ 10 <= 10 ^ Z.of_nat (List.length r)) by (apply Z.pow_le_mono_r; lia). assert (2^31 < 10^10) by reflexivity. nia.
Qed.
(** a fraction: up to 15 zeros and a number without a leading zero *)
Definition fraction (fs : list Z) : Prop := exists z gs, fs = repeat 0 z ++ gs /\ (z <= 15)%nat /\ canonical 10 gs /\ 0 < number 10 gs < 2^31.
Lemma fraction_ok fs : fraction fs -> exists z gs, fs = repeat 0 z ++ gs /\ (z <= 15)%nat /\ canonical 10 gs /\ (List.length gs <= 10)%nat /\ Forall dig fs /\ fs <> [] /\ zeros fs = z /\ number 10 fs = number 10 gs /\ 0 < number 10 gs < 2^31 /\ chars fs = repeat 48 z ++ chars gs.
Proof.
  intros (z & gs & -> & Hz & C & N). exists z, gs. pose proof (canonical_dig _ C) as D. split; [easy|]. split; [easy|]. split; [easy|]. split; [apply short_number; [easy|lia]|]. split; [now apply dig_zeros|].
  assert (NE : gs <> []) by (intros ->; cbn in N; lia).
  split; [intros H; apply app_eq_nil in H; easy|]. split; [|split; [apply number_zeros|split; [easy|apply chars_zeros]]].
  apply zeros_app. intros d r ->. destruct C as (F & [C|(d' & r' & [= <- <-] & Hd)]); [injection C as -> ->; cbn in N; lia|exact Hd].
Qed.
Lemma i32_id v : - 2^31 <= v < 2^31 -> i32 v = v.
Proof. intros H. apply sx_id; lia. Qed.
Lemma fprintf_minus : fprintf (asc "-") [] = Some [45].
Proof. change (asc "-") with [45]. apply fprintf_lit; [constructor; [lia|constructor]|cbn; lia|unfold small, PRINTF_MAXLEN; cbn; lia]. Qed.
(** numbers like .05 are written as they were read *)
Theorem C88_round_trip_point : forall A (n : option A) st (neg : bool) fs c x, fraction fs -> ends c ->
  let text := (if neg then [45] else []) ++ 46 :: chars fs in exists p w,
  parse_number (A := A) (text ++ c :: x) = Some (Some (p, w), List.length text) /\ print_number (Tree n p st w) = Some text.
Proof.
  intros A n st neg fs c x Fr E text. destruct (fraction_ok fs Fr) as (z & gs & Ef & Hz & C & Lg & D & NE & Zr & Nf & Ng & Cf).
  set (sg := if neg then [45] else []) in *. assert (Sg : sign_text sg neg) by (subst sg; destruct neg; constructor).
  assert (O0 : or0 fs = fs) by now destruct fs.
  pose proof (C88_real A sg neg [] fs [] false [] c x Sg ltac:(constructor) D NE ltac:(constructor) E) as H. rewrite O0 in H.
  cbn [chars map app] in H. rewrite !app_nil_r in H.
  do 2 eexists. split.
  - subst text. rewrite <- app_assoc. cbn [app]. apply H.
    + cbn [or0 List.length]. rewrite Ef, app_length, repeat_length. destruct neg; cbn [room]; lia.
    + cbn. lia.
    + reflexivity.
    + lia.
  - unfold print_number. cbn [t_value t_props neg_zero lead_digit nbase nbase2 base2_offset nexp]. change (exp8 [] =? 0) with true. cbn match.
    change (number 10 [] mod 2^32 =? 0) with true. rewrite andb_true_r.
    change (PROPS_IS_PARSED_REAL =? PROPS_NAN) with false. change (PROPS_IS_PARSED_REAL =? PROPS_NAN_NEG) with false. change (PROPS_IS_PARSED_REAL =? PROPS_INFINITY) with false. change (PROPS_IS_PARSED_REAL =? PROPS_INFINITY_NEG) with false.
    change (PROPS_IS_PARSED_REAL =? PROPS_TRUE) with false. change (PROPS_IS_PARSED_REAL =? PROPS_FALSE) with false. change (PROPS_IS_PARSED_REAL =? PROPS_NULL) with false. change (PROPS_IS_PARSED_REAL =? PROPS_IS_EXP) with false. change (PROPS_IS_PARSED_REAL =? PROPS_IS_PARSED_REAL) with true.
    cbn [negb]. cbn match. rewrite Zr, Nf, Z.mod_small, i32_id by lia.
    rewrite (fprintf_point z (number 10 gs) (chars gs)); [|lia|lia|apply (numeral_chars gs false C); easy].
    subst text sg. rewrite Cf. destruct neg.
    + now rewrite fprintf_minus.
    + reflexivity.
Qed.

(** ** Exponents *)
Lemma props_exp : forall A (n : option A) st r b f z e nz ld bt ft et, - 2^63 < b < 2^63 -> numeral 10 b bt -> (z < 256)%nat -> - 2^63 < f < 2^63 -> numeral 10 f ft -> - 2^63 < e < 2^63 -> numeral 10 e et ->
  print_number (Tree n PROPS_IS_EXP st (VReal r (Analysis b f (Z.of_nat z) e nz ld))) = Some ((if nz then [45] else []) ++ bt ++ 46 :: repeat 48 z ++ ft ++ 101 :: et).
Proof.
  intros A n st r b f z e nz ld bt ft et Hb Nb Hz Hf Nf He Ne. unfold print_number. cbn [t_value t_props neg_zero lead_digit nbase nbase2 base2_offset nexp].
  change (PROPS_IS_EXP =? PROPS_NAN) with false. change (PROPS_IS_EXP =? PROPS_NAN_NEG) with false. change (PROPS_IS_EXP =? PROPS_INFINITY) with false. change (PROPS_IS_EXP =? PROPS_INFINITY_NEG) with false.
  change (PROPS_IS_EXP =? PROPS_TRUE) with false. change (PROPS_IS_EXP =? PROPS_FALSE) with false. change (PROPS_IS_EXP =? PROPS_NULL) with false. rewrite Z.eqb_refl.
  rewrite (fprintf_exp b bt z f ft e et) by easy. destruct nz; [rewrite fprintf_minus|]; reflexivity.
Qed.
(** what is written: the lower 32 bits of the whole part and of the fraction, and the lower four of the exponent, each as a signed number *)
Theorem C88_exp_written : forall A (n : option A) st sg neg ds fs ex minus es c x, sign_text sg neg -> Forall dig ds -> Forall dig fs -> ds ++ fs <> [] -> expo ex minus es -> ends c ->
  (room neg (List.length (or0 ds) + List.length (or0 fs)) < 47)%nat -> (List.length es < 6)%nat -> number 10 ds < 2^63 -> number 10 fs < 2^63 -> exp8 es <> 0 ->
  exists p w bt ft et, parse_number (A := A) (sg ++ chars ds ++ 46 :: chars fs ++ ex ++ c :: x) = Some (Some (p, w), List.length (sg ++ chars ds ++ 46 :: chars fs ++ ex)) /\
    numeral 10 (i32 (signed neg (number 10 ds))) bt /\ numeral 10 (i32 (number 10 fs)) ft /\ numeral 10 (exp4 minus es) et /\
    print_number (Tree n p st w) = Some ((if neg && (number 10 ds mod 2^32 =? 0) then [45] else []) ++ bt ++ 46 :: repeat 48 (zeros (or0 fs) mod 16) ++ ft ++ 101 :: et).
Proof.
  intros A n st sg neg ds fs ex minus es c x Sg D F NE Ex E L Le Ld Lf X.
  assert (B : forall v, - 2^63 < i32 v < 2^63) by (intros v; pose proof (sx_range 32 v ltac:(lia)); unfold i32; lia).
  assert (Be : - 2^63 < exp4 minus es < 2^63) by (unfold exp4; pose proof (sx_range 4 (signed minus (exp8 es)) ltac:(lia)); lia).
  destruct (numeral_exists _ (B (signed neg (number 10 ds)))) as (bt & Nb). destruct (numeral_exists _ (B (number 10 fs))) as (ft & Nf). destruct (numeral_exists _ Be) as (et & Ne).
  do 2 eexists. exists bt, ft, et. split; [apply (C88_real A sg neg ds fs ex minus es c x); easy|]. split; [easy|]. split; [easy|]. split; [easy|].
  apply Z.eqb_neq in X. rewrite X. change 16 with (Z.of_nat 16). rewrite <- Nat2Z.inj_mod. apply props_exp; try easy. pose proof (Nat.mod_upper_bound (zeros (or0 fs)) 16). lia.
Qed.
Lemma exp_canonical k et : (1 <= k <= 7 \/ -8 <= k <= -1) -> numeral 10 k et -> exists minus es, expo (101 :: et) minus es /\ (List.length es < 6)%nat /\ exp8 es <> 0 /\ exp4 minus es = k.
Proof.
  intros Hk Ne. exists (k <? 0), [Z.abs k].
  assert (et = (if k <? 0 then [45] else []) ++ [48 + Z.abs k]) as ->.
  { apply (numeral_unique 10 k); [lia|easy|]. exists [Z.abs k]. split; [split; [constructor; [lia|constructor]|right; exists (Z.abs k), []; split; [easy|lia]]|]. split; [cbn; lia|]. cbn [map]. rewrite digit_char_small by lia. reflexivity. }
  assert (D : Forall dig [Z.abs k]) by (constructor; [unfold dig; lia|constructor]).
  split; [|split; [cbn; lia|]].
  - destruct (Z.ltb_spec k 0); [apply (ex_neg 101 [Z.abs k]); [now left|easy|easy]|apply (ex_pos 101 [] [Z.abs k]); [now left|now left|easy|easy]].
  - assert (exp8 [Z.abs k] = Z.abs k) as X by (unfold exp8; change (number 10 [Z.abs k]) with (0 * 10 + Z.abs k); apply sx_id; lia).
    split; [rewrite X; lia|]. unfold exp4. rewrite X. destruct (Z.ltb_spec k 0); cbn [signed]; rewrite sx_id; lia.
Qed.
(** so whole parts and fractions below 2^31 with exponents from -8 to 7, but not 0, are written as they were read *)
Theorem C88_round_trip_exp : forall A (n : option A) st (neg : bool) ds fs k et c x, canonical 10 ds -> number 10 ds < 2^31 -> fraction fs -> (1 <= k <= 7 \/ -8 <= k <= -1) -> numeral 10 k et -> ends c ->
  let text := (if neg then [45] else []) ++ chars ds ++ 46 :: chars fs ++ 101 :: et in exists p w,
  parse_number (A := A) (text ++ c :: x) = Some (Some (p, w), List.length text) /\ print_number (Tree n p st w) = Some text.
Proof.
  intros A n st neg ds fs k et c x Cd Ld Fr Hk Ne E text. destruct (fraction_ok fs Fr) as (z & gs & Ef & Hz & C & Lg & D & NE & Zr & Nf & Ng & Cf).
  destruct (exp_canonical k et Hk Ne) as (minus & es & Ex & Le & X8 & X4).
  set (sg := if neg then [45] else []) in *. assert (Sg : sign_text sg neg) by (subst sg; destruct neg; constructor).
  assert (O0 : or0 fs = fs) by now destruct fs. assert (NEd : ds <> []) by (intros ->; destruct Cd as (_ & [Y|(? & ? & Y & _)]); discriminate Y). assert (O1 : or0 ds = ds) by now destruct ds.
  pose proof (short_number _ Cd Ld) as Sd. pose proof (canonical_dig _ Cd) as Dd.
  pose proof (C88_real A sg neg ds fs (101 :: et) minus es c x Sg Dd D ltac:(now destruct ds) Ex E) as H. rewrite O0, O1 in H.
  do 2 eexists. split.
  - subst text. rewrite <- !app_assoc. cbn [app]. rewrite <- !app_assoc. cbn [app]. apply H; try lia.
    rewrite Ef, app_length, repeat_length. destruct neg; cbn [room]; lia.
  - apply Z.eqb_neq in X8. rewrite X8, Zr, X4, Nf, (Z.mod_small (Z.of_nat z)), (i32_id (number 10 gs)) by lia.
    pose proof (number_nonneg ds Dd) as Pd.
    assert (Nb : numeral 10 (number 10 ds) (chars ds)) by (apply (numeral_chars ds false); easy).
    rewrite (Z.mod_small (number 10 ds)) by lia. rewrite (i32_id (signed neg (number 10 ds))) by (destruct neg; cbn [signed]; lia).
    destruct (neg && (number 10 ds =? 0)) eqn:NZ.
    + assert (neg = true /\ number 10 ds = 0) as (Hn & N0) by (apply andb_prop in NZ as (? & NZ); now apply Z.eqb_eq in NZ). rewrite (props_exp A n st _ _ _ z k _ _ (chars ds) (chars gs) et); try easy; try lia.
      * subst text sg. rewrite Hn, Cf, <- !app_assoc. reflexivity.
      * rewrite N0, Hn. cbn [signed]. lia.
      * rewrite N0, Hn. rewrite N0 in Nb. exact Nb.
      * apply (numeral_chars gs false); easy.
    + rewrite (props_exp A n st _ _ _ z k _ _ (sg ++ chars ds) (chars gs) et); try easy; try lia.
      * subst text. rewrite Cf, <- !app_assoc. reflexivity.
      * destruct neg; cbn [signed]; lia.
      * subst sg. apply (numeral_chars ds neg); [easy|]. intros ->. cbn in NZ. lia.
      * apply (numeral_chars gs false); easy.
Qed.
(** other exponents are written wrongly *)
Theorem C88_exponent_refuted : forall minus es, Forall dig es -> ~ (-8 <= signed minus (number 10 es) <= 7) -> exp4 minus es <> signed minus (number 10 es).
Proof. intros minus es D N H. apply N. rewrite <- H. unfold exp4. pose proof (sx_range 4 (signed minus (exp8 es)) ltac:(lia)). lia. Qed.

(** ** Plain decimals *)
(** with a digit before the point and no exponent: written by "%f" from the double, after another minus when the whole part is a negative zero *)
Lemma number_below fs : Forall dig fs -> number 10 fs < 10 ^ Z.of_nat (List.length fs).
Proof.
  intros F. induction F as [|d fs Hd F IH]; [reflexivity|]. change (d :: fs) with ([d] ++ fs). rewrite number_app. change (number 10 [d]) with (0 * 10 + d).
  rewrite app_length. cbn [List.length]. rewrite Nat2Z.inj_add, Z.pow_add_r by lia. change (10 ^ Z.of_nat 1) with 10. unfold dig in Hd. nia.
Qed.
Theorem C88_real_written : forall A (n : option A) st sg neg ds fs c x, sign_text sg neg -> Forall dig ds -> Forall dig fs -> ds <> [] -> ends c ->
  (room neg (List.length ds + List.length (or0 fs)) < 47)%nat -> number 10 ds < 2^53 -> (List.length fs <= 18)%nat ->
  exists w v r t, parse_number (A := A) (sg ++ chars ds ++ 46 :: chars fs ++ c :: x) = Some (Some (PROPS_NONE, VReal (RText (real_text neg ds fs) false 0) w), List.length (sg ++ chars ds ++ 46 :: chars fs)) /\
    real_value (RText (real_text neg ds fs) false 0) = Some v /\ is_real v r /\
    (Rabs (r - (if neg then -1 else 1) * decimal ds fs) <= INR (List.length fs + 2) * / 2 ^ 51 * (IZR (number 10 ds) + 1))%R /\
    f64_body false 6 v t /\
    print_number (Tree n PROPS_NONE st (VReal (RText (real_text neg ds fs) false 0) w)) = Some ((if neg && (number 10 ds mod 2^32 =? 0) then [45] else []) ++ t).
Proof.
  intros A n st sg neg ds fs c x Sg D F NE E L Ld Lf.
  assert (O1 : or0 ds = ds) by now destruct ds.
  assert (Bf : number 10 fs < 2^63).
  { pose proof (number_below fs F) as B. assert (10 ^ Z.of_nat (List.length fs) <= 10 ^ 18) by (apply Z.pow_le_mono_r; lia). assert (10^18 < 2^63) by reflexivity. lia. }
  pose proof (C88_real A sg neg ds fs [] false [] c x Sg D F ltac:(now destruct ds) ltac:(constructor) E ltac:(now rewrite O1) ltac:(cbn; lia) ltac:(lia) Bf) as H.
  change (exp8 [] =? 0) with true in H. cbn match in H. rewrite app_nil_l, app_nil_r in H. change (Z.to_nat (exp8 [])) with O in H.
  replace (match ds with [] => PROPS_IS_PARSED_REAL | _ => PROPS_NONE end) with PROPS_NONE in H by now destruct ds.
  destruct (C88_value neg ds fs 0 D F Ld ltac:(lia) ltac:(lia)) as (v & r & V & R & B). rewrite Nat.add_0_r, pow_O, !Rmult_1_r in B.
  assert (Br : (Rabs r < IZR (2 ^ 64))%R).
  { set (N := IZR (number 10 ds)) in *. pose proof (number_nonneg ds D) as Nn. assert (N0 : (0 <= N)%R) by now apply IZR_le.
    assert (N1 : (N + 1 <= IZR (2 ^ 54))%R) by (unfold N; rewrite <- plus_IZR; apply IZR_le; lia).
    assert (XB : (0 <= decimal ds fs <= N + 1)%R).
    { rewrite decimal_frac. fold N. pose proof (fracval_bound fs F 0) as FB. change (IZR (10 ^ Z.of_nat 0)) with 1%R in FB. rewrite Rinv_1 in FB. lra. }
    assert (I2 : (0 <= INR (List.length fs + 2) <= 20)%R) by (split; [apply pos_INR|rewrite INR_IZR_INZ; apply IZR_le; lia]).
    assert (P : (0 < / 2 ^ 51 <= 1)%R) by (split; [apply Rinv_0_lt_compat, pow_lt; lra|rewrite <- Rinv_1; apply Rinv_le_contravar; [lra|apply pow_R1_Rle; lra]]).
    replace r with ((r - (if neg then -1 else 1) * decimal ds fs) + (if neg then -1 else 1) * decimal ds fs)%R by ring.
    apply Rle_lt_trans with (1 := Rabs_triang _ _). rewrite (Rabs_mult (if neg then -1 else 1)).
    replace (Rabs (if neg then -1 else 1)) with 1%R by (destruct neg; [rewrite Rabs_left; lra|now rewrite Rabs_R1]). rewrite (Rabs_pos_eq (decimal ds fs)), Rmult_1_l by lra.
    assert (INR (List.length fs + 2) * / 2 ^ 51 * (N + 1) <= 20 * 1 * (N + 1))%R by (apply Rmult_le_compat_r; [lra|apply Rmult_le_compat; lra]).
    assert (21 * IZR (2 ^ 54) < IZR (2 ^ 64))%R by (rewrite <- mult_IZR; apply IZR_lt; reflexivity). lra. }
  destruct (fprintf_f v r R Br) as (t & Bt & P).
  eexists. exists v, r, t. split; [exact H|]. split; [exact V|]. split; [exact R|]. split; [exact B|]. split; [exact Bt|].
  unfold print_number. cbn [t_value t_props neg_zero].
  change (PROPS_NONE =? PROPS_NAN) with false. change (PROPS_NONE =? PROPS_NAN_NEG) with false. change (PROPS_NONE =? PROPS_INFINITY) with false. change (PROPS_NONE =? PROPS_INFINITY_NEG) with false.
  change (PROPS_NONE =? PROPS_TRUE) with false. change (PROPS_NONE =? PROPS_FALSE) with false. change (PROPS_NONE =? PROPS_NULL) with false. change (PROPS_NONE =? PROPS_IS_EXP) with false. change (PROPS_NONE =? PROPS_IS_PARSED_REAL) with false.
  cbn match. rewrite V. cbn [obind]. rewrite P. destruct (neg && (number 10 ds mod 2^32 =? 0)); [rewrite fprintf_minus|]; reflexivity.
Qed.
(** so a negative fraction like -0.5 is written with two minuses; and no number begins with two *)
Theorem C88_negative_fraction_refuted : forall A (n : option A) st ds fs c x, Forall dig ds -> Forall dig fs -> ds <> [] -> number 10 ds = 0 -> 0 < number 10 fs -> (List.length ds <= 20)%nat -> (List.length fs <= 13)%nat -> ends c ->
  exists w u, parse_number (A := A) (45 :: chars ds ++ 46 :: chars fs ++ c :: x) = Some (Some (PROPS_NONE, w), List.length (45 :: chars ds ++ 46 :: chars fs)) /\
    print_number (Tree n PROPS_NONE st w) = Some (45 :: 45 :: u).
Proof.
  intros A n st ds fs c x D F NE Z0 Pf Ld Lf E. assert (NEf : fs <> []) by (intros ->; cbn in Pf; lia).
  destruct (C88_real_written A n st [45] true ds fs c x) as (w & v & r & t & H & V & R & B & Bt & P); try easy; try lia.
  { constructor. } { cbn [room]. replace (or0 fs) with fs by now destruct fs. lia. }
  rewrite Z0 in *. change (true && (0 mod 2^32 =? 0)) with true in P. cbn [app] in P.
  exists (VReal (RText (real_text true ds fs) false 0) w).
  assert (Neg : (r < 0)%R).
  { rewrite decimal_frac, Z0, Rplus_0_l in B.
    assert (I2 : (0 <= INR (List.length fs + 2) <= 15)%R) by (split; [apply pos_INR|rewrite INR_IZR_INZ; apply IZR_le; lia]).
    assert (P51 : (0 < / 2 ^ 51)%R) by (apply Rinv_0_lt_compat, pow_lt; lra).
    assert (INR (List.length fs + 2) * / 2 ^ 51 * (0 + 1) <= 15 * / 2 ^ 51)%R by nra.
    assert (FV : (/ 10 ^ 13 <= 0 + fracval 0 fs)%R).
    { pose proof (decimal_frac [] fs) as DF. change (IZR (number 10 [])) with 0%R in DF. rewrite <- DF. unfold decimal. cbn [app].
      assert (1 <= IZR (number 10 fs))%R by (apply IZR_le; lia). assert (0 < 10 ^ List.length fs)%R by (apply pow_lt; lra).
      assert (10 ^ List.length fs <= 10 ^ 13)%R by (apply Rle_pow; [lra|lia]).
      apply Rle_trans with (/ 10 ^ List.length fs)%R; [apply Rinv_le_contravar; easy|]. unfold Rdiv. rewrite <- (Rmult_1_l (/ 10 ^ List.length fs)) at 1. apply Rmult_le_compat_r; [apply Rlt_le, Rinv_0_lt_compat; easy|easy]. }
    assert (15 * / 2 ^ 51 < / 10 ^ 13)%R.
    { apply Rmult_lt_reg_r with (2 ^ 51 * 10 ^ 13)%R; [apply Rmult_lt_0_compat; apply pow_lt; lra|].
      replace (15 * / 2 ^ 51 * (2 ^ 51 * 10 ^ 13))%R with (15 * 10 ^ 13)%R by (field; apply pow_nonzero; lra). replace (/ 10 ^ 13 * (2 ^ 51 * 10 ^ 13))%R with (2 ^ 51)%R by (field; apply pow_nonzero; lra).
      rewrite !pow_IZR, <- mult_IZR. apply IZR_lt. reflexivity. }
    unfold Rabs in B. destruct (Rcase_abs _) in B; lra. }
  destruct Bt as (r' & (_ & _ & E') & Bt). destruct R as (_ & _ & Er). assert (r' = r) as -> by congruence.
  destruct Bt as [(Y & _)|(_ & sg & w0 & wt & vs & vts & Hs & _ & _ & _ & _ & Et)]; [lra|]. destruct Hs as [(_ & ->)|(Y & _)]; [|lra].
  eexists. split; [exact H|]. rewrite P, Et. reflexivity.
Qed.
Theorem C88_two_minuses : forall A x, parse_number (A := A) (45 :: 45 :: x) = Some (None, 1%nat).
Proof. intros A x. reflexivity. Qed.

(** ** Cases *)
Definition reads (s : string) : option (option (Z * value ptr) * nat) := parse_number (asc s ++ [0]).
Definition writes (s : string) : option (list Z) :=
  match reads s with Some (Some (p, v), _) => print_number (Tree None p zero_style v) | _ => None end.
Example C88_example_integer : sign_text [45] true /\ run_start [45] (asc "12ab") /\ leading [1; 2] (asc "12ab") /\ reads "-12ab," = Some (Some (0, VInt (-12) zero_analysis), 5%nat).
Proof.
  split; [constructor|]. split; [exists 49, (asc "2ab"); repeat split; try discriminate|]. split; [|vm_compute; reflexivity].
  split; [repeat constructor; unfold dig; lia|]. exists (asc "ab"). split; [reflexivity|]. intros c q [= <- <-]. lia.
Qed.
Example C88_example_hex : leading16 [1; 15] (asc "1f") /\ reads "0x1f]" = Some (Some (PROPS_IS_HEX, VInt 31 zero_analysis), 4%nat).
Proof.
  split; [|vm_compute; reflexivity]. exists (asc "1f"), []. split; [reflexivity|]. split; [|discriminate]. change (asc "1f") with [49; 102]. constructor; [unfold denotes; lia|]. constructor; [unfold denotes; lia|constructor].
Qed.
Example C88_example_long : Forall run_char (repeat 48 48) /\ parse_number (A := ptr) (repeat 48 48 ++ [0]) = None.
Proof. split; [apply Forall_forall; intros c H; apply repeat_spec in H; subst; left; lia|vm_compute; reflexivity]. Qed.
Example C88_example_real : expo (asc "E+12") false [1; 2] /\ reads "-1.25E+12}" = Some (Some (PROPS_IS_EXP, VReal (RText (asc "-1.25") false 12) (Analysis (-1) 25 0 (-4) false true)), 9%nat).
Proof. split; [apply (ex_pos 69 [43] [1; 2]); [cbn; tauto|cbn; tauto|repeat constructor; unfold dig; lia|discriminate]|vm_compute; reflexivity]. Qed.
Example C88_example_undefined : number 10 [1;2;3;4;5;6;7;8;9;0;1;2;3;4;5;6;7;8;9;0] >= 2^63 /\ reads "0.12345678901234567890" = None.
Proof. split; [vm_compute; discriminate|vm_compute; reflexivity]. Qed.
Example C88_example_value : exists v, reads "3.25e2" = Some (Some (PROPS_IS_EXP, v), 6%nat) /\ match v with VReal r _ => real_value r = real_value (RText (asc "325.0") false 0) | _ => False end.
Proof. eexists. split; [vm_compute; reflexivity|vm_compute; reflexivity]. Qed.
Example C88_example_written : writes "-9223372036854775807" = Some (asc "-9223372036854775807") /\ writes "-0" = Some (asc "-0") /\ writes "0xdeadbeef" = Some (asc "0xdeadbeef") /\
  writes "-.05" = Some (asc "-.05") /\ writes "-0.07e-8" = Some (asc "-0.07e-8") /\ writes "12.5" = Some (asc "12.500000").
Proof. repeat split; vm_compute; reflexivity. Qed.
(** what goes wrong *)
Theorem C88_texts_refuted :
  (reads "0X1F" = Some (Some (PROPS_IS_HEX, VInt 0 zero_analysis), 4%nat) /\ reads "-0x1f" = Some (Some (PROPS_IS_HEX, VInt 0 (Analysis 0 0 0 0 true false)), 5%nat) /\
   reads "1e3" = Some (Some (0, VInt 1 zero_analysis), 3%nat) /\ reads "abc" = Some (Some (0, VInt 0 zero_analysis), 3%nat) /\ reads "+5" = Some (Some (0, VInt 5 zero_analysis), 2%nat)) /\
  (writes "+5" = Some (asc "5") /\ writes "0xAB" = Some (asc "0xab") /\ writes "-0x1f" = Some (asc "-0x0") /\ writes "007" = Some (asc "7")) /\
  (writes "1.5e10" = Some (asc "1.5e-6") /\ writes "1.5e128" = Some (asc "1.5e0") /\ writes "1.5e-9" = Some (asc "1.5e7") /\ writes "1.0e5" = Some (asc "1.00e5") /\ writes ".0" = Some (asc ".00")) /\
  (writes "-0.5" = Some (asc "--0.500000") /\ reads "--0.500000" = Some (None, 1%nat) /\ writes "-0.0" = Some (asc "-0") /\ writes "0.0000001" = Some (asc "0.000000")).
Proof. repeat split; vm_compute; reflexivity. Qed.
(** a negative exponent multiplies by the single-precision 0.1 *)
Theorem C88_negative_exponent_refuted : real_value (RText (asc "1.0") true 1) <> real_value (RText (asc "0.1") false 0) /\
  exists m, real_value (RText (asc "1.0") true 1) = Some (S754_finite false m (-56)) /\ SF2R radix2 (S754_finite false m (-56)) = (13421773 / 134217728)%R.
Proof.
  split; [vm_compute; discriminate|]. eexists. split; [vm_compute; reflexivity|].
  assert (V : forall m, SF2R radix2 (S754_finite false m (-56)) = (IZR (Z.pos m) * / 72057594037927936)%R) by (intros; reflexivity). rewrite V. lra.
Qed.
Print Assumptions C88_integer. Print Assumptions C88_hex. Print Assumptions C88_integer_long. Print Assumptions C88_real. Print Assumptions C88_real_undefined. Print Assumptions C88_value.
Print Assumptions C88_round_trip_decimal. Print Assumptions C88_round_trip_hex. Print Assumptions C88_round_trip_point. Print Assumptions C88_round_trip_exp. Print Assumptions C88_exp_written.
Print Assumptions C88_exponent_refuted. Print Assumptions C88_real_written. Print Assumptions C88_negative_fraction_refuted. Print Assumptions C88_two_minuses. Print Assumptions C88_texts_refuted.
