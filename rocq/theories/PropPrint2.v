(** C55: NULL strings, and fields wider than the limit. *)
From Verif Require Import Base CStr CStrSpec CStrProofs Num NumSpec NumProofs Print PrintSpec PrintProofs PrintProofs2 PropPrint.

Lemma field_run (fl w : Z) fmt va0 buf max o :
  (forall va, round (fmt ++ [115; 0], buf, O, max, va0 ++ AStr o :: va) = (' (t, len) <- print_string buf max (Info 0 fl w (-1)) o ;;
     Some ([0], t, Z.to_nat len, if max <=? len then Z.min max 1 else max - len, va))) ->
  (exists c r, fmt ++ [115; 0] = c :: r /\ c <> 0) ->
  snprintf buf max (fmt ++ [115; 0]) (va0 ++ [AStr o]) =
    (' (t, len) <- print_string buf max (Info 0 fl w (-1)) o ;; t <- wr t (Z.to_nat len) 0 ;; Some (t, if max <=? Z.of_nat (S (Z.to_nat len)) then -1 else Z.of_nat (S (Z.to_nat len)))).
Proof.
  intros R (c & r & E & N). unfold snprintf. rewrite app_length. cbn [length]. rewrite Nat.add_succ_r. cbn [rounds]. rewrite E at 1. cbn [rd nth_error obind].
  destruct (Z.eqb_spec c 0); [easy|]. rewrite R. rewrite Nat.add_succ_r.
  destruct (print_string buf max _ o) as [(t & len)|]; reflexivity.
Qed.
Lemma run_null buf max o : snprintf buf max pct_s [AStr o] =
    (' (t, len) <- print_string buf max (Info 0 0 0 (-1)) o ;; t <- wr t (Z.to_nat len) 0 ;; Some (t, if max <=? Z.of_nat (S (Z.to_nat len)) then -1 else Z.of_nat (S (Z.to_nat len)))).
Proof.
  apply (field_run 0 0 [37] [] buf max o); [|now exists 37, [115; 0]].
  intros va. unfold round. cbn [app lit_loop Z.eqb Pos.eqb negb andb obind rd nth_error tl flags_loop].
  unfold get_width. cbn [rd nth_error obind Z.eqb Pos.eqb]. unfold fmt_num, str_to_i64. cbn [guess_base Z.eqb obind].
  unfold scan_i64. cbn [rd nth_error obind Z.eqb Pos.eqb skip_0x skipn Nat.add scan_i64_loop].
  change (scan_digit 10 115) with (@None Z). cbn [obind]. change (i32 0) with 0. cbn [Z.eqb negb skipn obind].
  unfold get_precision, get_length. cbn [rd nth_error obind Z.eqb Pos.eqb]. unfold convert. cbn [rd nth_error obind Z.eqb Pos.eqb]. unfold Print.int_conv. cbn [Z.eqb Pos.eqb orb va_str obind].
  destruct (print_string buf max _ _) as [(t & len)|]; reflexivity.
Qed.
(** %s of NULL is "(null)", if the limit is 6 or more; otherwise NULL is read *)
Theorem C55_null : forall old r max, length old = 7%nat -> 8 <= max ->
  snprintf (old ++ r) max pct_s [AStr None] = Some ([40; 110; 117; 108; 108; 41; 0] ++ r, 7).
Proof.
  intros old r max L M. rewrite run_null. unfold print_string. destruct (Z.leb_spec 6 max); [|lia].
  destruct old as [|a [|b [|c [|d [|e [|f [|g [|]]]]]]]]; try easy. cbn [app].
  change (strlcpy (a :: b :: c :: d :: e :: f :: g :: r) [40; 110; 117; 108; 108; 41; 0] 6) with (Some (40 :: 110 :: 117 :: 108 :: 108 :: 41 :: g :: r, 6)).
  cbn [obind]. change (Z.to_nat 6) with 6%nat. cbn [wr obind]. destruct (Z.leb_spec max (Z.of_nat 7)); [lia|reflexivity].
Qed.
Theorem C55_null_refuted : forall buf max, max < 6 -> snprintf buf max pct_s [AStr None] = None.
Proof. intros buf max M. rewrite run_null. unfold print_string. now destruct (Z.leb_spec 6 max); [lia|]. Qed.
Example C55_null_ex : snprintf (repeat 1 9) 9 pct_s [AStr None] = Some ([40; 110; 117; 108; 108; 41; 0; 1; 1], 7) /\ snprintf (repeat 1 6) 6 pct_s [AStr None] = None /\
  snprintf (repeat 1 7) 6 pct_s [AStr None] = Some ([40; 110; 117; 108; 108; 41; 0], -1).
Proof. repeat split; reflexivity. Qed.

(** a field whose blanks alone reach the limit: as many blanks as the limit says, the text is dropped, and the
    NUL goes behind them - one past the end when the limit is the size of the buffer *)
Definition pct_star_s : list Z := [37; 42; 115; 0].
Lemma run_star w buf max o : 0 < w < 2^31 -> snprintf buf max pct_star_s [AInt w; AStr o] =
    (' (t, len) <- print_string buf max (Info 0 FMT_WIDTH w (-1)) o ;; t <- wr t (Z.to_nat len) 0 ;; Some (t, if max <=? Z.of_nat (S (Z.to_nat len)) then -1 else Z.of_nat (S (Z.to_nat len)))).
Proof.
  intros W. apply (field_run FMT_WIDTH w [37; 42] [AInt w] buf max o); [|now exists 37, [42; 115; 0]].
  intros va. unfold round. cbn [app lit_loop Z.eqb Pos.eqb negb andb obind rd nth_error tl flags_loop].
  unfold get_width. cbn [rd nth_error obind Z.eqb Pos.eqb]. rewrite va_int_ok by lia. cbn [obind]. destruct (Z.ltb_spec w 0); [lia|]. cbn [obind tl].
  unfold get_precision, get_length. cbn [rd nth_error obind Z.eqb Pos.eqb]. unfold convert. cbn [rd nth_error obind Z.eqb Pos.eqb]. unfold Print.int_conv. cbn [Z.eqb Pos.eqb orb va_str obind].
  cbn [skipn]. change (Z.lor 0 FMT_WIDTH) with FMT_WIDTH.
  destruct (print_string buf max _ _) as [(t & len)|]; reflexivity.
Qed.
Lemma pad_cut : forall m n a old b c, (m <= n)%nat -> length old = m -> pad_loop n (Z.of_nat m) (a ++ old ++ b) (length a) c = Some (a ++ repeat c m ++ b, (length a + m)%nat).
Proof.
  induction m as [|m IH]; intros n a old b c L Lo; destruct old as [|o old]; try easy.
  - cbn [repeat app Nat.add]. rewrite Nat.add_0_r. now destruct n.
  - destruct n as [|n]; [lia|]. cbn [pad_loop]. destruct (Z.ltb_spec 0 (Z.of_nat (S m))); [|lia]. cbn [app]. rewrite wr_at. cbn [obind].
    replace (Z.of_nat (S m) - 1) with (Z.of_nat m) by lia.
    specialize (IH n (a ++ [c]) old b c ltac:(lia) ltac:(now injection Lo)). rewrite <- !app_assoc in IH. cbn [app] in IH. rewrite app_length in IH. cbn [length] in IH.
    replace (length a + 1)%nat with (S (length a)) in IH by lia. rewrite IH. cbn [repeat app]. do 2 f_equal. lia.
Qed.
Lemma wide_text s x old r m w : cstring s -> s <> [] -> length old = m -> Z.of_nat m + Z.of_nat (length s) <= w ->
  print_string (old ++ r) (Z.of_nat m) (Info 0 FMT_WIDTH w (-1)) (Some (s ++ 0 :: x)) = Some (repeat 32 m ++ r, Z.of_nat m).
Proof.
  intros C N L W. assert (P : (0 < length s)%nat) by (destruct s; [easy|cbn; lia]). unfold print_string. cbn [precision width flags Z.leb Z.compare obind]. rewrite strlen_ok by easy. cbn [obind].
  change (has FMT_WIDTH FMT_WIDTH) with true. change (has FMT_WIDTH FMT_MINUS) with false. change (has FMT_WIDTH FMT_ZERO) with false. rewrite andb_true_r, orb_false_r.
  destruct (Z.eqb_spec w 0); [lia|]. destruct (Z.ltb_spec 0 w); [|lia].
  pose proof (pad_cut m (Z.to_nat (w - Z.of_nat (length s))) [] old r 32 ltac:(lia) L) as E. cbn [app length Nat.add] in E. rewrite E. cbn [obind].
  destruct (Z.ltb_spec (Z.of_nat m) (Z.of_nat m + Z.of_nat (length s))); [|lia]. reflexivity.
Qed.
Theorem C55_wide_field : forall s x old c r w, cstring s -> s <> [] -> old <> [] -> Z.of_nat (length old) + Z.of_nat (length s) <= w < 2^31 ->
  snprintf (old ++ c :: r) (Z.of_nat (length old)) pct_star_s [AInt w; AStr (Some (s ++ 0 :: x))] = Some (repeat 32 (length old) ++ 0 :: r, -1).
Proof.
  intros s x old c r w C N No W. rewrite run_star by (destruct old; [easy|cbn [length] in *; lia]). rewrite (wide_text s x old (c :: r) (length old) w) by (easy || lia). cbn [obind].
  rewrite Nat2Z.id. replace (length old) with (length (repeat 32 (length old))) at 2 by apply repeat_length. rewrite wr_at. cbn [obind].
  destruct (Z.leb_spec (Z.of_nat (length old)) (Z.of_nat (S (length old)))); [reflexivity|lia].
Qed.
Theorem C55_wide_field_refuted : forall s x buf w, cstring s -> s <> [] -> buf <> [] -> Z.of_nat (length buf) + Z.of_nat (length s) <= w < 2^31 ->
  snprintf buf (Z.of_nat (length buf)) pct_star_s [AInt w; AStr (Some (s ++ 0 :: x))] = None.
Proof.
  intros s x buf w C N No W. rewrite run_star by (destruct buf; [easy|cbn [length] in *; lia]). pose proof (wide_text s x buf [] (length buf) w C N eq_refl ltac:(lia)) as E. rewrite !app_nil_r in E. rewrite E. cbn [obind].
  rewrite Nat2Z.id. rewrite wr_out by (rewrite repeat_length; lia). reflexivity.
Qed.
Example C55_wide_ex : snprintf (repeat 1 4) 3 pct_star_s [AInt 9; AStr (Some [97; 98; 0])] = Some ([32; 32; 32; 0], -1) /\
  snprintf (repeat 1 3) 3 pct_star_s [AInt 9; AStr (Some [97; 98; 0])] = None.
Proof. split; reflexivity. Qed.

Print Assumptions C55_null. Print Assumptions C55_null_refuted. Print Assumptions C55_wide_field. Print Assumptions C55_wide_field_refuted.
