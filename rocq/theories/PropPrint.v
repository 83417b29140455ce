(** C55, C77: formatted printing. *)
From Verif Require Import Base CStr CStrSpec CStrProofs Num NumSpec NumProofs PropNum Print PrintSpec PrintProofs PrintProofs2.

(** a format that fits prints the expansion, a NUL, and returns the length with the NUL, or -1 if
    the limit is just reached *)
Theorem C55_fits : forall ps texts buf max x va,
  Forall2 rendered ps texts ->
  (length (concat texts) < length buf)%nat -> Z.of_nat (length (concat texts)) < max ->
  (existsb cases ps = true -> In 0 (skipn (length (concat texts)) buf)) ->
  exists r, snprintf buf max (text_of ps ++ 0 :: x) (args_of ps ++ va) =
    Some (concat texts ++ 0 :: r, if max <=? Z.of_nat (length (concat texts)) + 1 then -1 else Z.of_nat (length (concat texts)) + 1) /\
    length (concat texts ++ 0 :: r) = length buf.
Proof.
  intros ps texts buf max x va H L M HC. destruct (split_at buf (length (concat texts))) as (old & r & -> & E); [lia|].
  replace (skipn (length (concat texts)) (old ++ r)) with r in HC by (rewrite <- E; now rewrite skipn_len).
  destruct (rounds_ok x ps texts H [] old r max va E M HC) as (r' & rem & R & K). cbn [app length] in R.
  unfold snprintf. rewrite app_length. rewrite (rounds_more _ _ _ _ R). cbn [obind].
  pose proof (keeps_len _ _ K) as Lk. rewrite app_length in L. destruct r' as [|o r']; [cbn [length] in Lk; lia|].
  rewrite wr_at. cbn [obind]. replace (Z.of_nat (S (length (concat texts)))) with (Z.of_nat (length (concat texts)) + 1) by lia.
  exists r'. split; [easy|]. rewrite !app_length. cbn [length] in *. lia.
Qed.
(** "n=%-4d|%04x" with -7 and 171 *)
Definition demo : list piece := [Lit [110; 61]; Dir true false (Digits [4]) Absent (Int Snone Id (-7)); Lit [124]; Dir false true (Digits [4]) Absent (Int Snone Ix 171)].
Definition demo_out : list (list Z) := [[110; 61]; [45; 55; 32; 32]; [124]; [48; 48; 97; 98]].
Example demo_fmt : text_of demo = [110; 61; 37; 45; 52; 100; 124; 37; 48; 52; 120].
Proof. reflexivity. Qed.
Lemma good4 z : good_width z (Digits [4]).
Proof. split; [split; [constructor; [lia|constructor]|reflexivity]|]. exists 4, []. split; [easy|lia]. Qed.
Example fits_ex : Forall2 rendered demo demo_out /\
  snprintf (repeat 1 14 ++ [0]) 15 (text_of demo ++ [0]) (args_of demo) = Some ([110; 61; 45; 55; 32; 32; 124; 48; 48; 97; 98; 0; 1; 1; 0], 12).
Proof.
  split; [|vm_compute; reflexivity]. assert (Cs : forall a l, 0 < a < 256 -> cstring l -> cstring (a :: l)) by (intros; constructor; easy).
  constructor; [split; [repeat (apply Cs; [lia|]); constructor|]; split; [cbn [In]; lia|easy]|]. constructor.
  { split; [apply good4|]. split; [exact I|]. exists [45; 55]. split; [|reflexivity].
    split; [vm_compute; discriminate|]. exists [45; 55]. split; [|reflexivity]. exists [7]. split; [split; [constructor; [split; vm_compute; easy|constructor]|right; exists 7, []; easy]|]. split; reflexivity. }
  constructor; [split; [repeat (apply Cs; [lia|]); constructor|]; split; [cbn [In]; lia|easy]|]. constructor; [|constructor].
  split; [apply good4|]. split; [exact I|]. exists [97; 98]. split; [|reflexivity].
  split; [vm_compute; discriminate|]. exists [65; 66]. split; [|reflexivity]. exists [10; 11]. split; [split; [constructor; [split; vm_compute; easy|constructor; [split; vm_compute; easy|constructor]]|right; exists 10, [11]; easy]|]. split; reflexivity.
Qed.

(** literal text is not limited at all *)
Lemma lit_none : forall s fmt remaining b k, cstring s -> ~ In 37 s -> remaining <> 0 -> (k <= length b < k + length s)%nat -> lit_loop (s ++ fmt) remaining b k = None.
Proof.
  induction s as [|c s IH]; intros fmt remaining b k C N R L; cbn [length] in L; [lia|]. inversion C; subst. cbn [app lit_loop].
  destruct (Z.eqb_spec c 0); [lia|]. destruct (Z.eqb_spec c 37) as [->|]; [exfalso; apply N; now left|]. destruct (Z.eqb_spec remaining 0); [easy|]. cbn [negb andb].
  destruct (Nat.eq_dec k (length b)) as [->|Nk]; [rewrite wr_out by lia; easy|].
  destruct (wr b k c) as [b'|] eqn:E; [|easy]. cbn [obind]. apply wr_len in E. apply IH; try easy; [intros I; apply N; now right|lia].
Qed.
Theorem C55_literal_overflow_refuted : forall s x buf max va, cstring s -> ~ In 37 s -> max <> 0 -> s <> [] -> (length buf <= length s)%nat ->
  snprintf buf max (s ++ 0 :: x) va = None.
Proof.
  intros s x buf max va C N M NE L. unfold snprintf. rewrite app_length. destruct s as [|c s]; [easy|]. cbn [length Nat.add app rounds rd nth_error obind].
  inversion C; subst. destruct (Z.eqb_spec c 0); [lia|].
  destruct (Nat.eq_dec (length buf) (length (c :: s))) as [E|E].
  - pose proof (round_lit (c :: s) (0 :: x) max [] buf [] va C N M E) as R. cbn [app length] in R. rewrite app_nil_r in R. rewrite R. clear R.
    unfold round. rewrite lit_stop by eauto. cbn [obind]. rewrite !app_nil_r.
    unfold rd at 1. cbn [nth_error obind]. change (0 =? 37) with false. cbn match. cbn [obind].
    unfold get_width. unfold rd at 1. cbn [nth_error obind]. change (0 =? 42) with false. cbn match.
    pose proof (fmt_num_ok [] 0 x ltac:(constructor) ltac:(cbn; lia) ltac:(lia) ltac:(lia)) as En. cbn [map app] in En. rewrite En. cbn [obind]. change (number 10 []) with 0.
    unfold get_precision. unfold rd at 1. cbn [nth_error obind]. change (0 =? 46) with false. cbn match. cbn [obind].
    unfold get_length. unfold rd at 1. cbn [nth_error obind Z.eqb]. unfold convert. unfold rd at 1. cbn [nth_error obind Z.eqb]. unfold Print.int_conv. cbn [Z.eqb orb obind].
    rewrite firstn_skipn. change (Z.to_nat 0) with O. rewrite Nat.add_0_r.
    assert (RR : forall k st, (exists m v, st = (0 :: x, c :: s, S (length s), m, v)) -> rounds k st = Some st) by (intros k st (m & v & ->); destruct k; reflexivity).
    rewrite RR by eauto. cbn [obind]. rewrite wr_out by (cbn [length]; lia). easy.
  - unfold round. pose proof (lit_none (c :: s) (0 :: x) max buf 0 C N M) as LN. cbn [app] in LN. rewrite LN by (cbn [length] in *; lia). easy.
Qed.
Example literal_overflow_ex : snprintf [1; 1; 1; 1] 4 [97; 98; 99; 100; 0] [] = None.
Proof. reflexivity. Qed.

(** a field that fills the buffer has its NUL written one past the end *)
Definition pct_s : list Z := [37; 115; 0].
Lemma pct_s_run buf max s x : (0 < max) -> cstring s -> 
  snprintf buf max pct_s [AStr (Some (s ++ 0 :: x))] =
    (' (t, len) <- print_string buf max (Info 0 0 0 (-1)) (Some (s ++ 0 :: x)) ;; t <- wr t (Z.to_nat len) 0 ;; Some (t, if max <=? Z.of_nat (S (Z.to_nat len)) then -1 else Z.of_nat (S (Z.to_nat len)))).
Proof.
  intros M C.
  assert (R : forall va, round (pct_s, buf, O, max, AStr (Some (s ++ 0 :: x)) :: va) = (' (t, len) <- print_string buf max (Info 0 0 0 (-1)) (Some (s ++ 0 :: x)) ;;
     Some ([0], t, Z.to_nat len, if max <=? len then Z.min max 1 else max - len, va))).
  { intros va. unfold round, pct_s. cbn [lit_loop Z.eqb Pos.eqb negb andb obind rd nth_error tl flags_loop].
    unfold get_width. cbn [rd nth_error obind Z.eqb Pos.eqb]. unfold fmt_num, str_to_i64. cbn [guess_base Z.eqb obind].
    unfold scan_i64. cbn [rd nth_error obind Z.eqb Pos.eqb skip_0x skipn Nat.add scan_i64_loop].
    change (scan_digit 10 115) with (@None Z). cbn [obind]. change (i32 0) with 0. cbn [Z.eqb negb skipn obind].
    unfold get_precision, get_length. cbn [rd nth_error obind Z.eqb Pos.eqb]. unfold convert. cbn [rd nth_error obind Z.eqb Pos.eqb]. unfold Print.int_conv. cbn [Z.eqb Pos.eqb orb va_str obind].
    destruct (print_string buf max _ _) as [(t & len)|]; reflexivity. }
  unfold snprintf. change (length pct_s) with 3%nat. cbn [rounds]. change (rd pct_s 0) with (Some 37). cbn [obind Z.eqb]. rewrite R.
  destruct (print_string buf max _ _) as [(t & len)|]; reflexivity.
Qed.
Theorem C55_exact_field_refuted : forall s x buf, cstring s -> buf <> [] -> length s = length buf ->
  snprintf buf (Z.of_nat (length buf)) pct_s [AStr (Some (s ++ 0 :: x))] = None.
Proof.
  intros s x buf C NE L. assert (P : (0 < length buf)%nat) by (destruct buf; [easy|cbn; lia]). rewrite pct_s_run by (easy || lia).
  destruct (print_string_ok buf [] (Z.of_nat (length buf)) 0 0 false false 0 (-1) s x) as (r' & E & K); try easy; try lia.
  rewrite app_nil_r in E. rewrite E. cbn [obind]. rewrite wr_out; [easy|]. inversion K; subst. rewrite app_nil_r, map_length. unfold cut, apply_width. cbn. lia.
Qed.
Example exact_field_ex : cstring [97; 98; 99; 100] /\ snprintf [1; 1; 1; 1] 4 pct_s [AStr (Some [97; 98; 99; 100; 0])] = None.
Proof. split; [repeat constructor; lia|reflexivity]. Qed.
(** a field longer than the limit is dropped, and success is reported *)
Theorem C55_long_field_dropped_refuted : forall s x c buf max, cstring s -> 1 < max < Z.of_nat (length s) ->
  snprintf (c :: buf) max pct_s [AStr (Some (s ++ 0 :: x))] = Some (0 :: buf, 1).
Proof.
  intros s x c buf max C M. rewrite pct_s_run by (easy || lia). unfold print_string. cbn [precision width flags Z.leb Z.compare obind].
  rewrite strlen_ok by easy. cbn [obind Z.eqb has Z.land negb andb orb]. change (has 0 FMT_WIDTH) with false. cbn [andb orb]. change (0 <? -1) with false. cbn match.
  destruct (Z.ltb_spec max (Z.of_nat (length s))); [|lia]. cbn [obind]. cbn [Z.to_nat wr obind]. destruct (Z.leb_spec max (Z.of_nat 1)); [lia|easy].
Qed.
Example long_field_ex : snprintf [1; 1; 1; 1] 4 pct_s [AStr (Some [97; 98; 99; 100; 101; 0])] = Some ([0; 1; 1; 1], 1).
Proof. reflexivity. Qed.
(** zpl_snprintf(buf, n, "%*r", w, c) writes w characters whatever n is *)
Lemma rep_none : forall n b k c, (k <= length b < k + n)%nat -> rep_loop n b k c = None.
Proof.
  induction n as [|n IH]; intros b k c L; [lia|]. cbn [rep_loop]. destruct (Nat.eq_dec k (length b)) as [->|N]; [rewrite wr_out by lia; easy|].
  destruct (wr b k c) as [b'|] eqn:E; [|easy]. cbn [obind]. apply wr_len in E. apply IH. lia.
Qed.
Theorem C55_repeat_overflow_refuted : forall w c buf max, 0 < w < 2^31 -> Z.of_nat (length buf) < w -> 0 <= c < 256 -> snprintf buf max [37; 42; 114; 0] [AInt w; AInt c] = None.
Proof.
  intros w c buf max W L C. unfold snprintf. cbn [length rounds rd nth_error obind Z.eqb]. unfold round. cbn [lit_loop Z.eqb Pos.eqb negb andb obind rd nth_error tl flags_loop].
  unfold get_width. cbn [rd nth_error obind Z.eqb Pos.eqb]. rewrite va_int_ok by lia. cbn [obind]. destruct (Z.ltb_spec w 0); [lia|]. cbn [obind tl].
  unfold get_precision, get_length. cbn [rd nth_error obind Z.eqb Pos.eqb]. unfold convert. cbn [rd nth_error obind Z.eqb Pos.eqb]. unfold Print.int_conv. cbn [Z.eqb Pos.eqb orb].
  rewrite va_int_ok by lia. cbn [obind]. unfold print_repeated_char. cbn [width]. destruct (Z.ltb_spec 0 w); [|lia]. cbn [skipn]. rewrite rep_none by lia. easy.
Qed.
Example repeat_overflow_ex : snprintf [1; 1; 1; 1] 4 [37; 42; 114; 0] [AInt 5; AInt 97] = None.
Proof. reflexivity. Qed.
(** %x changes the case of everything up to the next NUL, which nothing has written yet: without
    one behind the text it runs out of the buffer, however large *)
Lemma map_none f : forall t, Forall (fun c => c <> 0) t -> str_map f t = None.
Proof. induction 1 as [|c t Hc H IH]; [easy|]. cbn [str_map]. destruct (Z.eqb_spec c 0); [easy|]. now rewrite IH. Qed.
Theorem C55_hex_overrun_refuted : forall slot buf, Forall (fun c => c <> 0) buf -> (65 <= length buf)%nat -> snprintf buf (Z.of_nat (length buf)) [37; 120; 0] [AInt slot] = None.
Proof.
  intros slot buf F L. destruct (C40_u64_print 16 (u32 slot) num_buf ltac:(lia)) as (ds & C & E & P & _).
  { unfold u32. pose proof (Z.mod_pos_bound slot (2^32) ltac:(lia)). lia. }
  assert (U : 0 <= u32 slot < 2^64) by (unfold u32; pose proof (Z.mod_pos_bound slot (2^32) ltac:(lia)); lia).
  assert (N : numeral 16 (u32 slot) (map digit_char ds)) by (exists ds; rewrite Z.abs_eq by lia; destruct (Z.ltb_spec (u32 slot) 0); [lia|easy]).
  assert (Ld : (length ds <= 64)%nat) by (apply (canonical_len 16); [lia|easy|lia]).
  destruct (u64_text 16 (u32 slot) _ ltac:(lia) U N) as (y & Ey). pose proof (numeral_cs 16 _ _ ltac:(lia) N) as Cq.
  unfold snprintf. cbn [length rounds rd nth_error obind Z.eqb]. unfold round. cbn [lit_loop Z.eqb Pos.eqb negb andb obind rd nth_error tl flags_loop].
  unfold get_width. cbn [rd nth_error obind Z.eqb Pos.eqb]. unfold fmt_num, str_to_i64. cbn [guess_base Z.eqb obind].
  unfold scan_i64. cbn [rd nth_error obind Z.eqb Pos.eqb skip_0x skipn Nat.add scan_i64_loop].
  change (scan_digit 10 120) with (@None Z). cbn [obind]. change (i32 0) with 0. cbn [Z.eqb negb skipn obind].
  unfold get_precision, get_length. cbn [rd nth_error obind Z.eqb Pos.eqb]. unfold convert. cbn [rd nth_error obind Z.eqb Pos.eqb]. unfold Print.int_conv. cbn [Z.eqb Pos.eqb orb].
  set (fl := Z.lor 0 _). assert (Gi : get_int fl [AInt slot] = Some (u32 slot, [])) by reflexivity. rewrite Gi. cbn [obind]. change (has fl FMT_UNSIGNED) with true. cbn match.
  unfold print_u64. cbn [Print.base]. rewrite Ey. cbn [obind]. unfold print_string. cbn [precision width flags Z.leb Z.compare obind].
  rewrite strlen_ok by easy. cbn [obind]. change (has fl FMT_WIDTH) with false. change (has fl FMT_UPPER) with false. change (has fl FMT_LOWER) with true. cbn [andb orb Z.eqb]. change (0 <? -1) with false. cbn match.
  rewrite map_length. destruct (Z.ltb_spec (Z.of_nat (length buf)) (Z.of_nat (length ds))); [lia|].
  cbn [skipn]. destruct (split_at buf (length ds)) as (o & r & -> & Lo); [lia|]. rewrite <- (map_length digit_char ds) at 1. rewrite strlcpy_part by (try easy; rewrite map_length; easy). cbn [obind].
  destruct (Z.ltb_spec (Z.of_nat (length (map digit_char ds))) 0); [lia|]. cbn [obind]. unfold str_to_lower. rewrite map_none; [easy|].
  rewrite firstn_all. apply Forall_app. split; [now apply cs_nz|]. apply Forall_app in F. apply F.
Qed.
Example hex_overrun_ex : snprintf (repeat 1 100) 100 [37; 120; 0] [AInt 171] = None.
Proof. vm_compute. reflexivity. Qed.
(** with a limit of 0 a literal character is neither copied nor skipped: the loop makes no progress *)
Definition skipped_chars : list Z :=
  [37; 42; 45; 46; 104; 108; 122; 116; 117; 100; 105; 111; 120; 88; 102; 70; 103; 71; 97; 65; 99; 115; 114; 112].
Theorem C55_zero_limit_refuted : forall c r buf va, 0 < c -> ~ (48 <= c <= 57) -> ~ In c skipped_chars -> round (c :: r, buf, O, 0, va) = Some (c :: r, buf, O, 0, va).
Proof.
  intros c r buf va P D N.
  assert (Q : forall k, In k skipped_chars -> (c =? k) = false) by (intros k I; apply Z.eqb_neq; intros ->; contradiction).
  unfold round. cbn [lit_loop]. change (negb (0 =? 0)) with false. rewrite andb_false_r. cbn [obind].
  unfold rd at 1. cbn [nth_error obind]. rewrite (Q 37) by (cbn; tauto). cbn [obind]. unfold get_width. unfold rd at 1. cbn [nth_error obind]. rewrite (Q 42) by (cbn; tauto).
  assert (N45 : c <> 45) by (apply Z.eqb_neq, Q; cbn; tauto).
  pose proof (fmt_num_ok [] c r ltac:(constructor) ltac:(cbn; lia) D ltac:(easy)) as En. cbn [map app] in En. rewrite En. cbn [obind]. change (number 10 []) with 0. cbn [Z.eqb negb].
  unfold get_precision. unfold rd at 1. cbn [nth_error obind]. rewrite (Q 46) by (cbn; tauto). cbn [obind].
  unfold get_length. unfold rd at 1. cbn [nth_error obind]. rewrite (Q 104), (Q 108), (Q 122), (Q 116) by (cbn; tauto). cbn [obind].
  unfold convert, Print.int_conv. unfold rd at 1. cbn [nth_error obind].
  rewrite (Q 117), (Q 100), (Q 105), (Q 111), (Q 120), (Q 88), (Q 112) by (cbn; tauto). cbn [orb].
  rewrite (Q 102), (Q 70), (Q 103), (Q 71), (Q 97), (Q 65) by (cbn; tauto). cbn [orb].
  rewrite (Q 99), (Q 115), (Q 114), (Q 37) by (cbn; tauto). reflexivity.
Qed.
Example zero_limit_ex : ~ In 33 skipped_chars /\ round ([33; 0], [1; 1], O, 0, []) = Some ([33; 0], [1; 1], O, 0, []).
Proof. split; [cbn; lia|reflexivity]. Qed.

(** * Differences from the C library *)
(** "%05d" of -5 is "000-5" *)
Theorem C77_zero_before_sign_refuted : snprintf (repeat 1 8) 8 [37; 48; 53; 100; 0] [AInt (-5)] = Some ([48; 48; 48; 45; 53; 0; 1; 1], 6).
Proof. vm_compute. reflexivity. Qed.
(** "%0d" and "%*d" with 0 print nothing *)
Theorem C77_zero_width_refuted : snprintf (repeat 1 8) 8 [37; 48; 100; 0] [AInt 5] = Some ([0; 1; 1; 1; 1; 1; 1; 1], 1) /\
  snprintf (repeat 1 8) 8 [37; 42; 100; 0] [AInt 0; AInt 5] = Some ([0; 1; 1; 1; 1; 1; 1; 1], 1).
Proof. split; vm_compute; reflexivity. Qed.
(** "%.2d" of 1234 is "12" *)
Theorem C77_precision_cuts_refuted : snprintf (repeat 1 8) 8 [37; 46; 50; 100; 0] [AInt 1234] = Some ([49; 50; 0; 1; 1; 1; 1; 1], 3).
Proof. vm_compute. reflexivity. Qed.
(** "%+d" prints no sign, "%#o" no prefix *)
Theorem C77_flags_ignored_refuted : snprintf (repeat 1 8) 8 [37; 43; 100; 0] [AInt 5] = Some ([53; 0; 1; 1; 1; 1; 1; 1], 2) /\
  snprintf (repeat 1 8) 8 [37; 35; 111; 0] [AInt 8] = Some ([49; 48; 0; 1; 1; 1; 1; 1], 3).
Proof. split; vm_compute; reflexivity. Qed.
(** "%o" is signed and "%zd" is unsigned *)
Theorem C77_signs_refuted : snprintf (repeat 1 8) 8 [37; 111; 0] [AInt (-8)] = Some ([45; 49; 48; 0; 1; 1; 1; 1], 4) /\
  snprintf (repeat 1 22) 22 [37; 122; 100; 0] [AInt (-1)] = Some ([49; 56; 52; 52; 54; 55; 52; 52; 48; 55; 51; 55; 48; 57; 53; 53; 49; 54; 49; 53; 0; 1], 21).
Proof. split; vm_compute; reflexivity. Qed.
(** "%c" of NUL prints nothing; a text that fits exactly returns -1 *)
Theorem C77_nul_and_exact_refuted : snprintf (repeat 1 8) 8 [120; 37; 99; 121; 0] [AInt 0] = Some ([120; 121; 0; 1; 1; 1; 1; 1], 3) /\
  snprintf (repeat 1 4) 4 [120; 121; 122; 0] [] = Some ([120; 121; 122; 0], -1).
Proof. split; vm_compute; reflexivity. Qed.

Print Assumptions C55_fits.
Print Assumptions C55_literal_overflow_refuted.
Print Assumptions C55_exact_field_refuted.
Print Assumptions C55_long_field_dropped_refuted.
Print Assumptions C55_repeat_overflow_refuted.
Print Assumptions C55_hex_overrun_refuted.
Print Assumptions C55_zero_limit_refuted.
Print Assumptions C77_zero_before_sign_refuted.
Print Assumptions C77_zero_width_refuted.
Print Assumptions C77_precision_cuts_refuted.
Print Assumptions C77_flags_ignored_refuted.
Print Assumptions C77_signs_refuted.
Print Assumptions C77_nul_and_exact_refuted.
