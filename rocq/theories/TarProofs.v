From Verif Require Import Base CStr CStrSpec CStrProofs Num NumSpec NumProofs PropNum Print PrintSpec PrintProofs PrintProofs2 PropPrint Bits BitsSpec PropBits Array ArraySpec ArrayProofs FStream FStreamSpec FStreamProofs Tar TarSpec.

(** * Fields *)
Lemma pct_o_run buf max v va : (0 < max) ->
  snprintf buf max fmt_o (AInt v :: va) =
    (' (t, len) <- print_i64 buf max (Info 8 0 0 (-1)) (i32 v) ;; t <- wr t (Z.to_nat len) 0 ;; Some (t, if max <=? Z.of_nat (S (Z.to_nat len)) then -1 else Z.of_nat (S (Z.to_nat len)))).
Proof.
  intros M.
  assert (R : round (fmt_o, buf, O, max, AInt v :: va) = (' (t, len) <- print_i64 buf max (Info 8 0 0 (-1)) (i32 v) ;;
     Some ([0], t, Z.to_nat len, if max <=? len then Z.min max 1 else max - len, va))).
  { unfold round, fmt_o. cbn [lit_loop Z.eqb Pos.eqb negb andb obind rd nth_error tl flags_loop].
    unfold get_width. cbn [rd nth_error obind Z.eqb Pos.eqb]. unfold fmt_num, str_to_i64. cbn [guess_base Z.eqb obind].
    unfold scan_i64. cbn [rd nth_error obind Z.eqb Pos.eqb skip_0x skipn Nat.add scan_i64_loop].
    change (scan_digit 10 111) with (@None Z). cbn [obind]. change (i32 0) with 0. cbn [Z.eqb negb skipn obind].
    unfold get_precision, get_length. cbn [rd nth_error obind Z.eqb Pos.eqb]. unfold convert. cbn [rd nth_error obind Z.eqb Pos.eqb]. unfold Print.int_conv. cbn [Z.eqb Pos.eqb orb obind].
    assert (G : get_int 0 (AInt v :: va) = Some (i32 v, va)) by reflexivity. rewrite G. cbn [obind]. change (has 0 FMT_UNSIGNED) with false. cbn match.
    destruct (print_i64 buf max _ _) as [(t & len)|]; reflexivity. }
  unfold snprintf. change (length fmt_o) with 3%nat. cbn [rounds]. change (rd fmt_o 0) with (Some 37). cbn [obind Z.eqb]. rewrite R.
  destruct (print_i64 buf max _ _) as [(t & len)|]; reflexivity.
Qed.
Lemma plain_width t : apply_width false false 0 (cut (-1) t) = t.
Proof. reflexivity. Qed.
Lemma put_text buf max t x b : cstring t -> (length t < length buf)%nat -> Z.of_nat (length t) <= max ->
  (' (q, len) <- print_string buf max (Info b 0 0 (-1)) (Some (t ++ 0 :: x)) ;; q <- wr q (Z.to_nat len) 0 ;; Some q) = Some (t ++ 0 :: skipn (S (length t)) buf).
Proof.
  intros C L M. destruct (CStrProofs.split_at buf (length t)) as (o & r & -> & E); [lia|]. destruct r as [|c r]; [rewrite app_nil_r in L; lia|].
  assert (P : exists r', print_string (o ++ c :: r) max (Info b 0 0 (-1)) (Some (t ++ 0 :: x)) = Some (t ++ r', Z.of_nat (length o)) /\ r' = c :: r).
  { unfold print_string. cbn [precision width flags Z.leb Z.compare]. rewrite strlen_ok by easy. cbn [obind]. change (has 0 FMT_WIDTH) with false. change (has 0 FMT_UPPER) with false. change (has 0 FMT_LOWER) with false. change (0 <? -1) with false.
    cbn [andb orb Z.eqb]. destruct (Z.ltb_spec max (Z.of_nat (length t))); [lia|]. rewrite strlcpy_part by easy. cbn [obind]. destruct (Z.ltb_spec (Z.of_nat (length t)) 0); [lia|]. cbn [obind]. rewrite firstn_all. eexists. split; [|reflexivity]. now rewrite E. }
  destruct P as (r' & -> & ->). cbn [obind]. rewrite Nat2Z.id, E, wr_at. cbn [obind].
  replace (S (length t)) with (length (o ++ [c])) by (rewrite app_length; cbn; lia). replace (o ++ c :: r) with ((o ++ [c]) ++ r) by (rewrite <- app_assoc; easy). now rewrite skipn_len.
Qed.
Lemma padto_len n s : (length s <= n)%nat -> length (padto n s) = n.
Proof. intros H. unfold padto. rewrite app_length, repeat_length. lia. Qed.
Lemma repeat_app {A} (x : A) a b : repeat x (a + b) = repeat x a ++ repeat x b.
Proof. induction a; cbn; [easy|]. now rewrite IHa. Qed.
Lemma put_pad n (t c : list Z) : (length t <= n)%nat -> (length t = n -> exists c', c = 0 :: c') -> (length t < length (repeat 0%Z n ++ c))%nat /\ t ++ 0 :: skipn (S (length t)) (repeat 0 n ++ c) = padto n t ++ c.
Proof.
  intros L H. destruct (Nat.eq_dec (length t) n) as [E|E].
  - destruct (H E) as (c' & ->). split; [rewrite app_length, repeat_length; cbn [length]; lia|].
    unfold padto. rewrite E, Nat.sub_diag, app_nil_r. f_equal. f_equal.
    replace (S n) with (length (repeat 0 n ++ [0])) by (rewrite app_length, repeat_length; cbn; lia). replace (repeat 0 n ++ 0 :: c') with ((repeat 0 n ++ [0]) ++ c') by (rewrite <- app_assoc; easy). now rewrite skipn_len.
  - split; [rewrite app_length, repeat_length; lia|]. replace n with (length t + S (n - S (length t)))%nat at 1 by lia. rewrite repeat_app. cbn [repeat].
    unfold padto. replace (n - length t)%nat with (S (n - S (length t))) by lia. cbn [repeat]. rewrite <- !app_assoc. f_equal. cbn [app]. f_equal.
    replace (S (length t)) with (length (repeat 0 (length t) ++ [0])) at 1 by (rewrite app_length, repeat_length; cbn; lia).
    replace (repeat 0 (length t) ++ 0 :: repeat 0 (n - S (length t)) ++ c) with ((repeat 0 (length t) ++ [0]) ++ repeat 0 (n - S (length t)) ++ c) by (rewrite <- app_assoc; easy). apply skipn_len.
Qed.
Lemma field_s a n c t x max : cstring t -> (length t <= n)%nat -> (length t = n -> exists c', c = 0 :: c') -> 0 < max -> Z.of_nat (length t) <= max ->
  field (a ++ repeat 0 n ++ c) (length a) max fmt_s [AStr (Some (t ++ 0 :: x))] = Some (a ++ padto n t ++ c).
Proof.
  intros C L H M M2. unfold field. rewrite skipn_len, firstn_len. destruct (put_pad n t c L H) as (L' & E). change fmt_s with pct_s. rewrite pct_s_run by easy.
  pose proof (put_text (repeat 0 n ++ c) max t x 0 C L' M2) as P. destruct (print_string _ _ _ _) as [(q & len)|]; [|easy]. cbn [obind] in *.
  destruct (wr q (Z.to_nat len) 0) as [q'|]; [|easy]. cbn [obind] in *. rewrite E in P. assert (Q : q' = padto n t ++ c) by congruence. now rewrite Q.
Qed.
Lemma field_o a n c t v va max : numeral 8 (i32 v) t -> (length t <= n)%nat -> (length t = n -> exists c', c = 0 :: c') -> 0 < max -> Z.of_nat (length t) <= max ->
  field (a ++ repeat 0 n ++ c) (length a) max fmt_o (AInt v :: va) = Some (a ++ padto n t ++ c).
Proof.
  intros N L H M M2. unfold field. rewrite skipn_len, firstn_len. destruct (put_pad n t c L H) as (L' & E). rewrite pct_o_run by easy.
  pose proof (sx_range 32 v ltac:(lia)) as Rg. change (32 - 1) with 31 in Rg.
  destruct (i64_text 8 (i32 v) t ltac:(lia) ltac:(unfold i32; lia) N) as (y & Ey). unfold print_i64. cbn [Print.base]. rewrite Ey. cbn [obind].
  pose proof (put_text (repeat 0 n ++ c) max t y 8 (numeral_cs 8 _ _ ltac:(lia) N) L' M2) as P. destruct (print_string _ _ _ _) as [(q & len)|]; [|easy]. cbn [obind] in *.
  destruct (wr q (Z.to_nat len) 0) as [q'|]; [|easy]. cbn [obind] in *. rewrite E in P. assert (Q : q' = padto n t ++ c) by congruence. now rewrite Q.
Qed.
Lemma numeral_exists b v : 2 <= b <= 64 -> - 2^63 < v < 2^63 -> exists t, numeral b v t.
Proof. intros Hb Hv. destruct (C41_i64_print b v [] Hb Hv) as (ds & C & N & _). eexists. exists ds. easy. Qed.
Lemma canonical_len_lt b ds n : 2 <= b -> (0 < n)%nat -> canonical b ds -> number b ds < b ^ Z.of_nat n -> (length ds <= n)%nat.
Proof.
  intros Hb Hn (F & [->|(d & r & -> & Hd)]) L; [cbn; lia|]. inversion F; subst. cbn [length].
  assert (Fr : Forall (fun d => 0 <= d) r) by (eapply Forall_impl; [|eassumption]; cbn; lia).
  pose proof (numfrom_pow b ltac:(lia) r d Fr ltac:(lia)) as P. assert (E : number b (d :: r) = numfrom b d r) by (unfold number, numfrom; cbn [fold_left]; f_equal; lia).
  destruct (Nat.leb_spec (S (length r)) n) as [Q|Q]; [easy|]. exfalso.
  assert (b ^ Z.of_nat n <= b ^ Z.of_nat (length r)) by (apply Z.pow_le_mono_r; lia). nia.
Qed.
Lemma numeral_len v t n : (0 < n)%nat -> numeral 8 v t -> Z.abs v < 8 ^ Z.of_nat n -> (length t <= n + (if (v <? 0)%Z then 1 else 0))%nat.
Proof.
  intros Hn (ds & C & N & ->) L. rewrite app_length, map_length. pose proof (canonical_len_lt 8 ds n ltac:(lia) Hn C ltac:(lia)). destruct (v <? 0); cbn [length]; lia.
Qed.
Lemma sum_total l : Tar.sum l = total l.
Proof. unfold Tar.sum, total. apply fold_symmetric; intros; lia. Qed.
Lemma total_app a b : total (a ++ b) = total a + total b.
Proof. induction a as [|x a IH]; [easy|]. cbn [app total fold_right] in *. unfold total in *. lia. Qed.
Lemma total_bound l : bytes l -> 0 <= total l <= 255 * Z.of_nat (length l).
Proof. induction 1 as [|x l Hx H IH]; [cbn; lia|]. cbn [total fold_right length]. fold (total l). unfold byte in Hx. lia. Qed.
Lemma cs_bytes s : cstring s -> bytes s.
Proof. apply Forall_impl. unfold byte. lia. Qed.
Lemma zeros_bytes n : bytes (repeat 0 n).
Proof. induction n; constructor; [unfold byte; lia|easy]. Qed.
Lemma padto_bytes n s : bytes s -> bytes (padto n s).
Proof. intros H. apply Forall_app. split; [easy|apply zeros_bytes]. Qed.

(** the parts of a header that are read back *)
Definition layout (e : entry) (h : list Z) : Prop := exists x24 ts y12 tc,
  h = padto 100 (e_name e) ++ x24 ++ padto 12 ts ++ y12 ++ padto 8 tc ++ 48 :: repeat 0 355 /\
  length x24 = 24%nat /\ length y12 = 12%nat /\ (length ts <= 11)%nat /\ (length tc <= 7)%nat /\
  numeral 8 (Z.of_nat (length (e_data e))) ts /\ numeral 8 (checksum h) tc /\ checksum h < 2^63.
Lemma header_ok e x : storable e -> exists h, pack_header (e_name e ++ 0 :: x) (Z.of_nat (length (e_data e))) (e_mtime e) = Some h /\ header_of e h /\ layout e h.
Proof.
  intros (C & Ln & Ld). set (size := Z.of_nat (length (e_data e))) in *.
  destruct (numeral_exists 8 size ltac:(lia) ltac:(lia)) as (ts & Ns).
  assert (Rm : - 2^31 <= sx 32 (e_mtime e) < 2^31) by (apply (sx_range 32); lia).
  destruct (numeral_exists 8 (sx 32 (e_mtime e)) ltac:(lia) ltac:(lia)) as (tm & Nm).
  assert (Lts : (length ts <= 11)%nat) by (pose proof (numeral_len size ts 11 ltac:(lia) Ns ltac:(cbn; lia)) as Q; destruct (Z.ltb_spec size 0); lia).
  assert (Ltm : (length tm <= 12)%nat) by (pose proof (numeral_len _ tm 11 ltac:(lia) Nm ltac:(cbn; lia)) as Q; destruct (_ <? 0); lia).
  assert (N664 : numeral 8 (i32 436) [54; 54; 52]).
  { exists [6; 6; 4]. split; [split; [repeat constructor; lia|right; exists 6, [6; 4]; split; [easy|lia]]|]. split; reflexivity. }
  unfold pack_header.
  set (A := padto 100 (e_name e)). assert (LA : length A = 100%nat) by (apply padto_len; lia).
  change (repeat 0 header_size) with ([] ++ repeat 0 100 ++ repeat 0 412).
  change o_name with (@length Z []). rewrite (field_s [] 100 (repeat 0 412) (e_name e) x 12) by (easy || lia). cbn [obind app]. fold A.
  replace o_size with (length (A ++ repeat 0 24)) by (rewrite app_length, LA; reflexivity).
  replace (A ++ repeat 0 412) with ((A ++ repeat 0 24) ++ repeat 0 12 ++ repeat 0 376) by (rewrite <- app_assoc; reflexivity).
  rewrite (field_o _ 12 (repeat 0 376) ts size) by (try lia; rewrite i32_id by lia; easy). cbn [obind].
  set (B := padto 12 ts). assert (LB : length B = 12%nat) by (apply padto_len; lia).
  replace o_mode with (length A) by (rewrite LA; reflexivity).
  replace ((A ++ repeat 0 24) ++ B ++ repeat 0 376) with (A ++ repeat 0 8 ++ (repeat 0 16 ++ B ++ repeat 0 376)) by (rewrite <- app_assoc; reflexivity).
  rewrite (field_o A 8 (repeat 0 16 ++ B ++ repeat 0 376) [54; 54; 52] 436) by (try easy; cbn; lia). cbn [obind].
  set (Md := padto 8 [54; 54; 52]). assert (LM : length Md = 8%nat) by reflexivity.
  set (P := A ++ Md ++ repeat 0 16 ++ B). assert (LP : length P = 136%nat) by (unfold P; rewrite !app_length, repeat_length, LA, LM, LB; lia).
  replace o_mtime with (length P) by (rewrite LP; reflexivity).
  replace (A ++ Md ++ repeat 0 16 ++ B ++ repeat 0 376) with (P ++ repeat 0 12 ++ repeat 0 364) by (unfold P; rewrite <- !app_assoc; reflexivity).
  rewrite (field_o P 12 (repeat 0 364) tm (e_mtime e)) by (first [lia|exact Nm|intros _; now exists (repeat 0 363)]). cbn [obind].
  set (T := padto 12 tm). assert (LT : length T = 12%nat) by (apply padto_len; lia).
  replace o_type with (length (P ++ T ++ repeat 0 8)) by (rewrite !app_length, repeat_length, LP, LT; reflexivity).
  replace (P ++ T ++ repeat 0 364) with ((P ++ T ++ repeat 0 8) ++ 0 :: repeat 0 355) by (rewrite <- !app_assoc; reflexivity).
  rewrite wr_at. cbn [obind]. change TYPE_REGULAR with 48.
  assert (BP : bytes P).
  { unfold P. apply Forall_app; split; [apply padto_bytes; now apply cs_bytes|]. apply Forall_app; split; [apply padto_bytes; repeat constructor; unfold byte; lia|].
    apply Forall_app; split; [apply zeros_bytes|]. apply padto_bytes, cs_bytes. now apply (numeral_cs 8 size). }
  assert (BT : bytes T) by (apply padto_bytes, cs_bytes; now apply (numeral_cs 8 (sx 32 (e_mtime e)))).
  set (chk := 256 + total P + total T + 48).
  assert (Ec : checksum ((P ++ T ++ repeat 0 8) ++ 48 :: repeat 0 355) = chk).
  { unfold checksum. rewrite !sum_total. replace o_type with (length (P ++ T ++ repeat 0 8)) by (rewrite !app_length, repeat_length, LP, LT; reflexivity). rewrite skipn_len.
    replace ((P ++ T ++ repeat 0 8) ++ 48 :: repeat 0 355) with ((P ++ T) ++ repeat 0 8 ++ 48 :: repeat 0 355) by (rewrite <- !app_assoc; reflexivity).
    replace o_checksum with (length (P ++ T)) by (rewrite app_length, LP, LT; reflexivity). rewrite firstn_len, total_app.
    change (total (48 :: repeat 0 355)) with 48. unfold chk. pose proof (total_bound P BP). pose proof (total_bound T BT). rewrite LP, LT in *. unfold u64. rewrite Z.mod_small; lia. }
  rewrite Ec. assert (Rc : 0 <= chk < 8 ^ Z.of_nat 7).
  { unfold chk. pose proof (total_bound P BP). pose proof (total_bound T BT). rewrite LP, LT in *. change (8 ^ Z.of_nat 7) with 2097152. lia. }
  change (8 ^ Z.of_nat 7) with 2097152 in Rc.
  destruct (numeral_exists 8 chk ltac:(lia) ltac:(lia)) as (tc & Nc).
  assert (Ltc : (length tc <= 7)%nat) by (pose proof (numeral_len chk tc 7 ltac:(lia) Nc ltac:(cbn; lia)) as Q; destruct (Z.ltb_spec chk 0); lia).
  replace o_checksum with (length (P ++ T)) by (rewrite app_length, LP, LT; reflexivity).
  replace ((P ++ T ++ repeat 0 8) ++ 48 :: repeat 0 355) with ((P ++ T) ++ repeat 0 8 ++ 48 :: repeat 0 355) by (rewrite <- !app_assoc; reflexivity).
  rewrite (field_o (P ++ T) 8 (48 :: repeat 0 355) tc chk) by (try lia; rewrite i32_id by lia; easy).
  eexists. split; [reflexivity|].
  set (K := padto 8 tc). assert (LK : length K = 8%nat) by (apply padto_len; lia).
  assert (E1 : firstn 148 ((P ++ T) ++ K ++ 48 :: repeat 0 355) = P ++ T) by (replace 148%nat with (length (P ++ T)) by (rewrite app_length, LP, LT; reflexivity); now rewrite firstn_len).
  assert (E2 : skipn 156 ((P ++ T) ++ K ++ 48 :: repeat 0 355) = 48 :: repeat 0 355).
  { rewrite app_assoc. replace 156%nat with (length ((P ++ T) ++ K)) by (rewrite !app_length, LP, LT, LK; reflexivity). now rewrite skipn_len. }
  split.
  - exists ts, tm, tc. split; [easy|]. split; [easy|]. split; [unfold P; rewrite <- !app_assoc; reflexivity|].
    rewrite E1, E2, !total_app. change (total (repeat 32 8)) with 256. change (total (48 :: repeat 0 355)) with 48.
    replace (total P + total T + (256 + 48)) with chk by (unfold chk; lia). exact Nc.
  - exists (Md ++ repeat 0 16), ts, T, tc. split; [unfold P; rewrite <- !app_assoc; reflexivity|]. split; [rewrite app_length, repeat_length; easy|]. split; [easy|]. split; [easy|]. split; [easy|]. split; [easy|].
    unfold checksum. change o_checksum with 148%nat. change o_type with 156%nat. rewrite E1, E2, !sum_total, total_app. change (total (48 :: repeat 0 355)) with 48.
    replace (256 + (total P + total T) + 48) with chk by (unfold chk; lia). unfold u64. rewrite Z.mod_small by lia. split; [exact Nc|lia].
Qed.
