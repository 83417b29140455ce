(** Reading real numbers of documents. *)
From Coq Require Import String Znumtheory.
From Verif Require Import Base CStr CStrSpec CStrProofs Num NumSpec NumProofs PropNum Float FloatSpec Print PrintSpec PrintProofs PrintProofs2 PropPrint Node NodeProofs AdtNumSpec AdtNumProofs.

Lemma fresh_wr t v : (List.length t < 48)%nat -> wr (fresh t) (List.length t) v = Some (fresh (t ++ [v])).
Proof.
  intros L. unfold fresh. replace (48 - List.length t)%nat with (S (48 - List.length (t ++ [v]))) by (rewrite app_length; cbn [List.length]; lia).
  cbn [repeat]. rewrite wr_at. now rewrite <- app_assoc.
Qed.
Lemma fresh_wr_none t v : (48 <= List.length t)%nat -> wr (fresh t) (List.length t) v = None.
Proof. intros L. apply wr_out. unfold fresh. rewrite app_length, repeat_length. lia. Qed.
Lemma fresh_copy' more s t c x : Forall (fun a => more a = true) s -> more c = false -> (List.length (t ++ s) <= 48)%nat ->
  copy_while more (s ++ c :: x) (fresh t) (List.length t) = Some (c :: x, fresh (t ++ s), List.length (t ++ s)).
Proof.
  intros H Hc L. unfold fresh. rewrite app_length in L. rewrite !app_length.
  replace (repeat 0 (48 - List.length t)) with (repeat 0 (List.length s) ++ repeat 0 (48 - (List.length t + List.length s))) by (rewrite <- repeat_app; f_equal; lia).
  rewrite copy_while_ok by (try easy; now rewrite repeat_length). now rewrite <- app_assoc.
Qed.
Lemma fresh_copy_none' more s t c x : Forall (fun a => more a = true) s -> (48 < List.length (t ++ s))%nat -> (List.length t <= 48)%nat ->
  copy_while more (s ++ c :: x) (fresh t) (List.length t) = None.
Proof. intros H L L'. unfold fresh. apply copy_overflow; [easy|]. rewrite repeat_length. rewrite app_length in L. lia. Qed.
Lemma chars_digit ds : Forall dig ds -> Forall (fun a => char_is_digit a = true) (chars ds).
Proof. intros H. unfold chars. induction H as [|d ds Hd _ IH]; cbn [map]; constructor; [|exact IH]. unfold char_is_digit. unfold dig in Hd. lia. Qed.
Lemma chars_run ds : Forall dig ds -> Forall run_char (chars ds).
Proof. intros H. unfold chars. induction H as [|d ds Hd _ IH]; cbn [map]; constructor; [|exact IH]. unfold run_char. unfold dig in Hd. lia. Qed.
Lemma not_digit c : ~ 48 <= c <= 57 -> char_is_digit c = false.
Proof. unfold char_is_digit. lia. Qed.
Lemma chars_len ds : List.length (chars ds) = List.length ds.
Proof. apply map_length. Qed.
Lemma hexb_digits ds : Forall dig ds -> hexb (chars ds) = false.
Proof. intros H. destruct H as [|d ds Hd H]; [easy|]. destruct H as [|e ds He _]; [easy|]. unfold dig in *. cbn [chars map hexb]. lia. Qed.

(** the exponent *)
Lemma sx8_u8 v : i8 (u8 v) = sx 8 v.
Proof. unfold i8, u8, sx. now rewrite Z.mod_mod by lia. Qed.
Lemma digit_end c : ends c -> char_is_digit c = false.
Proof. intros H. apply not_digit. apply H. Qed.
Lemma expbuf es c x : Forall dig es -> char_is_digit c = false ->
  copy_while char_is_digit (chars es ++ c :: x) (repeat 0 6) 0 = if (6 <? List.length es)%nat then None else Some (c :: x, chars es ++ repeat 0 (6 - List.length es), List.length es).
Proof.
  intros H Hc. destruct (Nat.ltb_spec 6 (List.length es)) as [L|L].
  - apply (copy_overflow char_is_digit (chars es) [] (repeat 0 6) c x); [now apply chars_digit|]. rewrite chars_len, repeat_length. easy.
  - replace (repeat 0 6) with (repeat 0 (List.length (chars es)) ++ repeat 0 (6 - List.length es)) by (rewrite <- repeat_app, chars_len; f_equal; lia).
    pose proof (copy_while_ok char_is_digit (chars es) [] (repeat 0 (List.length (chars es))) (repeat 0 (6 - List.length es)) c x (chars_digit es H) Hc (repeat_length _ _)) as E.
    cbn [app List.length Nat.add] in E. rewrite E. now rewrite chars_len.
Qed.
Lemma exp_num es : Forall dig es -> (List.length es <= 5)%nat -> exists n, str_to_i64 (chars es ++ repeat 0 (6 - List.length es)) 10 = Some (number 10 es, n).
Proof.
  intros H L. replace (6 - List.length es)%nat with (S (5 - List.length es)) by lia. cbn [repeat].
  destruct (C41_i64_parse 10 (chars es) es 0 (repeat 0 (5 - List.length es)) ltac:(lia) (chars_den es H) ltac:(intros; apply no_nul) ltac:(easy) ltac:(easy)) as (A & _).
  eexists. apply A. assert (B : forall ds, Forall dig ds -> number 10 ds < 10 ^ Z.of_nat (List.length ds)).
  { intros ds. induction ds as [|d ds IH] using rev_ind; intros F; [easy|]. apply Forall_app in F. destruct F as (F & Fd). inversion Fd; subst. unfold number, dig in *. rewrite fold_left_app. cbn [fold_left].
    specialize (IH F). rewrite app_length. cbn [List.length]. replace (Z.of_nat (List.length ds + 1)) with (Z.succ (Z.of_nat (List.length ds))) by lia. rewrite Z.pow_succ_r by lia. unfold number in IH. lia. }
  specialize (B es H). assert (10 ^ Z.of_nat (List.length es) <= 10 ^ 5) by (apply Z.pow_le_mono_r; lia). lia.
Qed.
Lemma exp_fail es : Forall dig es -> List.length es = 6%nat -> str_to_i64 (chars es) 10 = None.
Proof.
  intros H L. unfold str_to_i64. cbn [guess_base Z.eqb obind]. unfold scan_i64.
  destruct H as [|d es Hd H]; [discriminate L|]. unfold dig in Hd. cbn [chars map rd nth_error obind]. destruct (Z.eqb_spec (48 + d) 45); [lia|].
  unfold skip_0x. cbn [Z.eqb obind Nat.add skipn]. change ((48 + d) :: map (fun d0 => 48 + d0) es) with (chars (d :: es)).
  assert (G : forall l r m, Forall dig l -> scan_i64_loop 10 (chars l) r m = None).
  { intros l. induction l as [|e l IH]; intros r m F; [reflexivity|]. inversion F; subst. unfold dig in *. cbn [chars map scan_i64_loop]. unfold scan_digit, char_is_digit. 
    destruct (Z.leb_spec 48 (48 + e)); [|lia]. destruct (Z.leb_spec (48 + e) 57); [|lia]. cbn [andb]. destruct (chk64 (r * 10)); [|reflexivity]. cbn [obind]. destruct (chk64 _); [|reflexivity]. cbn [obind]. apply IH. easy. }
  change (10 =? 16)%positive with false. cbn match. cbn [obind skipn]. rewrite G; [reflexivity|]. constructor; easy.
Qed.
Lemma exp_core es c x (t : bool) : Forall dig es -> char_is_digit c = false ->
  (' (e, eb, tn) <- (' (e, eb, _) <- copy_while char_is_digit (chars es ++ c :: x) (repeat 0 6) 0 ;; Some (e, eb, t)) ;; ' (v, _) <- str_to_i64 eb 10 ;; Some (e, i8 (u8 v), tn)) =
  if (List.length es <=? 5)%nat then Some (c :: x, exp8 es, t) else None.
Proof.
  intros D Hc. rewrite (expbuf es c x D Hc). destruct (Nat.ltb_spec 6 (List.length es)) as [L|L]; [replace (_ <=? 5)%nat with false by (symmetry; apply Nat.leb_gt; lia); reflexivity|].
  cbn [obind]. destruct (Nat.leb_spec (List.length es) 5) as [L5|L5].
  - destruct (exp_num es D L5) as (n & ->). cbn [obind]. now rewrite sx8_u8.
  - replace (6 - List.length es)%nat with O by lia. cbn [repeat]. rewrite app_nil_r, exp_fail by (try easy; lia). reflexivity.
Qed.
Lemma exp_ok ex tenth es c x : expo ex tenth es -> ends c -> parse_exp (ex ++ c :: x) = if (List.length es <=? 5)%nat then Some (c :: x, exp8 es, tenth) else None.
Proof.
  intros H Hc. pose proof (digit_end c Hc) as Hd. destruct H as [|e sg es He Hs D NE|e es He D NE].
  - cbn [app List.length]. unfold parse_exp. cbn [rd nth_error obind]. destruct Hc as (_ & _ & N1 & N2).
    replace (negb (c =? 0) && strchr (asc "eE") c) with false; [reflexivity|]. unfold strchr. change (asc "eE") with [101; 69]. cbn [existsb].
    destruct (Z.eqb_spec c 0) as [->|]; [easy|]. destruct (Z.eqb_spec c 101), (Z.eqb_spec c 69); easy.
  - assert (E1 : negb (e =? 0) && strchr (asc "eE") e = true) by (cbn [In] in He; destruct He as [<-|[<-|[]]]; reflexivity).
    cbn [app]. unfold parse_exp. cbn [rd nth_error obind]. rewrite E1. cbn [tl]. rewrite <- (exp_core es c x false D Hd).
    destruct D as [|d es Hdd D]; [easy|].
    assert (F : char_is_digit (48 + d) = true /\ (48 + d =? 43) = false /\ (48 + d =? 45) = false) by (unfold dig in Hdd; unfold char_is_digit; lia). destruct F as (F1 & F2 & F3).
    cbn [In] in Hs. destruct Hs as [<-|[<-|[]]]; cbn [app chars map nth_error obind tl].
    + rewrite F1, F2, F3. reflexivity.
    + reflexivity.
  - assert (E1 : negb (e =? 0) && strchr (asc "eE") e = true) by (cbn [In] in He; destruct He as [<-|[<-|[]]]; reflexivity).
    cbn [app]. unfold parse_exp. cbn [rd nth_error obind]. rewrite E1. cbn [tl]. rewrite <- (exp_core es c x true D Hd). reflexivity.
Qed.

(** ** The whole number *)
Definition real_props (ds es : list Z) : Z := if exp8 es =? 0 then match ds with [] => PROPS_IS_PARSED_REAL | _ => PROPS_NONE end else PROPS_IS_EXP.
Definition has_lead (ds : list Z) : bool := match ds with [] => false | _ => true end.
Lemma or0_dig l : Forall dig l -> Forall dig (or0 l).
Proof. intros H. destruct l; [|easy]. repeat constructor; unfold dig; lia. Qed.
Lemma or0_num b l : number b (or0 l) = number b l.
Proof. destruct l; reflexivity. Qed.
Lemma ends_run c : ends c -> c <> 101 /\ c <> 69 /\ ~ 48 <= c <= 57 /\ c <> 46.
Proof. unfold ends. tauto. Qed.
(** the character behind the digits *)
Lemma tail_char ex tenth es c x : expo ex tenth es -> ends c -> exists c' q, ex ++ c :: x = c' :: q /\ char_is_digit c' = false /\ c' <> 46.
Proof.
  intros H Hc. destruct H as [|e sg es He Hs D NE|e es He D NE]; cbn [app]; do 2 eexists; (split; [reflexivity|]).
  - split; [now apply digit_end|apply Hc].
  - cbn [In] in He. destruct He as [<-|[<-|[]]]; easy.
  - cbn [In] in He. destruct He as [<-|[<-|[]]]; easy.
Qed.
Lemma scan_real neg ds fs c q : Forall dig ds -> Forall dig fs -> ds ++ fs <> [] -> char_is_digit c = false -> (List.length (real_text neg ds fs) <= 48)%nat ->
  scan (chars ds ++ 46 :: chars fs ++ c :: q) (fresh (kept neg)) (List.length (kept neg)) =
    Some (Some (c :: q, fresh (real_text neg ds fs), true, match ds with [] => PROPS_IS_PARSED_REAL | _ => PROPS_NONE end, has_lead ds)).
Proof.
  intros D F NE Hc L. unfold real_text in *. fold (kept neg) in *. destruct ds as [|d ds'].
  - cbn [or0 chars map app] in *. change (48 + 0) with 48 in *. assert (Ef : or0 fs = fs) by (destruct fs; easy). rewrite Ef in *.
    unfold scan. cbn [rd nth_error obind]. change (46 =? 46) with true. cbn match.
    rewrite fresh_wr by (destruct neg; cbn; lia). cbn [obind]. replace (S (List.length (kept neg))) with (List.length (kept neg ++ [48])) by (rewrite app_length; cbn; lia).
    rewrite fresh_wr by (destruct neg; cbn; lia). cbn [obind tl]. replace (S (List.length (kept neg ++ [48]))) with (List.length ((kept neg ++ [48]) ++ [46])) by (rewrite app_length; cbn; lia).
    rewrite fresh_copy' by (first [now apply chars_digit|easy|rewrite <- !app_assoc; cbn [app]; exact L]). cbn [obind]. rewrite <- !app_assoc. reflexivity.
  - set (ds := d :: ds') in *. change (or0 ds) with ds in *.
    assert (Hw : chars ds <> []) by (intros X; subst ds; discriminate X).
    destruct (prefix_ok (chars ds) 46 (chars fs ++ c :: q) Hw ltac:(unfold run_char; lia)) as (b1 & b2 & E1 & E2 & E3). rewrite hexb_digits in E3 by easy.
    unfold scan. replace (rd (chars ds ++ 46 :: chars fs ++ c :: q) 0) with (Some (48 + d)) by reflexivity. cbn [obind].
    assert (Hd : dig d) by (subst ds; now inversion D). unfold dig in Hd. destruct (Z.eqb_spec (48 + d) 46); [lia|]. rewrite E1, E2. cbn [obind]. rewrite E3. rewrite lower_x by lia. cbn [andb].
    rewrite fresh_copy' by (first [apply run_forall, chars_run; easy|reflexivity|rewrite !app_length in *; lia]). cbn [obind]. unfold rd at 1. cbn [nth_error obind]. change (46 =? 46) with true. cbn match.
    rewrite fresh_wr by (rewrite !app_length in *; cbn [List.length] in L; lia). cbn [obind tl].
    replace (S (List.length (kept neg ++ chars ds))) with (List.length ((kept neg ++ chars ds) ++ [46])) by (rewrite app_length; cbn; lia).
    rewrite fresh_copy'. 2: now apply chars_digit. 2: exact Hc.
    2: { rewrite !app_length in *. cbn [List.length] in *. rewrite !chars_len in *. destruct fs; cbn [or0 List.length] in *; lia. }
    cbn [obind]. destruct fs as [|f fs'].
    + cbn [chars map]. rewrite app_nil_r, Nat.eqb_refl. rewrite fresh_wr by (rewrite !app_length in *; cbn [List.length chars map or0] in *; lia). cbn [obind has_lead]. rewrite <- !app_assoc. reflexivity.
    + replace (_ =? _)%nat with false by (symmetry; apply Nat.eqb_neq; rewrite !app_length; cbn [List.length chars map]; lia). cbn [obind]. rewrite <- !app_assoc. reflexivity.
Qed.
Lemma scan_real_none neg ds fs c q : Forall dig ds -> Forall dig fs -> ds ++ fs <> [] -> char_is_digit c = false -> (48 < List.length (real_text neg ds fs))%nat ->
  scan (chars ds ++ 46 :: chars fs ++ c :: q) (fresh (kept neg)) (List.length (kept neg)) = None.
Proof.
  intros D F NE Hc L. unfold real_text in *. fold (kept neg) in *. destruct ds as [|d ds'].
  - cbn [or0 chars map app] in *. change (48 + 0) with 48 in *. assert (Ef : or0 fs = fs) by (destruct fs; easy). rewrite Ef in *.
    unfold scan. cbn [rd nth_error obind]. change (46 =? 46) with true. cbn match.
    rewrite fresh_wr by (destruct neg; cbn; lia). cbn [obind]. replace (S (List.length (kept neg))) with (List.length (kept neg ++ [48])) by (rewrite app_length; cbn; lia).
    rewrite fresh_wr by (destruct neg; cbn; lia). cbn [obind tl]. replace (S (List.length (kept neg ++ [48]))) with (List.length ((kept neg ++ [48]) ++ [46])) by (rewrite app_length; cbn; lia).
    rewrite fresh_copy_none'; [reflexivity|now apply chars_digit|rewrite <- !app_assoc; exact L|destruct neg; cbn; lia].
  - set (ds := d :: ds') in *. change (or0 ds) with ds in *.
    assert (Hw : chars ds <> []) by (intros X; subst ds; discriminate X).
    destruct (prefix_ok (chars ds) 46 (chars fs ++ c :: q) Hw ltac:(unfold run_char; lia)) as (b1 & b2 & E1 & E2 & E3). rewrite hexb_digits in E3 by easy.
    unfold scan. replace (rd (chars ds ++ 46 :: chars fs ++ c :: q) 0) with (Some (48 + d)) by reflexivity. cbn [obind].
    assert (Hd : dig d) by (subst ds; now inversion D). unfold dig in Hd. destruct (Z.eqb_spec (48 + d) 46); [lia|]. rewrite E1, E2. cbn [obind]. rewrite E3. rewrite lower_x by lia. cbn [andb].
    destruct (Nat.leb_spec (List.length (kept neg ++ chars ds)) 48) as [L1|L1]; [|rewrite fresh_copy_none' by (first [apply run_forall, chars_run; easy|easy|destruct neg; cbn; lia]); reflexivity].
    rewrite fresh_copy' by (first [apply run_forall, chars_run; easy|reflexivity|easy]). cbn [obind]. unfold rd at 1. cbn [nth_error obind]. change (46 =? 46) with true. cbn match.
    destruct (Nat.leb_spec 48 (List.length (kept neg ++ chars ds))) as [L2|L2]; [rewrite fresh_wr_none by easy; reflexivity|].
    rewrite fresh_wr by easy. cbn [obind tl].
    replace (S (List.length (kept neg ++ chars ds))) with (List.length ((kept neg ++ chars ds) ++ [46])) by (rewrite app_length; cbn; lia).
    destruct (Nat.leb_spec (List.length (((kept neg ++ chars ds) ++ [46]) ++ chars fs)) 48) as [L3|L3].
    2: { rewrite fresh_copy_none'; [reflexivity|now apply chars_digit|easy|rewrite !app_length in *; cbn [List.length] in *; lia]. }
    rewrite fresh_copy' by (first [now apply chars_digit|easy]). cbn [obind].
    destruct fs as [|f fs'].
    + cbn [chars map]. rewrite app_nil_r, Nat.eqb_refl. rewrite fresh_wr_none by (rewrite !app_length in *; cbn [List.length chars map or0] in *; lia). reflexivity.
    + exfalso. rewrite !app_length in *. cbn [List.length or0] in *. lia.
Qed.
(** the parts of the buffer *)
Lemma skip_point t r : ~ In 0 t -> ~ In 46 t -> str_skip (t ++ 46 :: r) 46 = Some (List.length t).
Proof.
  induction t as [|c t IH]; intros H0 H1; cbn [app str_skip List.length].
  - reflexivity.
  - destruct (Z.eqb_spec c 0) as [->|]; [exfalso; apply H0; now left|]. destruct (Z.eqb_spec c 46) as [->|]; [exfalso; apply H1; now left|]. cbn [negb andb].
    rewrite IH; [reflexivity|intros X; apply H0; now right|intros X; apply H1; now right].
Qed.
Lemma count_ok fs r : forall n, Forall dig fs -> 0 <= n -> n + Z.of_nat (List.length fs) < 256 -> count_zeros (chars fs ++ 0 :: r) n = Some (n + Z.of_nat (zeros fs)).
Proof.
  induction fs as [|f fs IH]; intros n F Hn L; cbn [chars map app count_zeros zeros List.length] in *.
  - change (0 =? 48) with false. cbn match. f_equal. lia.
  - inversion F; subst. unfold dig in *. destruct (Z.eqb_spec (48 + f) 48), (Z.eqb_spec f 0); try lia.
    + unfold u8. rewrite Z.mod_small by lia. change (map (fun d => 48 + d) fs) with (chars fs). rewrite IH by (try easy; lia). f_equal. lia.
    + f_equal. lia.
Qed.
Lemma until_ok t r : ~ In 0 t -> until_nul (t ++ 0 :: r) = Some t.
Proof.
  induction t as [|c t IH]; intros H; cbn [app until_nul]; [reflexivity|]. destruct (Z.eqb_spec c 0) as [->|]; [exfalso; apply H; now left|].
  rewrite IH; [reflexivity|]. intros X. apply H. now right.
Qed.
Lemma chars_not ds c : Forall dig ds -> ~ 48 <= c <= 57 -> ~ In c (chars ds).
Proof. intros D N I. unfold chars in I. apply in_map_iff in I. destruct I as (d & E & I). rewrite Forall_forall in D. specialize (D d I). unfold dig in D. lia. Qed.
Lemma lead_self ds : Forall dig ds -> leading ds (chars ds).
Proof. intros D. split; [easy|]. exists []. rewrite app_nil_r. split; [easy|]. intros c q X. discriminate X. Qed.
Lemma no_0x ds : Forall dig ds -> ~ exists r, chars ds = 48 :: 120 :: r /\ r <> [].
Proof. intros D (r & E & _). assert (I : In 120 (chars ds)) by (rewrite E; cbn; tauto). revert I. apply chars_not; [easy|lia]. Qed.
Lemma sx4_mod x y : x mod 16 = y mod 16 -> sx 4 x = sx 4 y.
Proof. intros H. unfold sx. change (2 ^ 4) with 16. now rewrite H. Qed.
Lemma sx_mod w x : 0 < w -> (sx w x) mod 2 ^ w = x mod 2 ^ w.
Proof.
  intros Hw. unfold sx. assert (0 < 2 ^ w) by (apply Z.pow_pos_nonneg; lia). destruct (_ <? _); [apply Z.mod_mod; lia|].
  rewrite Zminus_mod, Z_mod_same_full, Z.sub_0_r, !Z.mod_mod by lia. reflexivity.
Qed.
Lemma exp4_ok (tenth : bool) es : sx 4 (if exp8 es =? 0 then 0 else if tenth then i8 (- exp8 es) else exp8 es) = exp4 tenth es.
Proof.
  unfold exp4. destruct (Z.eqb_spec (exp8 es) 0) as [->|]; [now destruct tenth|]. destruct tenth; [|reflexivity]. cbn [signed]. apply sx4_mod.
  pose proof (sx_mod 8 (- exp8 es) ltac:(lia)) as E. change (2 ^ 8) with 256 in E. fold (i8 (- exp8 es)) in E.
  assert (G : forall a, a mod 16 = (a mod 256) mod 16) by (intros a; apply Zmod_div_mod; [lia|lia|exists 16; reflexivity]).
  rewrite (G (i8 _)), E, <- G. reflexivity.
Qed.
Lemma real_fits neg ds fs : Forall dig ds -> Forall dig fs -> (List.length (real_text neg ds fs) <= 47)%nat ->
  exists pad, fresh (real_text neg ds fs) = (kept neg ++ chars (or0 ds)) ++ 46 :: chars (or0 fs) ++ 0 :: pad.
Proof.
  intros D F L. rewrite fresh_nul by easy. eexists. unfold real_text. fold (kept neg). rewrite <- !app_assoc. reflexivity.
Qed.
Lemma finish_real {A} s neg ds fs props lead ex tenth es c x : Forall dig ds -> Forall dig fs -> expo ex tenth es -> ends c -> (List.length (real_text neg ds fs) <= 47)%nat ->
  finish (A := A) s (Some (ex ++ c :: x, fresh (real_text neg ds fs), true, props, lead)) =
  if (List.length es <=? 5)%nat && (number 10 ds <? 2^63) && (number 10 fs <? 2^63) then
    Some (Some (if exp8 es =? 0 then props else PROPS_IS_EXP, VReal (RText (real_text neg ds fs) tenth (Z.to_nat (exp8 es)))
      (Analysis (i32 (signed neg (number 10 ds))) (i32 (number 10 fs)) (Z.of_nat (zeros (or0 fs)) mod 16) (exp4 tenth es) ((i32 (signed neg (number 10 ds)) =? 0) && neg) lead)),
      (List.length s - List.length (c :: x))%nat)
  else None.
Proof.
  intros D F He Hc L. destruct (tail_char ex tenth es c x He Hc) as (c' & q & Eq & _ & N46).
  cbn [finish]. rewrite (exp_ok ex tenth es c x He Hc), Eq. cbn [rd nth_error obind]. destruct (Z.eqb_spec c' 46); [easy|].
  destruct (Nat.leb_spec (List.length es) 5); [|reflexivity]. cbn [obind andb].
  pose proof (or0_dig _ D) as D'. pose proof (or0_dig _ F) as F'.
  destruct (real_fits neg ds fs D F L) as (pad & E). rewrite E at 1.
  assert (exists a r, chars (or0 ds) = a :: r /\ a <> 45) as (a & r & Ea & Na).
  { destruct ds as [|d ds]; [do 2 eexists; split; [reflexivity|easy]|]. do 2 eexists. split; [reflexivity|]. inversion D; subst. unfold dig in *. lia. }
  destruct (head_char neg _ a r Ea Na) as (b & q2 & Eb & Nb). rewrite Eb at 1. cbn [app obind]. rewrite Nb.
  rewrite E at 1. rewrite skip_point.
  2: { intros I. apply in_app_or in I. destruct I as [I|I]; [destruct neg; [destruct I as [I|[]]; discriminate I|easy]|]. revert I. apply chars_not; [easy|lia]. }
  2: { intros I. apply in_app_or in I. destruct I as [I|I]; [destruct neg; [destruct I as [I|[]]; discriminate I|easy]|]. revert I. apply chars_not; [easy|lia]. }
  cbn [obind]. rewrite E at 1. rewrite wr_at. cbn [obind].
  replace (skipn (S (List.length (kept neg ++ chars (or0 ds)))) ((kept neg ++ chars (or0 ds)) ++ 0 :: chars (or0 fs) ++ 0 :: pad)) with (chars (or0 fs) ++ 0 :: pad).
  2: { change (0 :: chars (or0 fs) ++ 0 :: pad) with ([0] ++ chars (or0 fs) ++ 0 :: pad). rewrite app_assoc. replace (S (List.length (kept neg ++ chars (or0 ds)))) with (List.length ((kept neg ++ chars (or0 ds)) ++ [0])) by (rewrite (app_length _ [0]); cbn [List.length]; lia). now rewrite skipn_len. }
  assert (Lf : (List.length (or0 fs) <= 47)%nat) by (unfold real_text in L; rewrite !app_length in L; cbn [List.length] in L; rewrite !chars_len in L; lia).
  rewrite count_ok by (try easy; lia). cbn [obind].
  destruct (to_i64_dec neg (chars (or0 ds)) (or0 ds) (chars (or0 fs) ++ 0 :: pad) (chars_run _ D') (lead_self _ D') ltac:(intros _; now apply no_0x)) as (m1 & ->).
  destruct (to_i64_dec false (chars (or0 fs)) (or0 fs) pad (chars_run _ F') (lead_self _ F') ltac:(intros _; now apply no_0x)) as (m2 & E2). cbn [kept app] in E2. rewrite E2.
  rewrite !or0_num. destruct (number 10 ds <? 2^63); [|reflexivity]. cbn [obind andb]. destruct (number 10 fs <? 2^63); [|reflexivity]. cbn [obind signed].
  rewrite exp4_ok. rewrite E at 1.
  replace ((kept neg ++ chars (or0 ds)) ++ 46 :: chars (or0 fs) ++ 0 :: pad) with (real_text neg ds fs ++ 0 :: pad) by (unfold real_text; fold (kept neg); now rewrite <- !app_assoc).
  rewrite until_ok; [reflexivity|].
  unfold real_text. fold (kept neg). intros I. apply in_app_or in I. destruct I as [I|I]; [destruct neg; [destruct I as [I|[]]; discriminate I|easy]|]. apply in_app_or in I. destruct I as [I|I]; [revert I; apply chars_not; [easy|lia]|].
  destruct I as [I|I]; [discriminate I|]. revert I. apply chars_not; [easy|lia].
Qed.
Lemma real_eq {A} sg neg ds fs ex tenth es c x : sign_text sg neg -> Forall dig ds -> Forall dig fs -> ds ++ fs <> [] -> expo ex tenth es -> ends c ->
  (List.length (real_text neg ds fs) <= 47)%nat ->
  parse_number (A := A) (sg ++ chars ds ++ 46 :: chars fs ++ ex ++ c :: x) =
  if (List.length es <=? 5)%nat && (number 10 ds <? 2^63) && (number 10 fs <? 2^63) then
    Some (Some (real_props ds es, VReal (RText (real_text neg ds fs) tenth (Z.to_nat (exp8 es)))
      (Analysis (i32 (signed neg (number 10 ds))) (i32 (number 10 fs)) (Z.of_nat (zeros (or0 fs)) mod 16) (exp4 tenth es) ((i32 (signed neg (number 10 ds)) =? 0) && neg) (has_lead ds))),
      List.length (sg ++ chars ds ++ 46 :: chars fs ++ ex))
  else None.
Proof.
  intros Sg D F NE He Hc L. destruct (tail_char ex tenth es c x He Hc) as (c' & q & Eq & Nd & N46).
  assert (Hd : forall d, dig d -> char_is_hex_digit (48 + d) = true) by (intros d H; unfold char_is_hex_digit, char_is_digit; unfold dig in H; lia).
  assert (exists f r, chars ds ++ 46 :: chars fs ++ ex ++ c :: x = f :: r /\ (char_is_hex_digit f = true \/ f = 46) /\ f <> 101 /\ f <> 69 /\ (f = 46 -> exists g q', r = g :: q' /\ char_is_hex_digit g = true)) as (f & r & Ef & Hf & N1 & N2 & N3).
  { destruct ds as [|d ds].
    - cbn [chars map app]. do 2 eexists. split; [reflexivity|]. split; [now right|]. repeat split; try easy. intros _. destruct fs as [|g fs]; [easy|]. inversion F; subst. cbn [map app]. do 2 eexists. split; [reflexivity|auto].
    - inversion D; subst. cbn [chars map app]. do 2 eexists. split; [reflexivity|]. split; [left; auto|]. unfold dig in *. repeat split; try lia. }
  rewrite (head_ok sg neg _ f r) by (try easy; intros; easy). rewrite Eq, (scan_real neg ds fs c' q) by (try easy; lia). cbn [obind]. rewrite <- Eq.
  rewrite (finish_real _ neg ds fs _ _ ex tenth es c x) by easy.
  destruct (_ && _); [|reflexivity]. f_equal. f_equal. rewrite !app_length. cbn [List.length]. rewrite !app_length. cbn [List.length]. lia.
Qed.
Lemma real_long {A} sg neg ds fs ex tenth es c x : sign_text sg neg -> Forall dig ds -> Forall dig fs -> ds ++ fs <> [] -> expo ex tenth es -> ends c ->
  (48 <= List.length (real_text neg ds fs))%nat -> parse_number (A := A) (sg ++ chars ds ++ 46 :: chars fs ++ ex ++ c :: x) = None.
Proof.
  intros Sg D F NE He Hc L. destruct (tail_char ex tenth es c x He Hc) as (c' & q & Eq & Nd & N46).
  assert (Hd : forall d, dig d -> char_is_hex_digit (48 + d) = true) by (intros d H; unfold char_is_hex_digit, char_is_digit; unfold dig in H; lia).
  assert (exists f r, chars ds ++ 46 :: chars fs ++ ex ++ c :: x = f :: r /\ (char_is_hex_digit f = true \/ f = 46) /\ f <> 101 /\ f <> 69 /\ (f = 46 -> exists g q', r = g :: q' /\ char_is_hex_digit g = true)) as (f & r & Ef & Hf & N1 & N2 & N3).
  { destruct ds as [|d ds].
    - cbn [chars map app]. do 2 eexists. split; [reflexivity|]. split; [now right|]. repeat split; try easy. intros _. destruct fs as [|g fs]; [easy|]. inversion F; subst. cbn [map app]. do 2 eexists. split; [reflexivity|auto].
    - inversion D; subst. cbn [chars map app]. do 2 eexists. split; [reflexivity|]. split; [left; auto|]. unfold dig in *. repeat split; try lia. }
  rewrite (head_ok sg neg _ f r) by (try easy; intros; easy). rewrite Eq.
  destruct (Nat.eq_dec (List.length (real_text neg ds fs)) 48) as [E48|N48]; [|rewrite scan_real_none by (try easy; lia); reflexivity].
  rewrite (scan_real neg ds fs c' q) by (try easy; lia). cbn [obind]. rewrite <- Eq. cbn [finish].
  rewrite Eq. cbn [rd nth_error obind]. destruct (Z.eqb_spec c' 46); [easy|]. destruct (parse_exp _) as [((e', exp), tn)|]; [|reflexivity]. cbn [obind].
  pose proof (or0_dig _ D) as D'. pose proof (or0_dig _ F) as F'.
  assert (E : fresh (real_text neg ds fs) = (kept neg ++ chars (or0 ds)) ++ 46 :: chars (or0 fs)).
  { unfold fresh. rewrite E48. cbn [Nat.sub repeat]. rewrite app_nil_r. unfold real_text. fold (kept neg). now rewrite <- !app_assoc. }
  rewrite E. destruct (match _ with [] => None | x0 :: _ => Some x0 end) as [b0|]; [|reflexivity]. cbn [obind].
  rewrite skip_point.
  2: { intros I. apply in_app_or in I. destruct I as [I|I]; [destruct neg; [destruct I as [I|[]]; discriminate I|easy]|]. revert I. apply chars_not; [easy|lia]. }
  2: { intros I. apply in_app_or in I. destruct I as [I|I]; [destruct neg; [destruct I as [I|[]]; discriminate I|easy]|]. revert I. apply chars_not; [easy|lia]. }
  cbn [obind]. rewrite wr_at. cbn [obind].
  replace (skipn (S (List.length (kept neg ++ chars (or0 ds)))) ((kept neg ++ chars (or0 ds)) ++ 0 :: chars (or0 fs))) with (chars (or0 fs)).
  2: { change (0 :: chars (or0 fs)) with ([0] ++ chars (or0 fs)). rewrite app_assoc. replace (S (List.length (kept neg ++ chars (or0 ds)))) with (List.length ((kept neg ++ chars (or0 ds)) ++ [0])) by (rewrite (app_length _ [0]); cbn [List.length]; lia). now rewrite skipn_len. }
  destruct (count_zeros _ _); [|reflexivity]. cbn [obind]. destruct (str_to_i64 _ 0) as [(v1, m1)|]; [|reflexivity]. cbn [obind].
  replace (str_to_i64 (chars (or0 fs)) 0) with (@None (Z * nat)); [reflexivity|]. unfold str_to_i64, guess_base. change (0 =? 0) with true. cbn match.
  assert (SL : forall s, ~ In 0 s -> strlen s = None).
  { induction s as [|c0 s IH]; intros N; [reflexivity|]. cbn [strlen]. destruct (Z.eqb_spec c0 0) as [->|]; [exfalso; apply N; now left|]. rewrite IH; [easy|]. intros I. apply N. now right. }
  rewrite SL; [reflexivity|]. apply chars_not; [easy|lia].
Qed.
