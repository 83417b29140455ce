(** Writing numbers of documents. *)
From Coq Require Import String Reals.
From Verif Require Import Base CStr CStrSpec CStrProofs Num NumSpec NumProofs PropNum Float FloatSpec Print PrintSpec PrintFSpec PrintProofs PrintProofs2 PrintProofs3 PrintProofs4 PropPrint Node NodeProofs AdtNumSpec AdtNumProofs AdtNumProofs2.
Open Scope Z_scope. Open Scope list_scope.

(** "%0*d" of 0 with [n]: [n] zeros, also for 0 *)
Definition zeros_dir (n : Z) : fpiece := Old (Dir false true (Star n) Absent (Int Snone Id 0)).
Lemma zeros_item n : (n < 256)%nat -> item (zeros_dir (Z.of_nat n)) (repeat 48 n).
Proof.
  intros Hn. unfold zeros_dir, item. cbn [fpiece_text fpiece_args fcases]. split; [cbn [piece_text]; eauto|]. intros rest a old r remaining va L M HC.
  destruct n as [|n].
  - destruct old; [|discriminate L]. exists r. split; [|apply keeps_refl]. cbn [repeat List.length app] in *. rewrite app_nil_r, Z.sub_0_r.
    cbn [piece_text num_text size_text subject_text conv_text app piece_args num_args subject_args Z.of_nat].
    unfold round. rewrite lit_stop by eauto. cbn [obind rd nth_error tl]. change (37 =? 37) with true. cbn match.
    assert (E1 : flags_loop (48 :: 42 :: 100 :: rest) 0 = Some (42 :: 100 :: rest, Z.lor FMT_ZERO FMT_WIDTH)) by reflexivity. rewrite E1. cbn [obind].
    assert (E2 : get_width (42 :: 100 :: rest) (Z.lor FMT_ZERO FMT_WIDTH) (AInt 0 :: AInt 0 :: va) = Some (0, 100 :: rest, Z.lor FMT_ZERO FMT_WIDTH, AInt 0 :: va)) by reflexivity. rewrite E2. cbn [obind].
    assert (E3 : forall fl, get_precision (100 :: rest) fl (AInt 0 :: va) = Some (-1, 100 :: rest, fl, AInt 0 :: va)) by reflexivity. rewrite E3. cbn [obind].
    assert (E4 : forall fl, get_length (100 :: rest) fl = Some (100 :: rest, fl)) by reflexivity. rewrite E4. cbn [obind].
    assert (E5 : forall t, convert (100 :: rest) (Z.lor FMT_ZERO FMT_WIDTH) 0 (-1) t remaining (AInt 0 :: va) = Some (t, 0, rest, va)).
    { intros t. unfold convert. cbn [rd nth_error obind].
      replace (Print.int_conv 100 (Z.lor FMT_ZERO FMT_WIDTH)) with (Some (10, Z.lor FMT_ZERO FMT_WIDTH)) by reflexivity.
      replace (get_int (Z.lor FMT_ZERO FMT_WIDTH) (AInt 0 :: va)) with (Some (0, va)) by reflexivity. cbn [obind].
      change (has (Z.lor FMT_ZERO FMT_WIDTH) FMT_UNSIGNED) with false. cbn match. unfold print_i64.
      assert (E6 : exists num, i64_to_str 0 num_buf 10 = Some num /\ exists q, num = 48 :: 0 :: q) by (eexists; split; [vm_compute; reflexivity|eauto]).
      cbn [base]. destruct E6 as (num & -> & q & ->). reflexivity. }
    rewrite E5. cbn [obind Z.to_nat]. rewrite Nat.add_0_r, Z.sub_0_r, firstn_skipn. destruct (Z.leb_spec remaining 0); [cbn in M; lia|]. reflexivity.
  - apply round_dir; [|easy|easy|easy]. split; [|split; [exact I|]].
    + split; cbn; lia.
    + exists [48]. split.
      * cbn. split; [easy|]. exists [48]. split; [|reflexivity]. exists [0]. split; [split; [repeat constructor; lia|now left]|]. split; reflexivity.
      * cbn [PrintSpec.value apply_precision andb]. unfold apply_width. cbn [orb]. destruct (Z.ltb_spec (Z.of_nat (S n)) 0); [lia|].
        transitivity (repeat 48 n ++ [48]); [exact (repeat_cons n 48)|]. f_equal. f_equal. change (Datatypes.length [48]) with 1%nat. lia.
Qed.
Lemma rendered_item x t : rendered x t -> item (Old x) t.
Proof.
  destruct x as [s|lft zero w p x]; intros P; [exact P|]. split; [cbn [fpiece_text piece_text]; eauto|]. intros rest a old r remaining va L M HC. now apply round_dir.
Qed.
Lemma snprintf_items ps texts N max : Forall2 item ps texts -> Z.of_nat (List.length (concat texts)) + 1 < max -> Z.of_nat N = max ->
  exists r, snprintf (repeat 0 N) max (ftext_of ps ++ [0]) (fargs_of ps) = Some (concat texts ++ 0 :: r, Z.of_nat (List.length (concat texts)) + 1).
Proof.
  intros H L HN. unfold snprintf. set (n := List.length (concat texts)) in *.
  replace (repeat 0 N) with ([] ++ repeat 0 n ++ repeat 0 (N - n)) by (cbn [app]; rewrite <- repeat_app; f_equal; lia).
  assert (P0 : exists k, (N - n)%nat = S k) by (exists (N - n - 1)%nat; lia). destruct P0 as (k & ->).
  destruct (rounds_items [] ps texts H [] (repeat 0 n) (repeat 0 (S k)) max []) as (r' & rem & R & K).
  - now rewrite repeat_length.
  - fold n. lia.
  - intros _. now left.
  - rewrite app_nil_r in R. rewrite app_length. rewrite (rounds_more _ _ _ _ R). cbn [obind app].
    pose proof (keeps_len _ _ K) as Lk. destruct r' as [|o r']; [discriminate Lk|]. rewrite wr_at. cbn [obind].
    exists r'. fold n. destruct (Z.leb_spec max (Z.of_nat (S n))); [lia|]. do 2 f_equal. lia.
Qed.
Lemma fprintf_items ps texts : Forall2 item ps texts -> Z.of_nat (List.length (concat texts)) + 1 < PRINTF_MAXLEN ->
  fprintf (ftext_of ps) (fargs_of ps) = Some (concat texts).
Proof.
  intros H L. unfold fprintf. destruct (snprintf_items ps texts (Z.to_nat PRINTF_MAXLEN) PRINTF_MAXLEN H L) as (r & E); [apply Z2Nat.id; discriminate|].
  rewrite E. cbn [obind]. destruct (Z.ltb_spec (Z.of_nat (List.length (concat texts)) + 1) 1); [lia|].
  f_equal. replace (Z.to_nat _) with (List.length (concat texts)) by lia. apply firstn_len.
Qed.
Lemma lld_item v t : - 2^63 < v < 2^63 -> numeral 10 v t -> item (Old (Dir false false Absent Absent (Int Sll Id v))) t.
Proof.
  intros Hv Nt. apply rendered_item. split; [easy|]. split; [exact I|]. exists t. split.
  - cbn. rewrite (sx_id 64 v) by lia. split; [lia|]. now exists t.
  - unfold apply_width. cbn. destruct (Datatypes.length t); reflexivity.
Qed.
Lemma lit_item s : cstring s -> ~ In 37 s -> item (Old (Lit s)) s.
Proof. intros. apply rendered_item. now apply rd_lit. Qed.
(** "0x%llx" *)
Lemma fprintf_hex v t : 0 <= v < 2^63 -> numeral 16 v t -> fprintf (asc "0x%llx") [AInt v] = Some (48 :: 120 :: map hex_lower t).
Proof.
  intros Hv Nt. pose proof (fprintf_items [Old (Lit [48; 120]); Old (Dir false false Absent Absent (Int Sll Ix v))] [[48; 120]; map hex_lower t]) as H.
  cbn [concat] in H. rewrite !app_nil_r in H. apply H.
  - constructor; [apply lit_item; [repeat constructor; lia|cbn; lia]|]. constructor; [|constructor]. apply rendered_item. split; [easy|]. split; [exact I|]. exists (map hex_lower t). split.
    + cbn. rewrite Z.mod_small by lia. split; [lia|]. now exists t.
    + unfold apply_width. cbn. destruct (Datatypes.length _); reflexivity.
  - rewrite app_length, map_length. cbn [List.length]. destruct Nt as (ds & (F & C) & N & ->). rewrite app_length, map_length.
    assert (Ln : (List.length ds <= 16)%nat).
    { destruct C as [->|(d & r & -> & D)]; [cbn; lia|]. cbn [List.length].
      assert (F' : Forall (fun d => 0 <= d) r) by (inversion F; subst; eapply Forall_impl; [|eassumption]; cbn; lia).
      pose proof (numfrom_pow 16 ltac:(lia) r d F' ltac:(lia)) as P. change (number 16 (d :: r)) with (numfrom 16 d r) in N.
      destruct (Nat.leb_spec (List.length r) 15) as [|G]; [lia|]. exfalso.
      assert (16 ^ 16 <= 16 ^ Z.of_nat (List.length r)) by (apply Z.pow_le_mono_r; lia).
      assert (2^63 < 16^16) by reflexivity. nia. }
    unfold PRINTF_MAXLEN. destruct (v <? 0); cbn [List.length]; lia.
Qed.
Lemma num_len v t : - 2^63 < v < 2^63 -> numeral 10 v t -> Z.of_nat (List.length t) <= 20.
Proof. intros. pose proof (numeral_len v t). intuition lia. Qed.
(** "%lld.%0*d%llde%lld" *)
Lemma fprintf_exp b bt n f ft e et : - 2^63 < b < 2^63 -> numeral 10 b bt -> (n < 256)%nat -> - 2^63 < f < 2^63 -> numeral 10 f ft -> - 2^63 < e < 2^63 -> numeral 10 e et ->
  fprintf (asc "%lld.%0*d%llde%lld") [AInt b; AInt (Z.of_nat n); AInt 0; AInt f; AInt e] = Some (bt ++ 46 :: repeat 48 n ++ ft ++ 101 :: et).
Proof.
  intros Hb Nb Hn Hf Nf He Ne.
  pose proof (fprintf_items [Old (Dir false false Absent Absent (Int Sll Id b)); Old (Lit [46]); zeros_dir (Z.of_nat n); Old (Dir false false Absent Absent (Int Sll Id f)); Old (Lit [101]); Old (Dir false false Absent Absent (Int Sll Id e))]
    [bt; [46]; repeat 48 n; ft; [101]; et]) as H.
  cbn [concat app] in H. rewrite !app_nil_r in H. apply H.
  - repeat match goal with |- Forall2 _ _ _ => constructor end; first [apply lld_item; easy|now apply zeros_item|apply lit_item; [constructor; [lia|constructor]|cbn; lia]].
  - pose proof (num_len _ _ Hb Nb). pose proof (num_len _ _ Hf Nf). pose proof (num_len _ _ He Ne). unfold PRINTF_MAXLEN. rewrite !app_length. cbn [List.length]. rewrite !app_length, repeat_length. cbn [List.length]. lia.
Qed.
(** ".%0*d%lld" *)
Lemma fprintf_point n f ft : (n < 256)%nat -> - 2^63 < f < 2^63 -> numeral 10 f ft ->
  fprintf (asc ".%0*d%lld") [AInt (Z.of_nat n); AInt 0; AInt f] = Some (46 :: repeat 48 n ++ ft).
Proof.
  intros Hn Hf Nf.
  pose proof (fprintf_items [Old (Lit [46]); zeros_dir (Z.of_nat n); Old (Dir false false Absent Absent (Int Sll Id f))] [[46]; repeat 48 n; ft]) as H.
  cbn [concat app] in H. rewrite !app_nil_r in H. apply H.
  - repeat match goal with |- Forall2 _ _ _ => constructor end; first [apply lld_item; easy|now apply zeros_item|apply lit_item; [constructor; [lia|constructor]|cbn; lia]].
  - pose proof (num_len _ _ Hf Nf). unfold PRINTF_MAXLEN. cbn [List.length]. rewrite !app_length, repeat_length. lia.
Qed.
