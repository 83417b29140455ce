From Verif Require Import Base CStr CStrSpec CStrProofs Num NumSpec NumProofs PropNum Print PrintSpec PrintProofs PrintProofs2 PropPrint Bits BitsSpec PropBits Array ArraySpec ArrayProofs FStream FStreamSpec FStreamProofs Tar TarSpec TarProofs.

(** * Packing *)
Definition len (l : list Z) : Z := Z.of_nat (length l).
Definition at_end (d : stream) (c : list Z) : Prop := srep d (File c (len c)) /\ kind_of d = Growing.
Lemma append_ok d c x : at_end d c -> len c + len x < 2^63 -> exists d', file_write true d x = Some (true, d') /\ at_end d' (c ++ x).
Proof.
  intros (S & K) L. destruct (call_ok true (FWrite x) d _ S) as (r & d' & f' & E & F & S' & K'); [exact L|]. cbn [call] in E.
  destruct (file_write true d x) as [(b & d1)|]; [|easy]. cbn [obind] in E. injection E as Er ->. subst r. rewrite K in F.
  inversion F as [ok c0 p data Q|ok c0 p data Q| | | | | | | | ]; subst; [|destruct Q as [Q|(_ & Q)]; easy].
  exists d'. split; [easy|]. cbn [written] in S'. unfold len in *.
  replace (splice c (Z.of_nat (length c)) x) with (c ++ x) in S' by (rewrite <- (splice_ext c [] (Z.of_nat (length c)) x); rewrite ?app_nil_r; easy || cbn; lia).
  rewrite app_length, Nat2Z.inj_add, Z.min_id in S'. split; [|congruence]. unfold len. now rewrite app_length, Nat2Z.inj_add.
Qed.
Lemma rounded_spec n r : least_multiple_from 512 n r -> r = rounded n.
Proof.
  intros ((k & ->) & L & M). unfold rounded. pose proof (Z.div_mod (n + 511) 512 ltac:(lia)). pose proof (Z.mod_pos_bound (n + 511) 512 ltac:(lia)).
  specialize (M ((n + 511) / 512)). lia.
Qed.
Lemma rounded_bounds n : 0 <= n -> n <= rounded n < n + 512.
Proof. intros H. unfold rounded. pose proof (Z.div_mod (n + 511) 512 ltac:(lia)). pose proof (Z.mod_pos_bound (n + 511) 512 ltac:(lia)). lia. Qed.
Lemma align_ok n : 0 <= n < 2^31 -> align_forward_i64 n 512 = Some (rounded n).
Proof.
  intros H. destruct (C02_align_forward_i64 n 512) as (r & E & L); unfold in_i64; try lia.
  - pose proof (Z.rem_bound_pos n 512 ltac:(lia) ltac:(lia)). lia.
  - pose proof (Z.mod_pos_bound (512 - n mod 512) 512 ltac:(lia)). lia.
  - now rewrite E, (rounded_spec n r).
Qed.
Lemma copy_ok : forall fuel d c u v, at_end d c -> len c + len v < 2^63 -> (length v < fuel)%nat -> exists d', copy_loop fuel [] d (u ++ v) (length u) (len v) = Some ([], d') /\ at_end d' (c ++ v).
Proof.
  induction fuel as [|n IH]; intros d c u v A L F; [lia|]. cbn [copy_loop]. rewrite skipn_len.
  destruct v as [|y v]; [exists d; split; [easy|now rewrite app_nil_r]|].
  set (w := y :: v) in *. assert (E : exists a b, w = a ++ b /\ firstn 4096 w = a /\ (0 < length a)%nat).
  { exists (firstn 4096 w), (skipn 4096 w). split; [symmetry; apply firstn_skipn|]. split; [easy|]. unfold w. cbn [firstn length]. lia. }
  destruct E as (a & b & E & -> & La). rewrite E in *. clear E w. cbn [next]. unfold len in *. rewrite app_length in *. destruct a as [|a0 a]; [cbn in La; lia|]. set (a1 := a0 :: a) in *. change (match a1 with [] => _ | _ => ?x end) with x.
  destruct (append_ok d c a1 A) as (d1 & -> & A1); [unfold len; lia|]. cbn [obind].
  replace (Z.of_nat (length a1 + length b) - Z.of_nat (length a1)) with (Z.of_nat (length b)) by lia.
  destruct (Z.ltb_spec 0 (Z.of_nat (length b))) as [Q|Q].
  - destruct (IH d1 (c ++ a1) (u ++ a1) b A1) as (d2 & E & A2); [rewrite app_length; lia|lia|]. rewrite <- !app_assoc in E, A2. rewrite app_length in E. exists d2. rewrite E. split; [easy|exact A2].
  - assert (b = []) by (destruct b; [easy|cbn in Q; lia]). subst b. rewrite app_nil_r. eauto.
Qed.
Lemma null_ok d c n : at_end d c -> 0 <= n -> len c + n < 2^63 -> exists d', write_null [] d n = Some (true, [], d') /\ at_end d' (c ++ repeat 0 (Z.to_nat n)).
Proof.
  intros A H L. unfold write_null. cbn [next]. destruct (append_ok d c (repeat 0 (Z.to_nat n)) A) as (d' & -> & A'); [unfold len in *; rewrite repeat_length; lia|]. cbn [obind]. eauto.
Qed.
Lemma layout_len e h : storable e -> layout e h -> length h = 512%nat.
Proof.
  intros (_ & Ln & _) (x & ts & y & tc & -> & Lx & Ly & Ls & Lc & _). rewrite !app_length, !padto_len, Lx, Ly by lia. cbn [length]. now rewrite repeat_length.
Qed.
Lemma padded_len d : len (padded_data d) = rounded (len d).
Proof. unfold padded_data, len. pose proof (rounded_bounds (Z.of_nat (length d)) ltac:(lia)). rewrite padto_len by lia. lia. Qed.
Definition good_entry (e : entry) (x : list Z) : Prop := exists h, header_of e h /\ layout e h /\ x = h ++ padded_data (e_data e).
Fixpoint size_of (es : list entry) : Z := match es with [] => 0 | e :: r => 512 + rounded (len (e_data e)) + size_of r end.
Lemma size_nonneg es : 0 <= size_of es.
Proof. induction es as [|e r IH]; cbn [size_of]; [lia|]. pose proof (rounded_bounds (len (e_data e)) ltac:(unfold len; lia)). unfold len in *. lia. Qed.
(** the file system holds the entries under their names *)
Definition holds (fs : list Z -> opened) (path : list Z) (e : entry) : Prop := path = e_name e ++ [0] /\ fs path = Opened (e_data e) (e_mtime e).
Lemma pack_loop_ok fs : forall paths es d c, Forall2 (holds fs) paths es -> Forall storable es -> at_end d c -> len c + size_of es < 2^63 ->
  exists d' xs, pack_loop fs [] d paths = Some (0, [], d') /\ Forall2 good_entry es xs /\ at_end d' (c ++ concat xs).
Proof.
  intros paths es d c H. revert d c. induction H as [|path e paths es (-> & Hf) H IH]; intros d c St A L.
  - exists d, []. cbn [concat]. rewrite app_nil_r. split; [easy|]. split; [constructor|easy].
  - apply Forall_cons_iff in St. destruct St as (Se & St). cbn [pack_loop]. rewrite Hf. cbn [size_of] in L. pose proof (size_nonneg es) as Q.
    destruct (header_ok e [] Se) as (h & -> & Hh & Hl). cbn [obind next]. pose proof (layout_len e h Se Hl) as Lh.
    pose proof (rounded_bounds (len (e_data e)) ltac:(unfold len; lia)) as B. pose proof Se as (_ & _ & Ld).
    destruct (append_ok d c h A) as (d1 & -> & A1); [unfold len in *; lia|]. cbn [obind].
    rewrite align_ok by lia. cbn [obind].
    destruct (copy_ok (S (length (e_data e))) d1 (c ++ h) [] (e_data e) A1) as (d2 & E & A2); [unfold len in *; rewrite app_length; lia|lia|].
    cbn [app length] in E. unfold len at 1 in E. rewrite E. cbn [obind]. fold (len (e_data e)).
    assert (W : exists d3, (if 0 <? rounded (len (e_data e)) - len (e_data e) then write_null [] d2 (rounded (len (e_data e)) - len (e_data e)) else Some (true, [], d2)) = Some (true, [], d3) /\ at_end d3 (c ++ h ++ padded_data (e_data e))).
    { unfold padded_data, padto. fold (len (e_data e)). rewrite <- app_assoc in A2. destruct (Z.ltb_spec 0 (rounded (len (e_data e)) - len (e_data e))) as [P|P].
      - destruct (null_ok d2 _ (rounded (len (e_data e)) - len (e_data e)) A2) as (d3 & -> & A3); [lia|unfold len in *; rewrite !app_length; lia|]. exists d3. split; [easy|].
        rewrite <- !app_assoc in A3. replace (Z.to_nat (rounded (len (e_data e))) - length (e_data e))%nat with (Z.to_nat (rounded (len (e_data e)) - len (e_data e))) by (unfold len in *; lia). easy.
      - exists d2. split; [easy|]. replace (Z.to_nat (rounded (len (e_data e))) - length (e_data e))%nat with O by (unfold len in *; lia). cbn [repeat]. now rewrite app_nil_r. }
    destruct W as (d3 & -> & A3). cbn [obind].
    destruct (IH d3 _ St A3) as (d4 & xs & -> & G & A4).
    { pose proof (padded_len (e_data e)). unfold len in *. rewrite !app_length. lia. }
    exists d4, ((h ++ padded_data (e_data e)) :: xs). split; [easy|]. split; [constructor; [exists h; easy|easy]|]. cbn [concat]. now rewrite <- !app_assoc in *.
Qed.
Lemma pack_ok fs paths es d : Forall2 (holds fs) paths es -> Forall storable es -> at_end d [] -> size_of es + 1024 < 2^63 ->
  exists d' xs, pack fs [] d paths = Some (0, d') /\ Forall2 good_entry es xs /\ at_end d' (concat xs ++ repeat 0 1024).
Proof.
  intros H St A L. destruct (pack_loop_ok fs paths es d [] H St A) as (d1 & xs & E & G & A1); [cbn; lia|]. unfold pack. rewrite E. cbn [obind Z.eqb].
  assert (Lx : len (concat xs) = size_of es).
  { clear - G St. induction G as [|e x es xs (h & _ & Hl & ->) G IH]; [easy|]. apply Forall_cons_iff in St. destruct St as (Se & St). cbn [concat size_of]. unfold len in *. rewrite !app_length.
    rewrite (layout_len e h Se Hl). specialize (IH St). pose proof (padded_len (e_data e)) as P. unfold len in P. lia. }
  destruct (null_ok d1 _ 1024 A1 ltac:(lia)) as (d2 & -> & A2); [cbn [app]; lia|]. cbn [obind]. exists d2, xs. split; [easy|]. split; [easy|]. exact A2.
Qed.

(** * Unpacking *)
Lemma octal_back v t n z : numeral 8 v t -> 0 <= v < 2^63 -> (length t < n)%nat -> exists k, str_to_i64 (padto n t ++ z) 8 = Some (v, k).
Proof.
  intros (ds & C & N & ->) Hv L. destruct (Z.ltb_spec v 0); [lia|]. cbn [app] in *. rewrite Z.abs_eq in N by lia. exists (length (map digit_char ds)).
  unfold padto. replace (n - length (map digit_char ds))%nat with (S (n - S (length (map digit_char ds)))) by lia. cbn [repeat]. rewrite <- app_assoc. cbn [app].
  assert (D : Forall2 (denotes 8) (map digit_char ds) ds) by (apply denotes_chars; [lia|apply C]).
  destruct (C41_i64_parse 8 _ ds 0 (repeat 0 (n - S (length (map digit_char ds))) ++ z) ltac:(lia) D) as (P & _); try easy.
  { intros d Hd. unfold denotes in Hd. lia. }
  rewrite <- N. apply P. lia.
Qed.
Lemma rd_in (a : list Z) x b : rd (a ++ x :: b) (length a) = Some x.
Proof. unfold rd. rewrite nth_error_app2 by lia. now rewrite Nat.sub_diag. Qed.
Definition rec_of (e : entry) (h : list Z) (pos : Z) : record := Rec 48 h pos (len (e_data e)) 0.
Lemma parse_ok e h pos : storable e -> layout e h -> (exists c, rd h o_checksum = Some c /\ c <> 0) /\ parse_header h pos = Some (rec_of e h pos).
Proof.
  intros (Cn & Ln & Ld) (x & ts & y & tc & E & Lx & Ly & Ls & Lc & Ns & Nc & Rc0).
  set (A := padto 100 (e_name e)) in *. assert (LA : length A = 100%nat) by (apply padto_len; lia).
  assert (E1 : h = (A ++ x) ++ padto 12 ts ++ (y ++ padto 8 tc ++ 48 :: repeat 0 355)) by (rewrite E, <- !app_assoc; easy).
  assert (E2 : h = (A ++ x ++ padto 12 ts ++ y) ++ padto 8 tc ++ 48 :: repeat 0 355) by (rewrite E, <- !app_assoc; easy).
  assert (E3 : h = (A ++ x ++ padto 12 ts ++ y ++ padto 8 tc) ++ 48 :: repeat 0 355) by (rewrite E, <- !app_assoc; easy).
  assert (L12 : length (padto 12 ts) = 12%nat) by (apply padto_len; lia). assert (L8 : length (padto 8 tc) = 8%nat) by (apply padto_len; lia).
  assert (O1 : o_size = length (A ++ x)) by (rewrite app_length, LA, Lx; easy).
  assert (O2 : o_checksum = length (A ++ x ++ padto 12 ts ++ y)) by (rewrite !app_length, LA, Lx, L12, Ly; easy).
  assert (O3 : o_type = length (A ++ x ++ padto 12 ts ++ y ++ padto 8 tc)) by (rewrite !app_length, LA, Lx, L12, Ly, L8; easy).
  split.
  - rewrite E2, O2. pose proof (numeral_cs 8 _ tc ltac:(lia) Nc) as Cc. destruct tc as [|c tc].
    + destruct Nc as (ds & C & _ & Q). destruct C as (_ & [->|(d & r & -> & _)]); destruct (_ <? 0); cbn in Q; try easy.
    + exists c. split; [|inversion Cc; lia]. change (padto 8 (c :: tc) ++ 48 :: repeat 0 355) with (c :: (tc ++ repeat 0 (8 - length (c :: tc))) ++ 48 :: repeat 0 355). apply rd_in.
  - unfold parse_header. rewrite E3 at 1. rewrite O3, rd_in. cbn [obind].
    rewrite E1 at 1. rewrite O1, skipn_len. destruct (octal_back _ ts 12 (y ++ padto 8 tc ++ 48 :: repeat 0 355) Ns ltac:(lia) ltac:(lia)) as (k & ->). cbn [obind].
    rewrite E2 at 1. rewrite O2 at 1. rewrite skipn_len.
    assert (Rc : 0 <= checksum h < 2^63).
    { split; [unfold checksum, u64; apply Z.mod_pos_bound; lia|easy]. }
    destruct (octal_back _ tc 8 (48 :: repeat 0 355) Nc Rc ltac:(lia)) as (k2 & ->). cbn [obind].
    unfold u64. rewrite Z.mod_small by lia. rewrite Z.eqb_refl. reflexivity.
Qed.
Lemma read_at d c p n : srep d (File c p) -> 0 <= n <= len c - p -> exists d', file_read d n = Some (firstn (Z.to_nat n) (skipn (Z.to_nat p) c), d') /\ srep d' (File c (p + n)).
Proof.
  intros S H. destruct (call_ok true (FRead n) d _ S) as (r & d' & f' & E & F & S' & _); [exact H|]. cbn [call] in E.
  destruct (file_read d n) as [(xs & d1)|]; [|easy]. cbn [obind] in E. injection E as Er ->. subst r. inversion F; subst. eauto.
Qed.
Lemma part (a b c : list Z) n : n = len a -> firstn (length b) (skipn (Z.to_nat n) (a ++ b ++ c)) = b.
Proof. intros ->. unfold len. now rewrite Nat2Z.id, skipn_len, firstn_len. Qed.
(** the records of the entries of an archive that start at [p] *)
Fixpoint recs_of (es : list entry) (xs : list (list Z)) (p : Z) : list record :=
  match es, xs with
  | e :: es, x :: xs => rec_of e (firstn 512 x) (p + 512) :: recs_of es xs (p + len x)
  | _, _ => []
  end.
Section Unpacking.
  Context {A : Type} (proc : A -> stream -> record -> option (Z * A)) (c : list Z) (Q : A -> list record -> Prop).
  Lemma unpack_ok : forall es xs pre d s log, Forall2 good_entry es xs -> Forall storable es -> len c < 2^63 ->
    (forall s log rec d p, Q s log -> srep d (File c p) -> In rec (recs_of es xs (len pre)) -> exists e s', proc s d rec = Some (e, s') /\ e <= 0 /\ Q s' (log ++ [rec])) ->
    c = pre ++ concat xs ++ repeat 0 1024 -> srep d (File c (len pre)) -> Q s log ->
    exists s' d' p', (forall f, (length es < f)%nat -> unpack proc f s d = Some (0, s', d')) /\ Q s' (log ++ recs_of es xs (len pre)) /\ srep d' (File c p').
  Proof.
    intros es xs pre d s log H. revert pre d s log. induction H as [|e x es xs (h & Hh & Hl & Ex) H IH]; intros pre d s log St Lc HQ Ec S Qs.
    - cbn [concat app recs_of] in *. rewrite app_nil_r. subst c. destruct (read_at d _ _ 512 S) as (d' & E & S'); [unfold len; rewrite app_length, repeat_length; lia|].
      exists s, d', (len pre + 512). split; [|easy]. intros [|f] Lf; [cbn in Lf; lia|]. cbn [unpack]. unfold unpack_round. rewrite E. cbn [obind].
      change (repeat 0 1024) with (repeat 0 512 ++ repeat 0 512). change (Z.to_nat 512) with (length (repeat 0 512)) at 1. rewrite part by easy. reflexivity.
    - apply Forall_cons_iff in St. destruct St as (Se & St). pose proof (layout_len e h Se Hl) as Lh. cbn [concat recs_of] in *.
      destruct (parse_ok e h (len pre + 512) Se Hl) as ((c0 & Hc0 & Nc0) & Pk).
      assert (F512 : firstn 512 x = h) by (rewrite Ex, <- Lh, firstn_len; easy).
      assert (Lx : len x = 512 + rounded (len (e_data e))) by (rewrite Ex; pose proof (padded_len (e_data e)); unfold len in *; rewrite app_length; lia).
      assert (Lcs : len c = len pre + len x + len (concat xs) + 1024) by (rewrite Ec; unfold len; rewrite !app_length, repeat_length; lia).
      pose proof (rounded_bounds (len (e_data e)) ltac:(unfold len; lia)) as B.
      destruct (read_at d _ _ 512 S) as (d1 & E & S1); [unfold len in *; lia|].
      assert (E' : firstn (Z.to_nat 512) (skipn (Z.to_nat (len pre)) c) = h).
      { rewrite Ec, Ex. change (Z.to_nat 512) with 512%nat. rewrite <- Lh, <- !app_assoc. now apply part. }
      rewrite E' in E.
      destruct (HQ s log (rec_of e (firstn 512 x) (len pre + 512)) d1 (len pre + 512) Qs S1 ltac:(now left)) as (er & s1 & Ep & Le & Qs1).
      destruct (seek_to d1 _ (len pre + 512 + rounded (len (e_data e))) S1) as (d2 & E2 & S2 & _); [unfold len in *; lia|]. cbn [contents size] in E2, S2.
      rewrite Z.min_l in S2, E2 by (unfold size, len in *; cbn; lia).
      assert (Lp : len (pre ++ x) = len pre + len x) by (unfold len; rewrite app_length; lia).
      destruct (IH (pre ++ x) d2 s1 (log ++ [rec_of e (firstn 512 x) (len pre + 512)])) as (s' & d' & p' & U & Qs' & S'); try easy.
      + intros s2 log2 rec d3 p3 Q2 S3 I. rewrite Lp in I. apply (HQ s2 log2 rec d3 p3); [easy|easy|now right].
      + rewrite Ec, <- !app_assoc. easy.
      + rewrite Lp, Lx. replace (len pre + (512 + rounded (len (e_data e)))) with (len pre + 512 + rounded (len (e_data e))) by lia. easy.
      + exists s', d', p'. split; [|split; [|easy]].
        * intros [|f] Lf; [cbn in Lf; lia|]. cbn [unpack]. unfold unpack_round. rewrite E. cbn [obind]. rewrite Hc0. cbn [obind]. destruct (Z.eqb_spec c0 0); [easy|].
          rewrite (tell_ok d1 _ S1). cbn [obind pos]. rewrite Pk. cbn [obind]. rewrite F512 in Ep. rewrite Ep. cbn [obind]. destruct (Z.ltb_spec 0 er); [lia|].
          unfold rec_of at 1. cbn [r_length]. pose proof Se as (_ & _ & Ld). rewrite align_ok by (unfold len; lia). cbn [obind].
          rewrite chk_ok by (unfold len in *; lia). cbn [obind]. rewrite E2. cbn [obind]. apply U. cbn in Lf. lia.
        * rewrite <- app_assoc in Qs'. cbn [app] in Qs'. rewrite Lp in Qs'. exact Qs'.
  Qed.
End Unpacking.
(** the record shows an entry of the archive [c] *)
Definition shows_entry (c : list Z) (e : entry) (rec : record) : Prop :=
  r_type rec = 48 /\ r_error rec = 0 /\ r_length rec = len (e_data e) /\ (exists z, r_path rec = e_name e ++ 0 :: z) /\
  (exists a b, c = a ++ e_data e ++ b /\ len a = r_offset rec).
Lemma rec_data : forall es xs pre post, Forall2 good_entry es xs -> Forall storable es -> Forall2 (shows_entry (pre ++ concat xs ++ post)) es (recs_of es xs (len pre)).
Proof.
  intros es xs pre post H. revert pre. induction H as [|e x es xs (h & Hh & Hl & Ex) H IH]; intros pre St; [constructor|]. apply Forall_cons_iff in St. destruct St as (Se & St). cbn [recs_of concat] in *.
  pose proof (layout_len e h Se Hl) as Lh. constructor.
  - split; [easy|]. split; [easy|]. split; [easy|]. split.
    + cbn [rec_of r_path]. rewrite Ex, <- Lh, firstn_len. destruct Hl as (x24 & ts & y & tc & -> & _). destruct Se as (_ & Ln & _). unfold padto. replace (100 - length (e_name e))%nat with (S (99 - length (e_name e))) by lia. cbn [repeat]. eexists. rewrite <- app_assoc. reflexivity.
    + exists (pre ++ h). exists (repeat 0 (Z.to_nat (rounded (len (e_data e))) - length (e_data e)) ++ concat xs ++ post). split; [|unfold rec_of, len; cbn [r_offset]; rewrite app_length; lia].
      rewrite Ex. unfold padded_data, padto. rewrite <- !app_assoc. reflexivity.
  - specialize (IH (pre ++ x) St). rewrite <- !app_assoc in IH. rewrite <- app_assoc.
    replace (len pre + len x) with (len (pre ++ x)) by (unfold len; rewrite app_length; lia). exact IH.
Qed.

(** * Extraction *)
Lemma extract_ok : forall fuel d f a x b p, srep d f -> contents f = a ++ x ++ b -> p = len a -> (length x < fuel)%nat -> extract_loop fuel d p (len x) = Some x.
Proof.
  induction fuel as [|n IH]; intros d f a x b p S E -> L; [lia|]. cbn [extract_loop].
  assert (H : exists u v, x = u ++ v /\ len u = Z.min 4096 (len x)).
  { exists (firstn 4096 x), (skipn 4096 x). split; [symmetry; apply firstn_skipn|]. unfold len. rewrite firstn_length. lia. }
  destruct H as (u & v & -> & Lu). rewrite <- Lu.
  rewrite (read_ok d f (len u) (len a) S) by (unfold len, size in *; rewrite ?E, ?app_length in *; lia). cbn [obind].
  rewrite E, <- app_assoc. replace (Z.to_nat (len u)) with (length u) by (unfold len; lia). rewrite part by easy.
  destruct (Z.eqb_spec (len u) 0) as [Q|Q].
  { assert (len (u ++ v) = 0) by (unfold len in *; lia). destruct (u ++ v); [easy|unfold len in *; cbn in *; lia]. }
  replace (len (u ++ v) - len u) with (len v) by (unfold len; rewrite app_length; lia). destruct (Z.ltb_spec 0 (len v)) as [Q2|Q2].
  - rewrite (IH d f (a ++ u) v b) with (p := len a + len u).
    + reflexivity.
    + exact S.
    + now rewrite E, <- !app_assoc.
    + unfold len. rewrite app_length. lia.
    + rewrite app_length in L. unfold len in *. lia.
  - assert (v = []) by (destruct v; [easy|unfold len in *; cbn in *; lia]). subst v. now rewrite app_nil_r.
Qed.
(** the path of the new file *)
Definition under (base name : list Z) : list Z := base ++ (if last base 47 =? 47 then [] else [47]) ++ name.
Lemma zeros_cons n : (0 < n)%nat -> repeat 0 n = 0 :: repeat 0 (n - 1).
Proof. destruct n as [|n]; [lia|]. intros _. replace (S n - 1)%nat with n by lia. reflexivity. Qed.
Lemma skipn_zeros k n : skipn k (repeat 0 n) = repeat 0 (n - k).
Proof. revert n. induction k as [|k IH]; intros [|n]; cbn [skipn repeat Nat.sub]; try easy. Qed.
Lemma strcat_zeros u s x m : cstring u -> cstring s -> (length s <= m)%nat -> (0 < m)%nat -> strcat (u ++ repeat 0 m) (s ++ 0 :: x) = Some ((u ++ s) ++ repeat 0 (m - length s)).
Proof.
  intros Hu Hs L M. rewrite (zeros_cons m) by easy. rewrite strcat_ok by easy. rewrite repeat_length. destruct (Nat.leb_spec (length s) (S (m - 1))); [|lia].
  rewrite <- (zeros_cons m) by easy. now rewrite skipn_zeros, <- app_assoc.
Qed.
Lemma last_rd (u : list Z) v : u <> [] -> rd (u ++ v) (length u - 1) = Some (last u 47).
Proof.
  intros H. destruct (exists_last H) as (w & z & ->). rewrite last_last, app_length. cbn [length]. replace (length w + 1 - 1)%nat with (length w) by lia. rewrite <- app_assoc. cbn [app]. apply rd_in.
Qed.
Lemma joined base m : cstring base -> (1 < m)%nat ->
  (c <- rd (base ++ repeat 0 m) 0 ;; (if negb (c =? 0) then l <- rd (base ++ repeat 0 m) (length base - 1) ;; if negb (l =? 47) then strcat (base ++ repeat 0 m) [47; 0] else Some (base ++ repeat 0 m) else Some (base ++ repeat 0 m)))
  = Some ((base ++ (if last base 47 =? 47 then [] else [47])) ++ repeat 0 (m - length (if last base 47 =? 47 then [] else [47]))).
Proof.
  intros Hb M. destruct base as [|b0 base]; [rewrite (zeros_cons m) by lia; cbn [app last Z.eqb Pos.eqb length rd nth_error obind negb]; rewrite Nat.sub_0_r, <- (zeros_cons m) by lia; reflexivity|].
  rewrite last_rd by easy. unfold rd at 1. cbn [app nth_error obind]. inversion Hb; subst. destruct (Z.eqb_spec b0 0); [lia|]. cbn [negb]. destruct (Z.eqb_spec (last (b0 :: base) 47) 47) as [Q|Q]; cbn [negb].
  - cbn [length]. rewrite Nat.sub_0_r, app_nil_r. reflexivity.
  - change [47; 0] with ([47] ++ 0 :: []). change (b0 :: base ++ repeat 0 m) with ((b0 :: base) ++ repeat 0 m). rewrite strcat_zeros; [reflexivity|easy|repeat constructor; lia|cbn; lia|lia].
Qed.
Lemma unpack_file_ok base x d f e rec : srep d f -> shows_entry (contents f) e rec -> cstring base -> cstring (e_name e) -> firstn 2 (e_name e) <> [46; 46] -> (length (under base (e_name e)) < 4096)%nat ->
  default_unpack (base ++ 0 :: x) d rec = Some (0, Some (under base (e_name e), e_data e)).
Proof.
  intros S (Rt & Re & Rl & (z & Rp) & a & b & Rc & Ra) Hb Hn Hd L. unfold default_unpack. rewrite Re, Rt, Rp. cbn [Z.eqb negb]. change (48 =? TYPE_REGULAR) with true. cbn [negb].
  change [46; 46; 0] with ([46; 46] ++ 0 :: []). rewrite strncmp_ok by (try easy; repeat constructor; lia). cbn [obind firstn].
  destruct (list_eq_dec _ _ _) as [Q|Q]; [easy|]. change ((if 0 <? 1 then -1 else 1) =? 0) with false. cbn match. rewrite !strlen_ok by easy. cbn [obind].
  unfold under in L. rewrite !app_length in L. set (sep := if last base 47 =? 47 then [] else [47]) in *.
  destruct (Z.ltb_spec (Z.of_nat (length base) + Z.of_nat (length (e_name e)) - 2) 4096); [|lia]. cbn [negb].
  rewrite strcpy_ok by easy. rewrite repeat_length, skipn_zeros. destruct (Nat.leb_spec (length base) 4096); [|lia]. cbn [obind].
  assert (J := joined base (4096 - length base) Hb).
  destruct (Nat.ltb_spec 1 (4096 - length base)) as [M|M].
  - specialize (J M). destruct (rd (base ++ repeat 0 (4096 - length base)) 0) as [c|]; [|discriminate J]. cbn [obind] in *. rewrite J. cbn [obind]. fold sep.
    rewrite strcat_zeros; [|unfold sep; apply Forall_app; split; [easy|destruct (_ =? _); repeat constructor; lia]|easy|lia|lia]. cbn [obind].
    rewrite Rl. replace (Z.to_nat (len (e_data e))) with (length (e_data e)) by (unfold len; lia). rewrite (extract_ok _ d f a (e_data e) b); [|easy|easy|easy|lia]. cbn [obind].
    set (m := (_ - length (e_name e))%nat). assert (0 < m)%nat by (unfold m; lia). rewrite (zeros_cons m) by easy.
    rewrite strlen_ok; [cbn [obind]; rewrite firstn_len; unfold under; fold sep; now rewrite <- app_assoc|].
    apply Forall_app; split; [unfold sep; apply Forall_app; split; [easy|destruct (_ =? _); repeat constructor; lia]|easy].
  - assert (length (e_name e) = 0%nat /\ length sep = 0%nat /\ length base = 4095%nat) as (L1 & L2 & L3) by lia. clear J.
    assert (Eb : last base 47 = 47) by (unfold sep in L2; destruct (Z.eqb_spec (last base 47) 47); [easy|cbn in L2; lia]).
    destruct (e_name e) as [|? ?] eqn:En; [|cbn in L1; lia]. cbn [app] in *.
    rewrite L3. change (4096 - 4095)%nat with 1%nat. cbn [repeat].
    assert (Hn0 : base <> []) by (intros ->; cbn in L3; lia). pose proof (last_rd base [0] Hn0) as Lr. rewrite L3 in Lr. cbn [Nat.sub] in Lr.
    destruct (rd (base ++ [0]) 0) as [c|] eqn:Ec; [|destruct base; [easy|discriminate Ec]]. cbn [obind]. change (4095 - 1)%nat with 4094%nat. rewrite Lr, Eb. cbn [obind Z.eqb Pos.eqb negb].
    assert (R : (if negb (c =? 0) then Some (base ++ [0]) else Some (base ++ [0])) = Some (base ++ [0])) by (destruct (negb _); reflexivity). rewrite R. cbn [obind].
    change (0 :: z) with ([] ++ 0 :: z). change [0] with (repeat 0 1). rewrite strcat_zeros; [|easy|constructor|cbn; lia|lia]. cbn [obind].
    rewrite Rl. replace (Z.to_nat (len (e_data e))) with (length (e_data e)) by (unfold len; lia). rewrite (extract_ok _ d f a (e_data e) b); [|easy|easy|easy|lia]. cbn [obind].
    cbn [length Nat.sub repeat]. rewrite app_nil_r. rewrite strlen_ok by easy. cbn [obind]. rewrite firstn_len. unfold under. rewrite Eb. cbn [Z.eqb Pos.eqb app]. now rewrite app_nil_r.
Qed.
(** * Lexical resolution *)
Lemma depth_nonneg l : Forall (fun c => c <> dotdot) l -> forall d, 0 <= d -> 0 <= fold_left step l d.
Proof.
  induction 1 as [|c l Hc H IH]; intros d Hd; [easy|]. cbn [fold_left]. apply IH. unfold step. destruct (list_eq_dec _ c []); [easy|]. destruct (list_eq_dec _ c dot); [easy|]. destruct (list_eq_dec _ c dotdot); [easy|]. lia.
Qed.
Lemma Forall_firstn {A} (P : A -> Prop) l n : Forall P l -> Forall P (firstn n l).
Proof. intros H. revert n. induction H; intros [|n]; cbn [firstn]; constructor; auto. Qed.
