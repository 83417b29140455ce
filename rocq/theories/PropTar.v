(** C49, C50, C78: tar archives. *)
From Verif Require Import Base CStr CStrSpec CStrProofs Num NumSpec NumProofs PropNum Print PrintSpec PrintProofs PrintProofs2 PropPrint Bits BitsSpec PropBits Array ArraySpec ArrayProofs FStream FStreamSpec FStreamProofs Tar TarSpec TarProofs TarProofs2.

Lemma new_at_end d : stream_new true = Some d -> at_end d [].
Proof.
  intros E. split; [|injection E as <-; easy]. unfold stream_new, array_init, array_init_reserve in E. cbn in E. inversion E. repeat split; cbn; try lia. eexists. cbn. repeat split.
Qed.
Lemma good_archive es xs : Forall2 good_entry es xs -> archive_of es (concat xs ++ repeat 0 1024).
Proof.
  intros G. exists xs. split; [|easy]. induction G as [|e x es xs (h & H & _ & E) G IH]; constructor; [exists h; easy|easy].
Qed.
(** * C49: the archive *)
Theorem C49_pack fs paths es d : Forall2 (holds fs) paths es -> Forall storable es -> size_of es + 1024 < 2^63 -> stream_new true = Some d ->
  exists d' x, pack fs [] d paths = Some (0, d') /\ archive_of es x /\ fst (stream_buf d') = x ++ skipn (length x) (fst (stream_buf d')) /\ snd (stream_buf d') = len x /\ (512 | len x).
Proof.
  intros H St L N. destruct (pack_ok fs paths es d H St (new_at_end d N) L) as (d' & xs & E & G & (S & _)). exists d', (concat xs ++ repeat 0 1024).
  split; [easy|]. split; [now apply good_archive|]. destruct (srep_buf _ _ S) as (B1 & B2). cbn [contents] in *. rewrite B1. cbn [fst snd]. split; [|split; [easy|]].
  - rewrite <- B2 at 1. symmetry. apply firstn_skipn.
  - clear - G St. assert (D : (512 | len (concat xs))).
    { induction G as [|e x es xs (h & _ & Hl & ->) G IH]; [exists 0; easy|]. apply Forall_cons_iff in St. destruct St as (Se & St). cbn [concat]. unfold len in *. rewrite !app_length, !Nat2Z.inj_add, (layout_len e h Se Hl).
      fold (len (padded_data (e_data e))). rewrite padded_len. apply Z.divide_add_r; [apply Z.divide_add_r; [exists 1; easy|unfold rounded; now exists ((len (e_data e) + 511) / 512)]|now apply IH]. }
    unfold len in *. rewrite app_length, repeat_length, Nat2Z.inj_add. apply Z.divide_add_r; [easy|now exists 2].
Qed.
(** ** and back: the callback sees the entries in order and can read their data *)
Definition logger (log : list record) (_ : stream) (rec : record) : option (Z * list record) := Some (0, log ++ [rec]).
Definition matches (d : stream) (e : entry) (rec : record) : Prop :=
  r_type rec = 48 /\ r_error rec = 0 /\ strlen (r_path rec) = Some (length (e_name e)) /\ firstn (length (e_name e)) (r_path rec) = e_name e /\
  FStream.read d (r_length rec) (r_offset rec) = Some (e_data e).
Lemma shows_matches d f e rec : srep d f -> cstring (e_name e) -> shows_entry (contents f) e rec -> matches d e rec.
Proof.
  intros S Hn (Rt & Re & Rl & (z & Rp) & a & b & Rc & Ra). split; [easy|]. split; [easy|]. rewrite Rp. split; [now apply strlen_ok|]. split; [now rewrite firstn_len|].
  rewrite Rl, <- Ra. rewrite (read_ok d f _ _ S) by (unfold len, size; rewrite ?Rc, ?app_length; lia). rewrite Rc. replace (Z.to_nat (len (e_data e))) with (length (e_data e)) by (unfold len; lia). now rewrite part.
Qed.
Theorem C49_round_trip fs paths es d : Forall2 (holds fs) paths es -> Forall storable es -> size_of es + 1024 < 2^63 -> stream_new true = Some d ->
  exists d1 d2 recs d3, pack fs [] d paths = Some (0, d1) /\ file_seek d1 0 = Some (0, d2) /\
    (forall fuel, (length es < fuel)%nat -> unpack logger fuel [] d2 = Some (0, recs, d3)) /\ Forall2 (matches d3) es recs.
Proof.
  intros H St L N. destruct (pack_ok fs paths es d H St (new_at_end d N) L) as (d1 & xs & E & G & (S & _)).
  set (c := concat xs ++ repeat 0 1024) in *.
  destruct (seek_to d1 _ 0 S ltac:(lia)) as (d2 & E2 & S2 & _). rewrite Z.min_l in * by (unfold size; lia). cbn [contents] in S2.
  destruct (unpack_ok logger c (fun s log => s = log) es xs [] d2 [] [] G St) as (recs & d3 & p & U & -> & S3); try easy.
  - destruct S as (_ & _ & _ & _ & Q). exact Q.
  - intros s log rec d0 p -> _ _. exists 0. eexists. split; [reflexivity|]. split; [lia|easy].
  - exists d1, d2, (recs_of es xs 0), d3. split; [easy|]. split; [easy|]. split; [exact U|].
    pose proof (rec_data es xs [] (repeat 0 1024) G St) as R. change (len []) with 0 in R. cbn [app] in R. fold c in R.
    clear - R S3 St. induction R; [constructor|]. apply Forall_cons_iff in St. destruct St as ((Cn & _) & St). constructor; [now apply (shows_matches d3 (File c p))|auto].
Qed.
Lemma nth_error_ext {A} : forall l m : list A, (forall i, nth_error l i = nth_error m i) -> l = m.
Proof.
  induction l as [|x l IH]; intros [|y m] H; try easy; [specialize (H O); easy|specialize (H O); easy|]. pose proof (H O) as H0. injection H0 as ->. f_equal. apply IH. intros i. apply (H (S i)).
Qed.
Definition ex_fs (p : list Z) : opened := if list_eq_dec Z.eq_dec p [97; 0] then Opened [1; 2; 3] 7 else if list_eq_dec Z.eq_dec p [98; 46; 99; 0] then Opened [] (-5) else OpenError.
Example C49_example : exists d1 d2 d3 recs, (d <- stream_new true ;; pack ex_fs [] d [[97; 0]; [98; 46; 99; 0]]) = Some (0, d1) /\ file_seek d1 0 = Some (0, d2) /\
  unpack logger 3 [] d2 = Some (0, recs, d3) /\ Forall2 (matches d3) [Entry [97] [1;2;3] 7; Entry [98; 46; 99] [] (-5)] recs.
Proof.
  destruct (C49_round_trip ex_fs [[97; 0]; [98; 46; 99; 0]] [Entry [97] [1;2;3] 7; Entry [98; 46; 99] [] (-5)] _ ltac:(repeat constructor) ltac:(repeat constructor; cbn; lia) ltac:(cbn; lia) eq_refl) as (d1 & d2 & recs & d3 & A & B & C & D).
  exists d1, d2, d3, recs. split; [exact A|]. split; [exact B|]. split; [apply C; cbn; lia|exact D].
Qed.
(** ** outside the guard *)
(** a name of more than twelve bytes is dropped: the entry has no name *)
Theorem C49_long_name_refuted name size mtime h : cstring name -> (12 < length name)%nat -> pack_header (name ++ [0]) size mtime = Some h -> strlen h = Some O.
Proof.
  intros C L. unfold pack_header. assert (F : field (repeat 0 header_size) o_name 12 fmt_s [AStr (Some (name ++ [0]))] = Some (repeat 0 header_size)).
  { unfold field. change (skipn o_name (repeat 0 header_size)) with (repeat 0 512). change fmt_s with pct_s. rewrite (pct_s_run (repeat 0 512) 12 name []) by easy.
    assert (P : print_string (repeat 0 512) 12 (Info 0 0 0 (-1)) (Some (name ++ [0])) = Some (repeat 0 512, 0)).
    { unfold print_string. cbn [precision width flags Z.leb Z.compare]. rewrite strlen_ok by easy. cbn [obind]. change (has 0 FMT_WIDTH) with false. change (0 <? -1) with false. cbn [andb orb Z.eqb].
      destruct (Z.ltb_spec 12 (Z.of_nat (length name))); [reflexivity|lia]. }
    rewrite P. cbn [obind]. assert (W : wr (repeat 0 512) (Z.to_nat 0) 0 = Some (repeat 0 512)) by (vm_compute; reflexivity). rewrite W. reflexivity. }
  rewrite F. cbn [obind]. clear F. set (z := repeat 0 header_size).
  assert (H0 : rd z 0 = Some 0) by reflexivity. clearbody z.
  assert (K : forall hr off m f va hr', (0 < off)%nat -> rd hr 0 = Some 0 -> field hr off m f va = Some hr' -> rd hr' 0 = Some 0).
  { clear. intros hr off m f va hr' Ho R E. unfold field in E. destruct (snprintf _ _ _ _) as [(t & ?)|]; [|easy]. cbn [obind] in E. injection E as <-.
    destruct hr as [|a hr]; [easy|]. destruct off; [lia|]. exact R. }
  destruct (field z o_size _ _ _) as [h1|] eqn:E1; [|easy]. cbn [obind]. apply K in E1; [|unfold o_size; lia|easy].
  destruct (field h1 o_mode _ _ _) as [h2|] eqn:E2; [|easy]. cbn [obind]. apply K in E2; [|unfold o_mode; lia|easy].
  destruct (field h2 o_mtime _ _ _) as [h3|] eqn:E3; [|easy]. cbn [obind]. apply K in E3; [|unfold o_mtime; lia|easy].
  destruct (wr h3 o_type TYPE_REGULAR) as [h4|] eqn:E4; [|easy]. cbn [obind]. intros E5.
  assert (E4' : rd h4 0 = Some 0).
  { destruct h3 as [|a h3]; [easy|]. change o_type with (S 155) in E4. cbn [wr] in E4. destruct (wr h3 155 TYPE_REGULAR) as [r|]; [|easy]. cbn [obind] in E4. assert (Q : h4 = a :: r) by congruence. subst h4. exact E3. }
  apply K in E5; [|unfold o_checksum; lia|easy]. destruct h as [|a h]; [easy|]. injection E5 as ->. reflexivity.
Qed.
(** sizes are taken modulo 2^32: a file of 4 GiB and 5 bytes is recorded with 5 bytes *)
Theorem C49_size_refuted : exists h, pack_header [97; 0] (2^32 + 5) 0 = Some h /\ exists rec, parse_header h 512 = Some rec /\ r_error rec = 0 /\ r_length rec = 5.
Proof.
  assert (E : (h <- pack_header [97; 0] (2^32 + 5) 0 ;; rec <- parse_header h 512 ;; Some (r_error rec, r_length rec)) = Some (0, 5)) by (vm_compute; reflexivity).
  destruct (pack_header _ _ _) as [h|]; [|easy]. exists h. split; [easy|]. cbn [obind] in E. destruct (parse_header h 512) as [rec|]; [|easy]. exists rec. cbn [obind] in E. now injection E.
Qed.
(** a file that cannot be opened stops the packing without the closing blocks *)
Theorem C49_missing fs oks d path paths : fs path = OpenError -> pack fs oks d (path :: paths) = Some (- ERROR_IO, d).
Proof. intros E. unfold pack. cbn [pack_loop]. now rewrite E. Qed.

(** * C50: extraction under a directory *)
(** every stored entry whose name does not begin with two dots becomes a file at base/name with its contents *)
Theorem C50_extracts base x d f e rec : srep d f -> shows_entry (contents f) e rec -> cstring base -> cstring (e_name e) -> firstn 2 (e_name e) <> [46; 46] ->
  (length (under base (e_name e)) < 4096)%nat -> default_unpack (base ++ 0 :: x) d rec = Some (0, Some (under base (e_name e), e_data e)).
Proof. apply unpack_file_ok. Qed.
(** the whole of an archive of such entries *)
Definition extractor (base : list Z) (log : list (option (list Z * list Z))) (d : stream) (rec : record) : option (Z * list (option (list Z * list Z))) :=
  ' (e, o) <- default_unpack base d rec ;; Some (e, log ++ [o]).
Definition fits (base : list Z) (e : entry) : Prop := storable e /\ firstn 2 (e_name e) <> [46; 46] /\ (length (under base (e_name e)) < 4096)%nat.
Theorem C50_unpack_dir fs paths es d base : Forall2 (holds fs) paths es -> Forall (fits base) es -> cstring base -> size_of es + 1024 < 2^63 -> stream_new true = Some d ->
  exists d1 d2 d3, pack fs [] d paths = Some (0, d1) /\ file_seek d1 0 = Some (0, d2) /\
    forall fuel, (length es < fuel)%nat -> unpack (extractor (base ++ [0])) fuel [] d2 = Some (0, map (fun e => Some (under base (e_name e), e_data e)) es, d3).
Proof.
  intros H Ft Hb L N. assert (St : Forall storable es) by (eapply Forall_impl; [|exact Ft]; now intros e (Q & _)).
  destruct (pack_ok fs paths es d H St (new_at_end d N) L) as (d1 & xs & E & G & (S & _)).
  set (c := concat xs ++ repeat 0 1024) in *.
  destruct (seek_to d1 _ 0 S ltac:(lia)) as (d2 & E2 & S2 & _). rewrite Z.min_l in * by (unfold size; lia). cbn [contents] in S2.
  pose proof (rec_data es xs [] (repeat 0 1024) G St) as R. change (len []) with 0 in R. cbn [app] in R. fold c in R.
  set (Q := fun (s : list (option (list Z * list Z))) (log : list record) => length s = length log /\ forall i e rec, nth_error log i = Some rec -> shows_entry c e rec -> fits base e -> nth_error s i = Some (Some (under base (e_name e), e_data e))).
  destruct (unpack_ok (extractor (base ++ [0])) c Q es xs [] d2 [] [] G St) as (s & d3 & p & U & (Ls & Qs) & S3); try easy.
  - destruct S as (_ & _ & _ & _ & W). exact W.
  - intros s log rec d0 p (Ql & Q1) S0 I. change (len []) with 0 in I.
    assert (X : exists e, shows_entry c e rec /\ fits base e).
    { clear - R Ft I. induction R as [|e r es rs He R IH]; [easy|]. apply Forall_cons_iff in Ft. destruct Ft as (F1 & F2). destruct I as [<-|I]; [eauto|auto]. }
    destruct X as (e & Se & (Ste & Nd & Lu)). exists 0. eexists. unfold extractor.
    rewrite (unpack_file_ok base [] d0 (File c p) e rec) by (try easy; apply Ste). cbn [obind]. split; [reflexivity|]. split; [lia|]. split; [rewrite !app_length; cbn; lia|].
    intros i e' rec' Hi Se' Ft'. destruct (Nat.ltb_spec i (length log)) as [Li|Li].
    + rewrite nth_error_app1 in Hi by easy. rewrite nth_error_app1 by lia. eauto.
    + rewrite nth_error_app2 in * by lia. rewrite Ql. destruct (i - length log)%nat as [|k] eqn:Ek; [|destruct k; easy]. cbn in Hi |- *. injection Hi as <-.
      assert (Y : Some (0, Some (under base (e_name e'), e_data e')) = Some (0, Some (under base (e_name e), e_data e))).
      { destruct Ft' as (St' & Nd' & Lu'). rewrite <- (unpack_file_ok base [] d0 (File c p) e rec) by (try easy; apply Ste). rewrite <- (unpack_file_ok base [] d0 (File c p) e' rec) by (try easy; apply St'). reflexivity. }
      injection Y as -> ->. reflexivity.
  - split; [easy|]. intros i e rec Hi. destruct i; easy.
  - exists d1, d2, d3. split; [easy|]. split; [easy|]. intros fuel Lf. rewrite (U fuel Lf). f_equal. f_equal. f_equal. change (len []) with 0 in *. cbn [app] in *.
    assert (Ll : length (recs_of es xs 0) = length es) by (clear - R; induction R; cbn; congruence).
    apply nth_error_ext. intros i. rewrite nth_error_map. destruct (nth_error es i) as [e|] eqn:Ei; cbn [option_map].
    + destruct (nth_error (recs_of es xs 0) i) as [rec|] eqn:Er.
      * apply (Qs i e rec Er); [|rewrite Forall_forall in Ft; apply Ft; eapply nth_error_In; eauto].
        clear - R Ei Er. revert i Ei Er. induction R as [|e0 r0 es rs Hr R IH]; intros [|i] Ei Er; cbn in *; try easy; [congruence|eauto].
      * apply nth_error_None in Er. assert (i < length es)%nat by (apply nth_error_Some; congruence). lia.
    + apply nth_error_None in Ei. apply nth_error_None. lia.
Qed.
(** no component ".." in the name: the file is inside *)
Theorem C50_inside name : Forall (fun c => c <> dotdot) (split 47 name) -> ~ escapes name.
Proof. intros H (n & L). pose proof (depth_nonneg _ (Forall_firstn _ _ n H) 0 ltac:(lia)). lia. Qed.
(** skipped: bad checksum, other types, names that begin with two dots *)
Theorem C50_skips base d rec : r_error rec <> 0 \/ r_type rec <> 48 \/ (exists n z, r_path rec = 46 :: 46 :: n ++ 0 :: z /\ cstring n) -> default_unpack base d rec = Some (0, None).
Proof.
  intros H. unfold default_unpack. destruct (Z.eqb_spec (r_error rec) 0) as [E|E]; [|easy]. cbn [negb]. destruct (Z.eqb_spec (r_type rec) TYPE_REGULAR) as [T|T]; [|easy]. cbn [negb].
  destruct H as [H|[H|(n & z & P & C)]]; [easy|easy|]. rewrite P. change (46 :: 46 :: n ++ 0 :: z) with ((46 :: 46 :: n) ++ 0 :: z). change [46; 46; 0] with ([46; 46] ++ 0 :: []).
  rewrite strncmp_ok by (repeat constructor; easy || lia). cbn [firstn obind]. destruct (list_eq_dec _ _ _) as [Q|Q]; [easy|]. now elim Q.
Qed.
(** "a/../../b" passes the filter and names a file outside; "..a" is refused though it is inside *)
Theorem C50_escape_refuted : exists name d f e rec, name = [97; 47; 46; 46; 47; 46; 46; 47; 98] /\ escapes name /\ srep d f /\ shows_entry (contents f) e rec /\ e_name e = name /\
  default_unpack [116; 0] d rec = Some (0, Some ([116; 47] ++ name, e_data e)).
Proof.
  set (name := [97; 47; 46; 46; 47; 46; 46; 47; 98]). set (e := Entry name [1; 2] 0).
  destruct (pack_ok (fun _ => Opened [1; 2] 0) [name ++ [0]] [e] _ ltac:(repeat constructor) ltac:(repeat constructor; cbn; lia) (new_at_end _ eq_refl) ltac:(cbn; lia)) as (d' & xs & E & G & (S & _)).
  pose proof (rec_data [e] xs [] (repeat 0 1024) G ltac:(repeat constructor; cbn; lia)) as R. cbn [app] in R. set (c := concat xs ++ repeat 0 1024) in *. clearbody c. revert R. generalize (recs_of [e] xs (len [])). intros [|r rs] R; [inversion R|].
  assert (Sh : shows_entry c e r) by (inversion R; easy). exists name, d', (File c (len c)), e, r. split; [easy|]. split; [exists 3%nat; reflexivity|]. split; [exact S|]. split; [exact Sh|]. split; [easy|].
  assert (H1 : cstring [116]) by (constructor; [lia|constructor]).
  assert (H2 : cstring name) by (unfold name; repeat (constructor; [lia|]); constructor).
  assert (H3 : firstn 2 name <> [46; 46]) by discriminate.
  assert (H4 : (length (under [116%Z] name) < 4096)%nat) by (apply Nat.ltb_lt; vm_compute; reflexivity).
  pose proof (unpack_file_ok [116] [] d' _ e r S Sh H1 H2 H3 H4) as U.
  exact U.
Qed.
Theorem C50_refused_refuted : ~ escapes [46; 46; 97] /\ forall base d z off l, default_unpack base d (Rec 48 (46 :: 46 :: [97] ++ 0 :: z) off l 0) = Some (0, None).
Proof.
  split; [apply C50_inside; repeat constructor; easy|]. intros. apply C50_skips. right. right. exists [97], z. split; [easy|repeat constructor; lia].
Qed.
(** the length check lets through paths that do not fit: the concatenation overruns the buffer *)
Theorem C50_overrun_refuted base x d rec name z : r_error rec = 0 -> r_type rec = 48 -> r_path rec = name ++ 0 :: z -> cstring base -> cstring name -> firstn 2 name <> [46; 46] -> base <> [] -> last base 47 <> 47 ->
  (4096 <= length base + length name <= 4097)%nat -> default_unpack (base ++ 0 :: x) d rec = None /\ Z.of_nat (length base) + Z.of_nat (length name) - 2 < 4096.
Proof.
  intros Re Rt Rp Hb Hn Hd Nb Ns L. split; [|lia]. unfold default_unpack. rewrite Re, Rt, Rp. cbn [Z.eqb negb]. change (48 =? TYPE_REGULAR) with true. cbn [negb].
  change [46; 46; 0] with ([46; 46] ++ 0 :: []). rewrite strncmp_ok by (try easy; repeat constructor; lia). cbn [obind firstn].
  destruct (list_eq_dec _ _ _) as [Q|Q]; [easy|]. change ((if 0 <? 1 then -1 else 1) =? 0) with false. cbn match. rewrite !strlen_ok by easy. cbn [obind].
  destruct (Z.ltb_spec (Z.of_nat (length base) + Z.of_nat (length name) - 2) 4096); [|easy]. cbn [negb]. rewrite strcpy_ok by easy. rewrite repeat_length, skipn_zeros.
  destruct (Nat.leb_spec (length base) 4096) as [Lb|Lb]; [|easy]. cbn [obind].
  rewrite last_rd by easy. destruct base as [|b0 base0] eqn:Eb; [easy|]. rewrite <- Eb in *. assert (R0 : rd (base ++ repeat 0 (4096 - length base)) 0 = Some b0) by (rewrite Eb; easy). rewrite R0. cbn [obind].
  assert (b0 <> 0) by (rewrite Eb in Hb; inversion Hb; lia). destruct (Z.eqb_spec b0 0); [easy|]. cbn [negb obind]. destruct (Z.eqb_spec (last base 47) 47); [easy|]. cbn [negb].
  destruct (Nat.eq_dec (length base) 4096) as [Q4|Q4].
  - rewrite Q4. cbn [Nat.sub repeat]. rewrite app_nil_r. unfold strcat. assert (Sn : strlen base = None) by (clear - Hb; induction Hb as [|c b Hc Hb IH]; [easy|]; cbn [strlen]; destruct (Z.eqb_spec c 0); [lia|]; now rewrite IH). now rewrite Sn.
  - change [47; 0] with ([47] ++ 0 :: []). rewrite strcat_zeros; [|easy|constructor; [lia|constructor]|change (length [47]) with 1%nat; lia|lia]. cbn [obind length].
    destruct (Nat.eq_dec (length base) 4095) as [Q5|Q5].
    + rewrite Q5. change (4096 - 4095 - 1)%nat with O. cbn [repeat]. rewrite app_nil_r. unfold strcat.
      assert (Hs : cstring (base ++ [47])) by (apply Forall_app; split; [easy|repeat constructor; lia]). assert (Sn : strlen (base ++ [47]) = None) by (clear - Hs; induction Hs as [|c b Hc Hb IH]; [easy|]; cbn [strlen]; destruct (Z.eqb_spec c 0); [lia|]; now rewrite IH). now rewrite Sn.
    + rewrite (zeros_cons (4096 - length base - 1)) by lia. rewrite strcat_ok; [|apply Forall_app; split; [easy|repeat constructor; lia]|easy]. rewrite repeat_length.
      destruct (Nat.leb_spec (length name) (S (4096 - length base - 1 - 1))); [lia|]. reflexivity.
Qed.
Example C50_overrun_ex d : default_unpack (repeat 97 4090 ++ [0]) d (Rec 48 [97; 98; 99; 100; 101; 102; 0] 0 0 0) = None.
Proof. vm_compute. reflexivity. Qed.

(** * C78: an archive that unpacking never leaves *)
(** the size field "-1000" is -512 in octal: the next header is this one again *)
Definition loop_header : list Z := padto 124 [97] ++ padto 12 [45; 49; 48; 48; 48] ++ padto 12 [48] ++ padto 8 [49; 50; 53; 55] ++ 48 :: repeat 0 355.
Definition loop_stream : option stream := stream_open true loop_header 512 false false.
Lemma loop_round d : loop_stream = Some d -> forall log, exists rec, r_error rec = 0 /\ unpack_round logger log d = Some (log ++ [rec], d, None).
Proof.
  intros E log. destruct (parse_header loop_header 512) as [rec|] eqn:P; [|vm_compute in P; discriminate P].
  assert (P' : (rec <- parse_header loop_header 512 ;; Some (r_error rec, r_length rec)) = Some (0, -512)) by (vm_compute; reflexivity).
  rewrite P in P'. cbn [obind] in P'. injection P' as Q1 Q2. exists rec. split; [easy|]. unfold loop_stream in E. change loop_header with (loop_header ++ []) in E.
  unfold unpack_round.
  assert (R : exists d1, file_read d 512 = Some (loop_header, d1) /\ file_tell d1 = Some (512, d1) /\ file_seek d1 0 = Some (0, d)).
  { unfold stream_open in E. cbn in E. injection E as <-. eexists. split; [vm_compute; reflexivity|]. split; vm_compute; reflexivity. }
  destruct R as (d1 & -> & T & Sk). cbn [obind]. change (rd loop_header o_checksum) with (Some 49). cbn [obind Z.eqb]. rewrite T. cbn [obind]. rewrite P. cbn [obind logger]. change (0 <? 0) with false. cbn match. rewrite Q2. change (align_forward_i64 (-512) 512) with (Some (-512)). cbn [obind]. change (chk64 (512 + -512)) with (Some 0). cbn [obind]. rewrite Sk. reflexivity.
Qed.
Theorem C78_never_ends_refuted : exists d, loop_stream = Some d /\ forall fuel log, unpack logger fuel log d = None.
Proof.
  destruct loop_stream as [d|] eqn:E; [|vm_compute in E; discriminate E]. exists d. split; [easy|].
  induction fuel as [|n IH]; intros log; [easy|]. cbn [unpack]. destruct (loop_round d E log) as (rec & _ & ->). cbn [obind]. apply IH.
Qed.
(** an archive cut before its closing blocks is read past its end *)
Theorem C78_truncated_refuted d c : srep d (File c (len c)) -> cells (buf d) = c -> forall fuel log, unpack logger fuel log d = None.
Proof.
  intros S E fuel log. destruct fuel as [|n]; [easy|]. cbn [unpack]. unfold unpack_round, file_read. rewrite (tell_ok _ _ S). cbn [obind pos]. rewrite (tell_ok _ _ S). cbn [obind pos].
  assert (R : FStream.read d 512 (len c) = None) by (unfold FStream.read, read_cells; rewrite E; destruct (Z.leb_spec (len c + 512) (Z.of_nat (length c))); [unfold len in *; lia|now rewrite andb_false_r]).
  rewrite R. reflexivity.
Qed.
Example C78_truncated_ex : exists d, stream_open true [] 0 false false = Some d /\ unpack logger 5 [] d = None.
Proof. eexists. split; reflexivity. Qed.

Print Assumptions C49_pack. Print Assumptions C49_round_trip. Print Assumptions C49_long_name_refuted. Print Assumptions C49_size_refuted. Print Assumptions C50_unpack_dir. Print Assumptions C50_escape_refuted. Print Assumptions C50_overrun_refuted. Print Assumptions C78_never_ends_refuted.
