(** C92: files on Linux. *)
From Verif Require Import Base CStr CStrSpec CStrProofs PropCStr Posix PosixSpec PosixProofs.
Open Scope list_scope.

(** ** opening *)
Theorem C92_open : forall fs mode p, match Z.land mode 15 with
  | 1 | 9 => file_open_mode fs mode p = Some (match fs p with Some _ => Some (fs, File p 0 true (Z.testbit mode 3) false 0) | None => None end)
  | 2 | 10 => exists fs', file_open_mode fs mode p = Some (Some (fs', File p 0 (Z.testbit mode 3) true false 0)) /\ fs' p = Some [] /\ same_but p fs fs'
  | 4 | 12 => exists fs', file_open_mode fs mode p = Some (Some (fs', File p 0 (Z.testbit mode 3) true true 0)) /\
      fs' p = Some (match fs p with Some d => d | None => [] end) /\ same_but p fs fs'
  | _ => file_open_mode fs mode p = None
  end.
Proof.
  intros fs mode p. assert (T : Z.testbit mode 3 = Z.testbit (Z.land mode 15) 3) by (rewrite Z.land_spec; cbn; now rewrite andb_true_r).
  unfold file_open_mode. rewrite T. assert (B : 0 <= Z.land mode 15 < 16) by (change 15 with (Z.ones 4); rewrite Z.land_ones by lia; apply Z.mod_pos_bound; lia).
  assert (A : fs p = None -> same_but p fs (set fs p (Some []))) by (intros _; apply set_but).
  remember (Z.land mode 15) as m eqn:Em. clear Em T.
  assert (C : m = 0 \/ m = 1 \/ m = 2 \/ m = 3 \/ m = 4 \/ m = 5 \/ m = 6 \/ m = 7 \/ m = 8 \/ m = 9 \/ m = 10 \/ m = 11 \/ m = 12 \/ m = 13 \/ m = 14 \/ m = 15) by lia.
  assert (G : forall rw, exists fs', Some (Some (match fs p with Some _ => fs | None => set fs p (Some []) end, File p 0 rw true true 0)) = Some (Some (fs', File p 0 rw true true 0)) /\
      fs' p = Some (match fs p with Some d => d | None => [] end) /\ same_but p fs fs').
  { intros rw. eexists. split; [reflexivity|]. destruct (fs p) as [d|] eqn:E; [split; [easy|now intros q _]|]. split; [apply set_same|apply set_but]. }
  repeat destruct C as [->|C]; try (subst m); cbn; try reflexivity; try apply G; (eexists; split; [reflexivity|]; split; [apply set_same|apply set_but]).
Qed.

(** ** reading *)
(** the buffer gets what there is; whether it was all is not told *)
Theorem C92_read_at : forall fs f d buf off, fs (name f) = Some d -> can_read f = true -> 0 <= off -> len buf <= MAX_RW ->
  exists buf', file_read_at fs f buf off = (true, buf') /\ filled d (Z.to_nat off) (length d - Z.to_nat off) buf buf'.
Proof.
  intros fs f d buf off E R Ho L. destruct (read_at_ok fs f d buf off E R Ho) as (b & P & LB & N). exists b. unfold file_read_at. rewrite P. split; [easy|]. split; [easy|].
  intros i Hi. rewrite N by easy. unfold len in L. destruct (Nat.ltb_spec i (length d - Z.to_nat off)) as [H|H]; [rewrite (proj2 (Nat.ltb_lt _ _))|rewrite (proj2 (Nat.ltb_ge _ _))]; try easy; lia.
Qed.
Theorem C92_read : forall fs f d buf, fs (name f) = Some d -> can_read f = true -> 0 <= pos f -> pos f + len buf <= I64_MAX -> len buf <= MAX_RW ->
  exists buf', file_read fs f buf = Some (true, buf', at_pos f (pos f + len buf)) /\ filled d (Z.to_nat (pos f)) (length d - Z.to_nat (pos f)) buf buf'.
Proof.
  intros fs f d buf E R Hp Hs L. assert (0 <= len buf) by (unfold len; lia). assert (G : good f) by (unfold good; lia).
  destruct (C92_read_at fs f d buf (pos f) E R Hp L) as (b & P & F). exists b. split; [|easy]. unfold file_read. rewrite !tell_ok by easy. rewrite P.
  unfold i64. rewrite (proj2 (Z.leb_le _ _)) by lia. rewrite (proj2 (Z.leb_le _ _)) by lia. cbn [andb obind]. now rewrite seek_ok by lia.
Qed.
(** reading at the end succeeds, reads nothing and moves the position on; the next write leaves a gap *)
Theorem C92_read_end_refuted : forall fs f d buf b room, fs (name f) = Some d -> can_read f = true -> can_write f = true -> appending f = false ->
  pos f = Z.of_nat (length d) -> buf <> [] -> b <> [] -> fits room b -> pos f + len buf + len b <= I64_MAX -> len buf <= MAX_RW ->
  exists f' fs' f'', file_read fs f buf = Some (true, buf, f') /\ file_write room fs f' b = Some (true, fs', f'') /\
  fs' (name f) = Some (d ++ repeat 0 (length buf) ++ b).
Proof.
  intros fs f d buf b room E R W A P Hbuf Hb F L LM. assert (0 < len b) by (destruct b; [easy|apply len_pos]). assert (0 <= len buf) by (unfold len; lia).
  destruct (C92_read fs f d buf E R) as (buf' & Rd & LB & N); [lia|lia|easy|].
  assert (buf' = buf). { apply (nth_ext _ _ 0 0); [easy|]. intros i Hi. rewrite LB in Hi. rewrite N by easy. rewrite P, Nat2Z.id, Nat.sub_diag. easy. }
  subst buf'. exists (at_pos f (pos f + len buf)). unfold file_write. rewrite !tell_ok by (unfold good; cbn; lia). unfold file_write_at.
  rewrite (posix_write_ok room fs (at_pos f (pos f + len buf)) d b) by first [easy|unfold good; cbn; lia|cbn; lia|unfold fits in F; lia].
  cbn [pos at_pos]. rewrite Z.eqb_refl, (took_fits _ _ F). unfold i64. rewrite (proj2 (Z.leb_le _ _)) by lia. rewrite (proj2 (Z.leb_le _ _)) by lia. cbn [andb obind].
  rewrite seek_ok by (cbn; lia). eexists. eexists. split; [exact Rd|]. split; [reflexivity|]. cbn [name at_pos appending]. rewrite A, set_same. f_equal.
  rewrite firstn_len by lia. apply (written_unique d (length d + length buf) b).
  - replace (length d + length buf)%nat with (Z.to_nat (pos f + len buf)) by (unfold len; lia). apply splice_written. lia.
  - split.
    + rewrite !app_length, repeat_length. destruct b; [easy|]. cbn [length]. lia.
    + intros i. destruct (Nat.leb_spec (length d + length buf) i) as [H1|H1].
      * rewrite app_nth2 by lia. rewrite app_nth2 by (rewrite repeat_length; lia). rewrite repeat_length. destruct (Nat.ltb_spec i (length d + length buf + length b)); cbn [andb]; [f_equal; lia|].
        rewrite !nth_overflow by lia. easy.
      * cbn [andb]. rewrite app_assoc, app_nth1 by (rewrite app_length, repeat_length; lia). apply nth_pad.
Qed.

(** ** writing *)
Theorem C92_write_at : forall room fs f d b off, fs (name f) = Some d -> can_write f = true -> appending f = false -> good f -> 0 <= off -> fits room b ->
  exists fs' d', file_write_at room fs f b off = (true, fs', at_pos f (if pos f =? off then pos f + len b else pos f)) /\
  fs' (name f) = Some d' /\ written d (Z.to_nat off) b d' /\ same_but (name f) fs fs'.
Proof.
  intros room fs f d b off E W A G Ho F. destruct b as [|c b].
  - unfold file_write_at, posix_write, posix_seek, lseek. rewrite Z.add_0_r. unfold good in G. unfold len in *. cbn [length] in *. change (Z.of_nat 0) with 0.
    destruct (Z.ltb_spec (pos f) 0); [lia|]. destruct (Z.ltb_spec I64_MAX (pos f)); [lia|]. cbn [orb]. rewrite at_same, Z.add_0_r.
    assert (Wd : written d (Z.to_nat off) [] d) by (apply (splice_written d off []); easy).
    destruct (Z.eqb_spec (pos f) off) as [Q|Q].
    + cbn [write]. rewrite W. exists fs, d. rewrite at_same. split; [easy|]. split; [easy|]. split; [easy|now intros q _].
    + unfold pwrite, store. rewrite W, A. cbn [negb orb len length Z.of_nat Z.ltb Z.compare andb]. destruct (Z.ltb_spec off 0); [lia|]. cbn [orb]. rewrite at_same.
      eexists. exists d. split; [reflexivity|]. rewrite set_same. split; [|split; [easy|apply set_but]].
      rewrite (data_ok _ _ _ E). now rewrite firstn_nil.
  - unfold file_write_at. rewrite (posix_write_ok room fs f d) by first [easy|unfold fits in F; pose proof (len_pos c b); lia]. rewrite A, (took_fits _ _ F), firstn_len by lia.
    eexists. eexists. split.
    + f_equal. destruct (Z.eqb_spec (pos f) off) as [->|]; [reflexivity|now rewrite at_same].
    + rewrite set_same. split; [reflexivity|]. split; [now apply splice_written|apply set_but].
Qed.
Theorem C92_write : forall room fs f d b, fs (name f) = Some d -> can_write f = true -> appending f = false -> 0 <= pos f -> pos f + len b <= I64_MAX -> fits room b ->
  exists fs' d', file_write room fs f b = Some (true, fs', at_pos f (pos f + len b)) /\
  fs' (name f) = Some d' /\ written d (Z.to_nat (pos f)) b d' /\ same_but (name f) fs fs'.
Proof.
  intros room fs f d b E W A Hp Hs F. assert (0 <= len b) by (unfold len; lia). assert (G : good f) by (unfold good; lia).
  destruct (C92_write_at room fs f d b (pos f) E W A G Hp F) as (fs' & d' & P & D & Wr & Sb). exists fs', d'. split; [|easy].
  unfold file_write. rewrite !tell_ok by easy. rewrite P, Z.eqb_refl. unfold i64. rewrite (proj2 (Z.leb_le _ _)) by lia. rewrite (proj2 (Z.leb_le _ _)) by lia. cbn [andb obind].
  rewrite seek_ok by lia. reflexivity.
Qed.
(** what is written at a position is read there *)
Theorem C92_write_read : forall room fs f d b buf, fs (name f) = Some d -> can_read f = true -> can_write f = true -> appending f = false ->
  0 <= pos f -> pos f + len b <= I64_MAX -> fits room b -> length buf = length b ->
  exists fs' f' f'', file_write room fs f b = Some (true, fs', f') /\ file_seek fs' f' (pos f) = (pos f, f'') /\ file_read fs' f'' buf = Some (true, b, f').
Proof.
  intros room fs f d b buf E R W A Hp Hs F LB. destruct (C92_write room fs f d b E W A Hp Hs F) as (fs' & d' & P & D & (Ld & N) & _).
  assert (0 <= len b) by (unfold len; lia). assert (Lb : len buf = len b) by (unfold len; now rewrite LB).
  exists fs', (at_pos f (pos f + len b)), (at_pos f (pos f)). split; [exact P|]. split; [now rewrite seek_ok by lia|]. rewrite at_same.
  destruct (C92_read fs' f d' buf D R Hp) as (buf' & Rd & LB' & N'); [lia|unfold fits in F; lia|]. rewrite Rd, Lb. do 3 f_equal.
  apply (nth_ext _ _ 0 0); [lia|]. intros i Hi. rewrite N' by lia. rewrite N.
  assert (Hi' : (i < length d' - Z.to_nat (pos f))%nat) by (destruct b; cbn [length] in *; lia).
  rewrite (proj2 (Nat.ltb_lt _ _) Hi'), (proj2 (Nat.leb_le _ _)), (proj2 (Nat.ltb_lt _ _)) by lia. cbn [andb]. f_equal. lia.
Qed.
(** appending always goes to the end, whatever the position or offset; but the position counts only
    what was appended *)
Theorem C92_append : forall room fs f d b off, fs (name f) = Some d -> can_write f = true -> appending f = true -> good f -> 0 <= off -> fits room b -> b <> [] ->
  exists fs' f', file_write_at room fs f b off = (true, fs', f') /\ fs' (name f) = Some (d ++ b) /\ same_but (name f) fs fs'.
Proof.
  intros room fs f d b off E W A G Ho F Hb. assert (0 < len b) by (destruct b; [easy|apply len_pos]).
  unfold file_write_at. rewrite (posix_write_ok room fs f d) by first [easy|unfold fits in F; lia]. rewrite A, (took_fits _ _ F), firstn_len by lia.
  eexists. eexists. split; [reflexivity|]. rewrite set_same. split; [|apply set_but]. f_equal. unfold splice. destruct b as [|c b]; [easy|].
  unfold len. rewrite Z.sub_diag, Nat2Z.id. cbn [Z.to_nat repeat]. rewrite app_nil_r, firstn_all, skipn_all2 by lia. now rewrite app_nil_r.
Qed.
Theorem C92_append_tell_refuted : forall room fs d p b, fs p = Some d -> d <> [] -> b <> [] -> fits room b ->
  exists f fs' f', file_open_mode fs 4 p = Some (Some (fs, f)) /\ file_write room fs f b = Some (true, fs', f') /\
  fs' p = Some (d ++ b) /\ file_tell fs' f' = (len b, f') /\ len b <> len (d ++ b).
Proof.
  intros room fs d p b E Hd Hb F. assert (0 < len b) by (destruct b; [easy|apply len_pos]). pose proof limits.
  exists (File p 0 false true true 0). unfold fits in F.
  destruct (C92_append room fs (File p 0 false true true 0) d b 0) as (fs' & f' & P & D & _); [easy|easy|easy|unfold good; cbn; lia|lia|easy|easy|].
  exists fs', (at_pos f' (len b)). split; [cbn; now rewrite E|]. split.
  - unfold file_write. rewrite !tell_ok by (unfold good; cbn; lia). cbn [pos]. rewrite P. unfold i64. cbn [Z.add]. rewrite (proj2 (Z.leb_le _ _)) by lia. rewrite (proj2 (Z.leb_le _ _)) by lia. cbn [andb obind].
    rewrite seek_ok by lia. reflexivity.
  - split; [exact D|]. split; [apply tell_ok; unfold good; cbn [pos at_pos]; lia|]. destruct d; [easy|]. unfold len. rewrite app_length. cbn [length]. lia.
Qed.
(** ** size and truncation *)
Theorem C92_size : forall fs f d, fs (name f) = Some d -> good f -> len d <= I64_MAX -> file_size fs f = (len d, f).
Proof. intros fs f d E G L. assert (Q : size_of fs f = len d) by (unfold size_of; now rewrite (data_ok _ _ _ E)). rewrite size_ok; [now rewrite Q|easy|now rewrite Q]. Qed.
Theorem C92_truncate : forall fs f d n, fs (name f) = Some d -> can_write f = true -> 0 <= n ->
  exists fs', file_truncate fs f n = (true, fs') /\ same_but (name f) fs fs' /\
  exists d', fs' (name f) = Some d' /\ len d' = n /\ forall i, (i < length d')%nat -> nth i d' 0 = nth i d 0.
Proof.
  intros fs f d n E W Hn. unfold file_truncate, ftruncate, size_of. rewrite W, (data_ok _ _ _ E), (proj2 (Z.leb_le _ _) Hn). cbn [andb]. eexists. split; [reflexivity|]. split; [apply set_but|].
  eexists. rewrite set_same. split; [reflexivity|].
  assert (L : length (firstn (Z.to_nat n) (d ++ repeat 0 (Z.to_nat (n - Z.of_nat (length d))))) = Z.to_nat n) by (rewrite firstn_length, app_length, repeat_length; lia).
  split; [unfold len; lia|]. intros i Hi. rewrite nth_firstn by lia. apply nth_pad.
Qed.

(** ** whole files *)
Lemma fresh_write room fs p b : fits room b ->
  exists fs', file_write_contents room fs p b = Some (true, fs') /\ fs' p = Some b /\ same_but p fs fs'.
Proof.
  intros F. destruct (C92_open fs 2 p) as (fs0 & O & E0 & Sb0). unfold file_write_contents. rewrite O. cbn [obind].
  pose proof limits.
  destruct (C92_write room fs0 (File p 0 false true false 0) [] b E0) as (fs' & d' & P & D & (L & N) & Sb); [easy|easy|cbn; lia|cbn; unfold fits in F; lia|easy|].
  change (Z.testbit 2 3) with false. rewrite P. cbn [obind]. exists fs'. split; [easy|]. split.
  - cbn [name] in D. rewrite D. f_equal. cbn [pos] in *. apply (nth_ext _ _ 0 0).
    + rewrite L. destruct b; cbn [length]; lia.
    + intros i Hi. rewrite N. cbn [Z.to_nat Nat.leb andb Nat.add]. assert (Li : (i < length b)%nat) by (rewrite L in Hi; destruct b; cbn [length] in *; lia).
      rewrite (proj2 (Nat.ltb_lt _ _) Li). now rewrite Nat.sub_0_r.
  - intros q Hq. rewrite (Sb q Hq). now apply Sb0.
Qed.
Theorem C92_write_contents : forall room fs p b, fits room b ->
  exists fs', file_write_contents room fs p b = Some (true, fs') /\ fs' p = Some b /\ same_but p fs fs'.
Proof. exact fresh_write. Qed.
Theorem C92_read_contents : forall mem zt fs p d, (forall n, 0 <= n -> len (mem n) = n) -> fs p = Some d -> d <> [] -> len d <= MAX_RW ->
  file_read_contents mem zt fs p = Some (Some (d ++ if zt then [0] else []), len d).
Proof.
  intros mem zt fs p d M E Hd L. assert (0 < len d) by (destruct d; [easy|apply len_pos]). pose proof limits.
  pose proof (C92_open fs 1 p : file_open_mode fs 1 p = _) as O. rewrite E in O. unfold file_read_contents. rewrite O. cbn [obind].
  set (f := File p 0 true _ false 0). rewrite (C92_size fs f d E) by first [unfold good; cbn; lia|lia]. rewrite (proj2 (Z.ltb_lt 0 (len d))) by easy.
  set (m := mem (if zt then len d + 1 else len d)). assert (Lm : len m = if zt then len d + 1 else len d) by (unfold m; destruct zt; apply M; lia).
  assert (Zl : Z.to_nat (len d) = length d) by (unfold len; lia). rewrite !Zl.
  assert (Lf : length (firstn (length d) m) = length d) by (rewrite firstn_length; unfold len in *; destruct zt; lia).
  destruct (C92_read_at fs f d (firstn (length d) m) 0 E) as (b & P & LB & N); [easy|lia|rewrite (f_equal Z.of_nat Lf : len _ = len d); exact L|].
  assert (b = d). { apply (nth_ext _ _ 0 0); [lia|]. intros i Hi. rewrite N by lia. cbn [Z.to_nat]. rewrite Nat.sub_0_r. assert (Li : (i < length d)%nat) by lia. now rewrite (proj2 (Nat.ltb_lt _ _) Li). }
  subst b. rewrite P. assert (Ls : length (skipn (length d) m) = if zt then 1%nat else 0%nat) by (rewrite skipn_length; unfold len in *; destruct zt; lia).
  destruct zt.
  - destruct (skipn (length d) m) as [|c [|c' r]] eqn:Sk; try discriminate. now rewrite wr_at.
  - destruct (skipn (length d) m); [|discriminate]. reflexivity.
Qed.
(** an empty file looks like a missing one *)
Theorem C92_read_contents_empty : forall mem zt fs p, fs p = None \/ fs p = Some [] -> file_read_contents mem zt fs p = Some (None, 0).
Proof.
  intros mem zt fs p [E|E]; pose proof (C92_open fs 1 p : file_open_mode fs 1 p = _) as O; rewrite E in O; unfold file_read_contents; rewrite O; cbn [obind]; [easy|].
  pose proof limits. rewrite (C92_size fs (File p 0 true (Z.testbit 1 3) false 0) [] E) by first [unfold good; cbn; lia|unfold len; cbn; lia]. reflexivity.
Qed.
(** a full device, or more than one call of write(2) takes: only a part is written, and true is returned *)
Theorem C92_write_contents_short_refuted : forall room fs p b, 0 < room -> room < len b \/ MAX_RW < len b -> len b <= I64_MAX ->
  exists fs', file_write_contents room fs p b = Some (true, fs') /\ exists d, fs' p = Some d /\ len d = Z.min MAX_RW room /\ len d < len b.
Proof.
  intros room fs p b Hr Hb L. pose proof limits. assert (Hb' : b <> []) by (intros ->; unfold len in *; cbn in *; lia).
  destruct (C92_open fs 2 p) as (fs0 & O & E0 & Sb0). unfold file_write_contents. rewrite O. cbn [obind]. change (Z.testbit 2 3) with false.
  unfold file_write. rewrite !tell_ok by (unfold good; cbn; lia). cbn [pos]. unfold file_write_at.
  rewrite (posix_write_ok room fs0 (File p 0 false true false 0) []) by first [easy|unfold good; cbn; lia]. cbn [pos appending]. rewrite Z.eqb_refl. unfold i64. cbn [Z.add].
  rewrite (proj2 (Z.leb_le _ _)) by lia. rewrite (proj2 (Z.leb_le _ _)) by lia. cbn [andb obind]. rewrite seek_ok by lia. cbn [obind].
  eexists. split; [reflexivity|]. cbn [name]. rewrite set_same. eexists. split; [reflexivity|].
  assert (T : took room b = Z.min MAX_RW room) by (unfold took; lia).
  destruct (splice_written [] 0 (firstn (Z.to_nat (took room b)) b)) as (Ls & _); [lia|].
  assert (Q : len (splice [] 0 (firstn (Z.to_nat (took room b)) b)) = Z.min MAX_RW room).
  { unfold len at 1. rewrite Ls. assert (Lf : length (firstn (Z.to_nat (took room b)) b) = Z.to_nat (Z.min MAX_RW room)) by (rewrite firstn_length, T; unfold len in Hb; lia).
    destruct (firstn (Z.to_nat (took room b)) b) as [|c r]; cbn [length] in *; lia. }
  split; [exact Q|lia].
Qed.
Theorem C92_read_lines : forall mem fs p l ls strip, (forall n, 0 <= n -> len (mem n) = n) -> fs p = Some (text_of (l :: ls)) -> len (text_of (l :: ls)) <= MAX_RW ->
  Forall (Forall (fun c => c <> 0 /\ c <> 10)) (l :: ls) -> l <> [] ->
  file_read_lines mem fs p strip = Some (flat_map chomped (l :: ls) ++ [0], starts strip 0 (l :: ls)).
Proof.
  intros mem fs p l ls strip M E L F Hl. set (d := text_of (l :: ls)) in *. pose proof limits.
  pose proof (C92_open fs 1 p : file_open_mode fs 1 p = _) as O. rewrite E in O. unfold file_read_lines. rewrite O. cbn [obind].
  set (f := File p 0 true _ false 0). rewrite (C92_size fs f d E) by first [unfold good; cbn; lia|lia].
  assert (Zl : Z.to_nat (len d) = length d) by (unfold len; lia). rewrite !Zl. set (m := mem (len d + 1)). assert (Lm : len m = len d + 1) by (apply M; unfold len; lia).
  assert (Lf : length (firstn (length d) m) = length d) by (rewrite firstn_length; unfold len in *; lia).
  assert (Lf' : len (firstn (length d) m) = len d) by exact (f_equal Z.of_nat Lf).
  destruct (C92_read fs f d (firstn (length d) m) E) as (b & P & LB & N); [easy|cbn; lia|cbn [pos f]; lia|lia|].
  assert (b = d). { apply (nth_ext _ _ 0 0); [lia|]. intros i Hi. rewrite N by lia. cbn [pos f Z.to_nat]. rewrite Nat.sub_0_r. assert (Li : (i < length d)%nat) by lia. now rewrite (proj2 (Nat.ltb_lt _ _) Li). }
  subst b. rewrite P. cbn [obind]. assert (Ls : length (skipn (length d) m) = 1%nat) by (rewrite skipn_length; unfold len in *; lia).
  destruct (skipn (length d) m) as [|c [|c' r]] eqn:Sk; try discriminate. rewrite wr_at. cbn [obind]. now apply C73_split_lines.
Qed.
(** a file that cannot be opened has no lines *)
Theorem C92_read_lines_missing : forall mem fs p strip, fs p = None -> file_read_lines mem fs p strip = Some ([0], []).
Proof. intros mem fs p strip E. unfold file_read_lines. rewrite (C92_open fs 1 p : file_open_mode fs 1 p = _), E. cbn [obind]. destruct strip; vm_compute; reflexivity. Qed.
(** files that exist, also empty ones, are those that can be opened for reading *)
Theorem C92_exists : forall fs p, fs_exists fs p = true <-> exists f, file_open_mode fs 1 p = Some (Some (fs, f)).
Proof.
  intros fs p. rewrite (C92_open fs 1 p : file_open_mode fs 1 p = _). unfold fs_exists. destruct (fs p); split; intros H; try discriminate; try easy.
  - eexists. reflexivity.
  - destruct H as (f & H). discriminate.
Qed.
(** a last line without a newline is undefined *)
Theorem C92_read_lines_refuted : forall mem fs p d strip, (forall n, 0 <= n -> len (mem n) = n) -> fs p = Some d -> len d <= MAX_RW -> cstring d -> d <> [] -> ~ In 10 d ->
  file_read_lines mem fs p strip = None.
Proof.
  intros mem fs p d strip M E L F Hl N10. pose proof limits.
  pose proof (C92_open fs 1 p : file_open_mode fs 1 p = _) as O. rewrite E in O. unfold file_read_lines. rewrite O. cbn [obind].
  set (f := File p 0 true _ false 0). rewrite (C92_size fs f d E) by first [unfold good; cbn; lia|lia].
  assert (Zl : Z.to_nat (len d) = length d) by (unfold len; lia). rewrite !Zl. set (m := mem (len d + 1)). assert (Lm : len m = len d + 1) by (apply M; unfold len; lia).
  assert (Lf : length (firstn (length d) m) = length d) by (rewrite firstn_length; unfold len in *; lia).
  assert (Lf' : len (firstn (length d) m) = len d) by exact (f_equal Z.of_nat Lf).
  destruct (C92_read fs f d (firstn (length d) m) E) as (b & P & LB & N); [easy|cbn; lia|cbn [pos f]; lia|lia|].
  assert (b = d). { apply (nth_ext _ _ 0 0); [lia|]. intros i Hi. rewrite N by lia. cbn [pos f Z.to_nat]. rewrite Nat.sub_0_r. assert (Li : (i < length d)%nat) by lia. now rewrite (proj2 (Nat.ltb_lt _ _) Li). }
  subst b. rewrite P. cbn [obind]. assert (Ls : length (skipn (length d) m) = 1%nat) by (rewrite skipn_length; unfold len in *; lia).
  destruct (skipn (length d) m) as [|c [|c' r]] eqn:Sk; try discriminate. rewrite wr_at. cbn [obind]. now apply C73_split_lines_unterminated_refuted.
Qed.

(** ** copying, moving, removing *)
Theorem C92_copy : forall room junk (fs : fsys) src dst b fail, fs src = Some b -> src <> dst -> fits room b ->
  exists fs', fs_copy room junk fs src dst fail = (true, fs') /\ same_but dst fs fs' /\
  fs' dst = Some (b ++ match fs dst with Some old => skipn (length b) old | None => [] end).
Proof.
  intros room junk fs src dst b fail E Hne F. pose proof limits. unfold fs_copy. rewrite E. cbv zeta. set (fs0 := match fs dst return fsys with Some _ => fs | None => set fs dst (Some []) end).
  set (old := match fs dst with Some old => old | None => [] end).
  assert (E0 : fs0 dst = Some old) by (unfold fs0, old; destruct (fs dst) eqn:Q; [easy|apply set_same]).
  assert (Sb : same_but dst fs fs0) by (unfold fs0; destruct (fs dst); [now intros q _|apply set_but]).
  rewrite firstn_len by (unfold fits in F; lia). exists (match b with [] => fs0 | _ => set fs0 dst (Some (splice old 0 b)) end). destruct b as [|c b].
  - cbn [write can_write]. split; [reflexivity|]. split; [easy|]. rewrite E0. unfold old. cbn [skipn length app]. now destruct (fs dst).
  - unfold write, store. cbn [can_write negb orb appending pos name]. rewrite (data_ok fs0 (File dst 0 false true false 0) old E0). fold (took room (c :: b)).
    rewrite (took_fits _ _ F), firstn_len by lia. pose proof (len_pos c b). change (0 <? 0) with false. unfold fits in F. destruct (Z.leb_spec room 0); [lia|]. rewrite andb_false_r. cbn [orb]. fold fs0.
    rewrite Z.eqb_refl. split; [reflexivity|]. split; [intros q Hq; rewrite set_other by easy; now apply Sb|].
    rewrite set_same. f_equal. unfold splice. cbn [Z.to_nat firstn app Nat.add]. unfold old. destruct (fs dst); [easy|]. now rewrite skipn_nil.
Qed.
(** a longer file keeps its end, even if files that exist shall not be touched *)
Theorem C92_copy_refuted : exists room junk fs src dst b fs', fs src = Some b /\ src <> dst /\ fits room b /\ fs dst <> None /\
  fs_copy room junk fs src dst true = (true, fs') /\ fs' dst <> Some b.
Proof.
  pose (fs := fun q : list Z => match q with [97] => Some [1] | [98] => Some [7; 8] | _ => None end).
  destruct (C92_copy 9 0 fs [97] [98] [1] true) as (fs' & P & _ & D); [reflexivity|discriminate|unfold fits, len; cbn; pose proof limits; lia|].
  exists 9, 0, fs, [97], [98], [1], fs'. split; [reflexivity|]. split; [discriminate|]. split; [unfold fits, len; cbn; pose proof limits; lia|]. split; [discriminate|]. split; [exact P|]. rewrite D. discriminate.
Qed.
(** copying a missing file makes an empty one; the result is accidental *)
Theorem C92_copy_missing_refuted : forall room junk fs src dst fail, fs src = None -> fs dst = None ->
  exists fs', fs_copy room junk fs src dst fail = (-1 =? junk, fs') /\ fs' dst = Some [].
Proof. intros. unfold fs_copy. rewrite H, H0. eexists. split; [reflexivity|apply set_same]. Qed.
(** a file larger than one sendfile(2) moves is copied in part, and false is returned *)
Theorem C92_copy_large_refuted : forall room junk (fs : fsys) src dst b fail, fs src = Some b -> fs dst = None -> src <> dst -> MAX_RW < len b -> len b <= room ->
  exists fs', fs_copy room junk fs src dst fail = (false, fs') /\ fs' dst = Some (firstn (Z.to_nat MAX_RW) b).
Proof.
  intros room junk fs src dst b fail E D Hne L R. pose proof limits. unfold fs_copy. rewrite E, D. cbv zeta.
  assert (Lf : len (firstn (Z.to_nat MAX_RW) b) = MAX_RW) by (unfold len in *; rewrite firstn_length; lia).
  remember (firstn (Z.to_nat MAX_RW) b) as l0 eqn:El0. clear El0. destruct l0 as [|x c]; [unfold len in Lf; cbn in Lf; lia|].
  unfold write, store. cbn [can_write negb orb appending pos name]. rewrite (data_ok (set fs dst (Some [])) (File dst 0 false true false 0) []) by apply set_same. rewrite Lf, Z.min_id.
  rewrite Z.min_l by lia. change (0 <? 0) with false. destruct (Z.leb_spec room 0); [lia|]. rewrite andb_false_r. cbn [orb].
  destruct (Z.eqb_spec MAX_RW (len b)); [lia|]. eexists. split; [reflexivity|]. rewrite set_same. f_equal.
  rewrite firstn_len by lia. unfold splice. cbn [Z.to_nat firstn app Nat.add]. rewrite skipn_nil. now rewrite app_nil_r.
Qed.
Theorem C92_move : forall fs src dst, match fs src, fs dst with
  | Some b, None => exists fs', fs_move fs src dst = (true, fs') /\ fs' dst = Some b /\ fs' src = None /\ forall q, q <> src -> q <> dst -> fs' q = fs q
  | _, _ => fs_move fs src dst = (false, fs)
  end.
Proof.
  intros fs src dst. unfold fs_move. destruct (fs src) as [b|] eqn:E; [|easy]. destruct (fs dst) eqn:D; [easy|]. eexists. split; [reflexivity|].
  assert (dst <> src) by congruence. split; [rewrite set_other by easy; apply set_same|]. split; [apply set_same|]. intros q H1 H2. now rewrite !set_other.
Qed.
Theorem C92_remove : forall fs p, match fs p with
  | Some _ => exists fs', fs_remove fs p = (true, fs') /\ fs_exists fs' p = false /\ same_but p fs fs'
  | None => fs_remove fs p = (false, fs)
  end.
Proof. intros fs p. unfold fs_remove. destruct (fs p); [|easy]. eexists. split; [reflexivity|]. unfold fs_exists. rewrite set_same. split; [easy|apply set_but]. Qed.

(** ** times *)
(** the time of a file that exists is 0, and no change is ever reported *)
Theorem C92_last_write_time_refuted : forall mtime junk p t, mtime p = Some t -> fs_last_write_time mtime junk p = 0.
Proof. intros mtime junk p t E. unfold fs_last_write_time. now rewrite E. Qed.
Theorem C92_has_changed_refuted : forall fs mode p fs' f, file_open_mode fs mode p = Some (Some (fs', f)) ->
  forall mtime junk t, mtime p = Some t -> file_has_changed mtime junk f = (false, f).
Proof.
  intros fs mode p fs' f O mtime junk t E. assert (Q : name f = p /\ last_write_time f = 0).
  { unfold file_open_mode in O. destruct (_ || _); [destruct (fs p); [|discriminate]; injection O as <- <-; easy|]. destruct (_ || _); [injection O as <- <-; easy|].
    destruct (_ || _); [injection O as <- <-; easy|discriminate]. }
  destruct Q as (N & T). unfold file_has_changed, fs_last_write_time. now rewrite N, E, T.
Qed.

(** ** a case of each *)
Example C92_example :
  let fs := fun q : list Z => match q with [97] => Some [1; 2; 3] | _ => None end in
  exists f fs' f', file_open_mode fs 9 [97] = Some (Some (fs, f)) /\ file_read fs f [0; 0] = Some (true, [1; 2], at_pos f 2) /\
  file_write 100 fs (at_pos f 2) [8; 9] = Some (true, fs', f') /\ fs' [97] = Some [1; 2; 8; 9] /\ pos f' = 4 /\
  file_write_at 100 fs' f' [5] 0 = (true, set fs' [97] (Some [5; 2; 8; 9]), f') /\
  file_read_contents (fun n => repeat 0 (Z.to_nat n)) true fs [97] = Some (Some [1; 2; 3; 0], 3).
Proof.
  Local Transparent MAX_RW I64_MAX. cbv zeta. eexists. eexists. eexists. split; [reflexivity|]. split; [vm_compute; reflexivity|]. split; [vm_compute; reflexivity|]. split; [vm_compute; reflexivity|]. split; [reflexivity|].
  split; vm_compute; reflexivity.
Qed.
Print Assumptions C92_open.
Print Assumptions C92_read_at.
Print Assumptions C92_read.
Print Assumptions C92_read_end_refuted.
Print Assumptions C92_write_at.
Print Assumptions C92_write.
Print Assumptions C92_write_read.
Print Assumptions C92_append.
Print Assumptions C92_append_tell_refuted.
Print Assumptions C92_size.
Print Assumptions C92_truncate.
Print Assumptions C92_write_contents.
Print Assumptions C92_read_contents.
Print Assumptions C92_read_contents_empty.
Print Assumptions C92_write_contents_short_refuted.
Print Assumptions C92_read_lines.
Print Assumptions C92_read_lines_refuted.
Print Assumptions C92_copy.
Print Assumptions C92_copy_refuted.
Print Assumptions C92_copy_missing_refuted.
Print Assumptions C92_copy_large_refuted.
Print Assumptions C92_move.
Print Assumptions C92_remove.
Print Assumptions C92_last_write_time_refuted.
Print Assumptions C92_has_changed_refuted.
Print Assumptions C92_read_lines_missing.
Print Assumptions C92_exists.
