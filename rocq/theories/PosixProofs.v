(** Files: what the calls do. *)
From Verif Require Import Base Posix PosixSpec.
Open Scope list_scope.

Lemma limits : 0 < MAX_RW < I64_MAX.
Proof. unfold MAX_RW, I64_MAX. lia. Qed.
Global Opaque MAX_RW I64_MAX.

Lemma set_same fs p d : set fs p d p = d.
Proof. unfold set. now destruct (list_eq_dec Z.eq_dec p p). Qed.
Lemma set_other fs p d q : q <> p -> set fs p d q = fs q.
Proof. intros H. unfold set. now destruct (list_eq_dec Z.eq_dec q p). Qed.
Lemma set_but fs p d : same_but p fs (set fs p d).
Proof. intros q. apply set_other. Qed.

Lemma nth_repeat0 n i : nth i (repeat 0 n) 0 = 0.
Proof. revert i. induction n; intros [|i]; cbn; auto. Qed.
Lemma nth_pad d n i : nth i (d ++ repeat 0 n) 0 = nth i d 0.
Proof.
  destruct (Nat.ltb_spec i (length d)); [now rewrite app_nth1|]. rewrite app_nth2, nth_repeat0 by lia. now rewrite nth_overflow by lia.
Qed.
Lemma nth_firstn {A} (l : list A) n i x : (i < n)%nat -> nth i (firstn n l) x = nth i l x.
Proof. revert n i. induction l as [|a l IH]; intros [|n] [|i] H; cbn; try easy; try lia. apply IH. lia. Qed.
Lemma nth_skipn {A} (l : list A) n i x : nth i (skipn n l) x = nth (n + i) l x.
Proof. revert l. induction n as [|n IH]; intros l; [easy|]. destruct l as [|a l]; cbn; [now destruct i|]. apply IH. Qed.

Lemma splice_written d off b : 0 <= off -> written d (Z.to_nat off) b (splice d off b).
Proof.
  intros Ho. unfold written, splice. destruct b as [|c b].
  - split; [easy|]. intros i. cbn [length]. rewrite Nat.add_0_r. destruct (Nat.leb_spec (Z.to_nat off) i), (Nat.ltb_spec i (Z.to_nat off)); try easy. lia.
  - remember (c :: b) as l eqn:El. assert (Hl : (0 < length l)%nat) by (rewrite El; cbn; lia). clear El c b.
    assert (Lp : length (firstn (Z.to_nat off) (d ++ repeat 0 (Z.to_nat (off - len d)))) = Z.to_nat off).
    { rewrite firstn_length, app_length, repeat_length. unfold len. lia. }
    split.
    + rewrite !app_length, Lp, skipn_length. lia.
    + intros i. destruct (Nat.leb_spec (Z.to_nat off) i) as [H|H].
      * rewrite app_nth2 by lia. rewrite Lp. destruct (Nat.ltb_spec i (Z.to_nat off + length l)) as [H'|H']; cbn [andb].
        -- rewrite app_nth1 by lia. easy.
        -- rewrite app_nth2 by lia. rewrite nth_skipn. f_equal. lia.
      * cbn [andb]. rewrite app_nth1 by lia. rewrite nth_firstn by easy. apply nth_pad.
Qed.
Lemma written_unique d off b d1 d2 : written d off b d1 -> written d off b d2 -> d1 = d2.
Proof.
  intros (L1 & N1) (L2 & N2). apply (nth_ext _ _ 0 0); [congruence|]. intros i _. now rewrite N1, N2.
Qed.

Definition good (f : file) : Prop := 0 <= pos f <= I64_MAX.
Lemma at_same f : at_pos f (pos f) = f.
Proof. now destruct f. Qed.
Lemma seek_ok fs f p : 0 <= p <= I64_MAX -> file_seek fs f p = (p, at_pos f p).
Proof.
  intros H. unfold file_seek, posix_seek, lseek, moved. cbn [Z.add]. destruct (Z.ltb_spec p 0); [lia|]. destruct (Z.ltb_spec I64_MAX p); [lia|]. easy.
Qed.
Lemma tell_ok fs f : good f -> file_tell fs f = (pos f, f).
Proof.
  unfold good. intros H. unfold file_tell, posix_seek, lseek, moved. rewrite Z.add_0_r. destruct (Z.ltb_spec (pos f) 0); [lia|]. destruct (Z.ltb_spec I64_MAX (pos f)); [lia|]. cbn. now rewrite at_same.
Qed.
Lemma end_ok fs f : size_of fs f <= I64_MAX -> file_seek_to_end fs f = (size_of fs f, at_pos f (size_of fs f)).
Proof.
  intros H. unfold file_seek_to_end, posix_seek, lseek, moved. rewrite Z.add_0_r. destruct (Z.ltb_spec (size_of fs f) 0) as [L|]; [unfold size_of in L; lia|]. destruct (Z.ltb_spec I64_MAX (size_of fs f)); [lia|]. easy.
Qed.
Lemma size_ok fs f : good f -> size_of fs f <= I64_MAX -> file_size fs f = (size_of fs f, f).
Proof.
  intros G L. unfold file_size. rewrite tell_ok, end_ok by easy. rewrite tell_ok by (split; cbn [pos at_pos]; [unfold size_of; lia|exact L]).
  rewrite seek_ok by exact G. cbn. destruct f; reflexivity.
Qed.

Lemma data_ok fs f d : fs (name f) = Some d -> data fs f = d.
Proof. unfold data. now intros ->. Qed.
Lemma read_at_ok fs f d buf off : fs (name f) = Some d -> can_read f = true -> 0 <= off ->
  let n := Nat.min (Nat.min (length buf) (Z.to_nat MAX_RW)) (length d - Z.to_nat off) in
  exists buf', posix_read fs f buf off = (true, buf', Z.of_nat n) /\ filled d (Z.to_nat off) n buf buf'.
Proof.
  intros E R Ho n. unfold posix_read, pread. rewrite R, (data_ok _ _ _ E), (proj2 (Z.leb_le 0 off) Ho). cbn [andb].
  set (b := firstn _ _).
  assert (Lb : length b = n). { unfold b. rewrite firstn_length, skipn_length. unfold n, len. rewrite Z2Nat.inj_min, Nat2Z.id. lia. }
  eexists. split; [unfold len at 1; rewrite Lb; reflexivity|]. split.
  - rewrite app_length, skipn_length, Lb. lia.
  - intros i Hi. destruct (Nat.ltb_spec i n) as [H|H].
    + rewrite app_nth1 by lia. unfold b. rewrite nth_firstn; [apply nth_skipn|]. unfold n in H. unfold len. rewrite Z2Nat.inj_min, Nat2Z.id. lia.
    + rewrite app_nth2 by lia. rewrite nth_skipn, Lb. f_equal. lia.
Qed.

Definition fits (room : Z) (b : list Z) : Prop := len b <= MAX_RW /\ len b <= room.
Lemma firstn_len b n : len b <= n -> firstn (Z.to_nat n) b = b.
Proof. intros H. apply firstn_all2. unfold len in H. lia. Qed.
Lemma len_pos (c : Z) b : 0 < len (c :: b).
Proof. unfold len. cbn [length]. lia. Qed.
(** a write of [n] bytes, the first of [b] *)
Definition took (room : Z) (b : list Z) : Z := Z.min (Z.min (len b) MAX_RW) room.
Lemma posix_write_ok room fs f d b off : fs (name f) = Some d -> can_write f = true -> good f -> 0 <= off -> b <> [] -> 0 < room ->
  let at_ := if appending f then Z.of_nat (length d) else off in
  posix_write room fs f b off = (true, took room b, set fs (name f) (Some (splice d at_ (firstn (Z.to_nat (took room b)) b))),
    if pos f =? off then at_pos f (at_ + took room b) else f).
Proof.
  intros E W G Ho Hb Hr at_. unfold posix_write, posix_seek, lseek. rewrite Z.add_0_r. unfold good in G.
  destruct (Z.ltb_spec (pos f) 0); [lia|]. destruct (Z.ltb_spec I64_MAX (pos f)); [lia|]. cbn [orb]. rewrite at_same.
  assert (S' : forall o, 0 <= o -> store room fs f b o = Some (took room b, (if appending f then Z.of_nat (length d) else o) + took room b,
     set fs (name f) (Some (splice d (if appending f then Z.of_nat (length d) else o) (firstn (Z.to_nat (took room b)) b))))).
  { intros o Ho'. unfold store, size_of. rewrite W, (data_ok _ _ _ E). cbn [negb]. destruct (Z.ltb_spec o 0); [lia|]. destruct (Z.leb_spec room 0); [lia|]. rewrite andb_false_r. reflexivity. }
  destruct (Z.eqb_spec (pos f) off) as [Q|Q].
  - unfold write. destruct b as [|c b]; [easy|]. rewrite S' by lia. subst at_. rewrite Q. reflexivity.
  - unfold pwrite. rewrite S' by easy. reflexivity.
Qed.
Lemma took_fits room b : fits room b -> took room b = len b.
Proof. unfold fits, took. lia. Qed.
