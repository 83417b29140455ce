(** C48: memory file streams. *)
From Verif Require Import Base Array ArraySpec ArrayProofs FStream FStreamSpec FStreamProofs.

(** the file a stream shows: the first [size] bytes of its buffer and its position *)
Definition shows (d : stream) (f : file) : Prop :=
  snd (stream_buf d) = size f /\ firstn (length (contents f)) (fst (stream_buf d)) = contents f /\ file_tell d = Some (pos f, d) /\ 0 <= pos f <= size f.
Lemma srep_shows d f : srep d f -> shows d f.
Proof. intros S. destruct (srep_buf d f S) as (A & B). unfold shows. split; [now rewrite A|]. split; [easy|]. split; [now apply tell_ok|apply S]. Qed.

(** from an empty growing stream *)
Theorem C48_history_new l d : stream_new true = Some d -> legal Growing l (File [] 0) ->
  exists rs d' f, calls l d = Some (rs, d') /\ fsteps Growing l (File [] 0) rs f /\ shows d' f.
Proof.
  intros E L. assert (S : srep d (File [] 0)).
  { unfold stream_new, array_init, array_init_reserve in E. cbn in E. inversion E. repeat split; cbn; try lia. eexists. cbn. repeat split. }
  assert (K : kind_of d = Growing) by (injection E as <-; easy).
  rewrite <- K in L |- *. destruct (calls_ok l d _ S L) as (rs & d' & f & A & B & C & _). exists rs, d', f. split; [easy|]. split; [easy|]. now apply srep_shows.
Qed.
Example history_new_ex : exists d, stream_new true = Some d /\
  legal Growing [(true, FWrite [1;2;3]); (true, FSeek 1); (true, FRead 2)] (File [] 0) /\
  (rd <- calls [(true, FWrite [1;2;3]); (true, FSeek 1); (true, FRead 2); (true, FTell)] d ;; Some (fst rd)) = Some [OWrote true; OPos 1; OData [2;3]; OPos 3].
Proof.
  eexists. split; [reflexivity|]. split; [|reflexivity]. cbn [legal]. split; [cbn; lia|]. intros r f H. inversion H as [|? ? ? ? X| | | | | | | |]; subst; [|destruct X as [?|[? ?]]; discriminate].
  split; [unfold allowed, in_i64; lia|]. intros r f H'. inversion H'; subst. split; [cbn; lia|]. easy.
Qed.

(** from a stream over given bytes: a growing copy, a fixed buffer, a read-only buffer *)
Definition kind_flags (k : kind) (w : bool) : bool * bool := match k with Growing => (true, w) | Fixed => (false, true) | ReadOnly => (false, false) end.
Theorem C48_history_open k w buffer rest l d :
  Z.of_nat (length buffer) < 2^63 ->
  stream_open true (buffer ++ rest) (Z.of_nat (length buffer)) (fst (kind_flags k w)) (snd (kind_flags k w)) = Some d ->
  legal k l (File buffer 0) ->
  exists rs d' f, calls l d = Some (rs, d') /\ fsteps k l (File buffer 0) rs f /\ shows d' f.
Proof.
  intros G E L.
  assert (S : srep d (File buffer 0) /\ kind_of d = k).
  { destruct k; cbn [kind_flags fst snd] in E; unfold stream_open in E.
    - unfold array_init_reserve in E. destruct (Z.leb_spec 0 (Z.of_nat (length buffer))); [|lia]. cbn [negb andb obind] in E.
      rewrite Nat2Z.id in E.
      assert (R : read_cells (buffer ++ rest) 0 (Z.of_nat (length buffer)) = Some buffer).
      { unfold read_cells. rewrite app_length. replace (_ && _ && _) with true by (symmetry; rewrite !andb_true_iff, !Z.leb_le; lia).
        f_equal. cbn [Z.to_nat skipn]. rewrite Nat2Z.id, firstn_app, Nat.sub_diag, firstn_all, firstn_O. apply app_nil_r. }
      rewrite R in E. cbn [obind cells] in E.
      assert (W : write_cells (repeat 0 (length buffer)) 0 buffer = Some buffer).
      { pose proof (write_app [] (repeat 0 (length buffer)) [] 0 buffer eq_refl (repeat_length _ _)) as W. cbn [app] in W. now rewrite !app_nil_r in W. }
      rewrite W in E. cbn [obind] in E. injection E as <-. split; [|easy]. unfold srep, size. cbn [clone_writable buf contents cap cursor pos capacity].
      split; [|repeat split; cbn; lia]. pose proof (rep_mk buffer [] (Z.of_nat (length buffer)) (Z.of_nat (length buffer)) eq_refl) as P. rewrite app_nil_r in P. apply P. cbn. f_equal. lia.
    - injection E as <-. split; [|easy]. unfold srep, size. cbn [clone_writable buf contents cap cursor pos cells]. split; [now exists rest|]. repeat split; cbn; lia.
    - injection E as <-. split; [|easy]. unfold srep, size. cbn [clone_writable buf contents cap cursor pos cells]. split; [now exists rest|]. repeat split; cbn; lia. }
  destruct S as (S & <-). destruct (calls_ok l d _ S L) as (rs & d' & f & A & B & C & _). exists rs, d', f. split; [easy|]. split; [easy|]. now apply srep_shows.
Qed.
(** a fixed buffer of four bytes keeps two of three, and zpl_file_write still returns true *)
Example history_open_ex : exists d, stream_open true [7;8;9;10] 4 false true = Some d /\
  (rd <- calls [(true, FSeek 2); (true, FWrite [1;2;3]); (true, FTell); (true, FReadAt 4 0)] d ;; Some (fst rd)) = Some [OPos 2; OWrote true; OPos 4; OData [7;8;1;2]].
Proof. eexists. split; reflexivity. Qed.
Example history_open_legal : legal Fixed [(true, FSeek 2); (true, FWrite [1;2;3])] (File [7;8;9;10] 0).
Proof.
  cbn [legal]. split; [unfold allowed, in_i64; lia|]. intros r f H. inversion H; subst. split; [cbn; lia|]. easy.
Qed.

(** the allowed calls are needed: reads and writes are not checked against the size *)
Theorem C48_read_past_end_refuted d n off buffer : cells (buf d) = buffer -> 0 <= n -> 0 <= off -> Z.of_nat (length buffer) < off + n -> read d n off = None.
Proof.
  intros <- Hn Ho L. unfold read, read_cells. destruct (Z.leb_spec (off + n) (Z.of_nat (length (cells (buf d))))); [lia|]. now rewrite andb_false_r.
Qed.
Example read_past_ex : exists d, stream_open true [7;8;9;10] 4 false false = Some d /\ file_read d 5 = None.
Proof. eexists. split; reflexivity. Qed.
(** an empty growing stream hands out eight bytes that are not in the file *)
Theorem C48_read_of_nothing_refuted : exists d, stream_new true = Some d /\ snd (stream_buf d) = 0 /\ (rd <- file_read d 8 ;; Some (fst rd)) = Some (repeat 0 8).
Proof. eexists. split; [reflexivity|]. split; reflexivity. Qed.
(** a write beyond the end copies a negative number of bytes *)
Theorem C48_write_beyond_refuted d f data off : srep d f -> kind_of d <> ReadOnly -> size f < off -> write true d data off = None.
Proof.
  intros S K L. pose proof S as (A & B & C & D & E). unfold write, kind_of in *.
  assert (X : negb (clone_writable d || writable d) = false) by (destruct (clone_writable d); [easy|destruct (writable d); easy]). rewrite X.
  rewrite B. assert (R : (Z.of_nat (length data) - Z.max 0 (Z.of_nat (length data) - (size f - off)) <? 0) = true) by (apply Z.ltb_lt; lia). cbv zeta.
  destruct (clone_writable d) eqn:Cl; cbn [andb].
  - destruct (capacity (buf d) <? _) eqn:G.
    + destruct (grow_ok 0 (buf d) _ (size f + Z.max 0 (Z.of_nat (length data) - (size f - off))) A) as (a' & -> & _). cbn [obind negb]. now rewrite R.
    + cbn [obind negb]. now rewrite R.
  - cbn [obind negb]. now rewrite R.
Qed.
Example write_beyond_ex : exists d, stream_new true = Some d /\ write true d [1] 1 = None.
Proof. eexists. split; reflexivity. Qed.

Print Assumptions C48_history_new.
Print Assumptions C48_history_open.
Print Assumptions C48_read_past_end_refuted.
Print Assumptions C48_read_of_nothing_refuted.
Print Assumptions C48_write_beyond_refuted.
