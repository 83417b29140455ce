From Verif Require Import Base Array ArraySpec ArrayProofs FStream FStreamSpec.

Definition kind_of (d : stream) : kind := if clone_writable d then Growing else if writable d then Fixed else ReadOnly.
(** the stream holds the abstract file; its size is below 2^63 *)
Definition srep (d : stream) (f : file) : Prop :=
  (if clone_writable d then rep (buf d) (contents f) else exists r, cells (buf d) = contents f ++ r) /\
  cap d = size f /\ cursor d = pos f /\ 0 <= pos f <= size f /\ size f < 2^63.

Lemma chk_ok x : -2^63 <= x < 2^63 -> chk64 x = Some x.
Proof. intros. unfold chk64. destruct (Z.leb_spec (-2^63) x), (Z.ltb_spec x (2^63)); cbn [andb]; try lia; easy. Qed.
Lemma srep_cells d f : srep d f -> exists r, cells (buf d) = contents f ++ r.
Proof. intros (H & _). destruct (clone_writable d); [|easy]. destruct H as (r & E & _). eauto. Qed.
Lemma seek_ok d f off w : srep d f -> in_i64 ((match w with Begin => 0 | End => size f | Current => pos f end) + off) ->
  exists d', seek d off w = Some (clamp ((match w with Begin => 0 | End => size f | Current => pos f end) + off) 0 (size f), d') /\
    srep d' (File (contents f) (clamp ((match w with Begin => 0 | End => size f | Current => pos f end) + off) 0 (size f))) /\ kind_of d' = kind_of d.
Proof.
  intros (A & B & C & D & E) H. unfold seek. rewrite B, C. set (s := _ + off) in *. unfold in_i64 in H. rewrite chk_ok by lia. cbn [obind].
  replace (Z.max 0 (Z.min (Z.max s 0) (size f))) with (clamp s 0 (size f)) by (unfold clamp; lia).
  eexists. split; [reflexivity|]. split; [|easy]. split; [exact A|]. split; [easy|]. split; [easy|]. split; [|easy]. unfold clamp, size in *. cbn. lia.
Qed.
Lemma tell_ok d f : srep d f -> file_tell d = Some (pos f, d).
Proof.
  intros S. pose proof S as (A & B & C & D & E). unfold file_tell, seek. rewrite B, C. rewrite chk_ok by lia. cbn [obind].
  replace (Z.max 0 (Z.min (Z.max (pos f + 0) 0) (size f))) with (pos f) by lia. destruct d; cbn in *. now subst.
Qed.
Lemma read_ok d f n off : srep d f -> 0 <= n -> 0 <= off -> off + n <= size f -> read d n off = Some (firstn (Z.to_nat n) (skipn (Z.to_nat off) (contents f))).
Proof.
  intros S Hn Ho L. destruct (srep_cells d f S) as (r & E). unfold read, read_cells, size in *. rewrite E, app_length.
  replace (_ && _ && _) with true by (symmetry; rewrite !andb_true_iff, !Z.leb_le; lia). f_equal.
  rewrite skipn_app, firstn_app. rewrite skipn_length. replace (Z.to_nat n - (length (contents f) - Z.to_nat off))%nat with O by lia. cbn [firstn]. now rewrite app_nil_r.
Qed.
Lemma splice_app a old b p data : p = Z.of_nat (length a) -> length old = length data -> splice (a ++ old ++ b) p data = a ++ data ++ b.
Proof.
  intros -> E. unfold splice. rewrite Nat2Z.id. rewrite firstn_app, Nat.sub_diag, firstn_all, firstn_O, app_nil_r.
  rewrite (app_assoc a old b), skipn_app, skipn_all2 by (rewrite app_length; lia). rewrite app_length, E, Nat.sub_diag. easy.
Qed.
Lemma splice_ext a old p data : p = Z.of_nat (length a) -> (length old <= length data)%nat -> splice (a ++ old) p data = a ++ data.
Proof.
  intros -> E. unfold splice. rewrite Nat2Z.id. rewrite firstn_app, Nat.sub_diag, firstn_all, firstn_O, app_nil_r.
  rewrite skipn_all2 by (rewrite app_length; lia). now rewrite app_nil_r.
Qed.
Lemma splice_len c p data : 0 <= p <= Z.of_nat (length c) -> length (splice c p data) = Nat.max (length c) (Z.to_nat p + length data).
Proof. intros H. unfold splice. rewrite !app_length, firstn_length, skipn_length. lia. Qed.
Lemma splice_cut (c : list Z) p d1 d2 : 0 <= p -> p + Z.of_nat (length d1) = Z.of_nat (length c) -> splice c p (d1 ++ d2) = splice c p d1 ++ d2.
Proof.
  intros Hp L. destruct (split_at (Z.to_nat p) c) as (a & b & -> & La); [lia|]. rewrite app_length in L.
  rewrite !splice_ext by (rewrite ?app_length; lia). now rewrite app_assoc.
Qed.
(** a write inside the contents, and one that sticks out *)
Lemma write_in (r c : list Z) p data : 0 <= p -> p + Z.of_nat (length data) <= Z.of_nat (length c) -> write_cells (c ++ r) p data = Some (splice c p data ++ r).
Proof.
  intros Hp L. destruct (split_at (Z.to_nat p) c) as (a & b & -> & La); [lia|]. rewrite app_length in L.
  destruct (split_at (length data) b) as (o & b' & -> & Lo); [lia|].
  rewrite splice_app by lia. rewrite <- !app_assoc. rewrite app_length in L. apply write_app; lia.
Qed.
Lemma write_out (r c : list Z) p data : p = Z.of_nat (length c) -> (length data <= length r)%nat -> write_cells (c ++ r) p data = Some (c ++ data ++ skipn (length data) r).
Proof.
  intros -> L. destruct (split_at (length data) r) as (o & b' & -> & Lo); [lia|]. replace (skipn (length data) (o ++ b')) with b' by (rewrite <- Lo, skipn_app, skipn_all, Nat.sub_diag; easy). apply write_app; lia.
Qed.
Lemma write_ok ok d f data off : srep d f -> 0 <= off <= size f -> off + Z.of_nat (length data) < 2^63 ->
  (exists d' n, write ok d data off = Some (true, n, d') /\ kind_of d <> ReadOnly /\ srep d' (File (written (kind_of d) (contents f) off data) (pos f)) /\ kind_of d' = kind_of d /\
     n = match kind_of d with Fixed => Z.min (Z.of_nat (length data)) (size f - off) | _ => Z.of_nat (length data) end) \/
  (exists d', write ok d data off = Some (false, 0, d') /\ srep d' f /\ kind_of d' = kind_of d /\ (kind_of d = ReadOnly \/ (kind_of d = Growing /\ ok = false))).
Proof.
  intros S Ho Hbig. pose proof S as (A & B & C & D & E). unfold write, kind_of in *.
  destruct (clone_writable d) eqn:Cl; cbn [orb negb andb].
  - (* growing *)
    rewrite B. unfold size in *. set (c := contents f) in *. set (ex := Z.max 0 (Z.of_nat (length data) - (Z.of_nat (length c) - off))).
    assert (G : (exists a', (if capacity (buf d) <? Z.of_nat (length c) + ex then grow 0 ok (buf d) (Z.of_nat (length c) + ex) else Some (true, buf d)) = Some (true, a') /\ rep a' c /\ Z.of_nat (length c) + ex <= capacity a')
      \/ ((if capacity (buf d) <? Z.of_nat (length c) + ex then grow 0 ok (buf d) (Z.of_nat (length c) + ex) else Some (true, buf d)) = Some (false, buf d) /\ ok = false)).
    { destruct (Z.ltb_spec (capacity (buf d)) (Z.of_nat (length c) + ex)) as [L|L]; [|left; eauto].
      destruct ok.
      - left. destruct (grow_ok 0 (buf d) c (Z.of_nat (length c) + ex) A) as (a' & G1 & G2 & G3). exists a'. repeat split; try easy. lia.
      - right. split; [|easy]. now apply (grow_fail 0 (buf d) c). }
    destruct G as [(a' & -> & (r & Er & Ec & Ecap) & Gcap)|(-> & ->)]; cbn [obind negb].
    + left. assert (R : 0 <= Z.of_nat (length data) - ex <= Z.of_nat (length data)) by lia.
      destruct (Z.ltb_spec (Z.of_nat (length data) - ex) 0); [lia|]. rewrite Er.
      destruct (split_at (Z.to_nat (Z.of_nat (length data) - ex)) data) as (d1 & d2 & Ed & L1); [lia|].
      assert (F1 : firstn (Z.to_nat (Z.of_nat (length data) - ex)) data = d1) by (rewrite <- L1, Ed, firstn_app, Nat.sub_diag, firstn_all, firstn_O; apply app_nil_r).
      assert (F2 : skipn (Z.to_nat (Z.of_nat (length data) - ex)) data = d2) by (rewrite <- L1, Ed, skipn_app, Nat.sub_diag, skipn_all; easy).
      rewrite F1, F2. clear F1 F2. rewrite write_in by lia. cbn [obind]. assert (Ld : Z.of_nat (length data) = Z.of_nat (length d1) + Z.of_nat (length d2)) by (rewrite Ed, app_length; lia).
      destruct (Z.ltb_spec 0 ex) as [X|X].
      * assert (Lr : (length d2 <= length r)%nat) by lia.
        assert (Ls : length (splice c off d1) = length c) by (rewrite splice_len by lia; lia).
        rewrite write_out by lia. cbn [obind]. do 2 eexists. split; [reflexivity|]. split; [easy|].
        assert (Sp : splice c off data = splice c off d1 ++ d2).
        { rewrite Ed. apply splice_cut; lia. }
        split; [|split; [easy|lia]]. unfold srep. cbn [clone_writable buf contents cap cursor pos]. cbn [written]. rewrite Sp. split.
        { rewrite app_assoc. apply rep_mk; rewrite ?app_length, ?skipn_length; lia. }
        unfold size. cbn [contents]. rewrite app_length. repeat split; lia.
      * assert (d2 = []) by (destruct d2; [easy|cbn [length] in Ld; lia]). subst d2. rewrite app_nil_r in Ed. subst d1.
        assert (Ls : length (splice c off data) = length c) by (rewrite splice_len by lia; lia).
        do 2 eexists. split; [reflexivity|]. split; [easy|]. split; [|split; [easy|lia]]. unfold srep. cbn [clone_writable buf contents cap cursor pos written]. split.
        { apply rep_mk; rewrite Ls; lia. }
        unfold size. cbn [contents]. rewrite Ls. repeat split; lia.
    + right. eexists. split; [reflexivity|]. split; [|split; [easy|tauto]]. unfold srep. cbn [clone_writable buf contents cap cursor pos]. unfold size in *. repeat split; try easy; lia.
  - destruct (writable d) eqn:W; cbn [orb negb].
    + (* fixed *)
      left. rewrite B. unfold size in *. set (c := contents f) in *. set (ex := Z.max 0 (Z.of_nat (length data) - (Z.of_nat (length c) - off))). cbn [obind negb].
      destruct (Z.ltb_spec (Z.of_nat (length data) - ex) 0); [lia|]. destruct A as (r & Er). rewrite Er.
      assert (F : firstn (Z.to_nat (Z.of_nat (length data) - ex)) data = firstn (length c - Z.to_nat off) data).
      { destruct (Z.ltb_spec (Z.of_nat (length data)) (Z.of_nat (length c) - off)) as [L|L]; [rewrite !firstn_all2 by lia; easy|f_equal; lia]. }
      rewrite F. pose proof (firstn_length (length c - Z.to_nat off) data) as Lf. rewrite write_in by lia. cbn [obind].
      do 2 eexists. split; [reflexivity|]. split; [easy|]. split; [|split; [easy|lia]]. unfold srep. cbn [clone_writable buf contents cap cursor pos written cells]. split; [eauto|].
      unfold size. cbn [contents]. rewrite splice_len by lia. repeat split; lia.
    + right. exists d. split; [easy|]. split; [unfold srep; rewrite Cl; easy|]. split; [now rewrite Cl, W|now left].
Qed.

(** * Histories *)
(** one call, as the program sees it; [ok] is the outcome of an allocation *)
Definition call (ok : bool) (o : fop) (d : stream) : option (fout * stream) :=
  match o with
  | FWrite data => ' (r, d') <- file_write ok d data ;; Some (OWrote r, d')
  | FRead n => ' (xs, d') <- file_read d n ;; Some (OData xs, d')
  | FSeek k => ' (p, d') <- file_seek d k ;; Some (OPos p, d')
  | FSkip k => ' (p, d') <- file_skip d k ;; Some (OPos p, d')
  | FEnd => ' (p, d') <- file_seek_to_end d ;; Some (OPos p, d')
  | FTell => ' (p, d') <- file_tell d ;; Some (OPos p, d')
  | FWriteAt data off => ' (r, n, d') <- write ok d data off ;; Some (OWroteN r n, d')
  | FReadAt n off => xs <- read d n off ;; Some (OData xs, d)
  end.
Fixpoint calls (l : list (bool * fop)) (d : stream) : option (list fout * stream) :=
  match l with
  | [] => Some ([], d)
  | (ok, o) :: l => ' (r, d) <- call ok o d ;; ' (rs, d) <- calls l d ;; Some (r :: rs, d)
  end.

Lemma file_eta f : File (contents f) (pos f) = f.
Proof. now destruct f. Qed.
Lemma seek_to d f k : srep d f -> 0 <= k < 2^63 -> exists d', file_seek d k = Some (Z.min k (size f), d') /\ srep d' (File (contents f) (Z.min k (size f))) /\ kind_of d' = kind_of d.
Proof.
  intros S H. destruct (seek_ok d f k Begin S) as (d' & A & B & C); [unfold in_i64; lia|]. exists d'. unfold file_seek.
  pose proof S as (_ & _ & _ & D & _). replace (Z.min k (size f)) with (clamp (0 + k) 0 (size f)) by (unfold clamp; lia). easy.
Qed.
Lemma call_ok ok o d f : srep d f -> allowed o f ->
  exists r d' f', call ok o d = Some (r, d') /\ fstep (kind_of d) ok o f r f' /\ srep d' f' /\ kind_of d' = kind_of d.
Proof.
  intros S A. pose proof S as (S1 & S2 & S3 & S4 & S5).
  destruct f as [c p] eqn:Ef. rewrite <- Ef in *. destruct o as [data|n|k|k| | |data off|n off]; cbn [call allowed] in *.
  - unfold file_write. rewrite (tell_ok d f S). cbn [obind]. rewrite (tell_ok d f S). cbn [obind].
    destruct (write_ok ok d f data (pos f) S S4 A) as [(d1 & n & -> & B & C & D & _)|(d1 & -> & C & D & E)]; cbn [obind]; rewrite chk_ok by lia; cbn [obind].
    + destruct (seek_to d1 _ (pos f + Z.of_nat (length data)) C) as (d2 & -> & E & F); [lia|]. cbn [obind].
      do 3 eexists. split; [reflexivity|]. split; [|split; [exact E|congruence]].
      rewrite <- (file_eta f) at 1. unfold size. cbn [contents]. now apply s_write.
    + destruct (seek_to d1 _ (pos f + Z.of_nat (length data)) C) as (d2 & -> & E' & F); [lia|]. cbn [obind].
      do 3 eexists. split; [reflexivity|]. split; [|split; [exact E'|congruence]].
      rewrite <- (file_eta f) at 1. unfold size. now apply s_write_fail.
  - unfold file_read. rewrite (tell_ok d f S). cbn [obind]. rewrite (tell_ok d f S). cbn [obind].
    rewrite (read_ok d f) by (easy || lia). cbn [obind]. rewrite chk_ok by lia. cbn [obind].
    destruct (seek_to d f (pos f + n) S) as (d2 & -> & E & F); [lia|]. cbn [obind]. rewrite Z.min_l in E by lia.
    do 3 eexists. split; [reflexivity|]. split; [|split; [exact E|easy]]. rewrite <- (file_eta f) at 1. apply s_read.
  - destruct (seek_ok d f k Begin S A) as (d' & E & F & H). unfold file_seek. rewrite E. cbn [obind]. rewrite Z.add_0_l in *.
    do 3 eexists. split; [reflexivity|]. split; [|split; [exact F|easy]]. rewrite <- (file_eta f) at 1. apply s_seek.
  - destruct (seek_ok d f k Current S A) as (d' & E & F & H). unfold file_skip. rewrite E. cbn [obind].
    do 3 eexists. split; [reflexivity|]. split; [|split; [exact F|easy]]. rewrite <- (file_eta f) at 1. apply s_skip.
  - destruct (seek_ok d f 0 End S) as (d' & E & F & H); [unfold in_i64; lia|]. unfold file_seek_to_end. rewrite E. cbn [obind].
    replace (clamp (size f + 0) 0 (size f)) with (size f) in * by (unfold clamp; lia).
    do 3 eexists. split; [reflexivity|]. split; [|split; [exact F|easy]]. rewrite <- (file_eta f) at 1. apply s_end.
  - rewrite (tell_ok d f S). cbn [obind]. do 3 eexists. split; [reflexivity|]. split; [|split; [exact S|easy]]. rewrite <- (file_eta f) at 1 3. apply s_tell.
  - destruct A as (A & G). destruct (write_ok ok d f data off S A G) as [(d1 & n & -> & B & C & D & ->)|(d1 & -> & C & D & E)]; cbn [obind].
    + do 3 eexists. split; [reflexivity|]. split; [|split; [exact C|easy]]. rewrite <- (file_eta f) at 1. now apply s_write_at.
    + do 3 eexists. split; [reflexivity|]. split; [|split; [exact C|easy]]. rewrite <- (file_eta f) at 1 2. now apply s_write_at_fail.
  - rewrite (read_ok d f) by (easy || lia). cbn [obind]. do 3 eexists. split; [reflexivity|]. split; [|split; [exact S|easy]]. rewrite <- (file_eta f) at 1 3. apply s_read_at.
Qed.

Lemma calls_ok l : forall d f, srep d f -> legal (kind_of d) l f ->
  exists rs d' f', calls l d = Some (rs, d') /\ fsteps (kind_of d) l f rs f' /\ srep d' f' /\ kind_of d' = kind_of d.
Proof.
  induction l as [|[ok o] l IH]; cbn [calls legal]; intros d f S L.
  - exists [], d, f. split; [easy|]. split; [constructor|easy].
  - destruct L as (A & L). destruct (call_ok ok o d f S A) as (r & d1 & f1 & -> & F & S1 & K). cbn [obind].
    destruct (IH d1 f1 S1) as (rs & d2 & f2 & -> & F2 & S2 & K2); [rewrite K; eauto|]. cbn [obind].
    exists (r :: rs), d2, f2. split; [easy|]. rewrite K in F2. split; [econstructor; eauto|]. split; [easy|congruence].
Qed.
Lemma srep_buf d f : srep d f -> stream_buf d = (fst (stream_buf d), size f) /\ firstn (length (contents f)) (fst (stream_buf d)) = contents f.
Proof.
  intros S. destruct (srep_cells d f S) as (r & E). destruct S as (_ & C & _). unfold stream_buf. cbn [fst]. rewrite E, C. split; [easy|].
  rewrite firstn_app, Nat.sub_diag, firstn_all, firstn_O. apply app_nil_r.
Qed.
