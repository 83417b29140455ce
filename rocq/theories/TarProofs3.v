From Verif Require Import Base CStr CStrSpec CStrProofs Num NumSpec NumProofs PropNum Print PrintSpec PrintProofs PrintProofs2 PropPrint Bits BitsSpec PropBits Array ArraySpec ArrayProofs FStream FStreamSpec FStreamProofs Tar TarSpec TarProofs TarProofs2.

(** a callback that records what it is shown and whose result depends on that *)
Definition judge (code : list record -> Z) (log : list record) (_ : stream) (rec : record) : option (Z * list record) :=
  Some (code (log ++ [rec]), log ++ [rec]).
Lemma judge_ok code c : forall es xs pre d log, Forall2 good_entry es xs -> Forall storable es -> len c < 2^63 ->
  c = pre ++ concat xs ++ repeat 0 1024 -> srep d (File c (len pre)) ->
  exists k r d' p', (k <= length es)%nat /\ (forall f, (length es < f)%nat -> unpack (judge code) f log d = Some (r, log ++ firstn k (recs_of es xs (len pre)), d')) /\
    srep d' (File c p') /\ (forall j, (0 < j < k)%nat -> code (log ++ firstn j (recs_of es xs (len pre))) <= 0) /\
    ((r = -1 /\ (0 < k)%nat /\ 0 < code (log ++ firstn k (recs_of es xs (len pre)))) \/
     (r = 0 /\ k = length es /\ ((0 < k)%nat -> code (log ++ firstn k (recs_of es xs (len pre))) <= 0))).
Proof.
  intros es xs pre d log H. revert pre d log. induction H as [|e x es xs (h & Hh & Hl & Ex) H IH]; intros pre d log St Lc Ec S.
  - cbn [concat app recs_of] in *. subst c. destruct (read_at d _ _ 512 S) as (d' & E & S'); [unfold len; rewrite app_length, repeat_length; lia|].
    exists 0%nat, 0, d', (len pre + 512). split; [easy|]. cbn [firstn]. rewrite app_nil_r. split; [|split; [easy|split; [lia|right; split; [easy|split; [easy|lia]]]]].
    intros [|f] Lf; [cbn in Lf; lia|]. cbn [unpack]. unfold unpack_round. rewrite E. cbn [obind].
    change (repeat 0 1024) with (repeat 0 512 ++ repeat 0 512). change (Z.to_nat 512) with (length (repeat 0 512)) at 1. rewrite part by easy. reflexivity.
  - apply Forall_cons_iff in St. destruct St as (Se & St). pose proof (layout_len e h Se Hl) as Lh. cbn [concat recs_of] in *.
    destruct (parse_ok e h (len pre + 512) Se Hl) as ((c0 & Hc0 & Nc0) & Pk).
    assert (F512 : firstn 512 x = h) by (rewrite Ex, <- Lh, firstn_len; easy).
    assert (Lx : len x = 512 + rounded (len (e_data e))) by (rewrite Ex; pose proof (padded_len (e_data e)); unfold len in *; rewrite app_length; lia).
    assert (Lcs : len c = len pre + len x + len (concat xs) + 1024) by (rewrite Ec; unfold len; rewrite !app_length, repeat_length; lia).
    pose proof (rounded_bounds (len (e_data e)) ltac:(unfold len; lia)) as B.
    destruct (read_at d _ _ 512 S) as (d1 & E & S1); [unfold len in *; lia|].
    assert (E' : firstn (Z.to_nat 512) (skipn (Z.to_nat (len pre)) c) = h).
    { rewrite Ec, Ex. change (Z.to_nat 512) with 512%nat. rewrite <- Lh, <- !app_assoc. now apply part. }
    rewrite E' in E. rewrite F512 in *. set (rec := rec_of e h (len pre + 512)) in *.
    assert (R : forall f, unpack (judge code) (Datatypes.S f) log d =
      (if 0 <? code (log ++ [rec]) then Some (-1, log ++ [rec], d1)
       else ' (_, d2) <- file_seek d1 (len pre + 512 + rounded (len (e_data e))) ;; unpack (judge code) f (log ++ [rec]) d2)).
    { intros f. cbn [unpack]. unfold unpack_round. rewrite E. cbn [obind]. rewrite Hc0. cbn [obind]. destruct (Z.eqb_spec c0 0); [easy|].
      rewrite (tell_ok d1 _ S1). cbn [obind pos]. rewrite Pk. cbn [obind]. fold rec. unfold judge at 1. cbn [obind].
      destruct (0 <? code (log ++ [rec])); [reflexivity|]. unfold rec at 1, rec_of. cbn [r_length]. pose proof Se as (_ & _ & Ld). rewrite align_ok by (unfold len; lia). cbn [obind].
      rewrite chk_ok by (unfold len in *; lia). cbn [obind]. destruct (file_seek d1 _) as [(q & d2)|]; reflexivity. }
    destruct (Z.ltb_spec 0 (code (log ++ [rec]))) as [C|C].
    + exists 1%nat, (-1), d1, (len pre + 512). split; [cbn [length]; lia|]. cbn [firstn]. split; [|split; [easy|split; [lia|left; split; [easy|split; [lia|exact C]]]]].
      intros [|f] Lf; [cbn in Lf; lia|]. apply R.
    + destruct (seek_to d1 _ (len pre + 512 + rounded (len (e_data e))) S1) as (d2 & E2 & S2 & _); [unfold len in *; lia|]. cbn [contents size] in E2, S2.
      rewrite Z.min_l in S2, E2 by (unfold size, len in *; cbn; lia).
      assert (Lp : len (pre ++ x) = len pre + len x) by (unfold len; rewrite app_length; lia).
      destruct (IH (pre ++ x) d2 (log ++ [rec])) as (k & r & d' & p' & Lk & U & S' & J & O); try easy.
      * rewrite Ec, <- !app_assoc. easy.
      * rewrite Lp, Lx. replace (len pre + (512 + rounded (len (e_data e)))) with (len pre + 512 + rounded (len (e_data e))) by lia. easy.
      * rewrite Lp in *. rewrite <- !app_assoc in O. cbn [app] in O.
        exists (Datatypes.S k), r, d', p'. cbn [length firstn]. split; [lia|]. split; [|split; [easy|split]].
        -- intros [|f] Lf; [cbn in Lf; lia|]. rewrite R, E2. cbn [obind]. rewrite U by lia. now rewrite <- app_assoc.
        -- intros [|j] Hj; [lia|]. cbn [firstn]. destruct j as [|j]; [exact C|]. specialize (J (Datatypes.S j) ltac:(lia)). now rewrite <- app_assoc in J.
        -- destruct O as [(-> & Pk' & O)|(-> & -> & O)]; [left; split; [easy|split; [lia|easy]]|right; split; [easy|split; [easy|]]].
           intros _. destruct es as [|e2 es2]; [exact C|]. apply O. cbn; lia.
Qed.

(** packing stops at the first file that cannot be opened *)
Lemma pack_prefix fs rest : forall paths es d c, Forall2 (holds fs) paths es -> Forall storable es -> at_end d c -> len c + size_of es < 2^63 ->
  exists d' xs, pack_loop fs [] d (paths ++ rest) = pack_loop fs [] d' rest /\ Forall2 good_entry es xs /\ at_end d' (c ++ concat xs).
Proof.
  intros paths es d c H. revert d c. induction H as [|path e paths es (-> & Hf) H IH]; intros d c St A L.
  - exists d, []. cbn [concat]. rewrite app_nil_r. split; [easy|]. split; [constructor|easy].
  - apply Forall_cons_iff in St. destruct St as (Se & St). cbn [app pack_loop]. rewrite Hf. cbn [size_of] in L. pose proof (size_nonneg es) as Q.
    destruct (header_ok e [] Se) as (h & -> & Hh & Hl). cbn [obind next]. pose proof (layout_len e h Se Hl) as Lh.
    pose proof (rounded_bounds (len (e_data e)) ltac:(unfold len; lia)) as B. pose proof Se as (_ & _ & Ld).
    destruct (append_ok d c h A) as (d1 & -> & A1); [unfold len in *; lia|]. cbn [obind].
    rewrite align_ok by lia. cbn [obind].
    destruct (copy_ok (S (length (e_data e))) d1 (c ++ h) [] (e_data e) A1) as (d2 & E & A2); [unfold len in *; rewrite app_length; lia|lia|].
    cbn [app length] in E. unfold len at 1 in E. rewrite E. cbn [obind]. fold (len (e_data e)).
    assert (W : exists d3, (if 0 <? rounded (len (e_data e)) - len (e_data e) then write_null [] d2 (rounded (len (e_data e)) - len (e_data e)) else Some (true, [], d2)) = Some (true, [], d3) /\ at_end d3 (c ++ h ++ padded_data (e_data e))).
    { unfold padded_data, padto. fold (len (e_data e)). rewrite <- app_assoc in A2. destruct (Z.ltb_spec 0 (rounded (len (e_data e)) - len (e_data e))) as [P|P].
      - destruct (null_ok d2 _ (rounded (len (e_data e)) - len (e_data e)) A2) as (d3 & -> & A3); [lia|unfold len in *; rewrite !app_length; lia|]. exists d3. split; [easy|].
        rewrite <- !app_assoc in A3. replace (Z.to_nat (rounded (len (e_data e))) - length (e_data e))%nat with (Z.to_nat (rounded (len (e_data e)) - len (e_data e))) by (unfold len in *; lia). easy.
      - exists d2. split; [easy|]. replace (Z.to_nat (rounded (len (e_data e))) - length (e_data e))%nat with O by (unfold len in *; lia). cbn [repeat]. now rewrite app_nil_r. }
    destruct W as (d3 & -> & A3). cbn [obind].
    destruct (IH d3 _ St A3) as (d4 & xs & -> & G & A4).
    { pose proof (padded_len (e_data e)). unfold len in *. rewrite !app_length. lia. }
    exists d4, ((h ++ padded_data (e_data e)) :: xs). split; [easy|]. split; [constructor; [exists h; easy|easy]|]. cbn [concat]. repeat rewrite <- app_assoc in A4. repeat rewrite <- app_assoc. exact A4.
Qed.

(** a stream that cannot be written *)
Lemma write_ro ok d f x : srep d f -> kind_of d = ReadOnly -> pos f + len x < 2^63 -> exists d' p, file_write ok d x = Some (false, d') /\ srep d' (File (contents f) p) /\ p <= size f /\ kind_of d' = ReadOnly.
Proof.
  intros S K L. destruct (call_ok ok (FWrite x) d _ S) as (r & d' & f' & E & F & S' & K'); [exact L|]. cbn [call] in E.
  destruct (file_write ok d x) as [(b & d1)|]; [|easy]. cbn [obind] in E. injection E as Er ->. subst r. rewrite K in F.
  inversion F as [ok0 c0 p data Q|ok0 c0 p data Q| | | | | | | | ]; subst; [easy|].
  do 2 eexists. split; [reflexivity|]. cbn [contents] in *. split; [exact S'|]. unfold size. cbn [contents]. split; [lia|congruence].
Qed.
Lemma copy_ro : forall fuel oks d f data q rem, srep d f -> kind_of d = ReadOnly -> size f + 4096 < 2^63 -> (length data < fuel + q)%nat -> (0 < fuel)%nat ->
  exists oks' d' p, copy_loop fuel oks d data q rem = Some (oks', d') /\ srep d' (File (contents f) p) /\ kind_of d' = ReadOnly.
Proof.
  induction fuel as [|n IH]; intros oks d f data q rem S K L Fu P; [lia|]. cbn [copy_loop].
  pose proof S as (_ & _ & _ & Pf & _).
  destruct (firstn 4096 (skipn q data)) as [|y a] eqn:E.
  - exists oks, d, (pos f). split; [easy|]. split; [|easy]. now destruct f.
  - assert (La : (length (y :: a) <= 4096)%nat) by (rewrite <- E, firstn_length; lia).
    assert (Lq : (q < length data)%nat).
    { destruct (Nat.ltb_spec q (length data)) as [|C]; [easy|]. rewrite skipn_all2 in E by easy. easy. }
    destruct (next oks) as (ok & oks1). destruct (write_ro ok d f (y :: a) S K) as (d1 & p & -> & S1 & Lp & K1); [unfold len; lia|]. cbn [obind].
    destruct (0 <? rem - Z.of_nat (length (y :: a))); [|eauto 6].
    apply (IH oks1 d1 (File (contents f) p)); try easy; cbn [length]; lia.
Qed.
Lemma null_ro oks d f n : srep d f -> kind_of d = ReadOnly -> 0 <= n -> size f + n < 2^63 -> exists oks' d' p, write_null oks d n = Some (false, oks', d') /\ srep d' (File (contents f) p) /\ kind_of d' = ReadOnly.
Proof.
  intros S K Hn L. pose proof S as (_ & _ & _ & Pf & _). unfold write_null. destruct (next oks) as (ok & oks1).
  destruct (write_ro ok d f (repeat 0 (Z.to_nat n)) S K) as (d1 & p & -> & S1 & Lp & K1); [unfold len; rewrite repeat_length; lia|]. cbn [obind]. eauto 6.
Qed.
(** one file into such a stream: nothing is noticed unless there is padding *)
Lemma pack_one_ro fs oks d f path e rest : holds fs path e -> storable e -> srep d f -> kind_of d = ReadOnly -> size f + 4096 < 2^63 ->
  exists oks' d' p, pack_loop fs oks d (path :: rest) = (if len (e_data e) mod 512 =? 0 then pack_loop fs oks' d' rest else Some (- ERROR_IO, oks', d')) /\
    srep d' (File (contents f) p) /\ kind_of d' = ReadOnly.
Proof.
  intros (-> & Hf) Se S K L. cbn [pack_loop]. rewrite Hf. destruct (header_ok e [] Se) as (h & -> & Hh & Hl). cbn [obind]. pose proof (layout_len e h Se Hl) as Lh.
  pose proof Se as (_ & _ & Ld). pose proof (rounded_bounds (len (e_data e)) ltac:(unfold len; lia)) as B. pose proof S as (_ & _ & _ & Pf & _).
  destruct (next oks) as (ok & oks1). destruct (write_ro ok d f h S K) as (d1 & p1 & -> & S1 & Lp & K1); [unfold len; lia|]. cbn [obind].
  rewrite align_ok by lia. cbn [obind].
  destruct (copy_ro (Datatypes.S (length (e_data e))) oks1 d1 _ (e_data e) 0 (Z.of_nat (length (e_data e))) S1 K1) as (oks2 & d2 & p2 & -> & S2 & K2); [exact L|lia|lia|]. cbn [obind contents] in *.
  fold (len (e_data e)). unfold rounded in *. set (n := len (e_data e)) in *. assert (Hn : 0 <= n) by (unfold n, len; lia).
  pose proof (Z.div_mod n 512 ltac:(lia)) as D. pose proof (Z.mod_pos_bound n 512 ltac:(lia)) as M.
  destruct (Z.eqb_spec (n mod 512) 0) as [Z0|NZ].
  - replace ((n + 511) / 512 * 512 - n) with 0.
    + change (0 <? 0) with false. cbn [obind]. eauto 6.
    + rewrite D at 1. rewrite Z0. replace (512 * (n / 512) + 0 + 511) with (511 + (n / 512) * 512) by lia. rewrite Z.div_add by lia. change (511 / 512) with 0. lia.
  - destruct (Z.ltb_spec 0 ((n + 511) / 512 * 512 - n)) as [P|P].
    + destruct (null_ro oks2 d2 _ ((n + 511) / 512 * 512 - n) S2 K2) as (oks3 & d3 & p3 & -> & S3 & K3); [lia|unfold size in *; cbn [contents]; lia|]. cbn [obind contents] in *. eauto 6.
    + exfalso. apply NZ. assert (E : n = (n + 511) / 512 * 512) by lia. rewrite E. apply Z.mod_mul. lia.
Qed.
