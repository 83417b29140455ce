From Verif Require Import Base Array ArraySpec ArrayProofs ArrayProofs2 Ring RingSpec.

Section R.
  Context {T : Type} (z : T).
  Implicit Types q xs : list T.

  Lemma mod_inj c t i j : 0 < c -> 0 <= i < c -> 0 <= j < c -> (t + i) mod c = (t + j) mod c -> i = j.
  Proof.
    intros Hc Hi Hj E. pose proof (Z.div_mod (t + i) c ltac:(lia)). pose proof (Z.div_mod (t + j) c ltac:(lia)).
    rewrite E in H. assert (c * ((t+i)/c - (t+j)/c) = i - j) by lia.
    assert ((t+i)/c = (t+j)/c) by nia. lia.
  Qed.

  Lemma write_nth (l : list T) i x : 0 <= i < Z.of_nat (length l) ->
    exists l', write_cells l i [x] = Some l' /\ length l' = length l /\
      forall k, nth_error l' k = if Nat.eqb k (Z.to_nat i) then Some x else nth_error l k.
  Proof.
    intros Hi. destruct (split_at (Z.to_nat i) l) as (a & b & -> & L); [lia|].
    rewrite app_length in Hi. destruct b as [|y b]; [cbn in Hi; lia|].
    change (y :: b) with ([y] ++ b). rewrite write_app by (cbn; lia).
    eexists. split; [reflexivity|]. rewrite !app_length. split; [easy|].
    intros k. destruct (Nat.eqb_spec k (Z.to_nat i)) as [->|H].
    - rewrite nth_error_app2 by lia. rewrite L, Nat.sub_diag. easy.
    - destruct (Nat.lt_ge_cases k (length a)).
      + rewrite !nth_error_app1 by lia. easy.
      + rewrite (nth_error_app2 a ([x] ++ b)), (nth_error_app2 a ([y] ++ b)) by lia.
        destruct (k - length a)%nat eqn:D; [lia|]. easy.
  Qed.

  Lemma next_pos_ok (r : ring T) x : 0 <= x < rcap r -> rcap r < 2^64 -> next_pos r x = Some ((x + 1) mod rcap r).
  Proof.
    intros. unfold next_pos. destruct (Z.eqb_spec (rcap r) 0); [lia|].
    unfold u64. rewrite (Z.mod_small (x + 1)) by lia. easy.
  Qed.

  Lemma append_ok r q x : readable r q -> 1 < rcap r < 2^64 ->
    exists r', ring_append r x = Some r' /\ rcap r' = rcap r /\
      readable r' (newest (Z.to_nat (rcap r - 1)) (q ++ [x])).
  Proof.
    intros (Ht & Hh & Hl & Lb & N) Hc. unfold ring_append.
    assert (Hh' : 0 <= head r < rcap r) by (rewrite Hh; apply Z.mod_pos_bound; lia).
    destruct (write_nth (rbuf r) (head r) x) as (b & W & Lb' & Nb); [lia|]. rewrite W. cbn [obind].
    rewrite !next_pos_ok by lia. cbn [obind].
    assert (Hn : (head r + 1) mod rcap r = (tail r + (Z.of_nat (length q) + 1)) mod rcap r).
    { rewrite Hh, Zplus_mod_idemp_l. f_equal. lia. }
    assert (Nall : forall i, (i < length (q ++ [x]))%nat ->
      nth_error b (Z.to_nat ((tail r + Z.of_nat i) mod rcap r)) = nth_error (q ++ [x]) i).
    { intros i Hi. rewrite app_length in Hi. cbn in Hi. rewrite Nb.
      assert (0 <= (tail r + Z.of_nat i) mod rcap r < rcap r) by (apply Z.mod_pos_bound; lia).
      destruct (Nat.eqb_spec (Z.to_nat ((tail r + Z.of_nat i) mod rcap r)) (Z.to_nat (head r))) as [E|E].
      - assert (Z.of_nat i = Z.of_nat (length q)).
        { apply (mod_inj (rcap r) (tail r)); lia. }
        rewrite nth_error_app2 by lia. replace (i - length q)%nat with 0%nat by lia. easy.
      - destruct (Nat.eq_dec i (length q)) as [->|]; [exfalso; apply E; rewrite Hh; easy|].
        rewrite nth_error_app1 by lia. apply N. lia. }
    assert (Ln : length (newest (Z.to_nat (rcap r - 1)) (q ++ [x])) = Nat.min (length q + 1) (Z.to_nat (rcap r - 1))).
    { unfold newest. rewrite skipn_length, app_length. cbn [length]. lia. }
    destruct (Z.eq_dec (Z.of_nat (length q) + 1) (rcap r)) as [F|F].
    - assert (E : (head r + 1) mod rcap r = tail r).
      { rewrite Hn, F, <- (Z.mul_1_l (rcap r)) at 1. rewrite Z.mod_add by lia. apply Z.mod_small. lia. }
      rewrite E, Z.eqb_refl. eexists. split; [reflexivity|]. split; [easy|].
      split; [apply Z.mod_pos_bound; cbn; lia|]. cbn [tail head rcap rbuf]. rewrite Ln.
      split. { rewrite Zplus_mod_idemp_l. replace (tail r + 1 + _) with (tail r + 1 * rcap r) by lia.
               rewrite Z.mod_add by lia. symmetry. apply Z.mod_small. lia. }
      split; [lia|]. split; [lia|].
      intros i Hi. rewrite Zplus_mod_idemp_l. replace (tail r + 1 + Z.of_nat i) with (tail r + Z.of_nat (S i)) by lia.
      rewrite Nall by (rewrite app_length; cbn; lia).
      unfold newest. rewrite app_length. cbn [length].
      replace (length q + 1 - Z.to_nat (rcap r - 1))%nat with 1%nat by lia.
      destruct (q ++ [x]); [now destruct i|]. easy.
    - assert (E : (head r + 1) mod rcap r <> tail r).
      { rewrite Hn. intros C. assert (Z.of_nat (length q) + 1 = 0); [|lia].
        apply (mod_inj (rcap r) (tail r)); try lia. rewrite Z.add_0_r, (Z.mod_small (tail r)) by lia. exact C. }
      apply Z.eqb_neq in E. rewrite E. eexists. split; [reflexivity|]. split; [easy|].
      assert (NE : newest (Z.to_nat (rcap r - 1)) (q ++ [x]) = q ++ [x]).
      { unfold newest. rewrite app_length. cbn [length]. replace (length q + 1 - Z.to_nat (rcap r - 1))%nat with 0%nat by lia. easy. }
      rewrite NE in *. split; [easy|]. cbn [tail head rcap rbuf]. rewrite Ln. split; [rewrite Hn; f_equal; lia|].
      split; [lia|]. split; [lia|]. intros i Hi. apply Nall. lia.
  Qed.

  Lemma skipn_skipn' a b q : skipn a (skipn b q) = skipn (a + b) q.
  Proof.
    revert q. induction b as [|b IH]; intros q; [now rewrite Nat.add_0_r|].
    destruct q; [now rewrite !skipn_nil|]. rewrite Nat.add_succ_r. cbn [skipn]. apply IH.
  Qed.
  Lemma newest_newest n q xs : newest n (newest n q ++ xs) = newest n (q ++ xs).
  Proof.
    unfold newest. rewrite !app_length, skipn_length.
    destruct (Nat.le_gt_cases (length q) n).
    - replace (length q - n)%nat with 0%nat by lia. cbn [skipn]. do 2 f_equal. lia.
    - rewrite !skipn_app, skipn_skipn', skipn_length. f_equal; f_equal; lia.
  Qed.
  Lemma newest_short n q : (length q <= n)%nat -> newest n q = q.
  Proof. intros. unfold newest. replace (length q - n)%nat with 0%nat by lia. easy. Qed.

  Lemma append_array_ok : forall xs r q, readable r q -> 1 < rcap r < 2^64 ->
    exists r', ring_append_array r xs = Some r' /\ rcap r' = rcap r /\
      readable r' (newest (Z.to_nat (rcap r - 1)) (q ++ xs)).
  Proof.
    induction xs as [|x xs IH]; intros r q R Hc; cbn [ring_append_array].
    - exists r. rewrite app_nil_r, newest_short by (destruct R as (_ & _ & ? & _); lia). easy.
    - destruct (append_ok r q x R Hc) as (r1 & A & C1 & R1). rewrite A. cbn [obind].
      destruct (IH r1 _ R1) as (r2 & A2 & C2 & R2); [lia|]. exists r2. split; [easy|]. split; [lia|].
      rewrite C1, newest_newest, <- app_assoc in R2. exact R2.
  Qed.

  Lemma empty_ok r q : readable r q -> 0 < rcap r -> ring_empty r = match q with [] => true | _ => false end.
  Proof.
    intros (Ht & Hh & Hl & Lb & N) Hc. unfold ring_empty. destruct q as [|x q].
    - rewrite Hh. cbn [length]. rewrite Z.add_0_r, Z.mod_small by lia. apply Z.eqb_refl.
    - apply Z.eqb_neq. rewrite Hh. intros E.
      assert (Z.of_nat (length (x :: q)) = 0); [|cbn in H; lia].
      apply (mod_inj (rcap r) (tail r)); try lia. rewrite Z.add_0_r, (Z.mod_small (tail r)) by lia. exact E.
  Qed.
  Lemma full_ok r q : readable r q -> 1 < rcap r < 2^64 ->
    ring_full r = Some (Z.of_nat (length q) =? rcap r - 1).
  Proof.
    intros (Ht & Hh & Hl & Lb & N) Hc. unfold ring_full.
    assert (Hh' : 0 <= head r < rcap r) by (rewrite Hh; apply Z.mod_pos_bound; lia).
    rewrite next_pos_ok by lia. cbn [obind]. f_equal. rewrite Hh, Zplus_mod_idemp_l.
    apply eq_true_iff_eq. rewrite !Z.eqb_eq. split; intros E.
    - destruct (Z.eq_dec (Z.of_nat (length q) + 1) (rcap r)); [lia|].
      assert (Z.of_nat (length q) + 1 = 0); [|lia].
      apply (mod_inj (rcap r) (tail r)); try lia. rewrite Z.add_0_r, (Z.mod_small (tail r)), Z.add_assoc by lia. exact E.
    - replace (tail r + _ + 1) with (tail r + 1 * rcap r) by lia. rewrite Z.mod_add by lia. apply Z.mod_small. lia.
  Qed.

  Lemma get_ok r q : readable r q -> 0 < rcap r < 2^64 ->
    exists r', ring_get r = Some (hd_error q, r') /\ rcap r' = rcap r /\ readable r' (tl q).
  Proof.
    intros R Hc. unfold ring_get. rewrite (empty_ok r q R) by lia.
    destruct q as [|x q]; [exists r; easy|].
    destruct R as (Ht & Hh & Hl & Lb & N).
    destruct (Z.leb_spec 0 (tail r)); [|lia].
    pose proof (N 0%nat ltac:(cbn; lia)) as N0. rewrite Z.add_0_r, Z.mod_small in N0 by lia. rewrite N0. cbn [obind nth_error].
    rewrite next_pos_ok by lia. cbn [obind hd_error tl]. eexists. split; [reflexivity|]. split; [easy|].
    split; [cbn; apply Z.mod_pos_bound; lia|]. cbn [tail head rcap rbuf]. cbn [length] in *.
    split. { rewrite Hh, Zplus_mod_idemp_l. f_equal. lia. }
    split; [lia|]. split; [lia|].
    intros i Hi. rewrite Zplus_mod_idemp_l.
    replace (tail r + 1 + Z.of_nat i) with (tail r + Z.of_nat (S i)) by lia. rewrite N by lia. easy.
  Qed.

  Lemma get_array_loop_ok : forall fuel r q m vals l, readable r q -> 0 < rcap r < 2^64 -> rep vals l ->
    0 <= m < 2^64 -> (length q < fuel)%nat ->
    let k := if m =? 0 then length q else min (length q) (Z.to_nat (m - 1)) in
    exists vals' r', get_array_loop z fuel r m vals = Some (vals', r') /\ rcap r' = rcap r /\
      rep vals' (l ++ firstn k q) /\ readable r' (skipn k q).
  Proof.
    induction fuel as [|fuel IH]; intros r q m vals l R Hc Rv Hm Hf k; [lia|].
    cbn [get_array_loop]. cbv zeta. rewrite (empty_ok r q R) by lia.
    destruct q as [|x q].
    - rewrite andb_false_r. exists vals, r. split; [easy|]. split; [easy|].
      assert (k = 0)%nat as -> by (unfold k; cbn [length]; destruct (m =? 0); lia). cbn. rewrite app_nil_r. easy.
    - cbn [negb]. rewrite andb_true_r. cbn [length] in *.
      destruct (Z.eqb_spec (u64 (m - 1)) 0) as [E|E].
      + cbn [negb]. assert (m = 1).
        { unfold u64 in E. destruct (Z.eq_dec m 0) as [->|].
          - exfalso. revert E. vm_compute. discriminate.
          - rewrite Z.mod_small in E by lia. lia. }
        exists vals, r. split; [easy|]. split; [easy|]. unfold k. subst m. cbn. rewrite app_nil_r. easy.
      + cbn [negb]. destruct (get_ok r (x :: q) R Hc) as (r1 & G & C1 & R1). rewrite G. cbn [hd_error tl obind] in *.
        destruct (append_cap z vals l x Rv) as (v1 & A & Rv1 & _). rewrite A. cbn [obind].
        destruct (IH r1 q (u64 (m - 1)) v1 (l ++ [x]) R1) as (vals' & r' & X & C & Rv' & R').
        { lia. } { exact Rv1. } { apply Z.mod_pos_bound; lia. } { lia. }
        exists vals', r'. split; [exact X|]. split; [lia|].
        assert (Hk : k = S (if u64 (m - 1) =? 0 then length q else Nat.min (length q) (Z.to_nat (u64 (m - 1) - 1)))).
        { unfold k. apply Z.eqb_neq in E. rewrite E. apply Z.eqb_neq in E. unfold u64 in *.
          destruct (Z.eqb_spec m 0) as [->|].
          - change ((0 - 1) mod 2^64) with (2^64 - 1).
            rewrite Nat.min_l; [easy|]. destruct R1 as (_ & _ & ? & _). lia.
          - rewrite Z.mod_small in * by lia. lia. }
        rewrite Hk. cbn [firstn skipn]. rewrite <- app_assoc in Rv'. split; [exact Rv'|exact R'].
  Qed.

  Lemma get_array_ok r q m : readable r q -> 0 < rcap r < 2^64 -> 0 <= m < 2^64 ->
    let k := if m =? 0 then length q else min (length q) (Z.to_nat (m - 1)) in
    exists a r', ring_get_array z r m = Some (a, r') /\ rcap r' = rcap r /\ contents a = firstn k q /\ readable r' (skipn k q).
  Proof.
    intros R Hc Hm k. unfold ring_get_array, array_init, array_init_reserve. cbn [obind].
    destruct (get_array_loop_ok (S (Z.to_nat (rcap r))) r q m
      (mkArr (repeat z (Z.to_nat (grow_formula 0))) 0 (grow_formula 0)) []) as (a & r' & X & C & Ra & R'); try easy.
    - exists (repeat z 8). cbn. easy.
    - destruct R as (_ & _ & ? & _). lia.
    - exists a, r'. split; [exact X|]. split; [easy|]. split; [|easy]. apply rep_iff in Ra. exact (proj2 Ra).
  Qed.

  Lemma rexec_ok r q o : readable r q -> 1 < rcap r < 2^64 -> rvalid o ->
    exists r', rexec z r o = Some (fst (qstep (Z.to_nat (rcap r - 1)) q o), r') /\ rcap r' = rcap r /\
      readable r' (snd (qstep (Z.to_nat (rcap r - 1)) q o)).
  Proof.
    intros R Hc V. destruct o; cbn [rexec qstep fst snd rvalid] in *.
    - destruct (append_ok r q x R Hc) as (r' & X & ? & ?). rewrite X. cbn. eauto.
    - destruct (append_array_ok xs r q R Hc) as (r' & X & ? & ?). rewrite X. cbn. eauto.
    - destruct (get_ok r q R) as (r' & X & ? & ?); [lia|]. rewrite X. cbn. eauto.
    - destruct (get_array_ok r q max_size R) as (a & r' & X & ? & Ca & ?); [lia|easy|].
      rewrite X. cbn [obind]. unfold contents in Ca. rewrite Ca. eauto.
  Qed.

  Lemma rrun_ok : forall h r q, readable r q -> 1 < rcap r < 2^64 -> Forall rvalid h ->
    exists r', rrun z r h = Some (fst (qrun (Z.to_nat (rcap r - 1)) q h), r') /\ rcap r' = rcap r /\
      readable r' (snd (qrun (Z.to_nat (rcap r - 1)) q h)).
  Proof.
    induction h as [|o h IH]; intros r q R Hc V; cbn [rrun qrun].
    - exists r. easy.
    - inversion V; subst. destruct (rexec_ok r q o R Hc) as (r1 & X & C1 & R1); [easy|].
      rewrite X. cbn [obind]. destruct (qstep _ q o) as [y q1]. cbn [fst snd] in *.
      destruct (IH r1 q1 R1) as (r2 & X2 & C2 & R2); [lia|easy|].
      rewrite C1 in *. destruct (qrun _ q1 h) as [ys q2]. cbn [fst snd] in *.
      rewrite X2. cbn [obind]. exists r2. easy.
  Qed.

  Lemma init_ok n : 1 <= n < 2^64 - 1 -> readable (ring_init z n) [].
  Proof.
    intros. unfold readable, ring_init. cbn [tail head rcap rbuf length]. repeat split; try lia.
    - rewrite repeat_length. lia.
  Qed.
End R.
