(** Texts that are refused. *)
From Coq Require Import String.
From Verif Require Import Base CStr CStrSpec CStrProofs Num NumSpec NumProofs Print PrintSpec Node NodeProofs UriSpec UriProofs Csv CsvSpec CsvProofs.

(** complete rows, whatever follows *)
Lemma rows_prefix d n : good_delim d -> (0 < n)%nat -> forall rows ts, rows_text d rows ts -> Forall (fun r => List.length r = n /\ row_ok d r) rows -> forall pre rest cols total,
  (cols = [] /\ total = 0%nat) \/ (List.length cols = n /\ total = (n - 1)%nat) -> exists full cols' total',
  List.length full = List.length ts /\ ((cols' = cols /\ total' = total /\ rows = []) \/ (List.length cols' = n /\ total' = (n - 1)%nat)) /\
  (forall f, (n * List.length rows <= f)%nat -> next d f (pre ++ ts ++ rest) (List.length pre) cols 0 total = next d (f - n * List.length rows) (pre ++ full ++ rest) (List.length (pre ++ full)) cols' 0 total').
Proof.
  intros Gd Hn. induction 1 as [|r rs t ts R Rs IH]; intros F pre rest cols total Hc.
  - exists [], cols, total. split; [easy|]. split; [tauto|]. intros f _. cbn [app List.length]. rewrite Nat.mul_0_r, Nat.sub_0_r, app_nil_r. reflexivity.
  - inversion F as [|? ? (Lr & Or) F']; subst. rewrite <- app_assoc.
    destruct (loop_row d Gd r t R Or pre (ts ++ rest) [] cols total) as (full & nodes & Lf & Ln & V & (ch & Rd & N0) & P).
    { destruct Hc as [(-> & _)|(Hc & _)]; [now left|now right]. }
    { cbn [List.length]. lia. }
    cbn [app List.length Nat.add] in P.
    assert (Le : List.length (ext cols nodes) = List.length r).
    { rewrite ext_len; [easy|]. destruct Hc as [(-> & _)|(Hc & _)]; [now left|right; congruence]. }
    destruct (IH F' (pre ++ full) rest (ext cols nodes) (List.length r - 1)%nat) as (full2 & cols' & total' & Lf2 & Hc' & P2); [now right|].
    exists (full ++ full2), cols', total'. split; [rewrite !app_length; lia|]. split.
    + right. destruct Hc' as [(-> & -> & _)|Hc']; easy.
    + intros f Hf. cbn [List.length] in Hf |- *. rewrite Nat.mul_succ_r in *. unfold next at 1. rewrite Rd. cbn [obind]. destruct (Z.eqb_spec ch 0); [easy|].
      replace f with (List.length r + (f - List.length r))%nat at 1 by lia. rewrite P.
      replace (pre ++ full ++ ts ++ rest) with ((pre ++ full) ++ ts ++ rest) by now rewrite <- app_assoc. rewrite P2 by lia.
      replace (f - List.length r - List.length r * List.length rs)%nat with (f - (List.length r * List.length rs + List.length r))%nat by lia.
      now rewrite <- !app_assoc.
Qed.
(** a quoted text without its closing quote *)
Lemma quote_open x : forall s f pre, (List.length s < f)%nat -> cstring s ->
  quote_end f (pre ++ doubled s ++ 0 :: x) (List.length pre) = Some (List.length pre + List.length (doubled s))%nat.
Proof.
  induction s as [|a s IH]; intros f pre Hf C; cbn [List.length] in Hf.
  - destruct f as [|f]; [lia|]. cbn [doubled app List.length]. cbn [quote_end]. rewrite skipn_len. cbn [str_skip]. change (negb (0 =? 0)) with false. cbn [andb]. cbn match. cbn [obind]. rewrite Nat.add_0_r, rd_at. reflexivity.
  - inversion C as [|? ? Ca C']; subst. cbn [doubled]. destruct (Z.eqb_spec a 34) as [->|Na].
    + destruct f as [|f]; [lia|]. cbn [app List.length]. cbn [quote_end]. rewrite skipn_len. cbn [str_skip]. change (negb (34 =? 0) && negb (34 =? 34)) with false. cbn match. cbn [obind]. rewrite Nat.add_0_r, rd_at. cbn [obind].
      change (34 =? 0) with false. cbn match.
      assert (E1 : pre ++ 34 :: 34 :: doubled s ++ 0 :: x = (pre ++ [34]) ++ 34 :: doubled s ++ 0 :: x) by now rewrite <- app_assoc.
      assert (E2 : pre ++ 34 :: 34 :: doubled s ++ 0 :: x = (pre ++ [34; 34]) ++ doubled s ++ 0 :: x) by now rewrite <- app_assoc.
      replace (rd (pre ++ 34 :: 34 :: doubled s ++ 0 :: x) (S (List.length pre))) with (Some 34) by (rewrite E1; replace (S (List.length pre)) with (List.length (pre ++ [34])) by (rewrite app_length; cbn; lia); now rewrite rd_at).
      cbn [obind]. change (34 =? 34) with true. cbn match. replace (S (S (List.length pre))) with (List.length (pre ++ [34; 34])) by (rewrite app_length; cbn; lia). rewrite E2.
      destruct s as [|b s].
      * cbn [doubled app List.length]. rewrite rd_at. cbn [obind]. rewrite app_length. reflexivity.
      * destruct (doubled_head (b :: s) ltac:(discriminate) C') as (ch & r & Ed & N0).
        assert (R : rd ((pre ++ [34; 34]) ++ doubled (b :: s) ++ 0 :: x) (List.length (pre ++ [34; 34])) = Some ch) by (rewrite Ed; cbn [app]; apply rd_at).
        rewrite R. cbn [obind]. destruct (Z.eqb_spec ch 0); [easy|]. rewrite IH by (try easy; lia). f_equal. rewrite app_length. cbn. lia.
    + cbn [app]. rewrite quote_end_step by (try easy; lia). replace (pre ++ a :: doubled s ++ 0 :: x) with ((pre ++ [a]) ++ doubled s ++ 0 :: x) by now rewrite <- app_assoc.
      replace (S (List.length pre)) with (List.length (pre ++ [a])) by (rewrite app_length; cbn; lia). rewrite IH by (try easy; lia). f_equal. rewrite app_length. cbn. lia.
Qed.
Lemma doubled_len s : (List.length s <= List.length (doubled s))%nat.
Proof. induction s as [|c s IH]; [easy|]. cbn [doubled]. rewrite app_length. destruct (c =? 34); cbn; lia. Qed.
Lemma cell_open d pre s x : cstring s -> parse_cell d (pre ++ 34 :: doubled s ++ 0 :: x) (List.length pre) 34 = Some None.
Proof.
  intros C. unfold parse_cell. change (34 =? 34) with true. cbn match.
  replace (pre ++ 34 :: doubled s ++ 0 :: x) with ((pre ++ [34]) ++ doubled s ++ 0 :: x) by now rewrite <- app_assoc.
  replace (S (List.length pre)) with (List.length (pre ++ [34])) by (rewrite app_length; cbn; lia).
  pose proof (doubled_len s). rewrite quote_open by (try easy; rewrite !app_length; cbn [List.length]; lia). cbn [obind].
  replace ((pre ++ [34]) ++ doubled s ++ 0 :: x) with (((pre ++ [34]) ++ doubled s) ++ 0 :: x) by now rewrite <- app_assoc.
  rewrite <- app_length, rd_at. reflexivity.
Qed.
Lemma loop_open d f pre s x cols colc total : cstring s -> csv_loop (S f) d (pre ++ 34 :: doubled s ++ 0 :: x) (List.length pre) cols colc total = Some (CsvUnexpectedEnd, pre ++ 34 :: doubled s ++ 0 :: x, cols).
Proof.
  intros C. cbn [csv_loop]. rewrite skipn_len. change (str_trim (34 :: doubled s ++ 0 :: x) false) with (Some 0%nat). cbn [obind]. rewrite Nat.add_0_r. rewrite rd_at. cbn [obind]. change (34 =? 0) with false. cbn match.
  rewrite cell_open by easy. reflexivity.
Qed.
Lemma rows_then d n rows ts rest : good_delim d -> (0 < n)%nat -> rows_text d rows ts -> Forall (fun r => List.length r = n /\ row_ok d r) rows ->
  exists full cols total, List.length full = List.length ts /\ ((cols = [] /\ total = 0%nat /\ rows = []) \/ (List.length cols = n /\ total = (n - 1)%nat)) /\
  forall ch r, rest = ch :: r -> ch <> 0 -> exists f, csv_loop (S (List.length (ts ++ rest))) d (ts ++ rest) 0 [] 0 0 = csv_loop (S f) d (full ++ rest) (List.length full) cols 0 total /\ (List.length rest <= f)%nat.
Proof.
  intros Gd Hn T F. destruct (rows_prefix d n Gd Hn rows ts T F [] rest [] 0%nat ltac:(now left)) as (full & cols & total & Lf & Hc & P).
  exists full, cols, total. split; [easy|]. split; [tauto|]. intros ch r -> N. pose proof (rows_len d n rows ts T F) as L.
  exists (List.length (ts ++ ch :: r) - n * List.length rows)%nat. split; [|rewrite app_length; lia]. specialize (P (S (List.length (ts ++ ch :: r))) ltac:(rewrite app_length; lia)). cbn [app List.length] in P.
  unfold next in P. rewrite rd_at in P. cbn [obind] in P. destruct (Z.eqb_spec ch 0); [easy|].
  replace (S (List.length (ts ++ ch :: r)) - n * List.length rows)%nat with (S (List.length (ts ++ ch :: r) - n * List.length rows)) in P by (rewrite app_length in *; lia). rewrite <- P.
  destruct ts as [|t0 ts0] eqn:Et; cbn [app rd nth_error obind] in *.
  - destruct (Z.eqb_spec ch 0); [easy|]. reflexivity.
  - inversion T as [|r0 rs0 t1 ts1 R0 T0 Er Es]. subst. inversion F as [|? ? (_ & Ro) _]; subst.
    destruct (loop_row d Gd r0 t1 R0 Ro [] (ts1 ++ ch :: r) [] [] 0%nat ltac:(now left) ltac:(lia)) as (_ & _ & _ & _ & _ & (c0 & Rd & N0) & _).
    cbn [app List.length] in Rd. rewrite app_assoc, Es in Rd. cbn in Rd. injection Rd as ->. destruct (Z.eqb_spec c0 0); [easy|]. reflexivity.
Qed.
(** a row of fewer cells *)
Lemma short_row d : good_delim d -> forall cells t, row_text d cells t -> row_ok d cells -> forall pre rest (A B : list (list (tree ptr))) total,
  (List.length cells <= List.length B)%nat -> (List.length A + List.length cells - 1 < total)%nat ->
  (exists ch, rd (pre ++ t ++ rest) (List.length pre) = Some ch /\ ch <> 0) /\
  forall f, exists text cols, csv_loop (List.length cells + f) d (pre ++ t ++ rest) (List.length pre) (A ++ B) (List.length A) total = Some (CsvMismatchedRows, text, cols).
Proof.
  intros Gd. induction 1 as [c t T|c c' r t t' T R IH]; intros Ok pre rest A B total HB Ht; cbn [row_ok] in Ok; destruct Ok as (Oc & Or).
  - destruct (loop_cell d true c t Gd Oc T 10) with (pre := pre) (rest := rest) as (full & node & Lf & V & Rd & P).
    { right. split; [easy|]. intros ->. discriminate Oc. }
    rewrite <- app_assoc. cbn [app]. split; [exact Rd|]. intros f. cbn [List.length Nat.add] in *. rewrite P.
    destruct B as [|b B]; [cbn in HB; lia|]. rewrite add_cell_old. cbn [obind].
    assert (N : (10 =? d) = false) by (apply Z.eqb_neq; intros <-; destruct Gd as (_ & W & _); apply W; unfold white; cbn [In]; lia). rewrite N.
    destruct (Nat.ltb_spec total (List.length A)); [lia|]. destruct (Nat.eqb_spec total (List.length A)); [lia|]. cbn [negb]. do 2 eexists. reflexivity.
  - destruct (loop_cell d false c t Gd Oc T d) with (pre := pre) (rest := t' ++ rest) as (full & node & Lf & V & Rd & P); [now left|].
    rewrite <- app_assoc. cbn [app]. split; [exact Rd|]. intros f. cbn [List.length Nat.add] in *. rewrite P.
    destruct B as [|b B]; [cbn in HB; lia|]. rewrite add_cell_old. cbn [obind List.length] in *.
    destruct (IH Or (pre ++ full) rest (A ++ [b ++ [node]]) B total) as ((ch & Rd2 & N0) & P2); [lia|rewrite app_length; cbn [List.length]; lia|].
    rewrite Z.eqb_refl. unfold next at 1. replace (pre ++ full ++ t' ++ rest) with ((pre ++ full) ++ t' ++ rest) by now rewrite <- app_assoc. rewrite Rd2. cbn [obind]. destruct (Z.eqb_spec ch 0); [easy|].
    destruct (P2 f) as (text & cols & E). rewrite <- (app_assoc A) in E. cbn [app] in E. replace (List.length (A ++ [b ++ [node]])) with (S (List.length A)) in E by (rewrite app_length; cbn; lia). exists text, cols. exact E.
Qed.
(** nothing but blanks *)
Lemma trim_all : forall w x, Forall white w -> str_trim (w ++ 0 :: x) false = Some (List.length w).
Proof.
  induction w as [|c w IH]; intros x F; [reflexivity|]. inversion F; subst. cbn [app str_trim]. assert (Sp : char_is_space c = true) by now apply space_white.
  rewrite Sp. destruct (Z.eqb_spec c 0) as [->|]; [discriminate Sp|]. cbn [negb orb andb]. rewrite IH by easy. reflexivity.
Qed.
