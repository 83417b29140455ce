(** Reading numbers of documents. *)
From Coq Require Import String.
From Verif Require Import Base CStr CStrSpec CStrProofs Num NumSpec NumProofs PropNum Float FloatSpec Print PrintSpec PrintProofs PrintProofs2 PropPrint Node NodeProofs AdtNumSpec.

Lemma run_hexish c : is_hexish c = true <-> run_char c.
Proof.
  unfold is_hexish, char_is_hex_digit, char_is_digit, char_to_lower, run_char.
  destruct (Z.leb_spec 48 c), (Z.leb_spec c 57), (Z.leb_spec 97 c), (Z.leb_spec c 102), (Z.leb_spec 65 c), (Z.leb_spec c 70), (Z.leb_spec c 90); cbn [andb orb];
    try (destruct (Z.eqb_spec c 120)); try (destruct (Z.eqb_spec (c + 32) 120)); split; intros; try easy; try lia.
Qed.
Lemma run_not c : ~ run_char c -> is_hexish c = false.
Proof. intros H. destruct (is_hexish c) eqn:E; [|easy]. exfalso. now apply H, run_hexish. Qed.

(** the phases *)
Definition scan (e buf : list Z) (ib : nat) : option (option (list Z * list Z * bool * Z * bool)) :=
  c <- rd e 0 ;;
  if c =? 46 then
    buf <- wr buf ib 48 ;; buf <- wr buf (S ib) 46 ;;
    ' (e, buf, ib) <- copy_while char_is_digit (tl e) buf (S (S ib)) ;;
    Some (Some (e, buf, true, PROPS_IS_PARSED_REAL, false))
  else
    x <- is_0x e ;; X <- is_0X e ;;
    let hex := x || X in
    if (char_to_lower c =? 120) && negb hex then Some None
    else
      let props := if hex then PROPS_IS_HEX else PROPS_NONE in
      ' (e, buf, ib) <- copy_while is_hexish e buf ib ;;
      d <- rd e 0 ;;
      if d =? 46 then
        buf <- wr buf ib 46 ;;
        ' (e, buf, ib') <- copy_while char_is_digit (tl e) buf (S ib) ;;
        buf <- (if (ib' =? S ib)%nat then wr buf ib' 48 else Some buf) ;;
        Some (Some (e, buf, true, props, true))
      else Some (Some (e, buf, false, props, false)).
Definition finish {A} (s : list Z) (r : option (list Z * list Z * bool * Z * bool)) : option (option (Z * value A) * nat) :=
  match r with
  | None => Some (None, 1%nat)
  | Some (e, buf, is_real, props, lead) =>
    c <- rd e 0 ;;
    if c =? 46 then Some (None, 1%nat)
    else
      ' (e, exp, tenth) <- parse_exp e ;;
      let consumed := (List.length s - List.length e)%nat in
      b0 <- rd buf 0 ;;
      let neg := b0 =? 45 in
      if is_real : bool then
        k <- str_skip buf 46 ;;
        q <- wr buf k 0 ;;
        let base_string2 := skipn (S k) q in
        z <- count_zeros base_string2 0 ;;
        ' (base, _) <- str_to_i64 q 0 ;;
        ' (base2, _) <- str_to_i64 base_string2 0 ;;
        let base := i32 base in let base2 := i32 base2 in
        let exp' := if exp =? 0 then 0 else if tenth then i8 (- exp) else exp in
        let props := if exp =? 0 then props else PROPS_IS_EXP in
        digits <- until_nul buf ;;
        Some (Some (props, VReal (RText digits tenth (Z.to_nat exp))
                     (Analysis base base2 (z mod 16) (sx 4 exp') ((base =? 0) && neg) lead)), consumed)
      else
        ' (i, _) <- str_to_i64 buf 0 ;;
        i' <- mul_times (Z.to_nat exp) i (if tenth then 0 else 10) ;;
        Some (Some (props, VInt i' (Analysis 0 0 0 (sx 4 exp) ((i =? 0) && neg) false)), consumed)
  end.
Definition kept (neg : bool) : list Z := if neg then [45] else [].
Definition fresh (pre : list Z) : list Z := pre ++ repeat 0 (48 - List.length pre).

Lemma head_ok {A} sg neg y f q : sign_text sg neg -> y = f :: q -> char_is_hex_digit f = true \/ f = 46 ->
  (sg = [] -> f <> 101 /\ f <> 69 /\ (f = 46 -> exists g q', q = g :: q' /\ char_is_hex_digit g = true)) ->
  parse_number (A := A) (sg ++ y) = (r <- scan y (fresh (kept neg)) (List.length (kept neg)) ;; finish (sg ++ y) r).
Proof.
  intros S -> Hf H. destruct S; cbn [app].
  - destruct (H eq_refl) as (H1 & H2 & H3). unfold parse_number. cbn [rd nth_error obind].
    assert (E : strchr (asc "eE") f = false).
    { unfold strchr. change (asc "eE") with [101; 69]. cbn [existsb]. destruct (Z.eqb_spec f 0) as [->|]; [destruct Hf as [X|X]; discriminate X|].
      destruct (Z.eqb_spec f 101), (Z.eqb_spec f 69); try easy. }
    rewrite E.
    assert (E2 : (if strchr (asc ".+-") f then d <- rd (f :: q) 1;; Some (negb (char_is_hex_digit d) && negb (d =? 46)) else Some false) = Some false).
    { unfold strchr. change (asc ".+-") with [46; 43; 45]. cbn [existsb]. destruct (Z.eqb_spec f 0) as [->|]; [destruct Hf as [X|X]; discriminate X|]. cbn [orb].
      destruct (Z.eqb_spec f 46) as [->|]; cbn [orb].
      - destruct (H3 eq_refl) as (g & q' & -> & G). cbn [rd nth_error obind]. now rewrite G.
      - destruct (Z.eqb_spec f 43) as [->|]; [destruct Hf as [X|X]; discriminate X|]. destruct (Z.eqb_spec f 45) as [->|]; [destruct Hf as [X|X]; discriminate X|]. reflexivity. }
    cbn [rd nth_error] in E2. rewrite E2. cbn [obind]. destruct (Z.eqb_spec f 43) as [->|]; [destruct Hf as [X|X]; discriminate X|]. destruct (Z.eqb_spec f 45) as [->|]; [destruct Hf as [X|X]; discriminate X|]. reflexivity.
  - unfold parse_number. cbn [rd nth_error obind]. change (strchr (asc "eE") 43) with false. change (strchr (asc ".+-") 43) with true. cbn match.
    assert (E : negb (char_is_hex_digit f) && negb (f =? 46) = false) by (destruct Hf as [->| ->]; [reflexivity|now rewrite andb_false_r]). rewrite E. reflexivity.
  - unfold parse_number. cbn [rd nth_error obind]. change (strchr (asc "eE") 45) with false. change (strchr (asc ".+-") 45) with true. cbn match.
    assert (E : negb (char_is_hex_digit f) && negb (f =? 46) = false) by (destruct Hf as [->| ->]; [reflexivity|now rewrite andb_false_r]). rewrite E. reflexivity.
Qed.

Lemma copy_overflow more : forall s pre old c x, Forall (fun a => more a = true) s -> (List.length old < List.length s)%nat ->
  copy_while more (s ++ c :: x) (pre ++ old) (List.length pre) = None.
Proof.
  induction s as [|a s IH]; intros pre old c x H L; [cbn in L; lia|]. inversion H; subst. cbn [app copy_while]. rewrite H2. destruct old as [|o old].
  - rewrite app_nil_r, wr_out by lia. reflexivity.
  - rewrite wr_at. cbn [obind]. specialize (IH (pre ++ [a]) old c x H3 ltac:(cbn [List.length] in L; lia)). rewrite <- app_assoc in IH. rewrite app_length in IH. cbn [List.length app] in IH. now rewrite Nat.add_comm in IH.
Qed.
Lemma fresh_copy more s neg c x : Forall (fun a => more a = true) s -> more c = false -> (List.length (kept neg ++ s) <= 48)%nat ->
  copy_while more (s ++ c :: x) (fresh (kept neg)) (List.length (kept neg)) = Some (c :: x, fresh (kept neg ++ s), List.length (kept neg ++ s)).
Proof.
  intros H Hc L. unfold fresh. rewrite app_length in L. rewrite !app_length.
  replace (repeat 0 (48 - List.length (kept neg))) with (repeat 0 (List.length s) ++ repeat 0 (48 - (List.length (kept neg) + List.length s))) by (rewrite <- repeat_app; f_equal; lia).
  rewrite copy_while_ok by (try easy; now rewrite repeat_length). now rewrite <- app_assoc.
Qed.
Lemma fresh_copy_none more s neg c x : Forall (fun a => more a = true) s -> (48 < List.length (kept neg ++ s))%nat ->
  copy_while more (s ++ c :: x) (fresh (kept neg)) (List.length (kept neg)) = None.
Proof. intros H L. unfold fresh. apply copy_overflow; [easy|]. rewrite repeat_length. rewrite app_length in L. destruct neg; cbn [kept List.length] in *; lia. Qed.

(** ** Integers *)
Definition hexb (w : list Z) : bool := match w with a :: b :: _ => (a =? 48) && ((b =? 120) || (b =? 88)) | _ => false end.
Lemma hexb_ok w : hexb w = true <-> hex_prefix w.
Proof.
  unfold hex_prefix. destruct w as [|a [|b r]]; cbn [hexb]; [split; [easy|intros (? & [X|X]); discriminate X]..|]. split.
  - intros H. exists r. destruct (Z.eqb_spec a 48), (Z.eqb_spec b 120), (Z.eqb_spec b 88); cbn in H; try easy; subst; auto.
  - intros (r' & [[= -> -> _]|[= -> -> _]]); reflexivity.
Qed.
Lemma prefix_ok w c x : w <> [] -> ~ run_char c -> exists a b, is_0x (w ++ c :: x) = Some a /\ is_0X (w ++ c :: x) = Some b /\ a || b = hexb w.
Proof.
  intros Hw Hc. assert (NE : w ++ c :: x <> []) by (now destruct w).
  assert (L : forall c0, hd_error (w ++ c :: x) = Some c0 -> c0 = 48 -> (2 <= List.length (w ++ c :: x))%nat) by (intros; rewrite app_length; destruct w; [easy|cbn [List.length]; lia]).
  destruct (is_0x_ok _ NE L) as (a & Ea & Ha). destruct (is_0X_ok _ NE L) as (b & Eb & Hb). exists a, b. split; [easy|]. split; [easy|].
  assert (G : forall y, run_char y -> (exists r, w ++ c :: x = 48 :: y :: r) <-> exists r, w = 48 :: y :: r).
  { intros y Hy. split.
    - intros (r & E). destruct w as [|w1 [|w2 w]]; [easy| |]; cbn [app] in E; injection E as E1 E2 E3.
      + subst. easy.
      + subst. eauto.
    - intros (r & ->). cbn [app]. eauto. }
  apply eq_true_iff_eq. rewrite orb_true_iff, Ha, Hb, hexb_ok. rewrite !G by (unfold run_char; lia). unfold hex_prefix. split.
  - intros [(r & ->)|(r & ->)]; eauto.
  - intros (r & [->| ->]); eauto.
Qed.
Definition run_props (w : list Z) : Z := if hexb w then PROPS_IS_HEX else PROPS_NONE.
Lemma run_forall w : Forall run_char w -> Forall (fun a => is_hexish a = true) w.
Proof. apply Forall_impl. intros a. apply run_hexish. Qed.
Lemma lower_x c : c <> 88 -> c <> 120 -> (char_to_lower c =? 120) = false.
Proof. intros. destruct (char_to_lower c =? 120) eqn:E; [|easy]. apply char_lower_x in E. lia. Qed.
Lemma scan_int neg w a r c x : w = a :: r -> a <> 88 -> a <> 120 -> Forall run_char w -> run_end c -> (List.length (kept neg ++ w) <= 48)%nat ->
  scan (w ++ c :: x) (fresh (kept neg)) (List.length (kept neg)) = Some (Some (c :: x, fresh (kept neg ++ w), false, run_props w, false)).
Proof.
  intros E N1 N2 H (Hc & Hd) L. destruct (prefix_ok w c x ltac:(now subst) Hc) as (b1 & b2 & E1 & E2 & E3).
  unfold scan. rewrite E1, E2. cbn [obind]. rewrite E3. replace (rd (w ++ c :: x) 0) with (Some a) by (subst; reflexivity). cbn [obind].
  assert (Ha : run_char a) by (subst w; now inversion H). destruct (Z.eqb_spec a 46); [unfold run_char in Ha; lia|]. rewrite lower_x by easy. cbn [andb].
  rewrite fresh_copy by (first [easy|now apply run_forall|now apply run_not]). cbn [obind]. unfold rd. cbn [nth_error obind]. destruct (Z.eqb_spec c 46); [easy|]. reflexivity.
Qed.
Lemma scan_int_none neg w a r c x : w = a :: r -> a <> 88 -> a <> 120 -> Forall run_char w -> run_end c -> (48 < List.length (kept neg ++ w))%nat ->
  scan (w ++ c :: x) (fresh (kept neg)) (List.length (kept neg)) = None.
Proof.
  intros E N1 N2 H (Hc & Hd) L. destruct (prefix_ok w c x ltac:(now subst) Hc) as (b1 & b2 & E1 & E2 & E3).
  unfold scan. rewrite E1, E2. cbn [obind]. replace (rd (w ++ c :: x) 0) with (Some a) by (subst; reflexivity). cbn [obind].
  assert (Ha : run_char a) by (subst w; now inversion H). destruct (Z.eqb_spec a 46); [unfold run_char in Ha; lia|]. rewrite lower_x by easy. cbn [andb].
  rewrite fresh_copy_none by (try easy; now apply run_forall). reflexivity.
Qed.
Lemma head_char neg w a r : w = a :: r -> a <> 45 -> exists b q, kept neg ++ w = b :: q /\ (b =? 45) = neg.
Proof.
  intros -> N. destruct neg; cbn [kept app]; do 2 eexists; (split; [reflexivity|]); [reflexivity|]. now destruct (Z.eqb_spec a 45).
Qed.
Lemma fresh_nul t : (List.length t <= 47)%nat -> fresh t = t ++ 0 :: repeat 0 (47 - List.length t).
Proof. intros L. unfold fresh. now replace (48 - List.length t)%nat with (S (47 - List.length t)) by lia. Qed.
Lemma run_end_after c : run_end c -> after_int c.
Proof. intros (H & D). split; [now apply run_not|easy]. Qed.
Lemma int_eq {A} sg neg w c x : sign_text sg neg -> run_start sg w -> Forall run_char w -> run_end c -> (List.length (kept neg ++ w) <= 47)%nat ->
  parse_number (A := A) (sg ++ w ++ c :: x) =
  (' (i, _) <- str_to_i64 ((kept neg ++ w) ++ 0 :: repeat 0 (47 - List.length (kept neg ++ w))) 0 ;;
   Some (Some (run_props w, VInt i (Analysis 0 0 0 0 ((i =? 0) && neg) false)), List.length (sg ++ w))).
Proof.
  intros S (a & r & Ew & N1 & N2 & N3) H Hc L. assert (Ha : run_char a) by (subst w; now inversion H).
  rewrite (head_ok sg neg (w ++ c :: x) a (r ++ c :: x)); [|easy|now subst| |].
  2: { left. apply run_hexish in Ha. unfold is_hexish in Ha. rewrite lower_x, orb_false_r in Ha by easy. exact Ha. }
  2: { intros E. destruct (N3 E). repeat split; try easy. intros ->. unfold run_char in Ha. lia. }
  rewrite (scan_int neg w a r c x) by (try easy; lia). cbn [obind finish rd nth_error]. destruct (Z.eqb_spec c 46); [now destruct Hc|].
  rewrite parse_exp_none by (now apply run_end_after). cbn [obind]. rewrite fresh_nul by easy.
  destruct (head_char neg w a r Ew ltac:(unfold run_char in Ha; lia)) as (b & q & Eb & Nb).
  replace (match (kept neg ++ w) ++ 0 :: repeat 0 (47 - List.length (kept neg ++ w)) with [] => None | x0 :: _ => Some x0 end) with (Some b) by (rewrite Eb; reflexivity).
  cbn [obind]. rewrite Nb. destruct (str_to_i64 _ 0) as [(i, m)|]; [|reflexivity]. cbn [obind Z.to_nat mul_times]. do 3 f_equal. rewrite !app_length. cbn [List.length]. lia.
Qed.
Lemma int_long {A} sg neg w c x : sign_text sg neg -> run_start sg w -> Forall run_char w -> run_end c -> (48 <= List.length (kept neg ++ w))%nat ->
  parse_number (A := A) (sg ++ w ++ c :: x) = None.
Proof.
  intros S (a & r & Ew & N1 & N2 & N3) H Hc L. assert (Ha : run_char a) by (subst w; now inversion H).
  rewrite (head_ok sg neg (w ++ c :: x) a (r ++ c :: x)); [|easy|now subst| |].
  2: { left. apply run_hexish in Ha. unfold is_hexish in Ha. rewrite lower_x, orb_false_r in Ha by easy. exact Ha. }
  2: { intros E. destruct (N3 E). repeat split; try easy. intros ->. unfold run_char in Ha. lia. }
  destruct (Nat.eq_dec (List.length (kept neg ++ w)) 48) as [E48|N48]; [|rewrite (scan_int_none neg w a r c x) by (try easy; lia); reflexivity].
  rewrite (scan_int neg w a r c x) by (try easy; lia). cbn [obind finish rd nth_error]. destruct (Z.eqb_spec c 46); [now destruct Hc|].
  rewrite parse_exp_none by (now apply run_end_after). cbn [obind]. unfold fresh. rewrite E48. cbn [Nat.sub repeat]. rewrite app_nil_r.
  destruct (head_char neg w a r Ew ltac:(unfold run_char in Ha; lia)) as (b & q & Eb & Nb).
  replace (match kept neg ++ w with [] => None | x0 :: _ => Some x0 end) with (Some b) by (rewrite Eb; reflexivity).
  cbn [obind]. unfold str_to_i64, guess_base. change (0 =? 0) with true. cbn match.
  assert (SL : forall s, ~ In 0 s -> strlen s = None).
  { induction s as [|c0 s IH]; intros N; [reflexivity|]. cbn [strlen]. destruct (Z.eqb_spec c0 0) as [->|]; [exfalso; apply N; now left|]. rewrite IH; [easy|]. intros I. apply N. now right. }
  rewrite SL; [reflexivity|]. intros I. apply in_app_or in I. destruct I as [I|I].
  - destruct neg; cbn in I; [destruct I as [I|[]]; discriminate I|easy].
  - rewrite Forall_forall in H. specialize (H 0 I). unfold run_char in H. lia.
Qed.
Lemma chars_den ds : Forall dig ds -> Forall2 (denotes 10) (chars ds) ds.
Proof. unfold chars. induction 1 as [|d ds Hd _ IH]; cbn [map]; [constructor|constructor]; [left; unfold dig in Hd; split; [exact Hd|reflexivity]|exact IH]. Qed.
Lemma run_cs w : Forall run_char w -> cstring w.
Proof. apply Forall_impl. unfold run_char. lia. Qed.
(** decimal *)
Lemma to_i64_dec neg w ds n : Forall run_char w -> leading ds w -> (neg = false -> ~ exists r, w = 48 :: 120 :: r /\ r <> []) ->
  exists m, str_to_i64 ((kept neg ++ w) ++ 0 :: n) 0 = if number 10 ds <? 2^63 then Some (signed neg (number 10 ds), m) else None.
Proof.
  intros H (D & r & -> & Hr) NH. assert (CS : cstring (kept neg ++ chars ds ++ r)) by (apply Forall_app; split; [destruct neg; repeat constructor; lia|now apply run_cs]).
  unfold str_to_i64. destruct (guess_ok _ n CS) as (b & Eb & _ & B2). rewrite Eb. cbn [obind].
  rewrite B2.
  2: { intros (r' & E & N). destruct neg; [discriminate E|]. apply NH; [easy|]. eauto. }
  assert (exists c q, r ++ 0 :: n = c :: q /\ ~ 48 <= c <= 57 /\ (chars ds = [] -> c <> 45)) as (c & q & Eq & Nc & Nm).
  { destruct r as [|c r]; cbn [app]; do 2 eexists; (split; [reflexivity|]).
    - lia.
    - split; [now apply (Hr c r)|]. intros _. apply Forall_app in H. destruct H as (_ & H). inversion H; subst. unfold run_char in *. lia. }
  assert (ND : forall d, ~ denotes 10 c d) by (intros d; unfold denotes; lia).
  rewrite <- !app_assoc, Eq. destruct neg; cbn [kept app signed].
  - rewrite (scan_i64_neg 10 _ ds) by (try easy; try lia; now apply chars_den). eauto.
  - rewrite (scan_i64_pos 10 _ ds) by (try easy; try lia; now apply chars_den). eauto.
Qed.
(** hexadecimal *)
Lemma to_i64_hex w hs n : Forall run_char (48 :: 120 :: w) -> leading16 hs w -> w <> [] ->
  exists m, str_to_i64 ((48 :: 120 :: w) ++ 0 :: n) 0 = if number 16 hs <? 2^63 then Some (number 16 hs, m) else None.
Proof.
  intros H (s & r & -> & D & Hr) NE. unfold str_to_i64. destruct (guess_ok _ n (run_cs _ H)) as (b & Eb & B1 & _). rewrite Eb. cbn [obind].
  rewrite B1 by eauto.
  assert (exists c q, r ++ 0 :: n = c :: q /\ forall d, ~ denotes 16 c d) as (c & q & Eq & Nc).
  { destruct r as [|c r]; cbn [app]; do 2 eexists; (split; [reflexivity|]); [apply no_nul|]. now apply (Hr c r). }
  cbn [app]. rewrite <- app_assoc, Eq. rewrite (scan_i64_hex s hs) by easy. eauto.
Qed.
