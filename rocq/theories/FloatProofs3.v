(** Reading doubles: whole texts. *)
From Coq Require Import Reals SpecFloat Psatz.
From Flocq Require Import Core BinarySingleNaN.
From Verif Require Import Base CStr CStrSpec CStrProofs NumSpec NumProofs Float FloatSpec FloatProofs FloatProofs2.

Lemma skip_blanks b x : blanks b -> (match x with [] => False | c :: _ => char_is_space c = false end) -> skip_space (b ++ x) = Some x.
Proof.
  induction 1 as [|c b Hc F IH]; intros Hx; cbn [app skip_space].
  - destruct x as [|c x]; [easy|]. cbn [skip_space]. now rewrite Hx.
  - cbn [In] in Hc. replace (char_is_space c) with true; [now apply IH|]. destruct Hc as [<-|[<-|[<-|[<-|[<-|[<-|[]]]]]]]; reflexivity.
Qed.
(** what [str_to_f64] does once blanks and sign are gone *)
Definition body (sign : f64) (s : list Z) : option (f64 * list Z) :=
  ' (s, value) <- whole_loop s f_zero ;;
  c <- rd s 0 ;;
  ' (s, value) <- (if (c =? 46)%Z then frac_loop (tl s) value (f_of_int 10) else Some (s, value)) ;;
  c <- rd s 0 ;;
  ' (s, frac, scale) <-
    (if (c =? 101)%Z || (c =? 69)%Z then
       let s := tl s in
       c <- rd s 0 ;;
       let '(frac, s) := if (c =? 45)%Z then (true, tl s) else (false, if (c =? 43)%Z then tl s else s) in
       ' (s, exp) <- exp_loop s 0 ;;
       Some (s, frac, scale_of (if (308 <? exp)%Z then 308 else exp)%Z)
     else Some (s, false, f_of_int 1)) ;;
  Some (fmul sign (if frac : bool then fdiv value scale else fmul value scale), s).
Definition sign_value (s : list Z) : f64 := if list_eq_dec Z.eq_dec s [45%Z] then f_of_int (-1) else f_of_int 1.
Lemma str_body b s sg x : blanks b -> sign_of s sg -> (match x with [] => False | c :: _ => char_is_space c = false /\ c <> 45%Z /\ c <> 43%Z end) ->
  str_to_f64 (b ++ s ++ x) = body (sign_value s) x.
Proof.
  intros B S X. unfold str_to_f64. rewrite skip_blanks; [|exact B|].
  2: { destruct S; cbn [app]; try reflexivity. destruct x; easy. }
  destruct S; cbn [app obind]; unfold rd at 1; cbn [nth_error obind].
  - destruct x as [|c x]; [easy|]. destruct X as (Hs & M & P). apply Z.eqb_neq in M, P. cbn [nth_error obind]. rewrite M, P. reflexivity.
  - reflexivity.
  - reflexivity.
Qed.
Lemma not_digit c : ~ (48 <= c <= 57)%Z -> char_is_digit c = false.
Proof. intros H. unfold char_is_digit. destruct (Z.leb_spec 48 c), (Z.leb_spec c 57); try reflexivity. lia. Qed.

(** the exponent *)
Definition exp_stage (s : list Z) : option (list Z * bool * f64) :=
  c <- rd s 0 ;;
  if (c =? 101)%Z || (c =? 69)%Z then
    let s := tl s in
    c <- rd s 0 ;;
    let '(frac, s) := if (c =? 45)%Z then (true, tl s) else (false, if (c =? 43)%Z then tl s else s) in
    ' (s, exp) <- exp_loop s 0 ;;
    Some (s, frac, scale_of (if (308 <? exp)%Z then 308 else exp)%Z)
  else Some (s, false, f_of_int 1).
Lemma numf_number ds : number 10 ds = fold_left (fun a d => a * 10 + d)%Z ds 0%Z.
Proof. reflexivity. Qed.
Lemma chars_head ds c x : Forall dig ds -> ds <> [] -> exists d r, chars ds ++ c :: x = (48 + d)%Z :: r /\ dig d.
Proof. destruct 1 as [|d ds Hd F]; [easy|]. intros _. cbn [chars map app]. eauto. Qed.
Lemma powerRZ_pos k : (0 <= k)%Z -> powerRZ 10 k = IZR (10 ^ k).
Proof.
  intros H. rewrite <- (Z2Nat.id k) at 1 by easy. rewrite <- pow_powerRZ. rewrite <- (Z2Nat.id k) at 2 by easy. rewrite <- pow_IZR. reflexivity.
Qed.
Lemma powerRZ_opp k : (0 <= k)%Z -> powerRZ 10 (- k) = (/ IZR (10 ^ k))%R.
Proof. intros H. rewrite <- powerRZ_pos by easy. apply powerRZ_neg'. Qed.
Lemma exp_digits e sg es c x : In e [101; 69]%Z -> In sg [[]; [43]; [45]]%Z -> Forall dig es -> es <> [] -> char_is_digit c = false -> (number 10 es < 2 ^ 32)%Z ->
  exp_stage (e :: sg ++ chars es ++ c :: x) =
  Some (c :: x, if list_eq_dec Z.eq_dec sg [45%Z] then true else false, scale_of (Z.min 308 (number 10 es))).
Proof.
  intros E S F N C L.
  assert (M : (if (308 <? number 10 es)%Z then 308 else number 10 es)%Z = Z.min 308 (number 10 es)) by (destruct (Z.ltb_spec 308 (number 10 es)); lia).
  assert (X : exp_loop (chars es ++ c :: x) 0 = Some (c :: x, number 10 es)) by (apply exp_loop_ok; [easy|easy|lia|exact L]).
  unfold exp_stage. unfold rd at 1. cbn [nth_error tl obind].
  replace ((e =? 101)%Z || (e =? 69)%Z) with true by (cbn [In] in E; destruct E as [<-|[<-|[]]]; reflexivity).
  cbn [In] in S. destruct S as [<-|[<-|[<-|[]]]].
  - cbn [app]. destruct (chars_head es c x F N) as (d & r & Hr & Hd). rewrite Hr in *. unfold rd. cbn [obind nth_error].
    replace (48 + d =? 45)%Z with false by (symmetry; apply Z.eqb_neq; unfold dig in Hd; lia). replace (48 + d =? 43)%Z with false by (symmetry; apply Z.eqb_neq; unfold dig in Hd; lia).
    rewrite X; cbn [obind]; rewrite M; reflexivity.
  - cbn [app]. unfold rd. cbn [obind nth_error Z.eqb Pos.eqb tl]. rewrite X; cbn [obind]; rewrite M; reflexivity.
  - cbn [app]. unfold rd. cbn [obind nth_error Z.eqb Pos.eqb tl]. rewrite X; cbn [obind]; rewrite M; reflexivity.
Qed.
Lemma number_nonneg ds : Forall dig ds -> (0 <= number 10 ds)%Z.
Proof. intros F. rewrite numf_number. apply (numf_ge ds F 0). lia. Qed.
Lemma exp_stage_ok e k c x : exp_of e k -> ends c -> (-22 <= k <= 22)%Z ->
  exists fr sc, exp_stage (e ++ c :: x) = Some (c :: x, fr, sc) /\ is_real sc (IZR (10 ^ Z.abs k)) /\ powerRZ 10 k = if fr then (/ IZR (10 ^ Z.abs k))%R else IZR (10 ^ Z.abs k).
Proof.
  intros E (C1 & C2 & C3 & C4) L. destruct E as [|e sg es E S F N|e es E F N].
  - exists false, (f_of_int 1). split; [|split; [apply (f_int 1); reflexivity|reflexivity]].
    cbn [app]. unfold exp_stage, rd. cbn [nth_error obind]. apply Z.eqb_neq in C3, C4. now rewrite C3, C4.
  - pose proof (number_nonneg es F). rewrite Z.abs_eq in * by lia.
    rewrite <- app_comm_cons, <- app_assoc. rewrite exp_digits; [|easy| |easy|easy|now apply not_digit|lia].
    2: { cbn [In] in *. tauto. }
    rewrite Z.min_r by lia. exists false, (scale_of (number 10 es)). split; [|split].
    + cbn [In] in S. destruct S as [<-|[<-|[]]]; reflexivity.
    + apply scale_of_ok. lia.
    + now apply powerRZ_pos.
  - pose proof (number_nonneg es F). rewrite Z.abs_opp, Z.abs_eq in * by lia. change ((e :: 45%Z :: chars es) ++ c :: x) with (e :: [45%Z] ++ chars es ++ c :: x).
    rewrite exp_digits; [|easy|cbn [In]; tauto|easy|easy|now apply not_digit|lia].
    rewrite Z.min_r by lia. exists true, (scale_of (number 10 es)). split; [reflexivity|split].
    + apply scale_of_ok. lia.
    + now apply powerRZ_opp.
Qed.
Lemma exp_head e k c x : exp_of e k -> ends c -> exists h t, e ++ c :: x = h :: t /\ char_is_digit h = false /\ h <> 46%Z.
Proof.
  intros E (C1 & C2 & C3 & C4). destruct E as [|e sg es E S F N|e es E F N]; cbn [app]; do 2 eexists; (split; [reflexivity|]).
  - split; [now apply not_digit|easy].
  - cbn [In] in E. destruct E as [<-|[<-|[]]]; easy.
  - cbn [In] in E. destruct E as [<-|[<-|[]]]; easy.
Qed.

(** the fraction *)
Definition frac_stage (s : list Z) (value : f64) : option (list Z * f64) :=
  c <- rd s 0 ;; if (c =? 46)%Z then frac_loop (tl s) value (f_of_int 10) else Some (s, value).
Lemma pow_IZR10 n : (10 ^ n)%R = IZR (10 ^ Z.of_nat n).
Proof. now rewrite <- pow_IZR. Qed.
Lemma number_app a b : number 10 (a ++ b) = (number 10 a * 10 ^ Z.of_nat (length b) + number 10 b)%Z.
Proof.
  unfold number. rewrite fold_left_app. generalize (fold_left (fun a d => a * 10 + d)%Z a 0%Z). intros m.
  assert (G : forall l a0, fold_left (fun a d => a * 10 + d)%Z l a0 = (a0 * 10 ^ Z.of_nat (length l) + fold_left (fun a d => a * 10 + d)%Z l 0%Z)%Z).
  { induction l as [|d l IH]; intros a0; cbn [fold_left length]; [cbn; lia|]. rewrite IH, (IH (0 * 10 + d)%Z). rewrite Nat2Z.inj_succ, Z.pow_succ_r by lia. ring. }
  apply G.
Qed.
Lemma decimal_frac ds fs : decimal ds fs = (IZR (number 10 ds) + fracval 0 fs)%R.
Proof.
  unfold decimal. rewrite number_app, pow_IZR10, plus_IZR, mult_IZR. pose proof (fracval_number fs 0) as E. rewrite Z.add_0_l in E. rewrite (numf_number fs), <- E.
  field. apply IZR_neq. pose proof (Z.pow_pos_nonneg 10 (Z.of_nat (length fs))). lia.
Qed.
Lemma frac_stage_ok f fs e k c x v N : frac_of f fs -> exp_of e k -> ends c -> (0 <= N < 2 ^ 53)%Z -> (length fs <= 22)%nat -> is_real v (IZR N) ->
  exists v' r, frac_stage (f ++ e ++ c :: x) v = Some (e ++ c :: x, v') /\ is_real v' r /\
    (Rabs (r - (IZR N + fracval 0 fs)) <= INR (length fs) * (4 * u * (IZR N + 1)))%R /\ (fs = [] -> r = IZR N).
Proof.
  intros F E C L Ln R. destruct (exp_head e k c x E C) as (h & t & Eh & Dh & Ph). rewrite Eh. destruct F as [|fs F].
  - exists v, (IZR N). cbn [app fracval length INR]. split; [|split; [exact R|split; [|easy]]].
    + unfold frac_stage, rd. cbn [obind nth_error]. apply Z.eqb_neq in Ph. now rewrite Ph.
    + rewrite Rplus_0_r, Rminus_eq_0, Rabs_R0. lra.
  - assert (B : (1 <= IZR N + 1 <= IZR (2 ^ 53))%R). { split; [|change 1%R with (IZR 1); rewrite <- plus_IZR; apply IZR_le; lia]. assert (0 <= IZR N)%R by (apply IZR_le; lia). lra. }
    destruct (frac_loop_ok h t (IZR N + 1) Dh B fs 0 0 v (IZR N) (IZR N) (f_of_int 10) F ltac:(lia) ltac:(lia)) as (v' & r & E1 & R1 & B1); try easy.
    + intros _. apply (f_ten 1). lia.
    + apply IZR_le. lia.
    + pose proof (fracval_bound fs F 0) as X. change (IZR (10 ^ Z.of_nat 0)) with 1%R in X. rewrite Rinv_1 in X. lra.
    + rewrite Rminus_eq_0, Rabs_R0. cbn [INR]. lra.
    + exists v', r. split; [|split; [exact R1|split; [exact B1|]]].
      * unfold frac_stage, rd. cbn [obind nth_error app Z.eqb Pos.eqb tl]. exact E1.
      * intros ->. cbn [fracval length INR] in B1. cbn [Nat.add INR] in B1. rewrite Rmult_0_l, Rplus_0_r in B1.
        pose proof (Rabs_pos (r - IZR N)). assert (Z0 : Rabs (r - IZR N) = 0%R) by lra. destruct (Req_dec (r - IZR N) 0) as [Y|Y]; [lra|]. now apply Rabs_no_R0 in Y.
Qed.
Lemma sign_real s sg : sign_of s sg -> is_real (sign_value s) sg /\ (sg = 1 \/ sg = -1)%R.
Proof. destruct 1; (split; [|lra]); [apply (f_int 1)|apply (f_int 1)|apply (f_int (-1))]; reflexivity. Qed.
Lemma signed v r s sg : is_real v r -> is_real s sg -> (sg = 1 \/ sg = -1)%R -> is_real (fmul s v) (sg * r).
Proof.
  intros V S E. pose proof (fmul_real s v _ _ S V) as M. pose proof (real_fmt _ _ V) as Fr.
  assert (G : rnd (sg * r) = (sg * r)%R).
  { apply rnd_fmt. destruct E as [->| ->]; [now rewrite Rmult_1_l|]. replace (-1 * r)%R with (- r)%R by ring. apply (real_fmt (fneg v)). now apply fneg_real. }
  rewrite G in M. apply M. destruct (is_real_bin _ _ V) as (b & -> & Fb & <-). unfold small. rewrite Rabs_mult. replace (Rabs sg) with 1%R.
  - rewrite Rmult_1_l. apply abs_B2R_lt_emax.
  - destruct E as [->| ->]; [now rewrite Rabs_R1|]. rewrite Rabs_left; lra.
Qed.
(** the text is read as the rounding of [r] scaled, [r] what the digits gave *)
Lemma read_text text sg ds fs k c x : decimal_text text sg ds fs k -> ends c -> (number 10 ds < 2 ^ 53)%Z -> (length fs <= 22)%nat -> (-22 <= k <= 22)%Z ->
  exists v r, str_to_f64 (text ++ c :: x) = Some (v, c :: x) /\ is_real v (sg * rnd (r * powerRZ 10 k)) /\
    (Rabs (r - decimal ds fs) <= INR (length fs) * (4 * u * (IZR (number 10 ds) + 1)))%R /\ (fs = [] -> r = IZR (number 10 ds)) /\ (0 <= IZR (number 10 ds))%R.
Proof.
  intros (b & s & f & e & -> & B & Hs & D & F & E & N) C L Ln K. pose proof (number_nonneg ds D) as P. set (W := number 10 ds) in *.
  destruct (exp_head e k c x E C) as (h & t & Eh & Dh & Ph).
  assert (H1 : exists h1 t1, f ++ e ++ c :: x = h1 :: t1 /\ char_is_digit h1 = false).
  { destruct F as [|fs F]; [rewrite Eh; cbn [app]; eauto|]. cbn [app]. do 2 eexists. split; [reflexivity|reflexivity]. }
  destruct H1 as (h1 & t1 & E1 & D1).
  replace ((b ++ s ++ chars ds ++ f ++ e) ++ c :: x) with (b ++ s ++ chars ds ++ f ++ e ++ c :: x) by (now rewrite <- !app_assoc).
  rewrite (str_body b s sg); [|easy|easy|].
  2: { destruct D as [|d ds Hd D].
       - destruct F as [|fs F]; [easy|]. cbn [chars map app]. repeat split; discriminate.
       - cbn [chars map app]. unfold dig in Hd. unfold char_is_space. repeat split; lia. }
  destruct (whole_loop_ok h1 t1 D1 ds 0%Z f_zero D ltac:(lia) L zero_real) as (v0 & X0 & R0). rewrite <- E1 in X0.
  destruct (frac_stage_ok f fs e k c x v0 W F E C ltac:(lia) Ln R0) as (v1 & r & X1 & R1 & B1 & Z1).
  destruct (exp_stage_ok e k c x E C K) as (fr & sc & X2 & R2 & Q2).
  destruct (sign_real s sg Hs) as (Rs & Sg).
  exists (fmul (sign_value s) (if fr then fdiv v1 sc else fmul v1 sc)), r. split; [|split; [|split; [|split]]].
  - unfold body. rewrite X0. cbn [obind]. unfold frac_stage in X1. destruct (rd (f ++ e ++ c :: x) 0) as [c0|]; [|easy]. cbn [obind] in *. rewrite X1. cbn [obind].
    unfold exp_stage in X2. destruct (rd (e ++ c :: x) 0) as [c1|]; [|easy]. cbn [obind] in *. rewrite X2. reflexivity.
  - apply signed; [|easy|easy].
    assert (HW : (0 <= IZR W <= IZR (2 ^ 53))%R) by (split; apply IZR_le; lia).
    assert (Br : (Rabs r <= IZR (2 ^ 55))%R).
    { pose proof u_small. pose proof (fracval_bound fs) as FB. assert (Ff : Forall dig fs) by (destruct F; easy). specialize (FB Ff 0%nat). change (IZR (10 ^ Z.of_nat 0)) with 1%R in FB. rewrite Rinv_1 in FB.
      assert (N22 : (INR (length fs) * (4 * u * (IZR W + 1)) <= / 1000 * (IZR W + 1))%R).
      { apply Rle_trans with (22 * (4 * u * (IZR W + 1)))%R; [apply Rmult_le_compat_r; [nra|]; change 22%R with (IZR 22); rewrite INR_IZR_INZ; apply IZR_le; lia|]. nra. }
      apply Rabs_le_inv in B1. apply Rabs_le. change (IZR (2 ^ 55)) with 36028797018963968%R. change (IZR (2 ^ 53)) with 9007199254740992%R in HW. lra. }
    set (T := IZR (10 ^ Z.abs k)) in *.
    assert (HT : (1 <= T <= IZR (10 ^ 22))%R).
    { split; apply IZR_le; [pose proof (Z.pow_pos_nonneg 10 (Z.abs k)); lia|apply Z.pow_le_mono_r; lia]. }
    assert (Bx : (Rabs (r * powerRZ 10 k) <= bpow radix2 140)%R).
    { rewrite Rabs_mult, Q2. apply Rle_trans with (IZR (2 ^ 55) * IZR (10 ^ 22))%R.
      - apply Rmult_le_compat; try apply Rabs_pos; [exact Br|]. destruct fr; rewrite Rabs_pos_eq; try lra.
        + apply Rle_trans with 1%R; [|apply IZR_le; lia]. rewrite <- Rinv_1. apply Rinv_le; lra.
        + apply Rlt_le, Rinv_0_lt_compat. lra.
      - rewrite <- mult_IZR. rewrite <- (IZR_Zpower radix2) by discriminate. apply IZR_le. now vm_compute. }
    pose proof (small_bound _ 140 ltac:(lia) Bx) as Sm. rewrite Q2 in *. destruct fr.
    + apply (fdiv_real v1 sc r T); try easy. lra.
    + apply (fmul_real v1 sc r T); easy.
  - now rewrite decimal_frac.
  - exact Z1.
  - apply IZR_le. lia.
Qed.

(** ** Every terminated string is read *)
Notation inside s r := (exists pre, s = pre ++ r) (only parsing).
Lemma inside_tl s c : In 0%Z s -> rd s 0 = Some c -> c <> 0%Z -> In 0%Z (tl s) /\ inside s (tl s).
Proof. destruct s as [|c' s]; [easy|]. unfold rd. cbn [nth_error]. intros [->|I] [= ->] N; [easy|]. split; [exact I|]. now exists [c]. Qed.
Lemma inside_trans (s r t : list Z) : inside s r -> inside r t -> inside s t.
Proof. intros (a & ->) (b & ->). exists (a ++ b). now rewrite <- app_assoc. Qed.
Lemma inside_refl (s : list Z) : inside s s.
Proof. now exists []. Qed.
Lemma rd_some s : In 0%Z s -> exists c, rd s 0 = Some c.
Proof. destruct s; [easy|]. cbn. eauto. Qed.
Lemma skip_total s : In 0%Z s -> exists r, skip_space s = Some r /\ In 0%Z r /\ inside s r.
Proof.
  induction s as [|c s IH]; [easy|]. intros I. cbn [skip_space]. destruct (char_is_space c) eqn:E.
  - destruct I as [->|I]; [easy|]. destruct (IH I) as (r & -> & Ir & pre & ->). exists r. repeat split; try easy. now exists (c :: pre).
  - exists (c :: s). repeat split; [easy|apply inside_refl].
Qed.
Lemma whole_total s : In 0%Z s -> forall v, exists r v', whole_loop s v = Some (r, v') /\ In 0%Z r /\ inside s r.
Proof.
  induction s as [|c s IH]; [easy|]. intros I v. cbn [whole_loop]. destruct (char_is_digit c) eqn:E.
  - destruct I as [->|I]; [easy|]. destruct (IH I (fadd (fmul v (f_of_int 10)) (f_of_int (c - 48)))) as (r & v' & -> & Ir & pre & ->). exists r, v'. repeat split; try easy. now exists (c :: pre).
  - exists (c :: s), v. repeat split; [easy|apply inside_refl].
Qed.
Lemma frac_total s : In 0%Z s -> forall v p, exists r v', frac_loop s v p = Some (r, v') /\ In 0%Z r /\ inside s r.
Proof.
  induction s as [|c s IH]; [easy|]. intros I v p. cbn [frac_loop]. destruct (char_is_digit c) eqn:E.
  - destruct I as [->|I]; [easy|]. destruct (IH I (fadd v (fdiv (f_of_int (c - 48)) p)) (fmul p (f_of_int 10))) as (r & v' & -> & Ir & pre & ->). exists r, v'. repeat split; try easy. now exists (c :: pre).
  - exists (c :: s), v. repeat split; [easy|apply inside_refl].
Qed.
Lemma exp_total s : In 0%Z s -> forall v, exists r v', exp_loop s v = Some (r, v') /\ In 0%Z r /\ inside s r.
Proof.
  induction s as [|c s IH]; [easy|]. intros I v. cbn [exp_loop]. destruct (char_is_digit c) eqn:E.
  - destruct I as [->|I]; [easy|]. destruct (IH I (u32 (v * 10 + (c - 48)))) as (r & v' & -> & Ir & pre & ->). exists r, v'. repeat split; try easy. now exists (c :: pre).
  - exists (c :: s), v. repeat split; [easy|apply inside_refl].
Qed.
Lemma frac_stage_total s v : In 0%Z s -> exists r v', frac_stage s v = Some (r, v') /\ In 0%Z r /\ inside s r.
Proof.
  intros I. unfold frac_stage. destruct (rd_some s I) as (c & E). rewrite E. cbn [obind]. destruct (Z.eqb_spec c 46) as [->|N].
  - destruct (inside_tl s 46%Z I E ltac:(discriminate)) as (I' & S'). destruct (frac_total (tl s) I' v (f_of_int 10)) as (r & v' & -> & Ir & Sr).
    exists r, v'. repeat split; try easy. now apply inside_trans with (tl s).
  - exists s, v. repeat split; [easy|apply inside_refl].
Qed.
Lemma exp_stage_total s : In 0%Z s -> exists r b f, exp_stage s = Some (r, b, f) /\ In 0%Z r /\ inside s r.
Proof.
  intros I. unfold exp_stage. destruct (rd_some s I) as (c & E). rewrite E. cbn [obind]. destruct ((c =? 101)%Z || (c =? 69)%Z) eqn:N.
  - destruct (inside_tl s c I E) as (I' & S'); [intros ->; discriminate|]. cbv zeta. destruct (rd_some (tl s) I') as (d & Ed). rewrite Ed. cbn [obind].
    assert (G : forall (b : bool) t, In 0%Z t -> inside s t -> exists r b' f, (' (s0, exp) <- exp_loop t 0 ;; Some (s0, b, scale_of (if (308 <? exp)%Z then 308 else exp)%Z)) = Some (r, b', f) /\ In 0%Z r /\ inside s r).
    { intros b t It St. destruct (exp_total t It 0%Z) as (r & v' & -> & Ir & Sr). cbn [obind]. do 3 eexists. repeat split; try easy. now apply inside_trans with t. }
    destruct (Z.eqb_spec d 45) as [->|D]; [|destruct (Z.eqb_spec d 43) as [->|D']].
    + destruct (inside_tl _ _ I' Ed ltac:(discriminate)) as (I2 & S2). apply G; [easy|now apply inside_trans with (tl s)].
    + destruct (inside_tl _ _ I' Ed ltac:(discriminate)) as (I2 & S2). apply G; [easy|now apply inside_trans with (tl s)].
    + now apply G.
  - exists s, false, (f_of_int 1). repeat split; [easy|apply inside_refl].
Qed.
Lemma body_stages sg s : body sg s = (' (s, v) <- whole_loop s f_zero ;; ' (s, v) <- frac_stage s v ;; ' (s, b, sc) <- exp_stage s ;; Some (fmul sg (if b : bool then fdiv v sc else fmul v sc), s)).
Proof.
  unfold body, frac_stage, exp_stage. destruct (whole_loop s f_zero) as [[t v]|]; [|reflexivity]. cbn [obind]. destruct (rd t 0) as [c|]; [|reflexivity]. cbn [obind].
  destruct (if (c =? 46)%Z then _ else _) as [[t' v']|]; [|reflexivity]. cbn [obind]. destruct (rd t' 0) as [c'|]; reflexivity.
Qed.
Lemma body_total sg s : In 0%Z s -> exists v r, body sg s = Some (v, r) /\ In 0%Z r /\ inside s r.
Proof.
  intros I. rewrite body_stages. destruct (whole_total s I f_zero) as (r & v & -> & Ir & Sr). cbn [obind].
  destruct (frac_stage_total r v Ir) as (r1 & v1 & -> & I1 & S1). cbn [obind]. destruct (exp_stage_total r1 I1) as (r2 & b & f & -> & I2 & S2). cbn [obind].
  do 2 eexists. repeat split; [easy|]. apply inside_trans with r1; [now apply inside_trans with r|easy].
Qed.
Lemma str_total s : In 0%Z s -> exists v r, str_to_f64 s = Some (v, r) /\ inside s r.
Proof.
  intros I. destruct (skip_total s I) as (t & E & It & St). destruct (rd_some t It) as (c & Ec).
  assert (X : exists sg t', str_to_f64 s = body sg t' /\ In 0%Z t' /\ inside t t').
  { unfold str_to_f64. rewrite E. cbn [obind]. rewrite Ec. cbn [obind]. destruct (Z.eqb_spec c 45) as [->|D]; [|destruct (Z.eqb_spec c 43) as [->|D']].
    - exists (f_of_int (-1)), (tl t). split; [reflexivity|]. now apply (inside_tl t 45).
    - exists (f_of_int 1), (tl t). split; [reflexivity|]. now apply (inside_tl t 43).
    - exists (f_of_int 1), t. split; [reflexivity|]. split; [easy|apply inside_refl]. }
  destruct X as (sg & t' & -> & It' & St'). destruct (body_total sg t' It') as (v & r & Eb & Ir & Sr). exists v, r. split; [exact Eb|].
  apply inside_trans with t; [easy|]. now apply inside_trans with t'.
Qed.
(** exponents above 308 count as 308 *)
Lemma exp_capped b s sg ds f fs e es sgn c x : blanks b -> sign_of s sg -> Forall dig ds -> frac_of f fs -> ds ++ f <> [] ->
  In e [101; 69]%Z -> In sgn [[]; [43]; [45]]%Z -> Forall dig es -> es <> [] -> ends c -> (308 <= number 10 es < 2 ^ 32)%Z ->
  str_to_f64 (b ++ s ++ chars ds ++ f ++ (e :: sgn ++ chars es) ++ c :: x) = str_to_f64 (b ++ s ++ chars ds ++ f ++ (e :: sgn ++ chars [3; 0; 8]%Z) ++ c :: x).
Proof.
  intros B S D F N E Sn Fe Ne C L.
  assert (HX : forall y, match chars ds ++ f ++ y with [] => False | c :: _ => char_is_space c = false /\ c <> 45%Z /\ c <> 43%Z end).
  { intros y. destruct D as [|d ds Hd D].
    - destruct F as [|fs F]; [easy|]. cbn [chars map app]. repeat split; discriminate.
    - cbn [chars map app]. unfold dig in Hd. unfold char_is_space. repeat split; lia. }
  rewrite !(str_body b s sg) by (easy || apply HX). rewrite !body_stages.
  assert (P : forall y1 y2 v, exp_stage (e :: y1) = exp_stage (e :: y2) -> forall k : f64 -> list Z * bool * f64 -> option (f64 * list Z),
    (' (s, v) <- whole_loop (chars ds ++ f ++ e :: y1) v ;; ' (s, v) <- frac_stage s v ;; obind (exp_stage s) (k v)) = (' (s, v) <- whole_loop (chars ds ++ f ++ e :: y2) v ;; ' (s, v) <- frac_stage s v ;; obind (exp_stage s) (k v))).
  { clear N HX. intros y1 y2 v Ey k. assert (He : char_is_digit e = false /\ e <> 46%Z) by (cbn [In] in E; destruct E as [<-|[<-|[]]]; easy). destruct He as (He & Hp).
    assert (Ds : Forall (fun c => char_is_digit c = true) (chars ds)) by (apply Forall_map; eapply Forall_impl; [|exact D]; intros; now apply digit_is).
    revert v. induction Ds as [|c' cs Hc Ds IH]; intros v; cbn [app whole_loop].
    - destruct F as [|fs F]; cbn [app whole_loop].
      + rewrite He. cbn [obind]. unfold frac_stage, rd. cbn [nth_error obind]. apply Z.eqb_neq in Hp. rewrite Hp. cbn [obind]. now rewrite Ey.
      + change (char_is_digit 46) with false. cbn [obind]. unfold frac_stage, rd. cbn [nth_error obind tl Z.eqb Pos.eqb].
        assert (G : Forall (fun c => char_is_digit c = true) (chars fs)) by (apply Forall_map; eapply Forall_impl; [|exact F]; intros; now apply digit_is).
        generalize (f_of_int 10). revert v. induction G as [|c' cs Hc G IH]; intros v p; cbn [app frac_loop]; [|rewrite Hc; apply IH]. rewrite He. cbn [obind]. now rewrite Ey.
    - rewrite Hc. apply IH. }
  cbn [app]. rewrite <- !app_assoc.
  apply (P _ _ f_zero) with (k := fun v => fun '(s0, b0, sc) => Some (fmul (sign_value s) (if b0 : bool then fdiv v sc else fmul v sc), s0)).
  rewrite !exp_digits; try easy; try (apply not_digit; apply C).
  - change (number 10 [3; 0; 8]%Z) with 308%Z. rewrite !Z.min_l by lia. reflexivity.
  - repeat constructor; unfold dig; lia.
Qed.
