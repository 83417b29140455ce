(** Printing doubles: whole formats. *)
From Coq Require Import Reals SpecFloat Psatz.
From Verif Require Import Base CStr CStrSpec CStrProofs Num NumSpec NumProofs PropNum Float FloatSpec FloatProofs FloatProofs2 FloatProofs4 Print PrintSpec PrintFSpec PrintProofs PrintProofs2 PrintProofs3.

Definition fpiece_args (x : fpiece) : list arg := match x with Old x => piece_args x | Flt _ _ w p _ x => num_args w ++ num_args p ++ [AF64 x] end.
(** a directive and what a round does with it *)
Definition behaves (fmt : list Z) (args : list arg) (out : list Z) (needs : bool) : Prop :=
  (exists q, fmt = 37 :: q) /\
  forall rest a old r remaining va, length old = length out -> Z.of_nat (length out) < remaining -> (needs = true -> In 0 r) ->
  exists r', round (fmt ++ rest, a ++ old ++ r, length a, remaining, args ++ va) =
    Some (rest, (a ++ out) ++ r', length (a ++ out), remaining - Z.of_nat (length out), va) /\ keeps r r'.
Lemma places_prec p : places p = if prec_of p <? 0 then 6 else prec_of p.
Proof. destruct p; reflexivity. Qed.
Lemma flt_behaves lft zero w p c x : printable (Flt lft zero w p c x) ->
  exists out, frendered (Flt lft zero w p c x) out /\ behaves (fpiece_text (Flt lft zero w p c x)) (fpiece_args (Flt lft zero w p c x)) out false.
Proof.
  intros (GW & GP & Hc & Hp & v & Rx & Bx). rewrite places_prec in Hp.
  destruct (print_f64_ok x v (lft || (value w <? 0)) (prec_of p) Rx Bx ltac:(lia)) as (t & Bt & PF). rewrite <- places_prec in Bt.
  exists (apply_width false (zero && no_prec p) (Z.abs (value w)) t). split; [exists t; split; [exact Bt|reflexivity]|]. split; [cbn [fpiece_text]; eauto|].
  intros rest a old r remaining va L M _. set (text := apply_width false (zero && no_prec p) (Z.abs (value w)) t) in *.
  unfold round. cbn [fpiece_text app]. rewrite lit_stop by eauto. cbn [obind]. unfold rd at 1. cbn [nth_error obind tl].
  change (37 =? 37) with true. cbn match. rewrite <- !app_assoc.
  assert (Nc : ~ (48 <= c <= 57) /\ ~ In c [45; 43; 35; 32; 42; 46; 48]) by (cbn [In] in Hc |- *; lia). destruct Nc as (Nd & Nc). cbn [In] in Nc.
  set (rest2 := (match p with Absent => [] | _ => 46 :: num_text p end) ++ [c] ++ rest).
  assert (E2 : exists c2 q2, rest2 = c2 :: q2 /\ ~ (48 <= c2 <= 57) /\ c2 <> 45 /\ c2 <> 42 /\ ~ In c2 [45; 43; 35; 32; 48]).
  { unfold rest2. destruct p; cbn [app]; [|do 2 eexists; split; [reflexivity|cbn; lia]..]. do 2 eexists. split; [reflexivity|]. cbn [In]. repeat split; lia. }
  destruct E2 as (c2 & q2 & E2 & N21 & N22 & N23 & N24).
  assert (E1 : exists c1 q1, num_text w ++ rest2 = c1 :: q1 /\ ~ In c1 [45; 43; 35; 32; 48]).
  { destruct GW as (Gw & Gw2). destruct w as [|ds|n]; cbn [num_text app].
    - rewrite E2. eauto.
    - destruct Gw2 as (d & q' & -> & Hd). destruct Gw as (Gw & _). inversion Gw; subst. cbn [map app]. do 2 eexists. split; [reflexivity|]. cbn [In]. lia.
    - do 2 eexists. split; [reflexivity|]. cbn [In]. lia. }
  destruct E1 as (c1 & q1 & E1 & N1). rewrite E1. destruct (flags_ok lft zero c1 q1 N1) as (fl & Ef & F). rewrite Ef. cbn [obind]. rewrite <- E1. clear E1 Ef N1.
  cbn [fpiece_args]. rewrite <- !app_assoc. rewrite E2. destruct (width_ok lft zero w c2 q2 fl (num_args p ++ [AF64 x] ++ va) GW F N21 N22 N23) as (fl1 & -> & F1). cbn [obind].
  rewrite <- E2. unfold rest2. cbn [app].
  destruct (prec_ok _ zero _ p c rest fl1 (AF64 x :: va) GP F1 Nd) as (fl2 & -> & F2); [lia|lia|lia|]. cbn [obind].
  rewrite skipn_len, firstn_len.
  destruct (PF 0 fl2 _ _ (Z.abs (value w)) old r remaining F2 ltac:(lia) L ltac:(lia)) as (r' & E & K). fold text in E.
  assert (GL : get_length (c :: rest) fl2 = Some (c :: rest, fl2)).
  { unfold get_length, rd. cbn [nth_error obind]. cbn [In] in Hc. destruct Hc as [<-|[<-|[<-|[<-|[<-|[<-|[]]]]]]]; reflexivity. }
  rewrite GL. cbn [obind].
  assert (CV : convert (c :: rest) fl2 (Z.abs (value w)) (prec_of p) (old ++ r) remaining (AF64 x :: va) = Some (text ++ r', Z.of_nat (length old), rest, va)).
  { unfold convert, rd. cbn [nth_error obind tl va_f64]. cbn [In] in Hc. destruct Hc as [<-|[<-|[<-|[<-|[<-|[<-|[]]]]]]]; cbn [Print.int_conv Z.eqb Pos.eqb orb]; rewrite E; reflexivity. }
  rewrite CV. cbn [obind]. exists r'. split; [|easy]. rewrite L. destruct (Z.leb_spec remaining (Z.of_nat (length text))); [lia|]. rewrite Nat2Z.id, app_length, <- app_assoc. easy.
Qed.

(** ** Formats *)
Definition fcases (x : fpiece) : bool := match x with Old x => cases x | _ => false end.
Definition ftext_of (ps : list fpiece) : list Z := concat (map fpiece_text ps).
Definition fargs_of (ps : list fpiece) : list arg := concat (map fpiece_args ps).
(** a literal or a directive with its output *)
Definition item (x : fpiece) (out : list Z) : Prop :=
  match x with Old (Lit s) => cstring s /\ ~ In 37 s /\ out = s | _ => behaves (fpiece_text x) (fpiece_args x) out (fcases x) end.
Lemma printable_item x : printable x -> exists out, frendered x out /\ item x out.
Proof.
  destruct x as [[s|lft zero w p x]|lft zero w p c x]; intros P.
  - destruct P as (t & P). exists t. split; [exact P|exact P].
  - destruct P as (t & P). exists t. split; [exact P|]. split; [cbn [fpiece_text piece_text]; eauto|].
    intros rest a old r remaining va L M HC. now apply round_dir.
  - destruct (flt_behaves _ _ _ _ _ _ P) as (out & F & B). now exists out.
Qed.
Lemma rounds_items x : forall ps texts, Forall2 item ps texts -> forall a old r remaining va,
  length old = length (concat texts) -> Z.of_nat (length (concat texts)) < remaining -> (existsb fcases ps = true -> In 0 r) ->
  exists r' rem', rounds (length (ftext_of ps)) (ftext_of ps ++ 0 :: x, a ++ old ++ r, length a, remaining, fargs_of ps ++ va) =
    Some (0 :: x, (a ++ concat texts) ++ r', length (a ++ concat texts), rem', va) /\ keeps r r'.
Proof.
  induction 1 as [|p t ps texts Hp Hps IH]; intros a old r remaining va L M HC; cbn [concat map ftext_of fargs_of existsb] in *.
  - destruct old; [|easy]. cbn [app length] in *. exists r, remaining. split; [|apply keeps_refl]. rewrite app_nil_r. reflexivity.
  - rewrite app_length in L. destruct (split_at old (length t)) as (o1 & o2 & -> & L1); [lia|]. rewrite !app_length in *. rewrite <- !app_assoc.
    assert (D : (exists s, p = Old (Lit s)) \/ behaves (fpiece_text p) (fpiece_args p) t (fcases p)) by (destruct p as [[s|]|]; eauto).
    destruct D as [(s & ->)|(Hq & B)].
    + destruct Hp as (C & N & ->). cbn [fpiece_text fpiece_args piece_text piece_args app].
      destruct (IH (a ++ s) o2 r remaining va ltac:(lia) ltac:(lia)) as (r' & rem' & E & K); [intros X; apply HC; exact X|].
      exists r', rem'. split; [|easy]. etransitivity; [apply (rounds_lit _ s _ remaining a o1 (o2 ++ r)); [easy|easy|lia|lia|exact E]|].
      now rewrite <- !app_assoc, !app_length.
    + destruct (B (ftext_of ps ++ 0 :: x) a o1 (o2 ++ r) remaining (fargs_of ps ++ va)) as (r1 & R & K1); [easy|lia| |].
      { intros X. apply in_or_app. right. apply HC. now rewrite X. }
      destruct (keeps_app _ _ _ K1) as (o2' & r2 & -> & L2 & K2).
      destruct (IH (a ++ t) o2' r2 (remaining - Z.of_nat (length t)) va ltac:(lia) ltac:(lia)) as (r' & rem' & E & K).
      { intros X. apply (in_keeps O _ _ K2). apply HC. rewrite X. now rewrite orb_true_r. }
      exists r', rem'. split; [|eapply keeps_trans; eassumption].
      destruct Hq as (q & Hq). rewrite Hq in *. cbn [length Nat.add rounds].
      assert (Hd : rd ((37 :: q) ++ concat (map fpiece_text ps) ++ 0 :: x) 0 = Some 37) by reflexivity.
      rewrite Hd. cbn [obind]. change (37 =? 0) with false. cbn match. unfold ftext_of, fargs_of in R. rewrite R. cbn [obind].
      rewrite Nat.add_comm. apply rounds_more. etransitivity; [exact E|]. now rewrite <- !app_assoc, !app_length.
Qed.
