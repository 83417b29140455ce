(** C112: formatted text in strings and static buffers. *)
From Coq Require Import Reals String.
From Verif Require Import Base CStr CStrSpec CStrProofs Num NumSpec NumProofs Float Print PrintSpec PrintFSpec PrintProofs PrintProofs2 PrintProofs3 PrintProofs4 PropPrint PropPrintF StrLib StrLibProofs PropStrLib FmtStr.
Open Scope string_scope. Open Scope Z_scope. Open Scope list_scope.

(** a buffer of which the last byte is a NUL *)
Definition usable (b : list Z) : Prop := exists a, b = a ++ [0].
Lemma usable_in b k : usable b -> (k < length b)%nat -> In 0 (skipn k b).
Proof.
  intros (a & ->) L. rewrite app_length in L. cbn [length] in L. rewrite skipn_app. apply in_or_app. right.
  replace (k - length a)%nat with 0%nat by lia. now left.
Qed.
Lemma usable_keeps r r' : keeps r r' -> usable r -> usable r'.
Proof.
  intros K (a & ->). destruct (keeps_app _ _ _ K) as (a' & b' & -> & _ & Kb). unfold keeps in Kb. inversion Kb as [|? y ? ? H X]; subst. inversion X; subst.
  exists a'. replace y with 0 by (symmetry; now apply H). reflexivity.
Qed.

(** the text is printed, and a NUL at the end of the buffer stays there *)
Lemma fits_usable ps : Forall printable ps -> exists texts, Forall2 frendered ps texts /\
  forall buf max x va, usable buf -> (length (concat texts) < length buf)%nat -> Z.of_nat (length (concat texts)) < max ->
  exists r, snprintf buf max (ftext_of ps ++ 0 :: x) (fargs_of ps ++ va) =
    Some (concat texts ++ 0 :: r, if max <=? Z.of_nat (length (concat texts)) + 1 then -1 else Z.of_nat (length (concat texts)) + 1) /\
    length (concat texts ++ 0 :: r) = length buf /\ usable (concat texts ++ 0 :: r).
Proof.
  intros P. assert (I : exists texts, Forall2 frendered ps texts /\ Forall2 item ps texts).
  { induction P as [|p ps H P (ts & A & B)]; [exists []; split; constructor|]. destruct (printable_item p H) as (t & F & I). exists (t :: ts). split; now constructor. }
  destruct I as (texts & F & I). exists texts. split; [exact F|]. intros buf max x va U L M. pose proof (usable_in _ _ U L) as HC.
  destruct (split_at buf (length (concat texts))) as (old & r & -> & E); [lia|].
  replace (skipn (length (concat texts)) (old ++ r)) with r in HC by (rewrite <- E; now rewrite skipn_len).
  destruct (rounds_items x ps texts I [] old r max va E M (fun _ => HC)) as (r' & rem & R & K). cbn [app length] in R.
  unfold snprintf. rewrite app_length. rewrite (rounds_more _ _ _ _ R). cbn [obind].
  pose proof (keeps_len _ _ K) as Lk. rewrite app_length in L.
  assert (Ur : usable r). { destruct U as (a & U). destruct r as [|z r0] using rev_ind; [cbn [length] in L; lia|]. rewrite app_assoc in U. apply app_inj_tail in U. destruct U as (_ & ->). now exists r0. }
  pose proof (usable_keeps _ _ K Ur) as Ur'. destruct r' as [|o r']; [cbn [length] in Lk; lia|].
  rewrite wr_at. cbn [obind]. replace (Z.of_nat (S (length (concat texts)))) with (Z.of_nat (length (concat texts)) + 1) by lia.
  exists r'. split; [easy|]. rewrite !app_length. cbn [length] in *. split; [lia|].
  destruct Ur' as (a & Ea). destruct a as [|o' a]; cbn [app] in Ea; injection Ea as -> ->; [now exists (concat texts)|]. exists (concat texts ++ 0 :: a). now rewrite <- app_assoc.
Qed.
Lemma cleared_usable : usable cleared.
Proof. exists (repeat 0 (Z.to_nat (maxlen - 1))). unfold cleared. replace (Z.to_nat maxlen) with (Z.to_nat (maxlen - 1) + 1)%nat by (unfold maxlen; lia). now rewrite repeat_split. Qed.
Lemma cleared_len : Z.of_nat (length cleared) = maxlen.
Proof. unfold cleared. rewrite repeat_length. apply Z2Nat.id. discriminate. Qed.

(** zpl_string_append_fmt appends the expansion; one of exactly 65534 bytes is dropped *)
Theorem C112_append_fmt : forall ps, Forall printable ps -> exists texts, Forall2 frendered ps texts /\
  forall new s c x va, sane new -> holds s c ->
  (Z.of_nat (length (concat texts)) < 65534 ->
    (available_space s < Z.of_nat (length (concat texts)) /\ new (slen s + Z.of_nat (length (concat texts)) + 1) = None /\ append_fmt new s (ftext_of ps ++ 0 :: x) (fargs_of ps ++ va) = Some None) \/
    (exists r, append_fmt new s (ftext_of ps ++ 0 :: x) (fargs_of ps ++ va) = Some (Some r) /\ holds r (c ++ concat texts))) /\
  (Z.of_nat (length (concat texts)) = 65534 -> append_fmt new s (ftext_of ps ++ 0 :: x) (fargs_of ps ++ va) = Some (Some s)).
Proof.
  intros ps P. destruct (fits_usable ps P) as (texts & F & H). exists texts. split; [exact F|]. intros new s c x va Hn Hs. pose proof cleared_len as CL. unfold maxlen in CL. split.
  - intros L. destruct (H cleared (maxlen - 1) x va cleared_usable) as (r & E & _); [lia|unfold maxlen; lia|]. unfold append_fmt. rewrite E. cbn [obind].
    destruct (Z.leb_spec (maxlen - 1) (Z.of_nat (length (concat texts)) + 1)); [unfold maxlen in *; lia|].
    replace (Z.of_nat (length (concat texts)) + 1 - 1) with (Z.of_nat (length (concat texts))) by lia. now apply append_ok.
  - intros L. destruct (H cleared (maxlen - 1) x va cleared_usable) as (r & E & _); [lia|unfold maxlen; lia|]. unfold append_fmt. rewrite E. cbn [obind].
    destruct (Z.leb_spec (maxlen - 1) (Z.of_nat (length (concat texts)) + 1)); [reflexivity|unfold maxlen in *; lia].
Qed.

(** zpl_string_sprintf: wherever the text fits into the buffer, a string of it, also where
    zpl_snprintf reports that it does not fit *)
Theorem C112_sprintf : forall ps, Forall printable ps -> exists texts, Forall2 frendered ps texts /\
  forall new buf max x va, sane new -> cstring (concat texts) -> usable buf -> (length (concat texts) < length buf)%nat -> Z.of_nat (length (concat texts)) < max ->
  exists r o, sprintf new buf max (ftext_of ps ++ 0 :: x) (fargs_of ps ++ va) = Some (concat texts ++ 0 :: r, o) /\
    length (concat texts ++ 0 :: r) = length buf /\ usable (concat texts ++ 0 :: r) /\
    ((o = None /\ new (Z.of_nat (length (concat texts)) + 1) = None) \/ exists t, o = Some t /\ holds t (concat texts)).
Proof.
  intros ps P. destruct (fits_usable ps P) as (texts & F & H). exists texts. split; [exact F|]. intros new buf max x va Hn C U L M.
  destruct (H buf max x va U L M) as (r & E & Lr & Ur). unfold sprintf. rewrite E. cbn [obind].
  destruct (C45_make_cstring new (concat texts) r Hn C) as [(-> & A)|(t & -> & A)]; cbn [obind]; exists r; eexists; (split; [reflexivity|]); (split; [exact Lr|]); (split; [exact Ur|]); [left|right]; eauto.
Qed.

(** the static buffers: a call finds a buffer of 65536 bytes ending in a NUL and leaves one *)
Definition static (b : list Z) : Prop := Z.of_nat (length b) = 65536 /\ usable b.
Theorem C112_static_start : static cleared.
Proof. split; [apply cleared_len|apply cleared_usable]. Qed.
Theorem C112_sprintf_buf : forall ps, Forall printable ps -> exists texts, Forall2 frendered ps texts /\
  forall new buf x va, sane new -> static buf -> cstring (concat texts) -> Z.of_nat (length (concat texts)) < 65536 ->
  exists buf' o, sprintf_buf new buf (ftext_of ps ++ 0 :: x) (fargs_of ps ++ va) = Some (buf', o) /\ static buf' /\
    ((o = None /\ new (Z.of_nat (length (concat texts)) + 1) = None) \/ exists t, o = Some t /\ holds t (concat texts)).
Proof.
  intros ps P. destruct (C112_sprintf ps P) as (texts & F & H). exists texts. split; [exact F|]. intros new buf x va Hn (Lb & U) C L.
  destruct (H new buf maxlen x va Hn C U) as (r & o & E & Lr & Ur & D); [lia|unfold maxlen; lia|]. exists (concat texts ++ 0 :: r), o. split; [exact E|]. split; [split; [now rewrite Lr|exact Ur]|exact D].
Qed.
Theorem C112_bprintf : forall ps, Forall printable ps -> exists texts, Forall2 frendered ps texts /\
  forall buf x va, static buf -> Z.of_nat (length (concat texts)) < 65536 ->
  exists r, bprintf buf (ftext_of ps ++ 0 :: x) (fargs_of ps ++ va) = Some (concat texts ++ 0 :: r) /\ static (concat texts ++ 0 :: r).
Proof.
  intros ps P. destruct (fits_usable ps P) as (texts & F & H). exists texts. split; [exact F|]. intros buf x va (Lb & U) L.
  destruct (H buf maxlen x va U) as (r & E & Lr & Ur); [lia|unfold maxlen; lia|]. exists r. unfold bprintf. rewrite E. cbn [obind]. split; [reflexivity|]. split; [now rewrite Lr|exact Ur].
Qed.
(** a history of calls: each gives its own text, whatever was printed before *)
Fixpoint bprintfs (buf : list Z) (calls : list (list Z * list arg)) : option (list (list Z) * list Z) :=
  match calls with
  | [] => Some ([], buf)
  | (fmt, va) :: calls => buf <- bprintf buf fmt va ;; ' (outs, last) <- bprintfs buf calls ;; Some (buf :: outs, last)
  end.
Theorem C112_bprintf_history : forall pss, Forall (Forall printable) pss -> exists textss, Forall2 (Forall2 frendered) pss textss /\
  (Forall (fun texts => Z.of_nat (length (concat texts)) < 65536) textss ->
   exists outs buf, bprintfs cleared (map (fun ps => (ftext_of ps ++ [0], fargs_of ps)) pss) = Some (outs, buf) /\
     Forall2 (fun texts out => exists r, out = concat texts ++ 0 :: r) textss outs).
Proof.
  intros pss P. cut (exists textss, Forall2 (Forall2 frendered) pss textss /\
    (Forall (fun texts => Z.of_nat (length (concat texts)) < 65536) textss -> forall b, static b ->
   exists outs buf, bprintfs b (map (fun ps => (ftext_of ps ++ [0], fargs_of ps)) pss) = Some (outs, buf) /\
     Forall2 (fun texts out => exists r, out = concat texts ++ 0 :: r) textss outs)).
  { intros (textss & A & B). exists textss. split; [exact A|]. intros C. apply (B C), C112_static_start. }
  induction P as [|ps pss H P (textss & A & B)].
  - exists []. split; [constructor|]. intros _ b _. exists [], b. split; [reflexivity|constructor].
  - destruct (C112_bprintf ps H) as (texts & F & C). exists (texts :: textss). split; [now constructor|]. intros L b Sb. inversion L; subst.
    destruct (C b [] [] Sb) as (r & E & Sr); [assumption|]. rewrite app_nil_r in E. destruct (B ltac:(assumption) _ Sr) as (outs & buf & E2 & G).
    cbn [map bprintfs]. rewrite E. cbn [obind]. rewrite E2. cbn [obind]. eexists. eexists. split; [reflexivity|]. constructor; [now exists r|exact G].
Qed.

(** zpl_asprintf: the text in a block of its own with one byte more; the result counts the NUL, and is -1 for a text
    of 65535 bytes, which is nevertheless complete *)
Lemma alloc_str_ok new s x b : sane new -> cstring s -> new (Z.of_nat (length s) + 1) = Some b -> alloc_str new (s ++ 0 :: x) = Some (s ++ [0]).
Proof.
  intros Hn C E. unfold alloc_str. rewrite strlen_ok by easy. cbn [obind]. unfold alloc_str_len. rewrite E, Nat2Z.id. apply Hn in E.
  assert (Lb : length b = (length s + 1)%nat) by lia. destruct (cut3 b _ _ Lb) as (u & v & -> & Lu & Lv). destruct (one _ Lv) as (z & ->).
  pose proof (blit_ok (length s) s [] u [z] (0 :: x) eq_refl Lu) as X. cbn [app length] in X. rewrite X. cbn [obind]. now rewrite wr_at.
Qed.
Theorem C112_alloc_str : forall new s x, sane new -> cstring s ->
  (forall b, new (Z.of_nat (length s) + 1) = Some b -> alloc_str new (s ++ 0 :: x) = Some (s ++ [0])) /\
  (new (Z.of_nat (length s) + 1) = None -> alloc_str new (s ++ 0 :: x) = None).
Proof.
  intros new s x Hn C. split; [intros b E; eapply alloc_str_ok; eauto|]. intros E. unfold alloc_str. rewrite strlen_ok by easy. cbn [obind]. unfold alloc_str_len. now rewrite E.
Qed.
Theorem C112_asprintf : forall ps, Forall printable ps -> exists texts, Forall2 frendered ps texts /\
  forall new tmp x va b, sane new -> static tmp -> cstring (concat texts) -> Z.of_nat (length (concat texts)) < 65536 ->
  new (Z.of_nat (length (concat texts)) + 1) = Some b ->
  exists tmp', asprintf new tmp (ftext_of ps ++ 0 :: x) (fargs_of ps ++ va) =
    Some (tmp', concat texts ++ [0], if Z.of_nat (length (concat texts)) =? 65535 then -1 else Z.of_nat (length (concat texts)) + 1) /\ static tmp'.
Proof.
  intros ps P. destruct (fits_usable ps P) as (texts & F & H). exists texts. split; [exact F|]. intros new tmp x va b Hn (Lb & U) C L E.
  destruct (H tmp maxlen x va U) as (r & E2 & Lr & Ur); [lia|unfold maxlen; lia|]. unfold asprintf. rewrite E2. cbn [obind]. rewrite (alloc_str_ok new _ _ b Hn C E). cbn [obind].
  eexists. split; [|split; [rewrite Lr; exact Lb|exact Ur]]. f_equal. f_equal. unfold maxlen.
  destruct (Z.leb_spec 65536 (Z.of_nat (length (concat texts)) + 1)), (Z.eqb_spec (Z.of_nat (length (concat texts))) 65535); lia.
Qed.
(** without memory zpl_asprintf faults *)
Theorem C112_asprintf_out_of_memory_refuted : forall new tmp, (forall n, new n = None) -> forall fmt va, asprintf new tmp fmt va = None.
Proof.
  intros new tmp N fmt va. unfold asprintf. destruct (snprintf tmp maxlen fmt va) as [(t & n)|]; [|reflexivity]. cbn [obind]. unfold alloc_str, alloc_str_len.
  destruct (strlen t); [|reflexivity]. cbn [obind]. now rewrite N.
Qed.

(** such a text: "%65534r" with the letter a; one letter less is appended *)
Definition letters (d : Z) : list fpiece := [Old (Dir false false (Digits [6; 5; 5; 3; d]) Absent (Repeat 97))].
Lemma letters_ok d : 3 <= d <= 4 -> Forall printable (letters d) /\ forall texts, Forall2 frendered (letters d) texts -> concat texts = repeat 97 (Z.to_nat (65530 + d)).
Proof.
  intros D. assert (V : number 10 [6; 5; 5; 3; d] = 65530 + d) by (unfold number; cbn [fold_left]; lia). split.
  - apply Forall_cons; [|constructor]. exists (repeat 97 (Z.to_nat (Z.max 1 (Z.abs (value (Digits [6; 5; 5; 3; d])))))). split; [|split; [exact I|]].
    + split; [split; [repeat (apply Forall_cons; [lia|]); constructor|rewrite V; lia]|]. exists 6, [5; 5; 3; d]. split; [reflexivity|lia].
    + exists [97]. split; [split; [lia|reflexivity]|reflexivity].
  - intros texts H. inversion H as [|? t ? ts F G]; subst. inversion G; subst. destruct F as (_ & _ & u & _ & ->). cbn [concat]. rewrite app_nil_r. cbn [value]. rewrite V. f_equal. lia.
Qed.
Theorem C112_dropped_refuted : forall new s c, sane new -> holds s c ->
  append_fmt new s (ftext_of (letters 4) ++ [0]) (fargs_of (letters 4)) = Some (Some s) /\
  ((forall n, new n <> None) -> exists r, append_fmt new s (ftext_of (letters 3) ++ [0]) (fargs_of (letters 3)) = Some (Some r) /\ holds r (c ++ repeat 97 (Z.to_nat 65533))).
Proof.
  intros new s c Hn Hs. split.
  - destruct (letters_ok 4) as (P & T); [lia|]. destruct (C112_append_fmt _ P) as (texts & F & H). destruct (H new s c [] [] Hn Hs) as (_ & G). rewrite app_nil_r in G. apply G. rewrite (T _ F), repeat_length. lia.
  - intros A. destruct (letters_ok 3) as (P & T); [lia|]. destruct (C112_append_fmt _ P) as (texts & F & H). destruct (H new s c [] [] Hn Hs) as (G & _). rewrite app_nil_r in G.
    destruct G as [(_ & N & _)|(r & E & R)]; [rewrite (T _ F), repeat_length; lia|now apply A in N|]. exists r. split; [exact E|]. now rewrite (T _ F) in R.
Qed.
Example letters_text : ftext_of (letters 4) = [37; 54; 53; 53; 51; 52; 114].
Proof. reflexivity. Qed.

(** "n=%-4d|%04x" with -7 and 171, twice, appended to "ab" *)
Definition fdemo : list fpiece := map Old demo.
Lemma fdemo_printable : Forall printable fdemo.
Proof.
  destruct fits_ex as (H & _). unfold fdemo, demo, demo_out in *. repeat (match goal with X : Forall2 rendered (_ :: _) _ |- _ => inversion X; subst; clear X end).
  repeat (apply Forall_cons; [eexists; eassumption|]). constructor.
Qed.
Example C112_append_fmt_ex : append_fmt heap (Str 2 2 [97; 98; 0]) (ftext_of fdemo ++ [0]) (fargs_of fdemo) =
  Some (Some (Str 13 13 [97; 98; 110; 61; 45; 55; 32; 32; 124; 48; 48; 97; 98; 0])).
Proof. vm_compute. reflexivity. Qed.
Example C112_sprintf_ex : sprintf heap (repeat 1 14 ++ [0]) 12 (ftext_of fdemo ++ [0]) (fargs_of fdemo) =
  Some ([110; 61; 45; 55; 32; 32; 124; 48; 48; 97; 98; 0; 1; 1; 0], Some (Str 11 11 [110; 61; 45; 55; 32; 32; 124; 48; 48; 97; 98; 0])).
Proof. vm_compute. reflexivity. Qed.
Example C112_asprintf_ex : (r <- asprintf heap cleared (ftext_of fdemo ++ [0]) (fargs_of fdemo) ;; Some (snd (fst r), snd r)) = Some ([110; 61; 45; 55; 32; 32; 124; 48; 48; 97; 98; 0], 12).
Proof. vm_compute. reflexivity. Qed.
Print Assumptions C112_append_fmt.
Print Assumptions C112_dropped_refuted.
Print Assumptions C112_sprintf.
Print Assumptions C112_static_start.
Print Assumptions C112_sprintf_buf.
Print Assumptions C112_bprintf.
Print Assumptions C112_bprintf_history.
Print Assumptions C112_alloc_str.
Print Assumptions C112_asprintf.
Print Assumptions C112_asprintf_out_of_memory_refuted.
