From Coq Require Import String.
From Verif Require Import Base CStr CStrSpec CStrProofs Num NumSpec NumProofs PropNum FloatSpec Print PrintSpec PrintFSpec PrintProofs PrintProofs2 PrintProofs3 PrintProofs4 PropPrint Node NodeProofs AdtNumSpec AdtNumProofs AdtNumProofs2 AdtNumProofs3 Query QuerySpec.
Open Scope string_scope. Open Scope Z_scope. Open Scope list_scope.
Set Default Timeout 120. 

Lemma same_ok s w x : cstring s -> cstring w -> exists b, same (Some s) (w ++ 0 :: x) = Some b /\ (b = true <-> s = w).
Proof.
  intros Hs Hw. unfold same. destruct (strcmp_ok s w [] x Hs Hw) as (r & E & A & _). change (s ++ [0]) with (s ++ 0 :: []). rewrite E. cbn [obind].
  exists (r =? 0). split; [easy|]. rewrite Z.eqb_eq. exact A.
Qed.
Lemma get_value_ok t v x : tidy t -> cstring v -> exists b, get_value t (v ++ 0 :: x) = Some b /\ (b = true <-> shows t v).
Proof.
  intros T Hv. unfold get_value, shows. destruct T as [t NB S I R|t arr l E _ _].
  - destruct (t_value t) as [|m [s|]|i a|r a|arr l] eqn:E.
    + exists false. split; [easy|]. split; [discriminate|easy].
    + destruct (same_ok s v x (S m s eq_refl) Hv) as (b & -> & B). exists b. split; [easy|]. rewrite B. split; congruence.
    + exists false. split; [easy|]. split; [discriminate|easy].
    + destruct (I i a eq_refl) as (s & P & C & L). rewrite P. cbn [obind]. destruct (Nat.ltb_spec (List.length s) 4096); [|lia].
      destruct (same_ok s v x C Hv) as (b & -> & B). exists b. split; [easy|]. rewrite B. split; congruence.
    + destruct (R r a eq_refl) as (s & P & C & L). rewrite P. cbn [obind]. destruct (Nat.ltb_spec (List.length s) 4096); [|lia].
      destruct (same_ok s v x C Hv) as (b & -> & B). exists b. split; [easy|]. rewrite B. split; congruence.
    + now destruct (NB arr l).
  - rewrite E. exists false. split; [easy|]. split; [discriminate|easy].
Qed.
Definition named (x : doc) : Prop := exists n, t_name x = Some n /\ cstring n.
Lemma get_field_ok l k v x y : Forall tidy l -> Forall named l -> cstring k -> cstring v -> exists b, get_field l (k ++ 0 :: x) (v ++ 0 :: y) = Some b /\ (b = true <-> has_field l k v).
Proof.
  intros T N Hk Hv. induction l as [|t l IH]; cbn [get_field].
  - exists false. split; [easy|]. split; [discriminate|]. intros (? & [] & _).
  - inversion T as [|? ? Tt T']; subst. inversion N as [|? ? (n & En & Cn) N']; subst. specialize (IH T' N'). destruct IH as (b0 & E0 & B0). rewrite En.
    destruct (same_ok n k x Cn Hk) as (b & -> & B). cbn [obind]. destruct b.
    + assert (n = k) as -> by now apply B. destruct (get_value_ok t v y Tt Hv) as (b' & -> & B'). cbn [obind]. destruct b'.
      * exists true. split; [easy|]. split; [|easy]. intros _. exists t. split; [now left|]. split; [easy|now apply B'].
      * exists b0. split; [easy|]. rewrite B0. split; intros (z & I & Nz & Sz); [exists z; split; [now right|easy]|]. destruct I as [<-|I]; [apply B' in Sz; discriminate|now exists z].
    + cbn [obind]. exists b0. split; [easy|]. rewrite B0. split; intros (z & I & Nz & Sz); [exists z; split; [now right|easy]|]. destruct I as [<-|I]; [|now exists z].
      exfalso. assert (n = k) by congruence. apply B in H. discriminate.
Qed.
Lemma search_ok test (P : doc -> Prop) l : (forall t, In t l -> exists b, test t = Some b /\ (b = true <-> P t)) ->
  forall i, exists q, search test l i = Some (option_map (fun p => ((i + fst p)%nat, snd p)) q) /\ first P l q.
Proof.
  induction l as [|t l IH]; intros H i; cbn [search].
  - exists None. split; [easy|]. intros x [].
  - destruct (H t ltac:(now left)) as (b & -> & B). cbn [obind]. destruct b.
    + exists (Some (O, t)). split; [cbn; now rewrite Nat.add_0_r|]. split; [easy|]. split; [now apply B|]. intros j y L. lia.
    + destruct (IH ltac:(intros z I; apply H; now right) (S i)) as (q & -> & F). assert (Nt : ~ P t) by (intros Q; apply B in Q; discriminate).
      destruct q as [(j & x)|].
      * exists (Some (S j, x)). split; [cbn; now rewrite Nat.add_succ_r|]. destruct F as (E & Px & F). split; [easy|]. split; [easy|]. intros [|k] y L Ey; [cbn in Ey; congruence|apply (F k y); [lia|easy]].
      * exists None. split; [easy|]. intros x [<-|I]; [easy|now apply F].
Qed.
Lemma search0 test (P : doc -> Prop) l : (forall t, In t l -> exists b, test t = Some b /\ (b = true <-> P t)) -> exists q, search test l 0 = Some q /\ first P l q.
Proof. intros H. destruct (search_ok test P l H O) as (q & E & F). exists q. split; [|easy]. rewrite E. destruct q as [(i & x)|]; reflexivity. Qed.
Lemma first_unique {A} (P : A -> Prop) l q q' : first P l q -> first P l q' -> q = q'.
Proof.
  destruct q as [(i & x)|], q' as [(j & y)|]; cbn; try easy.
  - intros (E & Px & F) (E' & Py & F'). destruct (Nat.lt_trichotomy i j) as [L|[->|L]]; [now apply (F' i x) in L|congruence|now apply (F j y) in L].
  - intros (E & Px & _) F. apply nth_error_In in E. now apply F in E.
  - intros F (E & Px & _). apply nth_error_In in E. now apply F in E.
Qed.
Lemma skip_at t c r : ~ In 0 t -> ~ In c t -> str_skip (t ++ c :: r) c = Some (List.length t).
Proof.
  induction t as [|a t IH]; intros H0 H1; cbn [app str_skip List.length].
  - rewrite Z.eqb_refl, andb_false_r. reflexivity.
  - destruct (Z.eqb_spec a 0) as [->|N]; [exfalso; apply H0; now left|]. destruct (Z.eqb_spec a c) as [->|N']; [exfalso; apply H1; now left|]. cbn [negb andb].
    rewrite IH; [reflexivity| |]; intros I; [apply H0|apply H1]; now right.
Qed.
Lemma skip_end t c r : ~ In 0 t -> ~ In c t -> str_skip (t ++ 0 :: r) c = Some (List.length t).
Proof.
  induction t as [|a t IH]; intros H0 H1; cbn [app str_skip List.length].
  - reflexivity.
  - destruct (Z.eqb_spec a 0) as [->|N]; [exfalso; apply H0; now left|]. destruct (Z.eqb_spec a c) as [->|N']; [exfalso; apply H1; now left|]. cbn [negb andb].
    rewrite IH; [reflexivity| |]; intros I; [apply H0|apply H1]; now right.
Qed.
Lemma cstring_nz s : cstring s -> ~ In 0 s.
Proof. intros C I. unfold cstring in C. rewrite Forall_forall in C. specialize (C 0 I). lia. Qed.
Lemma cstring_app s t : cstring (s ++ t) <-> cstring s /\ cstring t.
Proof. apply Forall_app. Qed.
(** the segment in the buffer *)
Lemma bprintf_items ps texts : Forall2 item ps texts -> Z.of_nat (List.length (concat texts)) + 1 < PRINTF_MAXLEN ->
  exists r, bprintf (ftext_of ps) (fargs_of ps) = Some (concat texts ++ 0 :: r).
Proof.
  intros H L. unfold bprintf. destruct (snprintf_items ps texts (Z.to_nat PRINTF_MAXLEN) PRINTF_MAXLEN H L) as (r & E); [apply Z2Nat.id; discriminate|].
  rewrite E. cbn [obind]. now exists r.
Qed.
Lemma bprintf_prec s n x : cstring s -> (n <= List.length s)%nat -> small n ->
  exists r, bprintf (asc "%.*s") [AInt (Z.of_nat n); AStr (Some (s ++ 0 :: x))] = Some (firstn n s ++ 0 :: r).
Proof.
  intros C Hn L. unfold small, PRINTF_MAXLEN in L.
  pose proof (bprintf_items [Old (Dir false false Absent (Star (Z.of_nat n)) (Str s x))] [firstn n s]) as H.
  cbn [concat] in H. rewrite !app_nil_r in H. apply H; [|rewrite firstn_length_le by easy; unfold PRINTF_MAXLEN; lia].
  constructor; [|constructor]. apply rendered_item. split; [easy|]. split; [cbn; lia|]. exists s. split; [easy|].
  unfold apply_precision. cbn [PrintSpec.value]. destruct (Z.ltb_spec (Z.of_nat n) 0); [lia|]. rewrite Nat2Z.id. unfold apply_width. cbn. destruct (List.length (firstn n s)); reflexivity.
Qed.
Lemma not_den c : ~ 48 <= c <= 57 -> forall d, ~ denotes 10 c d.
Proof. intros H d D. unfold denotes in D. lia. Qed.
Lemma index_ok w z : (exists neg r ds, w = (if neg : bool then [45] else []) ++ r /\ (neg = false -> forall q, r <> 45 :: q) /\ leading ds r /\ z = signed neg (number 10 ds)) ->
  forall x, (Z.abs z < 2^63 -> exists m, str_to_i64 (w ++ 0 :: x) 10 = Some (z, m)) /\ (2^63 <= Z.abs z -> str_to_i64 (w ++ 0 :: x) 10 = None).
Proof.
  intros (neg & r & ds & -> & Hm & (D & q & -> & Hq) & ->) x.
  assert (T : exists c y, chars ds ++ q ++ 0 :: x = chars ds ++ c :: y /\ ~ 48 <= c <= 57 /\ (q = [] -> c = 0) /\ (forall a b, q = a :: b -> c = a)).
  { destruct q as [|c q]; [exists 0, x; repeat split; try easy; lia|]. exists c, (q ++ 0 :: x). split; [easy|]. split; [now apply (Hq c q)|]. split; [easy|]. now intros a b [= <- <-]. }
  destruct T as (c & y & E & Nc & C0 & Cq). pose proof (chars_den ds D) as Dn. pose proof (NumProofs.number_nonneg 10 ds (chars ds) ltac:(lia) Dn) as Nn.
  unfold str_to_i64. cbn [guess_base Z.eqb obind]. rewrite <- !app_assoc. rewrite E. destruct neg; cbn [signed app].
  - rewrite (scan_i64_neg 10 (chars ds) ds c y) by (first [easy|lia|now apply not_den]). rewrite Z.abs_opp, Z.abs_eq by lia. destruct (Z.ltb_spec (number 10 ds) (2^63)); split; intros; try lia; eauto.
  - rewrite (scan_i64_pos 10 (chars ds) ds c y); [| |easy|now apply not_den|easy|].
    + rewrite Z.abs_eq by lia. destruct (Z.ltb_spec (number 10 ds) (2^63)); split; intros; try lia; eauto.
    + lia.
    + intros En. rewrite En in Hm. cbn [app] in Hm. destruct q as [|a q]; [rewrite C0; easy|]. rewrite (Cq a q) by easy. intros ->. now apply (Hm eq_refl q).
Qed.
Lemma tidy_inv t arr l : tidy t -> t_value t = VBranch arr l -> Forall tidy l /\ (arr = false -> Forall named l).
Proof. intros T E. inversion T as [t' NB|t' arr' l' E' F N]; subst; [now apply NB in E|]. rewrite E in E'. injection E' as <- <-. easy. Qed.
Lemma bracket_field t arr nodes k v x : t_value t = VBranch arr nodes -> tidy t -> cstring k -> cstring v -> ~ In 61 k -> ~ In 93 k -> ~ In 93 v ->
  exists r, bracket t arr nodes (k ++ 61 :: v ++ 93 :: 0 :: x) = Some r /\ step t (Field k v) r.
Proof.
  intros E T Ck Cv K1 K2 V. unfold bracket. rewrite (skip_at k 61) by (try easy; now apply cstring_nz). cbn [obind].
  assert (E2 : k ++ 61 :: v ++ 93 :: 0 :: x = (k ++ 61 :: v) ++ 93 :: 0 :: x) by (rewrite <- app_assoc; reflexivity).
  rewrite E2. assert (N0 : ~ In 0 (k ++ 61 :: v)) by (rewrite in_app_iff; intros [I|[I|I]]; [now apply (cstring_nz k)|lia|now apply (cstring_nz v)]).
  rewrite (skip_at (k ++ 61 :: v) 93); [|exact N0|rewrite in_app_iff; intros [I|[I|I]]; [easy|lia|easy]]. cbn [obind].
  rewrite rd_at. rewrite <- E2, rd_at. cbn [obind]. change (61 =? 0) with false. change (93 =? 0) with false. cbn [andb orb]. rewrite E2, wr_at. cbn [obind].
  rewrite <- app_assoc. cbn [app]. rewrite rd_at. cbn [obind]. change (61 =? 0) with false. cbn [negb]. rewrite wr_at. cbn [obind].
  assert (Sk : skipn (S (List.length k)) (k ++ 0 :: v ++ 0 :: 0 :: x) = v ++ 0 :: 0 :: x) by (clear; induction k as [|a k IH]; [reflexivity|exact IH]). rewrite Sk.
  destruct (tidy_inv t arr nodes T E) as (Tn & Nn). unfold step. rewrite E. destruct arr; cbn [negb].
  - destruct (search0 (object_field (k ++ 0 :: v ++ 0 :: 0 :: x) (v ++ 0 :: 0 :: x)) (fun y => exists l', t_value y = VBranch false l' /\ has_field l' k v) nodes) as (q & -> & F).
    + intros y I. rewrite Forall_forall in Tn. specialize (Tn y I). unfold object_field. destruct (t_value y) as [| | | |[|] l'] eqn:Ey;
        try (exists false; split; [easy|]; split; [discriminate|]; intros (l0 & X & _); discriminate X).
      destruct (tidy_inv y false l' Tn Ey) as (T' & N'). destruct (get_field_ok l' k v (v ++ 0 :: 0 :: x) (0 :: x) T' (N' eq_refl) Ck Cv) as (b & -> & B). exists b. split; [easy|]. rewrite B.
      split; [intros H; now exists l'|]. intros (l0 & [= <-] & H). exact H.
    + cbn [obind]. exists (below q). split; [easy|]. now exists q.
  - destruct (get_field_ok nodes k v (v ++ 0 :: 0 :: x) (0 :: x) Tn (Nn eq_refl) Ck Cv) as (b & -> & B). cbn [obind]. destruct b.
    + eexists. split; [easy|]. left. split; [now apply B|easy].
    + eexists. split; [easy|]. right. split; [|easy]. intros H. apply B in H. discriminate.
Qed.
Lemma bracket_value t nodes v x : t_value t = VBranch true nodes -> tidy t -> cstring v -> ~ In 61 v -> ~ In 93 v ->
  exists r, bracket t true nodes (v ++ 93 :: 0 :: x) = Some r /\ step t (Value v) r.
Proof.
  intros E T Cv V1 V2. unfold bracket.
  assert (E2 : v ++ 93 :: 0 :: x = (v ++ [93]) ++ 0 :: x) by (rewrite <- app_assoc; reflexivity).
  assert (L1 : str_skip (v ++ 93 :: 0 :: x) 61 = Some (S (List.length v))).
  { rewrite E2, skip_end; [rewrite app_length; cbn; f_equal; lia| |]; rewrite in_app_iff; intros [I|[I|[]]]; try lia; try easy. now apply (cstring_nz v). }
  rewrite L1. cbn [obind]. rewrite (skip_at v 93) by (try easy; now apply cstring_nz). cbn [obind].
  assert (R1 : forall c, rd (v ++ c :: 0 :: x) (S (List.length v)) = Some 0) by (clear; intros c; unfold rd; induction v as [|a v IH]; [reflexivity|exact IH]).
  rewrite R1, rd_at. cbn [obind negb]. change (0 =? 0) with true. change (93 =? 0) with false. cbn [andb orb]. rewrite wr_at. cbn [obind]. rewrite R1. cbn [obind]. change (0 =? 0) with true. cbn [negb].
  destruct (tidy_inv t true nodes T E) as (Tn & _). unfold step. rewrite E.
  destruct (search0 (fun y => get_value y (v ++ 0 :: 0 :: x)) (fun y => shows y v) nodes) as (q & -> & F).
  - intros y I. rewrite Forall_forall in Tn. now apply get_value_ok; [apply Tn|].
  - cbn [obind]. exists (below q). split; [easy|]. now exists q.
Qed.
Lemma bracket_refused t nodes v x : cstring v -> ~ In 61 v -> ~ In 93 v -> bracket t false nodes (v ++ 93 :: 0 :: x) = None.
Proof.
  intros Cv V1 V2. unfold bracket.
  assert (E2 : v ++ 93 :: 0 :: x = (v ++ [93]) ++ 0 :: x) by (rewrite <- app_assoc; reflexivity).
  assert (L1 : str_skip (v ++ 93 :: 0 :: x) 61 = Some (S (List.length v))).
  { rewrite E2, skip_end; [rewrite app_length; cbn; f_equal; lia| |]; rewrite in_app_iff; intros [I|[I|[]]]; try lia; try easy. now apply (cstring_nz v). }
  rewrite L1. cbn [obind]. rewrite (skip_at v 93) by (try easy; now apply cstring_nz). cbn [obind].
  assert (R1 : forall c, rd (v ++ c :: 0 :: x) (S (List.length v)) = Some 0) by (clear; intros c; unfold rd; induction v as [|a v IH]; [reflexivity|exact IH]).
  rewrite R1, rd_at. reflexivity.
Qed.
Definition look (t : doc) (arr : bool) (nodes : list doc) (c : Z) (buf : list Z) : option (option (list nat * doc)) :=
  if c =? 91 then bracket t arr nodes (tl buf)
  else if negb arr then r <- find_name nodes buf ;; Some (below r)
  else ' (i, _) <- str_to_i64 buf 10 ;;
       Some (if (0 <=? i) && (i <? Z.of_nat (List.length nodes)) then below (option_map (fun x => (Z.to_nat i, x)) (nth_error nodes (Z.to_nat i))) else None).
Lemma seg_head s : seg_ok s -> exists c r, seg_text s = c :: r /\ c <> 0 /\ c <> 47.
Proof.
  intros (C & S & H). destruct s as [w|k v|v]; cbn [seg_text] in *.
  - destruct H as (c & r & -> & _). exists c, r. split; [easy|]. inversion C; subst. split; [lia|]. intros ->. apply S. now left.
  - do 2 eexists. split; [reflexivity|]. lia.
  - do 2 eexists. split; [reflexivity|]. lia.
Qed.
Lemma look_ok t arr nodes s c q x r : t_value t = VBranch arr nodes -> tidy t -> seg_ok s -> seg_text s = c :: q -> step t s r -> look t arr nodes c (seg_text s ++ 0 :: x) = Some r.
Proof.
  intros E T (C & Sl & H) Eh St. unfold look. destruct (tidy_inv t arr nodes T E) as (Tn & Nn).
  destruct s as [w|k v|v]; cbn [seg_text] in *.
  - destruct H as (c' & r' & E' & N). rewrite Eh in E'. injection E' as <- <-. destruct (Z.eqb_spec c 91); [easy|]. unfold step in St. rewrite E in St. destruct arr; cbn [negb].
    + destruct St as (i & (neg & rr & ds & Ew & Hm & Ld & L & Ei) & ->).
      destruct (index_ok w i) with (x := x) as (A & _); [now exists neg, rr, ds|].
      assert (B : Z.abs i < 2^63). { destruct Ld as (D & _). pose proof (NumProofs.number_nonneg 10 ds (chars ds) ltac:(lia) (chars_den ds D)). subst i. destruct neg; cbn [signed]; lia. }
      destruct (A B) as (m & ->). cbn [obind]. destruct (Z.ltb_spec i 0); [destruct (Z.leb_spec 0 i); [lia|reflexivity]|]. destruct (Z.leb_spec 0 i); [|lia]. cbn [andb].
      destruct (Z.ltb_spec i (Z.of_nat (List.length nodes))); [reflexivity|]. replace (nth_error nodes (Z.to_nat i)) with (@None doc); [reflexivity|]. symmetry. apply nth_error_None. lia.
    + destruct St as (p & F & ->). unfold find_name. destruct (search0 (fun t => same (t_name t) (w ++ 0 :: x)) (fun y => t_name y = Some w) nodes) as (q' & -> & F').
      * intros y I. specialize (Nn eq_refl). rewrite Forall_forall in Nn. destruct (Nn y I) as (nm & -> & Cn). destruct (same_ok nm w x Cn C) as (b & -> & B). exists b. split; [easy|]. rewrite B. split; congruence.
      * cbn [obind]. now rewrite (first_unique _ _ _ _ F F').
  - injection Eh as <- _. change (91 =? 91) with true. cbn [tl app]. destruct H as (K1 & K2 & V).
    assert (Ckv : cstring k /\ cstring v). { inversion C as [|? ? _ C']; subst. apply cstring_app in C' as (Ck & C'). inversion C' as [|? ? _ C'']; subst. apply cstring_app in C'' as (Cv & _). easy. }
    destruct Ckv as (Ck & Cv). destruct (bracket_field t arr nodes k v x E T Ck Cv K1 K2 V) as (r' & E' & St').
    rewrite <- app_assoc. cbn [app]. rewrite <- app_assoc. cbn [app]. rewrite E'. f_equal.
    unfold step in St, St'. rewrite E in St, St'. destruct arr.
    + destruct St as (p & F & ->), St' as (p' & F' & ->). now rewrite (first_unique _ _ _ _ F F').
    + destruct St as [(A & ->)|(A & ->)], St' as [(A' & ->)|(A' & ->)]; easy.
  - injection Eh as <- _. change (91 =? 91) with true. cbn [tl app]. destruct H as (V1 & V2).
    assert (Cv : cstring v). { inversion C as [|? ? _ C']; subst. now apply cstring_app in C' as (Cv & _). }
    unfold step in St. rewrite E in St. destruct arr; [|easy].
    destruct (bracket_value t nodes v x E T Cv V1 V2) as (r' & E' & St'). rewrite <- app_assoc. cbn [app]. rewrite E'. f_equal.
    unfold step in St'. rewrite E in St'. destruct St as (p & F & ->), St' as (p' & F' & ->). now rewrite (first_unique _ _ _ _ F F').
Qed.
Lemma query_none f u x : cstring u -> query (S f) None (u ++ 0 :: x) = Some None.
Proof.
  intros C. cbn [query]. destruct u as [|c u]; [reflexivity|]. cbn [app rd nth_error obind].
  destruct (Z.eqb_spec c 47) as [->|N]; cbn [tl].
  - destruct u as [|d u]; [reflexivity|]. cbn [app rd nth_error obind]. now destruct (d =? 0).
  - cbn [rd nth_error obind]. now destruct (c =? 0).
Qed.
Lemma query_seg f t arr nodes sl s rest x : t_value t = VBranch arr nodes -> slash sl -> seg_ok s -> small (List.length (seg_text s)) -> cstring rest -> rest = [] \/ (exists u, rest = 47 :: u) ->
  exists c q buf, seg_text s = c :: q /\ query (S f) (Some t) (sl ++ seg_text s ++ rest ++ 0 :: x) =
    found <- look t arr nodes c (seg_text s ++ 0 :: buf) ;;
    match rest with
    | [] => Some (option_map fst found)
    | _ => match found with Some (p, y) => r <- query f (Some y) (tl rest ++ 0 :: x) ;; Some (option_map (app p) r) | None => query f None (tl rest ++ 0 :: x) end
    end.
Proof.
  intros E Sl Ok L Cr R. destruct (seg_head s Ok) as (c & q & Es & N0 & N47). exists c, q. pose proof Ok as (C & S47 & _). set (w := seg_text s) in *.
  assert (K : str_skip (w ++ rest ++ 0 :: x) 47 = Some (List.length w)).
  { destruct R as [->|(u & ->)]; cbn [app]; [apply skip_end|apply skip_at]; try easy; now apply cstring_nz. }
  destruct (bprintf_prec (w ++ rest) (List.length w) x) as (buf & B); [now apply cstring_app|rewrite app_length; lia|easy|].
  rewrite <- app_assoc in B. replace (firstn (List.length w) (w ++ rest)) with w in B by (symmetry; apply firstn_len).
  exists buf. split; [easy|].
  assert (G : forall uri, uri = w ++ rest ++ 0 :: x -> (c' <- rd uri 0 ;;
     if c' =? 0 then Some (Some [])
     else k <- str_skip uri 47 ;; buf <- bprintf (asc "%.*s") [AInt (Z.of_nat k); AStr (Some uri)] ;; e <- rd uri k ;; found <- look t arr nodes c' buf ;;
      if negb (e =? 0) then match found with Some (p, x) => r <- query f (Some x) (skipn (S k) uri) ;; Some (option_map (app p) r) | None => query f None (skipn (S k) uri) end else Some (option_map fst found)) =
    found <- look t arr nodes c (w ++ 0 :: buf) ;;
    match rest with [] => Some (option_map fst found) | _ => match found with Some (p, y) => r <- query f (Some y) (tl rest ++ 0 :: x) ;; Some (option_map (app p) r) | None => query f None (tl rest ++ 0 :: x) end end).
  { intros uri ->. assert (R0 : rd (w ++ rest ++ 0 :: x) 0 = Some c) by now rewrite Es. rewrite R0. cbn [obind]. destruct (Z.eqb_spec c 0); [easy|]. rewrite K. cbn [obind]. rewrite B. cbn [obind].
    destruct R as [->|(u & ->)]; cbn [app tl]; rewrite rd_at; cbn [obind].
    - change (0 =? 0) with true. cbn [negb]. reflexivity.
    - change (47 =? 0) with false. cbn [negb]. replace (skipn (S (List.length w)) (w ++ 47 :: u ++ 0 :: x)) with (u ++ 0 :: x); [reflexivity|]. clear. induction w as [|a w IH]; [reflexivity|exact IH]. }
  destruct Sl as [->| ->].
  - refine (eq_trans _ (G _ eq_refl)). cbn [query app]. assert (R0 : rd (w ++ rest ++ 0 :: x) 0 = Some c) by now rewrite Es. rewrite R0. cbn [obind]. destruct (Z.eqb_spec c 47); [easy|]. rewrite R0, E. reflexivity.
  - refine (eq_trans _ (G _ eq_refl)). cbn [app query rd nth_error obind]. change (47 =? 47) with true. cbn match. cbn [tl]. rewrite E. reflexivity.
Qed.
