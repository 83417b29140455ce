From Verif Require Import Base CStr CStrSpec CStrProofs Utf8 Utf8Spec Utf8Proofs StrLib StrLibSpec.

(** the string has the contents [c], and its block is as large as its capacity says *)
Definition holds (s : zstring) (c : list Z) : Prop :=
  exists rest, sbuf s = c ++ 0 :: rest /\ slen s = Z.of_nat (length c) /\ scap s = Z.of_nat (length c + length rest).
Definition sane (new : allocator) : Prop := forall n b, new n = Some b -> Z.of_nat (length b) = n.

Lemma cut3 {A} (l : list A) a b : length l = (a + b)%nat -> exists u v, l = u ++ v /\ length u = a /\ length v = b.
Proof. intros H. destruct (split_at l a) as (u & v & -> & Lu); [lia|]. exists u, v. rewrite app_length in H. repeat split; lia. Qed.
Lemma one {A} (l : list A) : length l = 1%nat -> exists x, l = [x].
Proof. destruct l as [|x [|? ?]]; try easy. eauto. Qed.
Lemma zero_all b : zero_loop b 0 (length b) = Some (repeat 0 (length b)).
Proof. pose proof (zero_ok (length b) [] b [] eq_refl) as X. rewrite !app_nil_r in X. exact X. Qed.
Lemma repeat_split n m : repeat 0 (n + m) = repeat 0 n ++ repeat 0 m.
Proof. apply repeat_app. Qed.

Lemma reserve_ok new cap : sane new -> 0 <= cap ->
  (new (cap + 1) = None /\ make_reserve new cap = Some None) \/ (exists s, make_reserve new cap = Some (Some s) /\ holds s [] /\ scap s = cap).
Proof.
  intros Hn Hc. unfold make_reserve. destruct (new (cap + 1)) as [b|] eqn:E; [right|now left]. apply Hn in E.
  rewrite zero_all. cbn [obind]. assert (L : length b = (Z.to_nat cap + 1)%nat) by lia. rewrite L, repeat_split. cbn [repeat].
  pose proof (wr_at (repeat 0 (Z.to_nat cap)) 0 [] 0) as W. rewrite repeat_length in W. rewrite W. cbn [obind]. eexists. split; [reflexivity|]. split; [|easy].
  exists (repeat 0 (Z.to_nat cap)). cbn [sbuf slen scap length app Nat.add]. rewrite repeat_length. repeat split; try lia.
  change [0] with (repeat 0 1). rewrite <- repeat_split. rewrite Nat.add_comm. easy.
Qed.
Lemma make_length_ok new s x : sane new ->
  (new (Z.of_nat (length s) + 1) = None /\ make_length new (Some (s ++ x)) (Z.of_nat (length s)) = Some None) \/
  (exists t, make_length new (Some (s ++ x)) (Z.of_nat (length s)) = Some (Some t) /\ holds t s /\ scap t = slen t).
Proof.
  intros Hn. unfold make_length. destruct (new (Z.of_nat (length s) + 1)) as [b|] eqn:E; [right|now left]. apply Hn in E.
  destruct (cut3 b (length s) 1) as (u & v & -> & Lu & Lv); [lia|]. destruct (one v Lv) as (z & ->).
  replace (if Z.of_nat (length s) =? 0 then Some (u ++ [z]) else blit (u ++ [z]) 0 (s ++ x) (Z.to_nat (Z.of_nat (length s)))) with (Some (s ++ [z])).
  - cbn [obind]. rewrite Nat2Z.id, wr_at. cbn [obind]. eexists. split; [reflexivity|]. split; [|easy]. exists []. cbn [sbuf slen scap length]. repeat split; lia.
  - destruct (Z.eqb_spec (Z.of_nat (length s)) 0) as [Z0|Z0].
    + destruct s, u; cbn [length] in *; try lia; easy.
    + rewrite Nat2Z.id. symmetry. exact (blit_ok (length s) s [] u [z] x eq_refl Lu).
Qed.
Lemma make_null_ok new : sane new -> (new 1 = None /\ make new None = Some None) \/ (exists t, make new None = Some (Some t) /\ holds t [] /\ scap t = 0).
Proof.
  intros Hn. unfold make, make_length. change (0 + 1) with 1. destruct (new 1) as [b|] eqn:E; [right|now left]. apply Hn in E.
  destruct b as [|z [|? ?]]; cbn [length] in E; try lia. cbn. eexists. split; [reflexivity|]. split; [|easy]. exists []. easy.
Qed.
Lemma space_ok new s c n : sane new -> holds s c ->
  (available_space s < n /\ new (slen s + n + 1) = None /\ make_space_for new s n = Some None) \/
  (exists t, make_space_for new s n = Some (Some t) /\ holds t c /\ n <= available_space t /\
     (n <= available_space s -> t = s)).
Proof.
  intros Hn (rest & E & El & Ec). unfold make_space_for. destruct (Z.leb_spec n (available_space s)) as [L|L].
  - right. exists s. repeat split; try easy. now exists rest.
  - assert (A : available_space s = Z.of_nat (length rest)) by (unfold available_space; rewrite El, Ec; destruct (Z.ltb_spec (Z.of_nat (length c)) (Z.of_nat (length c + length rest))); lia).
    cbn zeta. destruct (new (slen s + n + 1)) as [b|] eqn:N; [right|now left]. apply Hn in N.
    destruct (cut3 b (length c + 1) (Z.to_nat n)) as (u & v & -> & Lu & Lv); [lia|].
    replace (Z.to_nat (slen s + 1)) with (length c + 1)%nat by lia. rewrite E.
    pose proof (blit_ok (length c + 1) (c ++ [0]) [] u v rest ltac:(rewrite app_length; easy) Lu) as X. cbn [app length] in X. rewrite <- !app_assoc in X. cbn [app] in X.
    rewrite X. cbn [obind]. eexists. split; [reflexivity|]. repeat split.
    + exists v. cbn [sbuf slen scap]. repeat split; lia.
    + unfold available_space. cbn [slen scap]. destruct (Z.ltb_spec (slen s) (slen s + n)); lia.
    + lia.
Qed.
Lemma avail s c : holds s c -> exists rest, sbuf s = c ++ 0 :: rest /\ slen s = Z.of_nat (length c) /\ scap s = Z.of_nat (length c + length rest) /\ available_space s = Z.of_nat (length rest).
Proof.
  intros (rest & E & El & Ec). exists rest. repeat split; try easy. unfold available_space. rewrite El, Ec.
  destruct (Z.ltb_spec (Z.of_nat (length c)) (Z.of_nat (length c + length rest))); lia.
Qed.
(** putting [t] over the terminator and what follows *)
Lemma put_ok c t rest x : (length t <= length rest)%nat ->
  exists b, blit (c ++ 0 :: rest) (length c) (t ++ x) (length t) = Some b /\ wr b (length c + length t) 0 = Some (c ++ t ++ 0 :: skipn (length t) rest).
Proof.
  intros L. destruct (cut3 rest (length t) (length rest - length t)) as (r1 & r2 & -> & L1 & L2); [lia|].
  replace (skipn (length t) (r1 ++ r2)) with r2 by (rewrite <- L1; now rewrite skipn_len).
  destruct (cut3 (0 :: r1) (length t) 1) as (u & v & E & Lu & Lv); [cbn; lia|]. destruct (one v Lv) as (z & ->).
  replace (c ++ 0 :: r1 ++ r2) with (c ++ u ++ z :: r2) by (change (0 :: r1 ++ r2) with ((0 :: r1) ++ r2); rewrite E, <- app_assoc; easy).
  rewrite (blit_ok (length t) t c u (z :: r2) x eq_refl Lu). eexists. split; [reflexivity|].
  replace (length c + length t)%nat with (length (c ++ t)) by (now rewrite app_length). rewrite !app_assoc. now rewrite wr_at.
Qed.
Lemma append_ok new s c t x : sane new -> holds s c ->
  (available_space s < Z.of_nat (length t) /\ new (slen s + Z.of_nat (length t) + 1) = None /\ append_length new s (t ++ x) (Z.of_nat (length t)) = Some None) \/
  (exists r, append_length new s (t ++ x) (Z.of_nat (length t)) = Some (Some r) /\ holds r (c ++ t)).
Proof.
  intros Hn Hs. unfold append_length. destruct (Z.ltb_spec 0 (Z.of_nat (length t))) as [L|L].
  - destruct (space_ok new s c (Z.of_nat (length t)) Hn Hs) as [(A & B & ->)|(r & -> & Hr & A & _)]; [left; now cbn [obind]|right]. cbn [obind].
    destruct (avail r c Hr) as (rest & E & El & Ec & Av). destruct Hs as (rs & Es & Els & Ecs).
    rewrite E. rewrite Els, !Nat2Z.id. replace (Z.to_nat (Z.of_nat (length c) + Z.of_nat (length t))) with (length c + length t)%nat by lia.
    destruct (put_ok c t rest x) as (b & -> & W); [lia|]. cbn [obind]. rewrite W. cbn [obind]. eexists. split; [reflexivity|].
    exists (skipn (length t) rest). cbn [sbuf slen scap]. rewrite app_length, skipn_length. rewrite <- app_assoc. repeat split; lia.
  - right. destruct t; [|cbn in L; lia]. exists s. split; [easy|]. now rewrite app_nil_r.
Qed.
(** appending a string to itself is defined exactly when nothing has to move *)
Lemma self_ok new s c : holds s c -> slen s <= available_space s -> exists r, append_self new s = Some (Some r) /\ holds r (c ++ c).
Proof.
  intros Hs L. unfold append_self. destruct (Z.ltb_spec 0 (slen s)) as [P|P].
  - unfold make_space_for. destruct (Z.leb_spec (slen s) (available_space s)); [|lia]. cbn [obind].
    destruct (avail s c Hs) as (rest & E & El & Ec & Av). rewrite E, El, Nat2Z.id. replace (Z.to_nat (Z.of_nat (length c) + Z.of_nat (length c))) with (length c + length c)%nat by lia.
    destruct (put_ok c c rest (0 :: rest)) as (b & -> & W); [lia|]. cbn [obind]. rewrite W. cbn [obind]. eexists. split; [reflexivity|].
    exists (skipn (length c) rest). cbn [sbuf slen scap]. rewrite app_length, skipn_length. rewrite <- app_assoc. repeat split; lia.
  - destruct Hs as (rest & E & El & Ec). destruct c; [|cbn in El; lia]. exists s. split; [easy|]. exists rest. easy.
Qed.
Lemma self_moved new s c : sane new -> holds s c -> available_space s < slen s -> append_self new s = Some None \/ append_self new s = None.
Proof.
  intros Hn Hs L. unfold append_self. destruct (avail s c Hs) as (rest & E & El & Ec & Av). destruct (Z.ltb_spec 0 (slen s)); [|lia].
  destruct (space_ok new s c (slen s) Hn Hs) as [(A & B & ->)|(r & -> & Hr & A & _)]; cbn [obind]; [now left|right]. destruct (Z.leb_spec (slen s) (available_space s)); [lia|easy].
Qed.
Lemma appendc_ok new s c t x : sane new -> holds s c -> cstring t ->
  (available_space s < Z.of_nat (length t) /\ new (slen s + Z.of_nat (length t) + 1) = None /\ appendc new s (t ++ 0 :: x) = Some None) \/
  (exists r, appendc new s (t ++ 0 :: x) = Some (Some r) /\ holds r (c ++ t)).
Proof. intros Hn Hs Ht. unfold appendc. rewrite strlen_ok by easy. cbn [obind]. now apply append_ok. Qed.
Lemma set_ok new s c t x : sane new -> holds s c -> cstring t ->
  (scap s < Z.of_nat (length t) /\ new (Z.of_nat (length t) + 1) = None /\ set new s (t ++ 0 :: x) = Some None) \/ (exists r, set new s (t ++ 0 :: x) = Some (Some r) /\ holds r t).
Proof.
  intros Hn Hs Ht. unfold set. rewrite strlen_ok by easy. cbn [obind]. cbn zeta.
  assert (G : forall r, holds r c -> Z.of_nat (length t) <= scap r -> exists q,
    (b <- blit (sbuf r) 0 (t ++ 0 :: x) (length t) ;; b <- wr b (length t) 0 ;; Some (Some (Str (Z.of_nat (length t)) (scap r) b))) = Some (Some q) /\ holds q t).
  { intros r (rest & E & El & Ec) L. assert (Lr : length (sbuf r) = (length t + (S (Z.to_nat (scap r)) - length t))%nat) by (rewrite E, app_length; cbn [length]; lia).
    destruct (cut3 (sbuf r) _ _ Lr) as (u & v & Eq & Lu & Lv). rewrite Eq. destruct v as [|z v]; [cbn [length] in Lv; lia|].
    pose proof (blit_ok (length t) t [] u (z :: v) (0 :: x) eq_refl Lu) as X. cbn [app length] in X. rewrite X. cbn [obind]. rewrite wr_at. cbn [obind].
    eexists. split; [reflexivity|]. exists v. cbn [sbuf slen scap]. cbn [length] in Lv. repeat split; lia. }
  destruct (Z.ltb_spec (scap s) (Z.of_nat (length t))) as [L|L].
  - destruct (space_ok new s c (Z.of_nat (length t) - slen s) Hn Hs) as [(A & B & ->)|(r & -> & Hr & A & _)]; cbn [obind].
    + left. repeat split; try easy. rewrite <- B. f_equal. lia.
    + right. apply G; [easy|]. destruct (avail r c Hr) as (rest & E & El & Ec & Av). destruct Hs as (? & ? & ? & ?). lia.
  - right. cbn [obind]. apply G; [easy|lia].
Qed.
Lemma clear_ok s c : holds s c -> exists r, clear s = Some r /\ holds r [].
Proof.
  intros (rest & E & El & Ec). unfold clear. rewrite E. destruct c as [|z c]; cbn [app wr obind]; eexists; (split; [reflexivity|]); cbn [length] in *.
  - exists rest. cbn. repeat split; lia.
  - exists (c ++ 0 :: rest). cbn [sbuf slen scap app length Nat.add]. rewrite app_length. cbn [length]. repeat split; lia.
Qed.
Lemma rune_ok new s c r : sane new -> holds s c -> in_i32 r ->
  (append_rune new s r = Some None /\ exists n, 0 <= n /\ new n = None) \/ (exists t d, append_rune new s r = Some (Some t) /\ holds t d /\ effect (OAppendRune r) c d).
Proof.
  intros Hn Hs Hr. unfold append_rune. destruct (Z.leb_spec 0 r) as [P|P].
  - pose proof (append_ok new s c (utf8_encode_rune r) [] Hn Hs) as X. rewrite app_nil_r in X. destruct X as [(_ & B & ->)|(t & -> & Ht)]; [left; split; [easy|]; eexists; split; [|exact B]; destruct Hs as (? & ? & ? & ?); lia|right].
    exists t, (c ++ utf8_encode_rune r). split; [easy|]. split; [easy|]. destruct (Bool.bool_dec (((0 <=? r) && (r <=? 0xD7FF)) || ((0xE000 <=? r) && (r <=? 0x10FFFF))) true) as [D|D].
    + assert (S0 : scalar r) by (unfold scalar; lia). rewrite encode_scalar by easy. now constructor.
    + assert (S0 : ~ scalar r) by (unfold scalar; lia). rewrite encode_other by easy. now apply eff_rune_bad.
  - right. exists s, c. split; [easy|]. split; [easy|]. now constructor.
Qed.

(** ** comparison *)
Lemma equal_loop_ok : forall a b x y, length a = length b -> exists r, equal_loop (a ++ x) (b ++ y) (length a) = Some r /\ (r = true <-> a = b).
Proof.
  induction a as [|c a IH]; intros [|d b] x y L; try easy; cbn [app length equal_loop].
  - exists true. easy.
  - cbn [rd nth_error obind tl]. destruct (Z.eqb_spec c d) as [->|N].
    + destruct (IH b x y ltac:(now injection L)) as (r & -> & Hr). exists r. split; [easy|]. rewrite Hr. split; [now intros ->|now intros [= ->]].
    + exists false. split; [easy|]. split; [easy|]. now intros [= ->].
Qed.
Lemma equal_ok s t c d : holds s c -> holds t d -> exists r, are_equal s t = Some r /\ (r = true <-> c = d).
Proof.
  intros (x & E & El & _) (y & F & Fl & _). unfold are_equal. rewrite El, Fl, E, F. destruct (Z.eqb_spec (Z.of_nat (length c)) (Z.of_nat (length d))) as [L|L].
  - rewrite Nat2Z.id. apply equal_loop_ok. lia.
  - exists false. split; [easy|]. split; [easy|]. now intros ->.
Qed.

(** ** trimming *)
Section Trim.
Context (cut tl : list Z) (Hcut : cstring cut).
Let bad (c : Z) : Prop := c = 0 \/ In c cut.
Lemma occ c : (bad c /\ exists k, first_occurence (cut ++ 0 :: tl) c = Some (Some k)) \/ (~ bad c /\ first_occurence (cut ++ 0 :: tl) c = Some None).
Proof.
  pose proof (first_ok cut tl c Hcut) as X. destruct (first_occurence (cut ++ 0 :: tl) c) as [[k|]|]; [left|right|easy].
  - split; [|eauto]. destruct X as (X & _). apply nth_error_In, in_app_or in X as [X|[X|[]]]; unfold bad; auto.
  - split; [|easy]. intros [->|I]; apply X, in_or_app; [right; now left|now left].
Qed.
Lemma start_ok : forall m a rest f, (length m < f)%nat -> exists p q, m = p ++ q /\ Forall bad p /\ (forall c r, q = c :: r -> ~ bad c) /\
  trim_start f (a ++ m ++ rest) (cut ++ 0 :: tl) (Z.of_nat (length a)) (Z.of_nat (length a + length m) - 1) = Some (Z.of_nat (length a + length p)).
Proof.
  induction m as [|c m IH]; intros a rest f Hf; (destruct f as [|f]; [lia|]); cbn [trim_start].
  - exists [], []. repeat split; try easy. destruct (Z.leb_spec (Z.of_nat (length a)) (Z.of_nat (length a + length (@nil Z)) - 1)); [cbn [length] in *; lia|]. cbn. do 2 f_equal. lia.
  - cbn [length] in *. destruct (Z.leb_spec (Z.of_nat (length a)) (Z.of_nat (length a + S (length m)) - 1)); [|lia].
    rewrite Nat2Z.id. cbn [app]. rewrite rd_at. cbn [obind]. destruct (occ c) as [(B & k & ->)|(B & ->)]; cbn [obind].
    + destruct (IH (a ++ [c]) rest f ltac:(lia)) as (p & q & -> & Fp & Hq & E). exists (c :: p), q. repeat split; try easy; [now constructor|].
      rewrite <- !app_assoc in E. cbn [app] in E. rewrite !app_length in E. cbn [length] in E.
      replace (Z.of_nat (length a + 1)) with (Z.of_nat (length a) + 1) in E by lia. rewrite app_length in *.
      replace (Z.of_nat (length a + 1 + (length p + length q)) - 1) with (Z.of_nat (length a + S (length p + length q)) - 1) in E by lia.
      rewrite <- app_assoc. rewrite E. cbn [length]. do 2 f_equal. lia.
    + exists [], (c :: m). repeat split; try easy; [now intros c' r [= <- _]|]. cbn. now rewrite Nat.add_0_r.
Qed.
Lemma end_ok : forall m a h rest f, ~ bad h -> (length m < f)%nat -> exists p q, m = p ++ q /\ Forall bad q /\ (forall c r, h :: p = r ++ [c] -> ~ bad c) /\
  trim_end f (a ++ (h :: m) ++ rest) (cut ++ 0 :: tl) (Z.of_nat (length a + length m)) (Z.of_nat (length a)) = Some (Z.of_nat (length a + length p)).
Proof.
  induction m as [|c m IH] using rev_ind; intros a h rest f Hh Hf; (destruct f as [|f]; [lia|]); cbn [trim_end].
  - exists [], []. repeat split; try easy.
    + intros c r E. destruct r as [|r0 r]; [now injection E as <-|]. destruct r; discriminate.
    + destruct (Z.ltb_spec (Z.of_nat (length a)) (Z.of_nat (length a + length (@nil Z)))); [cbn [length] in *; lia|easy].
  - rewrite app_length in *. cbn [length] in *. destruct (Z.ltb_spec (Z.of_nat (length a)) (Z.of_nat (length a + (length m + 1)))); [|lia].
    rewrite Nat2Z.id. replace (a ++ (h :: m ++ [c]) ++ rest) with ((a ++ h :: m) ++ c :: rest) by (rewrite <- !app_assoc; cbn; rewrite <- !app_assoc; easy).
    replace (rd ((a ++ h :: m) ++ c :: rest) (length a + (length m + 1))) with (Some c)
      by (replace (length a + (length m + 1))%nat with (length (a ++ h :: m)) by (rewrite app_length; cbn; lia); now rewrite rd_at). cbn [obind].
    destruct (occ c) as [(B & k & ->)|(B & ->)]; cbn [obind].
    + destruct (IH a h (c :: rest) f Hh ltac:(lia)) as (p & q & -> & Fq & Hp & E). exists p, (q ++ [c]). repeat split.
      * now rewrite app_assoc.
      * apply Forall_app. split; [easy|]. constructor; [exact B|constructor].
      * exact Hp.
      * replace (Z.of_nat (length a + (length (p ++ q) + 1)) - 1) with (Z.of_nat (length a + length (p ++ q))) by lia. rewrite <- E. f_equal. rewrite <- app_assoc. easy.
    + exists (m ++ [c]), []. repeat split; [now rewrite app_nil_r|easy| |].
      * intros c' r E. change (h :: m ++ [c]) with ((h :: m) ++ [c]) in E. apply app_inj_tail in E as (_ & <-). exact B.
      * rewrite app_length. cbn [length]. easy.
Qed.
Lemma trim_done s c : holds s c -> exists r t, trim s (cut ++ 0 :: tl) = Some r /\ holds r t /\ trimmed bad c t.
Proof.
  intros (rest & E & El & Ec). unfold trim. rewrite E, El, Nat2Z.id.
  destruct (start_ok c [] (0 :: rest) (S (length c)) ltac:(lia)) as (p & q & -> & Fp & Hq & ES). cbn [app length Nat.add] in ES.
  change (Z.of_nat 0) with 0 in ES. rewrite ES. cbn [obind]. clear ES.
  destruct q as [|h m].
  - rewrite !app_nil_r in *. cbn [trim_end]. destruct (Z.ltb_spec (Z.of_nat (length p)) (Z.of_nat (length p) - 1)); [lia|]. cbn [obind].
    destruct (Z.ltb_spec (Z.of_nat (length p) - 1) (Z.of_nat (length p))); [|lia]. cbn [Z.to_nat].
    set (n := scap s) in *. clearbody n.
    exists (Str 0 n (match p ++ 0 :: rest with [] => [] | _ :: r => 0 :: r end)), []. split; [|split].
    + destruct (Z.eqb_spec (Z.of_nat (length p)) 0); cbn [blit obind]; destruct p; easy.
    + destruct p as [|z p]; cbn [app].
      * exists rest. cbn in *. repeat split; lia.
      * exists (p ++ 0 :: rest). cbn [sbuf slen scap app length Nat.add] in *. rewrite app_length. cbn [length]. repeat split; lia.
    + exists p, []. split; [now rewrite !app_nil_r|]. split; [easy|]. split; [constructor|]. split; [easy|]. intros c' r E'. destruct r; easy.
  - assert (Hh : ~ bad h) by now apply (Hq h m).
    destruct (end_ok m p h (0 :: rest) (S (length (p ++ h :: m))) Hh ltac:(rewrite app_length; cbn; lia)) as (u & v & -> & Fv & Hu & EE).
    replace (Z.of_nat (length (p ++ h :: u ++ v)) - 1) with (Z.of_nat (length p + length (u ++ v))) by (rewrite !app_length; cbn [length]; rewrite ?app_length; lia).
    rewrite <- app_assoc. rewrite EE. cbn [obind]. clear EE.
    destruct (Z.ltb_spec (Z.of_nat (length p + length u)) (Z.of_nat (length p))); [lia|]. cbn zeta.
    replace (Z.to_nat (Z.of_nat (length p + length u) - Z.of_nat (length p) + 1)) with (length (h :: u)) by (cbn [length]; lia).
    replace (Z.of_nat (length p + length u) - Z.of_nat (length p) + 1) with (Z.of_nat (length (h :: u))) by (cbn [length]; lia).
    set (t := h :: u) in *. rewrite Nat2Z.id.
    replace (p ++ (h :: u ++ v) ++ 0 :: rest) with (p ++ t ++ v ++ 0 :: rest) by (unfold t; cbn [app]; rewrite <- !app_assoc; easy).
    rewrite skipn_len.
    assert (X : exists y rr, (if Z.of_nat (length p) =? 0 then Some (p ++ t ++ v ++ 0 :: rest) else blit (p ++ t ++ v ++ 0 :: rest) 0 (t ++ v ++ 0 :: rest) (length t)) = Some (t ++ y :: rr) /\ length rr = (length p + length v + length rest)%nat).
    { destruct (Z.eqb_spec (Z.of_nat (length p)) 0).
      - destruct p; [|cbn in *; lia]. cbn [app]. destruct v as [|y v]; cbn [app]; [exists 0, rest; easy|]. exists y, (v ++ 0 :: rest). split; [easy|]. rewrite app_length. cbn. lia.
      - destruct (cut3 (p ++ t ++ v ++ 0 :: rest) (length t) (length p + length v + S (length rest))) as (o & w & Eo & Lo & Lw); [rewrite !app_length; cbn; lia|].
        rewrite Eo. pose proof (blit_ok (length t) t [] o w (v ++ 0 :: rest) eq_refl Lo) as X. cbn [app length] in X. rewrite X.
        destruct w as [|y w]; [cbn in Lw; lia|]. exists y, w. split; [easy|]. cbn in Lw. lia. }
    destruct X as (y & rr & -> & Lr). cbn [obind]. rewrite wr_at. cbn [obind]. eexists. exists t. split; [reflexivity|]. split.
    + exists rr. cbn [sbuf slen scap]. repeat split. rewrite Ec. rewrite !app_length. unfold t. cbn [length]. rewrite app_length. lia.
    + exists p, v. split; [reflexivity|]. split; [easy|]. split; [easy|]. split; [|exact Hu].
      intros c' r E'. unfold t in E'. now injection E' as <- _.
Qed.
End Trim.
