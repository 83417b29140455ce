From Verif Require Import Base CStr CStrSpec.

Lemma wr_at a c b v : wr (a ++ c :: b) (length a) v = Some (a ++ v :: b).
Proof. induction a as [|x a IH]; [easy|]. cbn [app length wr]. now rewrite IH. Qed.
Lemma wr_out : forall b i v, (length b <= i)%nat -> wr b i v = None.
Proof. induction b as [|c b IH]; intros [|i] v H; cbn [length] in H; try easy; try lia. cbn [wr]. now rewrite IH by lia. Qed.
Lemma wr_len : forall b i v b', wr b i v = Some b' -> length b' = length b.
Proof.
  induction b as [|c b IH]; intros [|i] v b' E; cbn [wr] in E; try easy.
  - injection E as <-. easy.
  - destruct (wr b i v) as [r|] eqn:Er; [|easy]. injection E as <-. cbn. f_equal. eauto.
Qed.
Lemma rd_at a c b : rd (a ++ c :: b) (length a) = Some c.
Proof. unfold rd. rewrite nth_error_app2, Nat.sub_diag by lia. easy. Qed.
Lemma cs_nz s : cstring s -> Forall (fun c => c <> 0) s.
Proof. apply Forall_impl. lia. Qed.

Lemma strlen_ok s tl : cstring s -> strlen (s ++ 0 :: tl) = Some (length s).
Proof. induction 1 as [|c s Hc Hs IH]; [easy|]. cbn [app strlen length]. destruct (Z.eqb_spec c 0); [lia|]. now rewrite IH. Qed.
Lemma strnlen_ok : forall n s tl, cstring s -> strnlen (s ++ 0 :: tl) n = Some (Nat.min (length s) n).
Proof.
  induction n as [|n IH]; intros s tl H; [cbn [strnlen]; now rewrite Nat.min_0_r|].
  destruct H as [|c s Hc Hs]; [easy|]. cbn [app strnlen length]. destruct (Z.eqb_spec c 0); [lia|]. rewrite IH by easy. easy.
Qed.
Lemma strnlen_full : forall n s, Forall (fun c => c <> 0) s -> (n <= length s)%nat -> strnlen s n = Some n.
Proof.
  induction n as [|n IH]; intros s H L; [easy|]. destruct H as [|c s Hc Hs]; cbn [length] in L; [lia|]. cbn [strnlen].
  destruct (Z.eqb_spec c 0); [easy|]. now rewrite IH by (easy || lia).
Qed.

(** ** comparison *)
Lemma u8_id c : 0 <= c < 256 -> u8 c = c.
Proof. intros. apply Z.mod_small. lia. Qed.
Lemma strcmp_ok : forall s t x y, cstring s -> cstring t -> exists r, strcmp (s ++ 0 :: x) (t ++ 0 :: y) = Some r /\
  (r = 0 <-> s = t) /\ (r < 0 <-> before s t) /\ (r > 0 <-> before t s).
Proof.
  induction s as [|a s IH]; intros t x y Hs Ht; inversion Hs as [|? ? Ha Hs']; subst.
  - destruct Ht as [|b t Hb Ht].
    + exists 0. repeat split; try easy; try lia; intros X; inversion X.
    + exists (0 - b). cbn [app strcmp]. change (0 =? 0) with true. cbn [negb andb]. rewrite (u8_id b) by lia. repeat split; try easy; try lia; try (intros _; constructor); try (intros X; inversion X).
  - destruct Ht as [|b t Hb Ht].
    + exists (a - 0). cbn [app strcmp]. destruct (Z.eqb_spec a 0); [lia|]. cbn [negb andb]. rewrite (u8_id a) by lia. repeat split; try easy; try lia; try (intros _; constructor); try (intros X; inversion X).
    + cbn [app strcmp]. destruct (Z.eqb_spec a 0); [lia|]. cbn [negb andb]. destruct (Z.eqb_spec a b) as [->|N].
      * destruct (IH t x y Hs' Ht) as (r & E & A & B & C). exists r. split; [exact E|]. split; [|split].
        -- rewrite A. split; [now intros ->|]. now intros [= ->].
        -- rewrite B. split; [now constructor|]. intros X; inversion X; subst; [lia|easy].
        -- rewrite C. split; [now constructor|]. intros X; inversion X; subst; [lia|easy].
      * exists (a - b). rewrite !u8_id by lia. split; [easy|]. split; [|split].
        -- split; [lia|]. intros [= -> _]. easy.
        -- split; [intros; constructor; lia|]. intros X; inversion X; subst; [lia|easy].
        -- split; [intros; constructor; lia|]. intros X; inversion X; subst; [lia|easy].
Qed.
Lemma strncmp_ok : forall n p q s t x y, cstring s -> cstring t ->
  strncmp n p q (s ++ 0 :: x) (t ++ 0 :: y) = Some (if list_eq_dec Z.eq_dec (firstn n s) (firstn n t) then 0 else if p <? q then -1 else 1).
Proof.
  induction n as [|n IH]; intros p q s t x y Hs Ht.
  - cbn [strncmp firstn]. destruct (list_eq_dec _ _ _); easy.
  - destruct Hs as [|a s Ha Hs], Ht as [|b t Hb Ht]; cbn [app strncmp rd nth_error obind tl firstn].
    + destruct (list_eq_dec _ _ _); easy.
    + destruct (Z.eqb_spec 0 b); [lia|]. cbn [negb]. destruct (list_eq_dec _ _ _); easy.
    + destruct (Z.eqb_spec a 0); [lia|]. cbn [negb]. destruct (list_eq_dec _ _ _); easy.
    + destruct (Z.eqb_spec a b) as [->|N]; cbn [negb].
      * destruct (Z.eqb_spec b 0); [lia|]. rewrite IH by easy.
        assert (E : (p + 1 <? q + 1) = (p <? q)) by (destruct (Z.ltb_spec (p + 1) (q + 1)), (Z.ltb_spec p q); lia). rewrite E.
        destruct (list_eq_dec Z.eq_dec (firstn n s) (firstn n t)) as [Q|N'], (list_eq_dec Z.eq_dec (b :: firstn n s) (b :: firstn n t)) as [Q'|N'']; try easy; exfalso; [apply N''; now rewrite Q|injection Q' as Q'; easy].
      * destruct (list_eq_dec _ _ _); [congruence|easy].
Qed.

(** ** copying *)
Lemma copy_ok : forall s a old b x, cstring s -> length old = length s ->
  copy_loop (a ++ old ++ b) (length a) (s ++ 0 :: x) = Some (a ++ s ++ b).
Proof.
  induction s as [|c s IH]; intros a old b x H L; inversion H as [|? ? Hc Hs]; subst.
  - destruct old; easy.
  - destruct old as [|o old]; [easy|]. cbn [app copy_loop]. destruct (Z.eqb_spec c 0); [lia|]. rewrite wr_at. cbn [obind].
    specialize (IH (a ++ [c]) old b x Hs ltac:(now injection L)). rewrite <- !app_assoc in IH. cbn [app] in IH. rewrite app_length in IH. cbn [length] in IH.
    rewrite Nat.add_1_r in IH. exact IH.
Qed.
Lemma copy_none : forall s d k x, cstring s -> (length d < k + length s)%nat -> (k <= length d)%nat -> copy_loop d k (s ++ 0 :: x) = None.
Proof.
  induction s as [|c s IH]; intros d k x H L K; inversion H as [|? ? Hc Hs]; subst; cbn [length] in L; [lia|].
  cbn [app copy_loop]. destruct (Z.eqb_spec c 0); [lia|]. destruct (wr d k c) as [d'|] eqn:E; [|easy]. cbn [obind].
  destruct (Nat.eq_dec k (length d)); [subst; now rewrite wr_out in E|]. apply wr_len in E. apply IH; try easy; lia.
Qed.
Lemma split_at {A} (d : list A) n : (n <= length d)%nat -> exists u v, d = u ++ v /\ length u = n.
Proof. intros H. exists (firstn n d), (skipn n d). split; [symmetry; apply firstn_skipn|apply firstn_length_le, H]. Qed.
Lemma skipn_len {A} (u v : list A) : skipn (length u) (u ++ v) = v.
Proof. induction u; easy. Qed.
Lemma firstn_len {A} (u v : list A) : firstn (length u) (u ++ v) = u.
Proof. induction u as [|x u IH]; [easy|]. cbn. now rewrite IH. Qed.
Lemma strcpy_ok d s x : cstring s -> strcpy d (s ++ 0 :: x) = if (length s <=? length d)%nat then Some (s ++ skipn (length s) d) else None.
Proof.
  intros H. unfold strcpy. destruct (Nat.leb_spec (length s) (length d)) as [L|L].
  - destruct (split_at d (length s) L) as (u & v & -> & E). rewrite <- E, skipn_len. exact (copy_ok s [] u v x H E).
  - apply copy_none; try easy; lia.
Qed.
Lemma strcat_ok u v s x : cstring u -> cstring s ->
  strcat (u ++ 0 :: v) (s ++ 0 :: x) = if (length s <=? S (length v))%nat then Some (u ++ s ++ skipn (length s) (0 :: v)) else None.
Proof.
  intros Hu Hs. unfold strcat. rewrite strlen_ok by easy. cbn [obind]. destruct (Nat.leb_spec (length s) (S (length v))) as [L|L].
  - destruct (split_at (0 :: v) (length s)) as (o & w & E & Lo); [exact L|]. rewrite E. rewrite <- Lo, skipn_len. now apply copy_ok.
  - apply copy_none; try easy; rewrite app_length; cbn [length]; lia.
Qed.
Lemma zero_ok : forall n a old b, length old = n -> zero_loop (a ++ old ++ b) (length a) n = Some (a ++ repeat 0 n ++ b).
Proof.
  induction n as [|n IH]; intros a old b L; destruct old as [|o old]; try easy. cbn [zero_loop app repeat]. rewrite wr_at. cbn [obind].
  specialize (IH (a ++ [0]) old b ltac:(now injection L)). rewrite <- !app_assoc in IH. cbn [app] in IH. rewrite app_length in IH. cbn [length] in IH.
  rewrite Nat.add_1_r in IH. exact IH.
Qed.
(** the first [n] characters of the string padded with zeros *)
Definition padded (n : nat) (s : list Z) : list Z := firstn n s ++ repeat 0 (n - length s).
Lemma padded_length n s : length (padded n s) = n.
Proof. unfold padded. rewrite app_length, repeat_length, firstn_length. lia. Qed.
Lemma ncopy_ok : forall n s a old b x, cstring s -> length old = n ->
  ncopy_loop (a ++ old ++ b) (length a) (s ++ 0 :: x) n = Some (a ++ padded n s ++ b, (length a + Nat.min (length s) n)%nat).
Proof.
  induction n as [|n IH]; intros s a old b x H L; (destruct old as [|o old]; [try easy|try easy]).
  - cbn [ncopy_loop]. rewrite Nat.min_0_r, Nat.add_0_r. unfold padded. easy.
  - injection L as L. destruct H as [|c s Hc Hs].
    + cbn [app ncopy_loop rd nth_error obind length]. change (0 =? 0) with true. cbn match. pose proof (zero_ok (S n) a (o :: old) b ltac:(cbn; now rewrite L)) as X. cbn [app] in X. rewrite X.
      cbn [obind]. rewrite Nat.add_0_r. easy.
    + cbn [app ncopy_loop rd nth_error obind tl length]. destruct (Z.eqb_spec c 0); [lia|]. rewrite wr_at. cbn [obind].
      specialize (IH s (a ++ [c]) old b x Hs L). rewrite <- !app_assoc in IH. cbn [app] in IH. rewrite app_length in IH. cbn [length] in IH.
      rewrite Nat.add_1_r in IH. rewrite IH. rewrite <- Nat.succ_min_distr. f_equal. f_equal. lia.
Qed.
Lemma zero_none : forall n d k, (length d < k + n)%nat -> (k <= length d)%nat -> zero_loop d k n = None.
Proof.
  induction n as [|n IH]; intros d k L K; [lia|]. cbn [zero_loop]. destruct (wr d k 0) as [d'|] eqn:E; [|easy]. cbn [obind].
  destruct (Nat.eq_dec k (length d)); [subst; now rewrite wr_out in E|]. apply wr_len in E. apply IH; lia.
Qed.
Lemma ncopy_none : forall n s d k x, cstring s -> (length d < k + n)%nat -> (k <= length d)%nat -> ncopy_loop d k (s ++ 0 :: x) n = None.
Proof.
  induction n as [|n IH]; intros s d k x H L K; [lia|]. destruct H as [|c s Hc Hs]; cbn [app].
  - cbn [ncopy_loop rd nth_error obind]. change (0 =? 0) with true. cbn match. now rewrite zero_none.
  - cbn [ncopy_loop rd nth_error obind tl]. destruct (Z.eqb_spec c 0); [lia|]. destruct (wr d k c) as [d'|] eqn:E; [|easy]. cbn [obind].
    destruct (Nat.eq_dec k (length d)); [subst; now rewrite wr_out in E|]. apply wr_len in E. apply IH; try easy; lia.
Qed.
Lemma strlcpy_ok d s x len : cstring s -> strlcpy d (s ++ 0 :: x) len =
  if (Z.to_nat len <=? length d)%nat then Some (padded (Z.to_nat len) s ++ skipn (Z.to_nat len) d, Z.of_nat (Nat.min (length s) (Z.to_nat len))) else None.
Proof.
  intros H. unfold strlcpy. set (n := Z.to_nat len). destruct (Nat.leb_spec n (length d)) as [L|L].
  - destruct (split_at d n L) as (u & v & -> & E). pose proof (ncopy_ok n s [] u v x H E) as X. cbn [app length Nat.add] in X. rewrite X. cbn [obind].
    replace (skipn n (u ++ v)) with v by (rewrite <- E; symmetry; apply skipn_len). easy.
  - rewrite ncopy_none by (easy || lia). easy.
Qed.
Lemma strncpy_ok d s x len : cstring s -> strncpy d (s ++ 0 :: x) len =
  if (Z.to_nat len <=? length d)%nat then Some (padded (Z.to_nat len) s ++ skipn (Z.to_nat len) d) else None.
Proof.
  intros H. pose proof (strlcpy_ok d s x len H) as X. unfold strncpy, strlcpy in *.
  destruct (ncopy_loop d 0 (s ++ 0 :: x) (Z.to_nat len)) as [(d', k)|]; cbn [obind] in *; destruct (_ <=? _)%nat; try easy. now injection X as ->.
Qed.
Lemma padded_full n s : (n <= length s)%nat -> padded n s = firstn n s.
Proof. intros H. unfold padded. replace (n - length s)%nat with O by lia. now rewrite app_nil_r. Qed.

(** ** reversal *)
Lemma swap_ok : forall n m a b, length m = n -> swap_loop (a ++ m ++ b) (length a) (length a + n - 1) (n / 2) = Some (a ++ rev m ++ b).
Proof.
  induction n as [n IH] using (well_founded_induction lt_wf). intros m a b L.
  destruct m as [|x m]. { cbn in L. subst n. easy. }
  destruct (rev m) as [|y r] eqn:R.
  { assert (m = []) by (rewrite <- (rev_involutive m), R; easy). subst m. cbn in L. subst n. easy. }
  assert (E : m = rev r ++ [y]) by (rewrite <- (rev_involutive m), R; easy). subst m. clear R. cbn [length] in L. rewrite app_length in L. cbn [length] in L.
  assert (D : (n / 2 = S ((n - 2) / 2))%nat).
  { replace n with (n - 2 + 1 * 2)%nat at 1 by lia. rewrite Nat.div_add by lia. lia. }
  rewrite D. cbn [swap_loop]. cbn [app]. rewrite rd_at. cbn [obind].
  replace (length a + n - 1)%nat with (length (a ++ x :: rev r)) by (rewrite app_length; cbn [length]; lia).
  replace (a ++ x :: (rev r ++ [y]) ++ b) with ((a ++ x :: rev r) ++ y :: b) by (rewrite <- !app_assoc; cbn [app]; rewrite <- ?app_assoc; easy).
  rewrite rd_at. cbn [obind]. rewrite <- app_assoc. cbn [app]. rewrite wr_at. cbn [obind].
  replace (length (a ++ x :: rev r)) with (length (a ++ y :: rev r)) by (rewrite !app_length; easy).
  replace (a ++ y :: rev r ++ y :: b) with ((a ++ y :: rev r) ++ y :: b) by now rewrite <- app_assoc.
  rewrite wr_at. cbn [obind].
  specialize (IH (n - 2)%nat ltac:(lia) (rev r) (a ++ [y]) (x :: b) ltac:(lia)).
  rewrite app_length in IH. cbn [length] in IH. rewrite Nat.add_1_r in IH. rewrite <- !app_assoc in IH |- *. cbn [app] in IH |- *.
  replace (length (a ++ y :: rev r) - 1)%nat with (S (length a) + (n - 2) - 1)%nat by (rewrite app_length; cbn [length]; lia).
  rewrite IH. cbn [rev]. rewrite rev_app_distr, !rev_involutive. cbn [rev app]. rewrite <- ?app_assoc. easy.
Qed.
Lemma strrev_ok s x : cstring s -> strrev (s ++ 0 :: x) = Some (rev s ++ 0 :: x).
Proof.
  intros H. unfold strrev. rewrite strlen_ok by easy. cbn [obind]. exact (swap_ok (length s) s [] (0 :: x) eq_refl).
Qed.

(** ** searching *)
Lemma first_ok : forall s x ch, cstring s -> match first_occurence (s ++ 0 :: x) ch with
  | Some (Some k) => nth_error (s ++ [0]) k = Some ch /\ ~ In ch (firstn k s)
  | Some None => ~ In ch (s ++ [0])
  | None => False end.
Proof.
  induction s as [|c s IH]; intros x ch H; inversion H as [|? ? Hc Hs]; subst; cbn [app first_occurence].
  - destruct (Z.eqb_spec 0 ch) as [<-|]; [easy|]. change (0 =? 0) with true. cbn match. intros [E|[]]. lia.
  - destruct (Z.eqb_spec c ch) as [->|N]; [easy|]. destruct (Z.eqb_spec c 0); [lia|]. specialize (IH x ch Hs).
    destruct (first_occurence (s ++ 0 :: x) ch) as [[k|]|]; cbn [obind]; [| |easy].
    + cbn [nth_error firstn]. split; [easy|]. intros [E|I]; [easy|]. now apply IH.
    + intros [E|I]; [easy|]. now apply IH.
Qed.
Lemma last_ok : forall s x ch k o, cstring s -> exists r, last_loop (s ++ 0 :: x) ch k o = Some r /\
  ((exists i, r = Some (k + i)%nat /\ nth_error (s ++ [0]) i = Some ch /\ forall j, (i < j)%nat -> nth_error (s ++ [0]) j <> Some ch) \/
   (r = o /\ ~ In ch (s ++ [0]))).
Proof.
  induction s as [|c s IH]; intros x ch k o H; inversion H as [|? ? Hc Hs]; subst; cbn [app last_loop].
  - change (0 =? 0) with true. cbn match. destruct (Z.eqb_spec 0 ch) as [<-|].
    + eexists. split; [reflexivity|]. left. exists O. rewrite Nat.add_0_r. split; [easy|]. split; [easy|]. intros [|[|j]]; cbn; lia || easy.
    + eexists. split; [reflexivity|]. right. split; [easy|]. cbn. intros [E|[]]. lia.
  - destruct (Z.eqb_spec c 0); [lia|]. destruct (IH x ch (S k) (if c =? ch then Some k else o) Hs) as (r & E & R). exists r. split; [exact E|].
    destruct R as [(i & -> & A & B)|(-> & N)].
    + left. exists (S i). split; [f_equal; lia|]. split; [easy|]. intros [|j] Hj; [lia|]. cbn [nth_error]. apply B. lia.
    + destruct (Z.eqb_spec c ch) as [->|Nc].
      * left. exists O. split; [f_equal; lia|]. split; [easy|]. intros [|j] Hj; [lia|]. cbn [nth_error]. intros X. apply N. now apply nth_error_In in X.
      * right. split; [easy|]. intros [X|X]; easy.
Qed.
Lemma prefix_ok : forall p s x y, cstring p -> cstring s -> exists b, has_prefix (s ++ 0 :: x) (p ++ 0 :: y) = Some b /\ (b = true <-> exists q, s = p ++ q).
Proof.
  induction p as [|a p IH]; intros s x y Hp Hs; inversion Hp as [|? ? Ha Hp']; subst; cbn [app has_prefix].
  - exists true. split; [easy|]. split; [|easy]. intros _. now exists s.
  - destruct (Z.eqb_spec a 0); [lia|]. destruct Hs as [|c s Hc Hs]; cbn [app].
    + destruct (Z.eqb_spec 0 a); [lia|]. exists false. split; [easy|]. split; [easy|]. now intros (q & E).
    + destruct (Z.eqb_spec c a) as [->|N].
      * destruct (IH s x y Hp' Hs) as (b & E & B). exists b. split; [exact E|]. rewrite B. split; intros (q & X); exists q; [now rewrite X|now injection X].
      * exists false. split; [easy|]. split; [easy|]. intros (q & [= ? _]). easy.
Qed.
Lemma skipn_app_le {A} (s x : list A) k : (k <= length s)%nat -> skipn k (s ++ x) = skipn k s ++ x.
Proof. intros H. rewrite skipn_app. replace (k - length s)%nat with O by lia. easy. Qed.
Lemma suffix_ok s p x y : cstring p -> cstring s -> exists b, has_suffix (s ++ 0 :: x) (p ++ 0 :: y) = Some b /\ (b = true <-> exists q, s = q ++ p).
Proof.
  intros Hp Hs. unfold has_suffix. rewrite !strlen_ok by easy. cbn [obind]. destruct (Nat.leb_spec (length p) (length s)) as [L|L].
  - rewrite skipn_app_le by lia.
    assert (Hk : cstring (skipn (length s - length p) s)) by (unfold cstring in *; rewrite <- (firstn_skipn (length s - length p) s) in Hs; now apply Forall_app in Hs).
    destruct (strcmp_ok _ p x y Hk Hp) as (r & -> & A & _). cbn [obind]. exists (r =? 0). split; [easy|]. rewrite Z.eqb_eq, A. split.
    + intros E. exists (firstn (length s - length p) s). transitivity (firstn (length s - length p) s ++ skipn (length s - length p) s); [symmetry; apply firstn_skipn|now rewrite E].
    + intros (q & ->). rewrite app_length. replace (length q + length p - length p)%nat with (length q) by lia. apply skipn_len.
  - exists false. split; [easy|]. split; [easy|]. intros (q & ->). rewrite app_length in L. lia.
Qed.
Lemma space_white c : char_is_space c = true <-> white c.
Proof.
  unfold char_is_space, white. cbn [In]. rewrite !orb_true_iff, !Z.eqb_eq. lia.
Qed.
Lemma trim_ok : forall s x catch, cstring s -> exists n, str_trim (s ++ 0 :: x) catch = Some n /\ (n <= length s)%nat /\
  Forall (fun c => white c /\ (catch = true -> c <> 10)) (firstn n s) /\
  (forall c, nth_error s n = Some c -> ~ (white c /\ (catch = true -> c <> 10))).
Proof.
  induction s as [|c s IH]; intros x catch H; inversion H as [|? ? Hc Hs]; subst; cbn [app str_trim].
  - exists O. repeat split; try easy. constructor.
  - destruct (Z.eqb_spec c 0); [lia|]. cbn [negb andb].
    assert (W : (char_is_space c && (negb catch || catch && negb (c =? 10)) = true) <-> (white c /\ (catch = true -> c <> 10))).
    { rewrite andb_true_iff, space_white. destruct catch; cbn [negb orb andb]; [|easy]. rewrite negb_true_iff, Z.eqb_neq. split; [easy|]. intros (A & B). auto. }
    destruct (char_is_space c && _) eqn:E.
    + destruct (IH x catch Hs) as (n' & -> & L & F & N). exists (S n'). cbn [obind length firstn nth_error]. repeat split; try easy; try lia. constructor; [now apply W|easy].
    + exists O. repeat split; try easy; try lia; [constructor|]. intros d [= ->] Q. apply W in Q. congruence.
Qed.
Lemma skip_ok : forall s x ch, cstring s -> exists n, str_skip (s ++ 0 :: x) ch = Some n /\ (n <= length s)%nat /\
  ~ In ch (firstn n s) /\ (forall c, nth_error s n = Some c -> c = ch).
Proof.
  induction s as [|c s IH]; intros x ch H; inversion H as [|? ? Hc Hs]; subst; cbn [app str_skip].
  - exists O. repeat split; easy.
  - destruct (Z.eqb_spec c 0); [lia|]. cbn [negb andb]. destruct (Z.eqb_spec c ch) as [->|N]; cbn [negb].
    + exists O. repeat split; try easy; try lia. intros d [= ->]. easy.
    + destruct (IH x ch Hs) as (k & -> & L & F & E). exists (S k). cbn [obind length firstn nth_error]. repeat split; try easy; try lia. intros [X|X]; easy.
Qed.
Lemma skip_any_loop_ok s x : cstring s -> forall l y m, cstring l -> (m <= length s)%nat -> exists n,
  skip_any_loop (s ++ 0 :: x) (l ++ 0 :: y) (length l) m = Some n /\ (n <= m)%nat /\
  (forall c, In c l -> ~ In c (firstn n s)) /\ (n = m \/ exists c, nth_error s n = Some c /\ In c l).
Proof.
  intros Hs l y. induction l as [|a l IH]; intros m Hl Hm; inversion Hl as [|? ? Ha Hl']; subst; cbn [length skip_any_loop].
  - exists m. repeat split; try easy. now left.
  - cbn [app rd nth_error obind tl]. destruct (skip_ok s x a Hs) as (p & -> & Lp & Fp & Ep). cbn [obind].
    destruct (IH (Nat.min m p) Hl' ltac:(lia)) as (n & E & Ln & Fn & En). exists n. split; [exact E|]. split; [lia|]. split.
    + intros c [<-|I]; [|now apply Fn]. intros I. apply Fp. revert I.
      replace (firstn n s) with (firstn n (firstn p s)) by (rewrite firstn_firstn; f_equal; lia). intros I. rewrite <- (firstn_skipn n (firstn p s)). apply in_or_app. now left.
    + destruct En as [->|(c & E1 & E2)]; [|right; exists c; split; [easy|now right]].
      destruct (Nat.le_ge_cases m p); [left; lia|]. rewrite Nat.min_r by lia.
      destruct (Nat.eq_dec p m); [now left|]. right.
      destruct (nth_error s p) as [c|] eqn:Ec; [|apply nth_error_None in Ec; lia]. exists c. split; [easy|]. left. symmetry. now apply Ep.
Qed.
Lemma skip_any_ok s x l y : cstring s -> cstring l -> exists n, str_skip_any (s ++ 0 :: x) (l ++ 0 :: y) = Some n /\ (n <= length s)%nat /\
  (forall c, In c l -> ~ In c (firstn n s)) /\ (forall c, nth_error s n = Some c -> In c l).
Proof.
  intros Hs Hl. unfold str_skip_any. rewrite !strlen_ok by easy. cbn [obind].
  destruct (skip_any_loop_ok s x Hs l y (length s) Hl ltac:(lia)) as (n & E & L & F & N). exists n. repeat split; try easy.
  intros c Hc. destruct N as [->|(c' & E1 & E2)]; [|congruence]. assert (length s < length s)%nat; [|lia]. apply nth_error_Some. congruence.
Qed.

(** ** tokens *)
Lemma first_none_iff d y c : cstring d -> c <> 0 -> (first_occurence (d ++ 0 :: y) c = Some None <-> ~ In c d) /\ (exists o, first_occurence (d ++ 0 :: y) c = Some o).
Proof.
  intros Hd Hc. pose proof (first_ok d y c Hd) as X. destruct (first_occurence (d ++ 0 :: y) c) as [[k|]|]; [| |easy].
  - split; [|eauto]. split; [easy|]. intros N. destruct N. destruct X as (X & _). apply nth_error_In, in_app_or in X as [X|[X|[]]]; [easy|lia].
  - split; [|eauto]. split; [|easy]. intros _ I. apply X, in_or_app. now left.
Qed.
(** [t] up to the first delimiter, then nothing or a delimiter *)
Lemma tok_ok d y : cstring d -> forall t a old b stop z, cstring t -> (forall c, In c t -> ~ In c d) -> length old = S (length t) ->
  stop = 0 \/ In stop d ->
  strtok_loop (a ++ old ++ b) (length a) (t ++ stop :: z) (d ++ 0 :: y) =
    Some (a ++ t ++ 0 :: b, (length a + length t + (if Z.eqb stop 0 then 0 else 1))%nat).
Proof.
  intros Hd. induction t as [|c t IH]; intros a old b stop z Ht Hn L Hr.
  - destruct old as [|o [|? ?]]; try easy. cbn [app strtok_loop]. destruct (Z.eqb_spec stop 0) as [->|N].
    + rewrite wr_at. cbn [obind length]. do 2 f_equal. lia.
    + destruct Hr as [Hr|I]; [easy|]. destruct (first_none_iff d y stop Hd N) as (A & (o' & E)). rewrite E in *. cbn [obind]. destruct o' as [k|]; [|now apply A in I].
      rewrite wr_at. cbn [obind length]. do 2 f_equal. lia.
  - inversion Ht as [|? ? Hc Ht']; subst. destruct old as [|o old]; [easy|]. cbn [app strtok_loop]. destruct (Z.eqb_spec c 0); [lia|].
    destruct (first_none_iff d y c Hd ltac:(lia)) as (A & _). rewrite (proj2 A) by (apply Hn; now left). cbn [obind]. rewrite wr_at. cbn [obind].
    specialize (IH (a ++ [c]) old b stop z Ht' ltac:(intros; apply Hn; now right) ltac:(now injection L) Hr).
    rewrite <- !app_assoc in IH. cbn [app] in IH. rewrite app_length in IH. cbn [length] in IH. rewrite Nat.add_1_r in IH. rewrite IH.
    do 2 f_equal. cbn [length]. lia.
Qed.
(** bounded: [m] characters fit *)
Lemma ntok_ok d y : cstring d -> forall t a old b stop z, cstring t -> (forall c, In c t -> ~ In c d) -> stop = 0 \/ In stop d -> (length t < length old)%nat ->
  strntok_loop (a ++ old ++ b) (length a) (length old) (t ++ stop :: z) (d ++ 0 :: y) =
    Some (a ++ t ++ 0 :: skipn (S (length t)) old ++ b, (length a + length t + (if Z.eqb stop 0 then 0 else 1))%nat).
Proof.
  intros Hd. induction t as [|c t IH]; intros a old b stop z Ht Hn Hr L.
  - destruct old as [|o old]; [cbn in L; lia|]. cbn [app strntok_loop length skipn]. destruct (Z.eqb_spec stop 0) as [->|N].
    + rewrite wr_at. cbn [obind]. do 2 f_equal. lia.
    + destruct Hr as [Hr|I]; [easy|]. destruct (first_none_iff d y stop Hd N) as (A & (o' & E)). rewrite E in *. cbn [obind]. destruct o' as [k|]; [|now apply A in I].
      rewrite wr_at. cbn [obind]. do 2 f_equal. lia.
  - inversion Ht as [|? ? Hc Ht']; subst. destruct old as [|o old]; [cbn in L; lia|]. cbn [app strntok_loop length]. destruct (Z.eqb_spec c 0); [lia|].
    destruct (first_none_iff d y c Hd ltac:(lia)) as (A & _). rewrite (proj2 A) by (apply Hn; now left). cbn [obind]. rewrite wr_at. cbn [obind].
    specialize (IH (a ++ [c]) old b stop z Ht' ltac:(intros; apply Hn; now right) Hr ltac:(cbn [length] in L; lia)).
    rewrite <- !app_assoc in IH. cbn [app] in IH. rewrite app_length in IH. cbn [length] in IH. rewrite Nat.add_1_r in IH. rewrite IH.
    do 2 f_equal. cbn [length]. lia.
Qed.
Lemma ntok_trunc d y : cstring d -> forall t a old b c z, cstring t -> (forall c, In c t -> ~ In c d) -> 0 < c < 256 -> length old = length t ->
  strntok_loop (a ++ old ++ b) (length a) (length old) (t ++ c :: z) (d ++ 0 :: y) = Some (a ++ t ++ b, S (length a + length t)).
Proof.
  intros Hd. induction t as [|x t IH]; intros a old b c z Ht Hn Hc L.
  - destruct old as [|o old]; [|easy]. cbn [app strntok_loop length]. destruct (Z.eqb_spec c 0); [lia|].
    destruct (first_none_iff d y c Hd ltac:(lia)) as (_ & (o' & E)). rewrite E. cbn [obind]. rewrite Nat.add_0_r. destruct o'; easy.
  - inversion Ht as [|? ? Hx Ht']; subst. destruct old as [|o old]; [easy|]. cbn [app strntok_loop length]. destruct (Z.eqb_spec x 0); [lia|].
    destruct (first_none_iff d y x Hd ltac:(lia)) as (A & _). rewrite (proj2 A) by (apply Hn; now left). cbn [obind]. rewrite wr_at. cbn [obind].
    specialize (IH (a ++ [x]) old b c z Ht' ltac:(intros; apply Hn; now right) Hc ltac:(now injection L)).
    rewrite <- !app_assoc in IH. cbn [app] in IH. rewrite app_length in IH. cbn [length] in IH. rewrite Nat.add_1_r in IH. rewrite IH.
    do 2 f_equal. lia.
Qed.
Lemma split_delim (d : list Z) : forall s, exists t r, s = t ++ r /\ (forall c, In c t -> ~ In c d) /\ (r = [] \/ exists x r', r = x :: r' /\ In x d).
Proof.
  induction s as [|c s (t & r & E & A & B)]; [exists [], []; repeat split; auto; easy|].
  destruct (in_dec Z.eq_dec c d) as [I|I].
  - exists [], (c :: s). repeat split; [easy|]. right. eauto.
  - exists (c :: t), r. subst s. split; [easy|]. split; [|easy]. intros x [<-|X]; [easy|now apply A].
Qed.

(** ** concatenation and duplication *)
Lemma blit_ok : forall n s a old b x, length s = n -> length old = n -> blit (a ++ old ++ b) (length a) (s ++ x) n = Some (a ++ s ++ b).
Proof.
  induction n as [|n IH]; intros s a old b x Ls Lo; destruct s as [|c s], old as [|o old]; try easy.
  cbn [app blit rd nth_error obind tl]. rewrite wr_at. cbn [obind].
  specialize (IH s (a ++ [c]) old b x ltac:(now injection Ls) ltac:(now injection Lo)). rewrite <- !app_assoc in IH. cbn [app] in IH. rewrite app_length in IH. cbn [length] in IH.
  rewrite Nat.add_1_r in IH. exact IH.
Qed.
Lemma concat_ok d s t x y : (length s + length t < length d)%nat ->
  str_concat d (Z.of_nat (length d)) (s ++ x) (length s) (t ++ y) (length t) = Some (s ++ t ++ 0 :: skipn (length s + length t + 1) d).
Proof.
  intros L. unfold str_concat. destruct (Z.ltb_spec (Z.of_nat (length d)) (Z.of_nat (length s + length t + 1))); [lia|].
  destruct (split_at d (length s)) as (u & v & -> & Lu); [lia|]. pose proof (blit_ok (length s) s [] u v x eq_refl Lu) as X. cbn [app length] in X. rewrite X. cbn [obind].
  rewrite app_length in L. destruct (split_at v (length t)) as (u2 & v2 & -> & Lu2); [lia|].
  rewrite (blit_ok (length t) t s u2 v2 y eq_refl Lu2). cbn [obind]. rewrite app_length in L.
  destruct v2 as [|o v2]; [cbn [length] in L; lia|]. rewrite app_assoc. rewrite <- app_length. rewrite wr_at. rewrite <- app_assoc. do 3 f_equal.
  replace (length (s ++ t) + 1)%nat with (length (u ++ u2 ++ [o])) by (rewrite !app_length; cbn [length]; lia).
  replace (u ++ u2 ++ o :: v2) with ((u ++ u2 ++ [o]) ++ v2) by (rewrite <- !app_assoc; easy). f_equal. symmetry. apply skipn_len.
Qed.
Lemma strdup_ok d s x : cstring s -> strdup d (s ++ 0 :: x) = if (length s <=? length d)%nat then Some (s ++ repeat 0 (length d - length s)) else None.
Proof.
  intros H. unfold strdup. rewrite strlen_ok by easy. cbn [obind]. destruct (Nat.leb_spec (length s) (length d)) as [L|L].
  - destruct (Nat.ltb_spec (length d) (length s)); [lia|]. destruct (split_at d (length s) L) as (u & v & -> & Lu).
    rewrite <- Lu at 1. rewrite <- (app_nil_r v) at 1.
    assert (Lv : length v = (length (u ++ v) - length s)%nat) by (rewrite app_length; lia).
    rewrite (zero_ok _ u v [] Lv). cbn [obind]. rewrite app_nil_r. rewrite strncpy_ok by easy. rewrite Nat2Z.id.
    rewrite !app_length, repeat_length. replace (length u + (length u + length v - length s))%nat with (length u + length v)%nat by lia.
    rewrite Nat.leb_refl. f_equal. unfold padded. rewrite firstn_all2 by lia.
    rewrite skipn_all2 by (rewrite app_length, repeat_length; lia). now rewrite app_nil_r.
  - destruct (Nat.ltb_spec (length d) (length s)); [easy|lia].
Qed.
Lemma str_map_ok f : forall s x, cstring s -> str_map f (s ++ 0 :: x) = Some (map f s ++ 0 :: x).
Proof. induction s as [|c s IH]; intros x H; inversion H; subst; [easy|]. cbn [app str_map map]. destruct (Z.eqb_spec c 0); [lia|]. now rewrite IH. Qed.
