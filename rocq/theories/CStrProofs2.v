From Verif Require Import Base CStr CStrSpec CStrProofs.

(** ** skipping a literal *)
Lemma literal_loop_ok : forall s x prev ch, cstring s -> 0 < ch -> exists n, skip_literal_loop (s ++ 0 :: x) prev ch = Some n /\ (n <= length s)%nat /\
  (forall j, (j < n)%nat -> nth_error s j = Some ch -> nth_error (prev :: s) j = Some 92) /\
  (forall c, nth_error s n = Some c -> c = ch /\ nth_error (prev :: s) n <> Some 92).
Proof.
  induction s as [|c s IH]; intros x prev ch H Hch; inversion H as [|? ? Hc Hs]; subst; cbn [app skip_literal_loop].
  - change (0 =? 0) with true. cbn [negb andb orb]. destruct (Z.eqb_spec 0 ch); [lia|]. cbn [andb]. exists O. repeat split; try easy; intros; lia.
  - destruct (Z.eqb_spec c 0); [lia|]. cbn [negb andb]. destruct (Z.eqb_spec c ch) as [->|N]; cbn [negb andb orb].
    + destruct (Z.eqb_spec prev 92) as [->|P].
      * destruct (IH x ch ch Hs Hch) as (k & -> & L & A & B). exists (S k). cbn [obind length]. split; [easy|]. split; [lia|]. split.
        -- intros [|j] Hj E; [easy|]. cbn [nth_error] in *. apply A; [lia|easy].
        -- exact B.
      * exists O. split; [easy|]. split; [lia|]. split; [lia|]. intros c [= <-]. split; [easy|]. cbn. congruence.
    + destruct (IH x c ch Hs Hch) as (k & -> & L & A & B). exists (S k). cbn [obind length]. split; [easy|]. split; [lia|]. split.
      * intros [|j] Hj E; [cbn in E; congruence|]. cbn [nth_error] in *. apply A; [lia|easy].
      * exact B.
Qed.

(** ** splitting into lines *)
Definition line (l : list Z) : Prop := Forall (fun c => c <> 0 /\ c <> 10) l.
Lemma split_step f src strip p pd lines c d : rd src p = Some c -> c <> 0 -> rd src pd = Some d -> d <> 10 ->
  split_loop (S f) src strip p pd lines = split_loop f src strip p (S pd) lines.
Proof.
  intros E1 H1 E2 H2. cbn [split_loop]. rewrite E1. cbn [obind]. destruct (Z.eqb_spec c 0); [easy|]. rewrite E2. cbn [obind]. destruct (Z.eqb_spec d 10); [easy|]. easy.
Qed.
Lemma rd_app2 a b k : rd (a ++ b) (length a + k) = rd b k.
Proof. unfold rd. rewrite nth_error_app2 by lia. f_equal. lia. Qed.
(** scanning over the characters of a line *)
Lemma split_scan strip : forall v a u rest f lines c, line v -> nth_error (u ++ v ++ rest) 0 = Some c -> c <> 0 ->
  split_loop (length v + f) (a ++ u ++ v ++ rest) strip (length a) (length a + length u) lines =
  split_loop f (a ++ u ++ v ++ rest) strip (length a) (length a + length u + length v) lines.
Proof.
  induction v as [|x v IH]; intros a u rest f lines c Hv E Hc.
  - now rewrite Nat.add_0_r.
  - inversion Hv as [|? ? Hx Hv']; subst. cbn [length Nat.add]. rewrite (split_step _ _ _ _ _ _ c x).
    + replace (u ++ (x :: v) ++ rest) with ((u ++ [x]) ++ v ++ rest) in * by (rewrite <- app_assoc; easy).
      specialize (IH a (u ++ [x]) rest f lines c Hv' E Hc). rewrite app_length in IH. cbn [length] in IH.
      replace (length a + (length u + 1))%nat with (S (length a + length u)) in IH by lia. rewrite IH. f_equal; lia.
    + rewrite <- (Nat.add_0_r (length a)). rewrite rd_app2. exact E.
    + easy.
    + rewrite rd_app2. rewrite <- (Nat.add_0_r (length u)). rewrite rd_app2. easy.
    + easy.
Qed.
Lemma chomped_length l : length (chomped l) = S (length l).
Proof.
  unfold chomped. destruct (rev l) as [|z r] eqn:R; [rewrite app_length; cbn; lia|].
  assert (length l = S (length r)) by (rewrite <- rev_length, R; easy).
  assert (G : length (l ++ [0]) = S (length l)) by (rewrite app_length; cbn; lia).
  repeat match goal with |- context [match ?p with _ => _ end] => destruct p; try exact G end.
  rewrite app_length, rev_length. cbn. lia.
Qed.
Lemma chomped_cr r : chomped (r ++ [13]) = r ++ [0; 0].
Proof. unfold chomped. rewrite rev_app_distr. cbn. now rewrite rev_involutive. Qed.
Lemma chomped_other r x : x <> 13 -> chomped (r ++ [x]) = r ++ [x; 0].
Proof.
  intros N. unfold chomped. rewrite rev_app_distr. cbn [rev app]. rewrite <- app_assoc. cbn [app].
  repeat match goal with |- context [match ?p with _ => _ end] => destruct p; try reflexivity end. now destruct N.
Qed.
(** one non-empty line *)
Lemma split_line strip a l rest f lines : line l -> l <> [] ->
  split_loop (S (length l + f)) (a ++ l ++ 10 :: rest) strip (length a) (length a) lines =
  split_loop f (a ++ chomped l ++ rest) strip (length a + length l + 1) (length a + length l + 1) (lines ++ [length a]).
Proof.
  intros Hl Hne. replace (S (length l + f)) with (length l + S f)%nat by lia.
  destruct l as [|c l']; [easy|]. pose proof (split_scan strip (c :: l') a [] (10 :: rest) (S f) lines c Hl eq_refl) as X.
  cbn [length app] in X. rewrite Nat.add_0_r in X. cbn [length app]. rewrite X by (inversion Hl; tauto). clear X.
  set (l := c :: l') in *. change (a ++ c :: l' ++ 10 :: rest) with (a ++ l ++ 10 :: rest). change (S (length l')) with (length l). clearbody l. clear c l'.
  destruct (rev l) as [|z r] eqn:R; [apply (f_equal (@rev Z)) in R; rewrite rev_involutive in R; easy|].
  assert (E : l = rev r ++ [z]) by (rewrite <- (rev_involutive l), R; easy). set (q := rev r) in *. clearbody q. subst l. clear R r Hne.
  apply Forall_app in Hl as (Hq & Hz). inversion Hz as [|? ? Hz' _]; subst.
  cbn [split_loop].
  assert (E0 : exists c, rd (a ++ (q ++ [z]) ++ 10 :: rest) (length a) = Some c /\ c <> 0).
  { destruct q as [|y q]; cbn [app]; rewrite rd_at; eexists; (split; [reflexivity|]); [easy|now inversion Hq]. }
  destruct E0 as (c & -> & Hc). cbn [obind]. destruct (Z.eqb_spec c 0); [easy|].
  replace (length a + length (q ++ [z]))%nat with (S (length a + length q)) by (rewrite app_length; cbn; lia). rewrite Nat.add_1_r.
  set (n1 := S (length a + length q)).
  assert (En : n1 = length (a ++ q ++ [z])) by (subst n1; rewrite !app_length; cbn; lia).
  replace (a ++ (q ++ [z]) ++ 10 :: rest) with ((a ++ q ++ [z]) ++ 10 :: rest) by (rewrite <- !app_assoc; easy).
  replace (rd ((a ++ q ++ [z]) ++ 10 :: rest) n1) with (Some 10) by (rewrite En; now rewrite rd_at). cbn [obind]. change (10 =? 10) with true. cbn match.
  replace (wr ((a ++ q ++ [z]) ++ 10 :: rest) n1 0) with (Some ((a ++ q ++ [z]) ++ 0 :: rest)) by (rewrite En; now rewrite wr_at). cbn [obind].
  clear En. subst n1. cbn match. replace (length a + length q)%nat with (length (a ++ q)) by (rewrite app_length; easy).
  replace ((a ++ q ++ [z]) ++ 0 :: rest) with ((a ++ q) ++ z :: 0 :: rest) by (rewrite <- !app_assoc; easy).
  rewrite rd_at. cbn [obind].
  replace (S (length (a ++ q)) =? length a)%nat with false by (symmetry; apply Nat.eqb_neq; rewrite app_length; lia). rewrite andb_false_r.
  destruct (Z.eqb_spec z 13) as [->|N].
  - rewrite wr_at. cbn [obind]. rewrite chomped_cr. rewrite <- !app_assoc. easy.
  - cbn [obind]. rewrite chomped_other by easy. rewrite <- !app_assoc. easy.
Qed.
(** one empty line, not at the very start *)
Lemma split_empty strip a e rest f lines : e <> 13 ->
  split_loop (S f) ((a ++ [e]) ++ 10 :: rest) strip (length (a ++ [e])) (length (a ++ [e])) lines =
  if strip then split_loop f ((a ++ [e]) ++ 0 :: rest) strip (S (length (a ++ [e]))) (length (a ++ [e])) lines
  else split_loop f ((a ++ [e]) ++ 0 :: rest) strip (S (length (a ++ [e]))) (S (length (a ++ [e]))) (lines ++ [length (a ++ [e])]).
Proof.
  intros N. cbn [split_loop]. rewrite rd_at. cbn [obind]. change (10 =? 0) with false. change (10 =? 10) with true. cbn match. rewrite wr_at. cbn [obind].
  rewrite app_length. cbn [length]. rewrite Nat.add_1_r. cbn match.
  replace ((a ++ [e]) ++ 0 :: rest) with (a ++ e :: 0 :: rest) by (rewrite <- app_assoc; easy). rewrite rd_at. cbn [obind].
  destruct (Z.eqb_spec e 13); [easy|]. cbn [obind]. rewrite Nat.eqb_refl, andb_true_r. destruct strip; easy.
Qed.
Lemma chomped_last l : exists u, chomped l = u ++ [0].
Proof.
  destruct (rev l) as [|z r] eqn:R; [exists l; unfold chomped; now rewrite R|].
  assert (E : l = rev r ++ [z]) by (rewrite <- (rev_involutive l), R; easy). subst l. destruct (Z.eq_dec z 13) as [->|N].
  - rewrite chomped_cr. exists (rev r ++ [0]). now rewrite <- app_assoc.
  - rewrite chomped_other by easy. exists (rev r ++ [z]). now rewrite <- app_assoc.
Qed.
(** all the remaining lines; [lag] is 1 when [pd] is still one behind [p] *)
Lemma split_all strip : forall ls a rest f lines (lag : bool), Forall line ls -> (exists u, a = u ++ [0]) ->
  (2 * length (text_of ls) + 2 <= f)%nat ->
  split_loop f (a ++ text_of ls ++ 0 :: rest) strip (length a) (length a - if lag then 1 else 0) lines =
    Some (a ++ flat_map chomped ls ++ 0 :: rest, lines ++ starts strip (length a) ls).
Proof.
  induction ls as [|l ls IH]; intros a rest f lines lag Hls (u & Hu) Hf.
  - cbn [text_of flat_map app starts]. rewrite app_nil_r. destruct f as [|f]; [cbn in Hf; lia|]. cbn [split_loop]. rewrite rd_at. easy.
  - inversion Hls as [|? ? Hl Hls']; subst. set (a := u ++ [0]) in *.
    cbn [text_of flat_map] in *. fold (text_of ls) in *. rewrite !app_length in Hf. cbn [length] in Hf.
    assert (La : length a = S (length u)) by (unfold a; rewrite app_length; cbn; lia).
    (* first remove the lag *)
    assert (G : forall f', (2 * (length l + 1 + length (text_of ls)) + 1 <= f')%nat ->
      split_loop f' (a ++ ((l ++ [10]) ++ text_of ls) ++ 0 :: rest) strip (length a) (length a) lines =
      Some (a ++ (chomped l ++ flat_map chomped ls) ++ 0 :: rest, lines ++ starts strip (length a) (l :: ls))).
    { clear f Hf. intros f Hf. rewrite <- !app_assoc. cbn [app]. destruct l as [|c l].
      - cbn [app length] in *. destruct f as [|f]; [lia|]. unfold a. rewrite split_empty by easy. fold a.
        change (chomped []) with [0]. cbn [app starts length].
        replace (a ++ 0 :: text_of ls ++ 0 :: rest) with ((a ++ [0]) ++ text_of ls ++ 0 :: rest) by (rewrite <- app_assoc; easy).
        assert (Lx : length (a ++ [0]) = S (length a)) by (rewrite app_length; cbn; lia).
        destruct strip.
        + pose proof (IH (a ++ [0]) rest f lines true Hls' ltac:(eauto) ltac:(lia)) as X. rewrite Lx in X. replace (S (length a) - 1)%nat with (length a) in X by lia.
          rewrite X. rewrite <- app_assoc. rewrite Nat.add_0_r, Nat.add_1_r. easy.
        + pose proof (IH (a ++ [0]) rest f (lines ++ [length a]) false Hls' ltac:(eauto) ltac:(lia)) as X. rewrite Lx, Nat.sub_0_r in X.
          rewrite X. rewrite <- !app_assoc. rewrite Nat.add_0_r, Nat.add_1_r. easy.
      - set (l' := c :: l) in *. assert (l' <> []) by easy. assert (0 < length l')%nat by (cbn; lia).
        replace f with (S (length l' + (f - 1 - length l')))%nat by lia. rewrite split_line by easy.
        destruct (chomped_last l') as (w & Hw).
        pose proof (IH (a ++ chomped l') rest (f - 1 - length l')%nat (lines ++ [length a]) false Hls' ltac:(exists (a ++ w); now rewrite Hw, <- app_assoc) ltac:(lia)) as X.
        rewrite Nat.sub_0_r in X. rewrite app_length, chomped_length in X.
        replace (length a + S (length l'))%nat with (length a + length l' + 1)%nat in X by lia. rewrite <- app_assoc in X. rewrite X.
        cbn [starts]. destruct l' as [|? ?]; [easy|]. rewrite <- !app_assoc. easy. }
    destruct lag.
    + destruct f as [|f]; [lia|].
      assert (exists c, rd (a ++ ((l ++ [10]) ++ text_of ls) ++ 0 :: rest) (length a) = Some c /\ c <> 0) as (c & E & Hc).
      { destruct l as [|c l]; cbn [app]; rewrite rd_at; eexists; (split; [reflexivity|]); [easy|now inversion Hl]. }
      rewrite (split_step _ _ _ _ _ _ c 0 E Hc).
      * replace (S (length a - 1)) with (length a) by lia. apply G. lia.
      * replace (length a - 1)%nat with (length u) by lia. unfold a. rewrite <- app_assoc. apply rd_at.
      * easy.
    + rewrite Nat.sub_0_r. apply G. lia.
Qed.
Lemma split_lines_ok strip l ls rest : Forall line (l :: ls) -> l <> [] ->
  str_split_lines (text_of (l :: ls) ++ 0 :: rest) strip = Some (flat_map chomped (l :: ls) ++ 0 :: rest, starts strip 0 (l :: ls)).
Proof.
  intros H Hne. inversion H as [|? ? Hl Hls]; subst. unfold str_split_lines. cbn [text_of flat_map]. fold (text_of ls). rewrite !app_length. cbn [length].
  set (f := S (2 * _)). rewrite <- !app_assoc. cbn [app].
  assert (L : (2 * length (text_of ls) + 2 + S (length l) <= f)%nat) by (subst f; destruct l; [easy|cbn [length]; lia]).
  replace f with (S (length l + (f - 1 - length l)))%nat by lia.
  pose proof (split_line strip [] l (text_of ls ++ 0 :: rest) (f - 1 - length l) [] Hl Hne) as X. cbn [app length Nat.add] in X. rewrite X.
  destruct (chomped_last l) as (w & Hw).
  pose proof (split_all strip ls (chomped l) rest (f - 1 - length l)%nat [0%nat] false Hls ltac:(eauto) ltac:(lia)) as Y.
  rewrite Nat.sub_0_r, chomped_length in Y. rewrite Nat.add_1_r. rewrite Y. cbn [starts]. destruct l; [easy|]. rewrite Nat.add_1_r. easy.
Qed.
(** an unterminated last line is searched past the end *)
Lemma split_overrun strip : forall f a u v lines c, nth_error (u ++ v) 0 = Some c -> c <> 0 -> Forall (fun c => c <> 10) (u ++ v) ->
  split_loop f (a ++ u ++ v) strip (length a) (length a + length u) lines = None.
Proof.
  induction f as [|f IH]; intros a u v lines c E Hc H; [easy|]. destruct v as [|x v].
  - cbn [split_loop]. rewrite <- (Nat.add_0_r (length a)) at 1. rewrite rd_app2. unfold rd at 1. rewrite E. cbn [obind]. destruct (Z.eqb_spec c 0); [easy|].
    rewrite rd_app2, app_nil_r. unfold rd. rewrite (proj2 (nth_error_None u (length u))) by lia. easy.
  - rewrite (split_step _ _ _ _ _ _ c x).
    + replace (u ++ x :: v) with ((u ++ [x]) ++ v) in * by (rewrite <- app_assoc; easy).
      specialize (IH a (u ++ [x]) v lines c E Hc H). rewrite app_length in IH. cbn [length] in IH. rewrite <- IH. f_equal. lia.
    + rewrite <- (Nat.add_0_r (length a)). rewrite rd_app2. exact E.
    + easy.
    + rewrite rd_app2. apply rd_at.
    + apply Forall_app in H as (_ & H). now inversion H.
Qed.
