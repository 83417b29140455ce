(** Proofs about regular expressions: the search. *)
From Verif Require Import Base CStr Regex RegexSpec RegexProofs RegexProofs2 RegexProofs3.

Lemma matches_fun s l : forall i j cs, matches s l i j cs -> forall j' cs', matches s l i j' cs' -> j' = j /\ cs' = cs.
Proof.
  induction 1; intros j0 cs0 M; inversion M; subst; auto; try (now apply IHmatches).
  match goal with A : matches s g i ?x ?y, B : matches s l ?x ?j ?z |- _ => destruct (IHmatches1 _ _ A) as (-> & ->); destruct (IHmatches2 _ _ B) as (-> & ->); easy end.
Qed.
Lemma matches_le s l : forall i j cs, matches s l i j cs -> (i <= length s)%nat -> (i <= j <= length s)%nat /\ length cs = group_count l.
Proof.
  induction 1; intros L; rewrite ?group_count_cons; cbn [groups].
  - easy.
  - assert (i + length t <= length s)%nat. { apply (f_equal (@length Z)) in H. rewrite firstn_length, skipn_length in H. lia. } specialize (IHmatches ltac:(lia)). lia.
  - specialize (IHmatches ltac:(lia)). lia.
  - specialize (IHmatches ltac:(lia)). lia.
  - specialize (IHmatches ltac:(lia)). lia.
  - assert (i < length s)%nat by (apply nth_error_Some; congruence). specialize (IHmatches ltac:(lia)). lia.
  - assert (i < length s)%nat by (apply nth_error_Some; congruence). specialize (IHmatches ltac:(lia)). lia.
  - assert (i < length s)%nat by (apply nth_error_Some; congruence). specialize (IHmatches ltac:(lia)). lia.
  - specialize (IHmatches1 L). specialize (IHmatches2 ltac:(lia)). cbn [length]. rewrite app_length. change (fold_right (fun x n => (groups x + n)%nat) O g) with (group_count g). lia.
Qed.
Lemma first_match_fun l s i j cs i' j' cs' : first_match l s i j cs -> first_match l s i' j' cs' -> i' = i /\ j' = j /\ cs' = cs.
Proof.
  intros (A & B & C) (A' & B' & C'). assert (i' = i). { destruct (Nat.lt_trichotomy i i') as [L|[E|L]]; [|easy|]; [destruct (C' i L A j cs B)|destruct (C i' L A' j' cs' B')]. }
  subst i'. split; [easy|]. eapply matches_fun; eauto.
Qed.

Lemma captured_lift max cs (a b c : captures) : shape a b -> captured max 0 cs b c ->
  shape a c /\ match c with Some z => forall k i j, nth_error cs k = Some (i, j) -> Z.of_nat k < max -> nth_error z k = Some (Z.of_nat i, Z.of_nat j - Z.of_nat i) | None => True end.
Proof. intros Sh C. split; [eapply shape_trans; [exact Sh|eapply captured_shape; eauto]|]. destruct b as [y|], c as [z|]; cbn in C; tauto. Qed.

Section Search.
  Context (l : list item) (t : list Z) (Sp : spells l t) (Ne : l <> []) (s after : list Z) (Lk : existsb looks l = true -> after <> []) (max : Z).
  Let buf := code 0 l.
  Let mem := s ++ after.
  Let len := Z.of_nat (length s).
  Definition set_spans (cs : list (nat * nat)) (b : captures) : Prop :=
    match b with Some z => forall k i j, nth_error cs k = Some (i, j) -> Z.of_nat k < max -> nth_error z k = Some (Z.of_nat i, Z.of_nat j - Z.of_nat i) | None => True end.
  Lemma one_try i caps : (i <= length s)%nat -> caps_ok max caps ->
    (exists j cs caps' op, matches s l i j cs /\ exec (exec_fuel buf len) buf mem len 0 (Z.of_nat i) caps max = Some (caps', op, Z.of_nat j) /\ (j <= length s)%nat /\ captured max 0 cs caps caps') \/
    ((forall j cs, ~ matches s l i j cs) /\ exists caps' op o, exec (exec_fuel buf len) buf mem len 0 (Z.of_nat i) caps max = Some (caps', op, o) /\ (o = -1 \/ len < o) /\ shape caps caps').
  Proof.
    intros Li C. pose proof (run_ok s after buf max l t Sp 0 (exec_fuel buf len) [] [] i caps) as R. unfold run_spec in R. fold mem len in R. cbn [length Nat.add app] in R. change (Z.of_nat 0) with 0 in R.
    destruct R as [(j & cs & f' & caps' & M & _ & Lj & _ & E & F & Cp)|N]; try easy.
    { unfold buf. now rewrite app_nil_r. }
    { unfold exec_fuel. fold buf. nia. }
    2: now right.
    left. exists j, cs, caps', (Z.of_nat (length (code 0 l))). split; [easy|]. split; [|easy]. rewrite E. unfold exec_fuel in F. fold buf in F. destruct f' as [|f']; [nia|]. cbn [exec]. fold buf. rewrite Z.ltb_irrefl. reflexivity.
  Qed.
  Lemma match_from_ok : forall n i caps, (i + n <= S (length s))%nat -> caps_ok max caps ->
    (exists i' j cs caps', (i <= i' < i + n)%nat /\ matches s l i' j cs /\ (forall x, (i <= x < i')%nat -> forall j cs, ~ matches s l x j cs) /\
       match_from n buf mem len (Z.of_nat i) caps max = Some (caps', true, Some (Z.of_nat j)) /\ shape caps caps' /\ set_spans cs caps') \/
    ((forall x, (i <= x < i + n)%nat -> forall j cs, ~ matches s l x j cs) /\ exists caps', match_from n buf mem len (Z.of_nat i) caps max = Some (caps', false, None) /\ shape caps caps').
  Proof.
    induction n as [|n IH]; intros i caps L C; cbn [match_from].
    - right. split; [lia|]. exists caps. split; [easy|apply shape_refl].
    - destruct (one_try i caps) as [(j & cs & caps' & op & M & E & Lj & Cp)|(N & caps' & op & o & E & Bad & Sh)]; [lia|easy|..]; rewrite E; cbn [obind].
      + left. destruct (Z.leb_spec 0 (Z.of_nat j)); [|lia]. destruct (Z.leb_spec (Z.of_nat j) len) as [_|X]; [|unfold len in X; lia]. cbn [andb].
        exists i, j, cs, caps'. split; [lia|]. split; [easy|]. split; [lia|]. split; [easy|]. apply (captured_lift max cs caps caps caps'); [apply shape_refl|easy].
      + assert (F : (0 <=? o) && (o <=? len) = false). { apply not_true_iff_false. rewrite andb_true_iff, !Z.leb_le. lia. } rewrite F.
        rewrite (eqb_no o INTERNAL_FAILURE) by (unfold INTERNAL_FAILURE, len in *; lia).
        replace (Z.of_nat i + 1) with (Z.of_nat (S i)) by lia.
        destruct (IH (S i) caps') as [(i' & j & cs & caps2 & Li & M & Nx & E2 & Sh2 & Sp2)|(Nx & caps2 & E2 & Sh2)]; [lia|eapply shape_ok; eauto|..].
        * left. exists i', j, cs, caps2. split; [lia|]. split; [easy|]. split. { intros x Lx. destruct (Nat.eq_dec x i) as [->|]; [apply N|apply Nx; lia]. } split; [easy|]. split; [eapply shape_trans; eauto|easy].
        * right. split. { intros x Lx. destruct (Nat.eq_dec x i) as [->|]; [apply N|apply Nx; lia]. } exists caps2. split; [easy|eapply shape_trans; eauto].
  Qed.
  Lemma code_head : exists c r, buf = c :: r /\ (c =? BEGINNING_OF_LINE) = anchored l.
  Proof. unfold buf. destruct Sp as [| | | | | | |e c l' t' E H|]; [easy|..]; cbn [code icode app anchored]; eexists; eexists; split; reflexivity. Qed.
  Lemma re_match_ok caps : caps_ok max caps ->
    (exists i j cs caps', first_match l s i j cs /\ re_match buf mem len caps max = Some (caps', true, Some (Z.of_nat j)) /\ shape caps caps' /\ set_spans cs caps') \/
    ((forall i j cs, ~ first_match l s i j cs) /\ exists caps', re_match buf mem len caps max = Some (caps', false, None) /\ shape caps caps').
  Proof.
    intros C. destruct code_head as (c & r & B & A). unfold re_match. rewrite B. rewrite A. rewrite <- B.
    set (n := if anchored l then 1%nat else Z.to_nat len). assert (Ms : forall i, may_start l s i <-> (i < n)%nat). { intros i. unfold may_start, n, len. destruct (anchored l); lia. }
    assert (Ln : (0 + n <= S (length s))%nat) by (unfold n, len; destruct (anchored l); lia).
    destruct (match_from_ok n 0 caps Ln C) as [(i & j & cs & caps' & Li & M & Nx & E & Sh & Sp')|(Nx & caps' & E & Sh)]; change (Z.of_nat 0) with 0 in E; fold n; rewrite E.
    - left. exists i, j, cs, caps'. split; [|easy]. split; [apply Ms; lia|]. split; [easy|]. intros i' L _. apply Nx. lia.
    - right. split; [|exists caps'; easy]. intros i j cs (S1 & M & _). apply Ms in S1. apply (Nx i ltac:(lia) j cs M).
  Qed.
End Search.
