(** Proofs about regular expressions: running the program of an expression. *)
From Verif Require Import Base CStr Regex RegexSpec RegexProofs RegexProofs2.

(** ** captures *)
Definition caps_ok (max : Z) (caps : captures) : Prop := match caps with None => True | Some a => max <= Z.of_nat (length a) end.
Definition shape (a b : captures) : Prop := match a, b with None, None => True | Some x, Some y => length x = length y | _, _ => False end.
(** the captures from number [n] on are [cs], the others are as before *)
Definition captured (max : Z) (n : nat) (cs : list (nat * nat)) (a b : captures) : Prop :=
  match a, b with
  | None, None => True
  | Some x, Some y => length x = length y /\
      (forall k i j, nth_error cs k = Some (i, j) -> Z.of_nat (n + k) < max -> nth_error y (n + k) = Some (Z.of_nat i, Z.of_nat j - Z.of_nat i)) /\
      (forall k, (k < n \/ n + length cs <= k)%nat -> nth_error y k = nth_error x k)
  | _, _ => False
  end.
Lemma captured_shape max n cs a b : captured max n cs a b -> shape a b.
Proof. destruct a, b; cbn; tauto. Qed.
Lemma shape_refl a : shape a a.
Proof. now destruct a. Qed.
Lemma shape_trans a b c : shape a b -> shape b c -> shape a c.
Proof. destruct a, b, c; cbn; try tauto. congruence. Qed.
Lemma shape_ok max a b : shape a b -> caps_ok max a -> caps_ok max b.
Proof. destruct a, b; cbn; try tauto. intros ->. easy. Qed.
Lemma captured_nil max n a : captured max n [] a a.
Proof. destruct a; cbn; [|easy]. split; [easy|]. split; [intros [|k]; easy|easy]. Qed.
Lemma captured_app max n cs cs' a b c : captured max n cs a b -> captured max (n + length cs) cs' b c -> captured max n (cs ++ cs') a c.
Proof.
  destruct a as [x|], b as [y|], c as [z|]; cbn; try tauto. intros (L1 & A1 & B1) (L2 & A2 & B2). split; [congruence|]. split.
  - intros k i j E M. destruct (Nat.ltb_spec k (length cs)) as [L|L].
    + rewrite B2 by lia. rewrite nth_error_app1 in E by lia. now apply A1.
    + rewrite nth_error_app2 in E by lia. replace (n + k)%nat with (n + length cs + (k - length cs))%nat in * by lia. now apply A2.
  - intros k K. rewrite app_length in K. rewrite B2, B1 by lia. easy.
Qed.
Lemma set_nth (x : list (Z * Z)) k v : (k < length x)%nat -> length (firstn k x ++ v :: skipn (S k) x) = length x /\ nth_error (firstn k x ++ v :: skipn (S k) x) k = Some v /\
  forall m, m <> k -> nth_error (firstn k x ++ v :: skipn (S k) x) m = nth_error x m.
Proof.
  intros L. assert (Lf : length (firstn k x) = k) by (rewrite firstn_length; lia).
  split; [rewrite app_length; cbn [length]; rewrite skipn_length; lia|]. split; [rewrite nth_error_app2, Lf, Nat.sub_diag by lia; easy|].
  intros m N. rewrite <- (firstn_skipn k x) at 3. destruct (Nat.ltb_spec m k).
  - rewrite !nth_error_app1 by lia. easy.
  - rewrite !nth_error_app2 by lia. rewrite Lf. destruct (m - k)%nat as [|q] eqn:Q; [lia|]. cbn [nth_error].
    destruct (skipn k x) as [|y r] eqn:Sk. { apply (f_equal (@length _)) in Sk. rewrite skipn_length in Sk. cbn [length] in Sk. lia. }
    assert (R : skipn (S k) x = r). { replace (S k) with (k + 1)%nat by lia. clear -Sk. revert x Sk. induction k as [|k IH]; intros x Sk; [cbn in *; subst; easy|]. destruct x as [|a x]; [easy|]. cbn [skipn Nat.add] in *. now apply IH. }
    now rewrite R.
Qed.
Lemma set_ok max caps k (g : Z * Z -> Z * Z) : caps_ok max caps -> exists caps', set_capture caps max (Z.of_nat k) g = Some caps' /\
  match caps, caps' with
  | None, None => True
  | Some x, Some y => length x = length y /\ (Z.of_nat k < max -> exists v, nth_error x k = Some v /\ nth_error y k = Some (g v)) /\ forall m, m <> k -> nth_error y m = nth_error x m
  | _, _ => False
  end.
Proof.
  intros O. unfold set_capture. destruct caps as [x|]; [|now exists None]. cbn [caps_ok] in O. destruct (Z.ltb_spec (Z.of_nat k) max) as [L|L].
  - rewrite Nat2Z.id. destruct (nth_error x k) as [v|] eqn:E; [|apply nth_error_None in E; lia]. cbn [obind]. destruct (set_nth x k (g v)) as (A & B & C); [lia|]. eexists. split; [reflexivity|]. split; [easy|]. split; [|easy]. eauto.
  - exists (Some x). split; [easy|]. split; [easy|]. split; [lia|easy].
Qed.
Lemma captured_group max n i k cs a b c d :
  match a, b with None, None => True | Some x, Some y => length x = length y /\ (Z.of_nat n < max -> exists v, nth_error x n = Some v /\ nth_error y n = Some (Z.of_nat i, snd v)) /\ (forall m, m <> n -> nth_error y m = nth_error x m) | _, _ => False end ->
  captured max (S n) cs b c ->
  match c, d with None, None => True | Some x, Some y => length x = length y /\ (Z.of_nat n < max -> exists v, nth_error x n = Some v /\ nth_error y n = Some (fst v, Z.of_nat k - fst v)) /\ (forall m, m <> n -> nth_error y m = nth_error x m) | _, _ => False end ->
  captured max n ((i, k) :: cs) a d.
Proof.
  destruct a as [x|], b as [y|], c as [z|], d as [w|]; cbn [captured]; try tauto. intros (L1 & A1 & B1) (L2 & A2 & B2) (L3 & A3 & B3). split; [congruence|]. split.
  - intros [|q] i' j' E M; cbn [nth_error] in E.
    + injection E as <- <-. rewrite Nat.add_0_r in *. destruct (A1 M) as (v & _ & V). destruct (A3 M) as (v' & V1 & V2). rewrite B2 in V1 by lia. rewrite V in V1. injection V1 as <-. exact V2.
    + rewrite B3 by lia. replace (n + S q)%nat with (S n + q)%nat in * by lia. now apply A2.
  - intros m K. cbn [length] in K. rewrite B3, B2, B1 by lia. easy.
Qed.

(** ** the program *)
Lemma spells_simple l t : spells l t -> match l with [] => True | x :: _ => simple_ok x \/ exists g, x = Group g end.
Proof.
  intros H. destruct H; cbn [simple_ok]; eauto.
  - left. split; [easy|]. split; [easy|]. eapply Forall_impl; [|eassumption]. cbn. intros; lia.
  - left. split; [now eapply entries_entry; eauto|easy].
  - left. split; [now eapply entries_entry; eauto|easy].
  - left. now eapply escaped_entry; eauto.
Qed.
Lemma icode_simple n x : simple_ok x -> (1 <= length (icode n x))%nat.
Proof. destruct x as [w| | | |neg es|e|g]; cbn [icode length]; lia. Qed.

Section Run.
  Context (s after buf : list Z) (max : Z).
  Let mem := s ++ after.
  Let len := Z.of_nat (length s).
  Definition run_spec (l : list item) (n i : nat) (f : nat) (c0 : Z) (c1 : Z) (lc : nat) (caps : captures) : Prop :=
    (exists j cs f' caps', matches s l i j cs /\ (forall j' cs', matches s l i j' cs' -> j' = j /\ cs' = cs) /\ (i <= j <= length s)%nat /\ length cs = group_count l /\
       exec f buf mem len c0 (Z.of_nat i) caps max = exec f' buf mem len c1 (Z.of_nat j) caps' max /\ (f <= f' + lc)%nat /\ captured max n cs caps caps') \/
    ((forall j cs, ~ matches s l i j cs) /\ exists caps' op o, exec f buf mem len c0 (Z.of_nat i) caps max = Some (caps', op, o) /\ (o = -1 \/ len < o) /\ shape caps caps').
  Lemma run_simple x l n f pre post i caps :
    simple_ok x -> (looks x = true -> after <> []) -> buf = pre ++ icode n x ++ post -> (i <= length s)%nat -> (2 <= f)%nat -> groups x = O ->
    (forall f' j, (f <= S f')%nat -> (i <= j <= length s)%nat -> run_spec l n j f' (Z.of_nat (length pre + length (icode n x))) (Z.of_nat (length pre + length (icode n x) + length (code n l))) (length (code n l)) caps) ->
    run_spec (x :: l) n i f (Z.of_nat (length pre)) (Z.of_nat (length pre + length (icode n x) + length (code n l))) (length (icode n x) + length (code n l)) caps.
  Proof.
    intros K Lk B Li F G IH. destruct f as [|[|f]]; [lia..|]. pose proof (icode_simple n x K) as L1.
    pose proof (single s after buf max x n f pre post i caps K Lk B Li) as S1. unfold single_spec in S1. fold mem len in S1.
    assert (Ex : exec (S (S f)) buf mem len (Z.of_nat (length pre)) (Z.of_nat i) caps max =
      (' (caps, op, offset) <- exec_single (S f) buf mem len (Z.of_nat (length pre)) (Z.of_nat i) caps max ;; if (len <? offset) || (offset =? -1) then Some (caps, op, offset) else exec (S f) buf mem len op offset caps max)).
    { cbn [exec]. destruct (Z.ltb_spec (Z.of_nat (length pre)) (Z.of_nat (length buf))); [reflexivity|]. rewrite B, !app_length in *. lia. }
    destruct S1 as [(j & M & Lj & E)|(M & op & o & E & Bad)].
    - rewrite E in Ex. cbn [obind] in Ex. destruct (Z.ltb_spec len (Z.of_nat j)) as [X|_]; [unfold len in X; lia|]. rewrite (eqb_no (Z.of_nat j) (-1)) in Ex by lia. cbn [orb] in Ex.
      destruct (IH (S f) j ltac:(lia) Lj) as [(j' & cs & f' & caps' & H & U & Lj' & Lc & E' & F' & C)|(H & caps' & op & o & E' & Bad & Sh)].
      + left. exists j', cs, f', caps'. split; [now apply M|]. split; [intros a b H'; apply M in H'; now apply U|]. split; [lia|]. split; [rewrite group_count_cons, G; easy|]. split; [rewrite Ex; exact E'|]. split; [lia|easy].
      + right. split; [intros a b H'; apply M in H'; now apply (H a b)|]. exists caps', op, o. rewrite Ex. easy.
    - right. split; [intros a b; apply M|]. exists caps, op, o. rewrite Ex, E. cbn [obind]. split; [|split; [easy|apply shape_refl]].
      assert (T : (len <? o) || (o =? -1) = true) by (rewrite orb_true_iff, Z.ltb_lt, Z.eqb_eq; lia). now rewrite T.
  Qed.
  Lemma exec_capture f pre post k op i caps (start : bool) : op = (if start then BEGIN_CAPTURE else END_CAPTURE) -> buf = pre ++ op :: Z.of_nat k :: post -> (i <= length s)%nat -> (2 <= f)%nat -> caps_ok max caps ->
    exists caps', exec f buf mem len (Z.of_nat (length pre)) (Z.of_nat i) caps max = exec (pred f) buf mem len (Z.of_nat (length pre + 2)) (Z.of_nat i) caps' max /\
      set_capture caps max (Z.of_nat k) (fun x => if start then (Z.of_nat i, snd x) else (fst x, Z.of_nat i - fst x)) = Some caps'.
  Proof.
    intros O B Li F C. destruct f as [|[|f]]; [lia..|]. destruct (set_ok max caps k (fun x => if start then (Z.of_nat i, snd x) else (fst x, Z.of_nat i - fst x)) C) as (caps' & E & _). exists caps'. split; [|easy].
    cbn [exec pred]. destruct (Z.ltb_spec (Z.of_nat (length pre)) (Z.of_nat (length buf))) as [_|X]; [|rewrite B, app_length in X; cbn [length] in X; lia].
    assert (A1 : at_ buf (Z.of_nat (length pre)) = Some op) by (now apply (at_eq buf pre op (Z.of_nat k :: post))).
    assert (A2 : at_ buf (Z.of_nat (length pre) + 1) = Some (Z.of_nat k)) by (apply (at_eq buf (pre ++ [op]) _ post); [now rewrite B, <- app_assoc|rewrite app_length; cbn [length]; lia]).
    cbn [exec_single]. rewrite A1. cbn [obind]. rewrite A2. cbn [obind].
    replace (Z.of_nat (length pre + 2)) with (Z.of_nat (length pre) + 1 + 1) by lia.
    destruct start; subst op.
    - change (BEGIN_CAPTURE =? BEGIN_CAPTURE) with true. cbn match. rewrite E. cbn [obind]. destruct (Z.ltb_spec len (Z.of_nat i)) as [X|_]; [unfold len in X; lia|]. rewrite (eqb_no (Z.of_nat i) (-1)) by lia. reflexivity.
    - change (END_CAPTURE =? BEGIN_CAPTURE) with false. change (END_CAPTURE =? END_CAPTURE) with true. cbn match. rewrite E. cbn [obind]. destruct (Z.ltb_spec len (Z.of_nat i)) as [X|_]; [unfold len in X; lia|]. rewrite (eqb_no (Z.of_nat i) (-1)) by lia. reflexivity.
  Qed.

  Lemma run_ok l t : spells l t -> forall n f pre post i caps, buf = pre ++ code n l ++ post -> (existsb looks l = true -> after <> []) -> (i <= length s)%nat -> caps_ok max caps ->
    (length (code n l) < f)%nat ->
    run_spec l n i f (Z.of_nat (length pre)) (Z.of_nat (length pre + length (code n l))) (length (code n l)) caps.
  Proof.
    induction 1 as [|w l t Nw Lw Fw Nl H IH|l t H IH|l t H IH|l t H IH|es te l t E R N H IH|es te l t E R H IH|e c l t E H IH|g tg l t Hg IHg H IH]; intros n f pre post i caps B Lk Li C F.
    1: { left. exists i, [], f, caps. split; [constructor|]. split; [intros j' cs' X; now inversion X|]. split; [lia|]. split; [easy|]. split; [cbn [code length]; now rewrite Nat.add_0_r|]. split; [lia|apply captured_nil]. }
    1-7: match goal with |- run_spec (?x :: ?l) _ _ _ _ _ _ _ =>
           assert (K : simple_ok x) by (
             match goal with
             | |- simple_ok (Lit _) => split; [easy|]; split; [easy|]; eapply Forall_impl; [|eassumption]; cbn beta; intros; lia
             | |- simple_ok (Set_ _ _) => split; [eapply entries_entry; eassumption|easy]
             | |- simple_ok (Esc _) => eapply escaped_entry; eassumption
             | |- _ => exact I
             end);
           rewrite code_cons in *; change (groups x) with O in *; rewrite Nat.add_0_r in *; rewrite app_length in *; rewrite <- app_assoc in B;
           pose proof (icode_simple n x K) as L1;
           rewrite Nat.add_assoc;
           apply (run_simple x l n f pre (code n l ++ post) i caps);
             [easy|intros Lx; apply Lk; cbn [existsb]; now rewrite Lx|easy|easy|lia|easy|];
           intros f' j Ff Lj; rewrite <- (app_length pre (icode n x));
           apply (IH n f' (pre ++ icode n x) post j caps); [now rewrite B, <- app_assoc|intros Lx; apply Lk; cbn [existsb]; rewrite Lx; apply orb_true_r|lia|easy|lia]
         end.
    rewrite code_cons, icode_group, groups_group in *. cbn [existsb looks] in Lk.
    set (cg := code (S n) g) in *. set (cl := code (n + S (group_count g)) l) in *.
    assert (B0 : buf = pre ++ BEGIN_CAPTURE :: Z.of_nat n :: cg ++ END_CAPTURE :: Z.of_nat n :: cl ++ post) by (rewrite B; rewrite <- !app_assoc; cbn [app]; rewrite <- !app_assoc; reflexivity).
    cbn [app] in *. set (lc := length (BEGIN_CAPTURE :: Z.of_nat n :: (cg ++ [END_CAPTURE; Z.of_nat n]) ++ cl)) in *.
    assert (Elc : lc = (4 + length cg + length cl)%nat) by (unfold lc; cbn [length]; rewrite !app_length; cbn [length]; lia). clearbody lc.
    destruct (exec_capture f pre (cg ++ END_CAPTURE :: Z.of_nat n :: cl ++ post) n BEGIN_CAPTURE i caps true eq_refl B0 Li ltac:(lia) C) as (caps1 & E1 & Sc1).
    destruct (set_ok max caps n (fun x => (Z.of_nat i, snd x)) C) as (caps1' & Sc1' & P1). cbn match in Sc1. rewrite Sc1 in Sc1'. injection Sc1' as <-.
    assert (Sh1 : shape caps caps1) by (destruct caps, caps1; cbn; tauto).
    assert (C1 : caps_ok max caps1) by (eapply shape_ok; eauto).
    pose proof (IHg (S n) (pred f) (pre ++ [BEGIN_CAPTURE; Z.of_nat n]) (END_CAPTURE :: Z.of_nat n :: cl ++ post) i caps1) as IHg'. fold cg in IHg'. unfold run_spec in IHg'.
    destruct IHg' as [(k & cs & f1 & caps2 & Mg & Ug & Lk1 & Lcs & E2 & F2 & Cp2)|(Mg & caps2 & op & o & E2 & Bad & Sh2)].
    { now rewrite B0, <- app_assoc. } { intros Lx. apply Lk. change ((fix existsb (l : list item) : bool := match l with [] => false | a :: l0 => looks a || existsb l0 end) g) with (existsb looks g). now rewrite Lx. } { easy. } { easy. } { lia. }
    - rewrite app_length in E2. cbn [length] in E2.
      assert (Sh2 : shape caps1 caps2) by (eapply captured_shape; eauto). assert (C2 : caps_ok max caps2) by (eapply shape_ok; eauto).
      set (pre2 := pre ++ [BEGIN_CAPTURE; Z.of_nat n] ++ cg). assert (Lp2 : length pre2 = (length pre + 2 + length cg)%nat) by (unfold pre2; rewrite !app_length; cbn [length]; lia).
      assert (B2 : buf = pre2 ++ END_CAPTURE :: Z.of_nat n :: cl ++ post) by (unfold pre2; rewrite B0, <- !app_assoc; reflexivity).
      destruct (exec_capture f1 pre2 (cl ++ post) n END_CAPTURE k caps2 false eq_refl B2 ltac:(lia) ltac:(lia) C2) as (caps3 & E3 & Sc3).
      destruct (set_ok max caps2 n (fun x => (fst x, Z.of_nat k - fst x)) C2) as (caps3' & Sc3' & P3). cbn match in Sc3. rewrite Sc3 in Sc3'. injection Sc3' as <-.
      assert (Sh3 : shape caps2 caps3) by (destruct caps2, caps3; cbn; tauto). assert (C3 : caps_ok max caps3) by (eapply shape_ok; eauto).
      assert (Cp : captured max n ((i, k) :: cs) caps caps3) by (eapply captured_group; eauto).
      pose proof (IH (n + S (group_count g))%nat (pred f1) (pre2 ++ [END_CAPTURE; Z.of_nat n]) post k caps3) as IH'. fold cl in IH'. unfold run_spec in IH'.
      replace (Z.of_nat (length (pre2 ++ [END_CAPTURE; Z.of_nat n]))) with (Z.of_nat (length pre2 + 2)) in IH' by (rewrite app_length; cbn [length]; lia).
      rewrite Lp2 in *.
      destruct IH' as [(j & cs' & f2 & caps4 & Ml & Ul & Lj & Lcs' & E4 & F4 & Cp4)|(Ml & caps4 & op & o & E4 & Bad & Sh4)].
      { now rewrite B2, <- app_assoc. } { intros Lx. apply Lk. rewrite Lx. apply orb_true_r. } { lia. } { easy. } { lia. }
      + left. exists j, ((i, k) :: cs ++ cs'), f2, caps4. split; [econstructor; eauto|]. split.
        { intros j' cs0 X. inversion X as [| | | | | | | |? ? ? k' ? csg csl Xg Xl]; subst. destruct (Ug _ _ Xg) as (-> & ->). destruct (Ul _ _ Xl) as (-> & ->). easy. }
        split; [lia|]. split; [rewrite group_count_cons, groups_group; cbn [length]; rewrite app_length; lia|]. split; [|split; [lia|]].
        * rewrite E1, E2, E3, E4. f_equal. rewrite app_length. cbn [length]. rewrite Lp2. lia.
        * change ((i, k) :: cs ++ cs') with (((i, k) :: cs) ++ cs'). eapply captured_app; [exact Cp|]. cbn [length]. rewrite Lcs. exact Cp4.
      + right. split.
        { intros j' cs0 X. inversion X as [| | | | | | | |? ? ? k' ? csg csl Xg Xl]; subst. destruct (Ug _ _ Xg) as (-> & ->). exact (Ml _ _ Xl). }
        exists caps4, op, o. split; [rewrite E1, E2, E3, E4; reflexivity|]. split; [easy|]. eapply shape_trans; [exact Sh1|]. eapply shape_trans; [exact Sh2|]. eapply shape_trans; eauto.
    - right. split.
      { intros j' cs0 X. inversion X as [| | | | | | | |? ? ? k' ? csg csl Xg Xl]; subst. exact (Mg _ _ Xg). }
      rewrite app_length in E2. cbn [length] in E2. exists caps2, op, o. split; [rewrite E1, E2; reflexivity|]. split; [easy|]. eapply shape_trans; eauto.
  Qed.
End Run.
