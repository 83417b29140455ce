(** Proofs about regular expressions: matching. *)
From Verif Require Import Base CStr Regex RegexSpec RegexProofs.

(** ** classes and sets *)
Ltac decide_bool := rewrite ?orb_true_iff, ?andb_true_iff, ?Z.eqb_eq, ?Z.leb_le.
Lemma between_iff a c b : between a c b = true <-> a <= c <= b.
Proof. unfold between. decide_bool. lia. Qed.
Lemma word_iff c : word_char c = true <-> 97 <= c <= 122 \/ 65 <= c <= 90 \/ 48 <= c <= 57 \/ c = 95.
Proof. unfold word_char. rewrite !orb_true_iff, !between_iff, Z.eqb_eq. lia. Qed.
Lemma class_ok k c : match_escape c (class_code k) = true <-> in_class k c.
Proof.
  destruct k; cbn [class_code]; unfold match_escape; cbn [Z.eqb Pos.eqb]; cbn [in_class].
  - rewrite found_in. unfold WHITESPACE. cbn [In]. lia.
  - rewrite negb_true_iff, <- not_true_iff_false, found_in. unfold WHITESPACE. cbn [In]. lia.
  - apply between_iff.
  - apply between_iff.
  - apply word_iff.
  - rewrite negb_true_iff, <- not_true_iff_false, word_iff. lia.
  - rewrite found_in. cbn [In]. lia.
  - apply between_iff.
Qed.
Definition entry_ok (e : entry) : Prop := match e with Char c => 0 < c < 256 | Class _ => True end.
Lemma escaped_entry e c : escaped e c -> entry_ok e.
Proof. intros H. destruct (escaped_ok e c H) as (_ & _ & K). destruct e; [cbn; lia|easy]. Qed.
Lemma entries_entry es te : entries es te -> Forall entry_ok es.
Proof. induction 1 as [|c es t C N1 N2 H IH|e c es t E H IH]; constructor; try easy. eapply escaped_entry; eauto. Qed.
Lemma accepts_dec e c : accepts e c \/ ~ accepts e c.
Proof. destruct e as [d|k]; cbn [accepts]; [lia|]. destruct (match_escape c (class_code k)) eqn:E; [left; now apply class_ok|right]. rewrite <- class_ok. congruence. Qed.
Lemma set_loop_ok cin : forall es f b pre post i0 n, Forall entry_ok es -> b = pre ++ flat_map entry_code es ++ post -> (length es < f)%nat -> 0 <= i0 -> i0 <= Z.of_nat (length pre) -> n = i0 + room es ->
  (Exists (fun e => accepts e cin) es /\ exists i, set_loop f b (Z.of_nat (length pre) - i0) n i0 cin = Some (true, i) /\ i < n) \/
  (Forall (fun e => ~ accepts e cin) es /\ set_loop f b (Z.of_nat (length pre) - i0) n i0 cin = Some (false, n)).
Proof.
  induction es as [|e es IH]; intros f b pre post i0 n F B L I0 I1 N; (destruct f as [|f]; [lia|]); cbn [set_loop].
  - right. split; [easy|]. cbn [room fold_right] in N. destruct (Z.ltb_spec i0 n); [lia|]. f_equal. f_equal. lia.
  - inversion F as [|? ? Fe Fs]; subst x l. cbn [room fold_right] in N. fold (room es) in N. pose proof (room_pos es) as R0. cbn [length] in L.
    destruct (Z.ltb_spec i0 n) as [Lt|]; [|destruct e; lia]. replace (Z.of_nat (length pre) - i0 + i0) with (Z.of_nat (length pre)) by lia.
    destruct e as [c|k]; cbn [flat_map entry_code app] in B.
    + rewrite (at_eq b pre c (flat_map entry_code es ++ post)) by easy. cbn [obind entry_ok] in *. rewrite (eqb_no c 0) by lia. destruct (Z.eqb_spec cin c) as [->|Ne].
      * left. split; [now constructor|]. eauto.
      * destruct (IH f b (pre ++ [c]) post (i0 + 1) n) as [(X & i & E & Li)|(X & E)]; try easy; try (rewrite ?app_length; cbn [length]; lia). { now rewrite B, <- app_assoc. }
        { left. split; [now constructor 2|]. exists i. split; [|easy]. rewrite app_length in E. cbn [length] in E. replace (Z.of_nat (length pre + 1) - (i0 + 1)) with (Z.of_nat (length pre) - i0) in E by lia. exact E. }
        { right. split; [now constructor|]. rewrite app_length in E. cbn [length] in E. replace (Z.of_nat (length pre + 1) - (i0 + 1)) with (Z.of_nat (length pre) - i0) in E by lia. exact E. }
    + rewrite (at_eq b pre 0 (class_code k :: flat_map entry_code es ++ post)) by easy. cbn [obind]. change (0 =? 0) with true. cbn match.
      rewrite (at_eq b (pre ++ [0]) (class_code k) (flat_map entry_code es ++ post)); [|now rewrite B, <- app_assoc|rewrite app_length; cbn [length]; lia]. cbn [obind].
      destruct (match_escape cin (class_code k)) eqn:M.
      * left. split; [constructor; now apply class_ok|]. exists (i0 + 1). split; [easy|lia].
      * assert (Nk : ~ accepts (Class k) cin) by (cbn [accepts]; rewrite <- class_ok; congruence).
        destruct (IH f b (pre ++ [0; class_code k]) post (i0 + 2) n) as [(X & i & E & Li)|(X & E)]; try easy; try (rewrite ?app_length; cbn [length]; lia). { now rewrite B, <- app_assoc. }
        { left. split; [now constructor 2|]. exists i. split; [|easy]. rewrite app_length in E. cbn [length] in E. replace (Z.of_nat (length pre + 2) - (i0 + 2)) with (Z.of_nat (length pre) - i0) in E by lia. exact E. }
        { right. split; [now constructor|]. rewrite app_length in E. cbn [length] in E. replace (Z.of_nat (length pre + 2) - (i0 + 2)) with (Z.of_nat (length pre) - i0) in E by lia. exact E. }
Qed.
Lemma room_length es : Z.of_nat (length es) <= room es.
Proof. induction es as [|e es IH]; [cbn; lia|]. cbn [length room fold_right]. fold (room es). destruct e; lia. Qed.
Lemma i8_small n : 0 <= n < 128 -> i8 n = n.
Proof. intros H. unfold i8, sx. change (2 ^ 8) with 256. change (2 ^ (8 - 1)) with 128. cbv zeta. rewrite Z.mod_small by lia. destruct (Z.ltb_spec n 128); [easy|lia]. Qed.

(** ** literals *)
Lemma strncmp_lit : forall w a p q x, Forall (fun c => 0 < c) w -> (length w <= length a)%nat ->
  exists r, strncmp (length w) p q a (w ++ x) = Some r /\ (r = 0 <-> firstn (length w) a = w).
Proof.
  induction w as [|c w IH]; intros a p q x F L; cbn [length strncmp].
  - exists 0. cbn [firstn]. easy.
  - destruct a as [|d a]; cbn [length] in L; [lia|]. inversion F; subst. cbn [rd app nth_error obind]. destruct (Z.eqb_spec d c) as [->|N]; cbn [negb].
    + rewrite (eqb_no c 0) by lia. cbn [tl]. destruct (IH a (p + 1) (q + 1) x) as (r & E & I); [easy|lia|]. exists r. split; [exact E|]. rewrite I. cbn [firstn]. split; intros X; [now rewrite X|injection X as X; easy].
    + exists (if p <? q then -1 else 1). split; [easy|]. cbn [firstn]. split; [destruct (p <? q); easy|]. intros X. injection X. easy.
Qed.

(** ** one item that is not a group *)
Definition simple_ok (x : item) : Prop :=
  match x with
  | Lit w => w <> [] /\ Z.of_nat (length w) < 128 /\ Forall (fun c => 0 < c) w
  | Set_ _ es => Forall entry_ok es /\ room es < 128
  | Esc e => entry_ok e
  | Group _ => False
  | _ => True
  end.
Section Run.
  Context (s after buf : list Z) (max : Z).
  Let mem := s ++ after.
  Let len := Z.of_nat (length s).
  Definition single_spec (x : item) (i : nat) (caps : captures) (out : option (captures * Z * Z)) (opend : Z) : Prop :=
    (exists j, (forall l j' cs, matches s l j j' cs <-> matches s (x :: l) i j' cs) /\ (i <= j <= length s)%nat /\ out = Some (caps, opend, Z.of_nat j)) \/
    ((forall l j' cs, ~ matches s (x :: l) i j' cs) /\ exists op o, out = Some (caps, op, o) /\ (o = -1 \/ len < o)).
  Lemma mem_at i c : nth_error s i = Some c -> at_ mem (Z.of_nat i) = Some c.
  Proof. intros E. unfold at_, mem. destruct (Z.ltb_spec (Z.of_nat i) 0); [lia|]. rewrite Nat2Z.id, nth_error_app1; [easy|]. apply nth_error_Some. congruence. Qed.
  Lemma mem_end : after <> [] -> exists c, at_ mem (Z.of_nat (length s)) = Some c.
  Proof. intros N. destruct after as [|c a] eqn:A; [easy|]. exists c. unfold mem. apply (at_eq _ s c a); reflexivity. Qed.

  Lemma single x n f pre post i caps : simple_ok x -> (looks x = true -> after <> []) -> buf = pre ++ icode n x ++ post -> (i <= length s)%nat ->
    single_spec x i caps (exec_single (S f) buf mem len (Z.of_nat (length pre)) (Z.of_nat i) caps max) (Z.of_nat (length pre + length (icode n x))).
  Proof.
    intros K Lk B Li. unfold single_spec. destruct x as [w| | | |neg es|e|g]; cbn [simple_ok looks] in K, Lk; cbn [icode] in *; [..|easy]; cbn [app] in B; cbn [exec_single].
    - (* literal *)
      destruct K as (Nw & Lw & Fw). rewrite (at_eq buf pre EXACT_MATCH (Z.of_nat (length w) :: w ++ post)) by easy. cbn [obind]. change (EXACT_MATCH =? BEGIN_CAPTURE) with false. change (EXACT_MATCH =? END_CAPTURE) with false. change (EXACT_MATCH =? BEGINNING_OF_LINE) with false. change (EXACT_MATCH =? END_OF_LINE) with false. change (EXACT_MATCH =? BRANCH_START) with false. change (EXACT_MATCH =? BRANCH_END) with false. change (EXACT_MATCH =? ANY) with false. change (EXACT_MATCH =? ANY_OF) with false. change (EXACT_MATCH =? ANY_BUT) with false. change (EXACT_MATCH =? EXACT_MATCH) with true. cbn match.
      rewrite (at_eq buf (pre ++ [EXACT_MATCH]) (Z.of_nat (length w)) (w ++ post)); [|now rewrite B, <- app_assoc|rewrite app_length; cbn [length]; lia]. cbn [obind].
      rewrite i8_small by lia. fold len.
      assert (Iff : forall l j' cs, matches s (Lit w :: l) i j' cs <-> firstn (length w) (skipn i s) = w /\ matches s l (i + length w) j' cs).
      { intros l j' cs. split; [intros H; inversion H; subst; easy|]. intros (A & H). now constructor. }
      destruct (Z.ltb_spec (len - Z.of_nat i) (Z.of_nat (length w))) as [Short|Room].
      + right. split; [|eexists; eexists; split; [reflexivity|now left]]. intros l j' cs H. apply Iff in H. destruct H as (H & _). apply (f_equal (@length Z)) in H. rewrite firstn_length, skipn_length in H. unfold len in *. lia.
      + destruct (Z.leb_spec (Z.of_nat (length w)) 0); [destruct w; [easy|cbn [length] in *; lia]|]. destruct (Z.ltb_spec (Z.of_nat i) 0); [lia|]. rewrite !Nat2Z.id.
        assert (Sb : skipn (Z.to_nat (Z.of_nat (length pre) + 1 + 1)) buf = w ++ post).
        { replace (Z.to_nat (Z.of_nat (length pre) + 1 + 1)) with (length (pre ++ [EXACT_MATCH; Z.of_nat (length w)])) by (rewrite app_length; cbn [length]; lia). rewrite B. change (pre ++ EXACT_MATCH :: Z.of_nat (length w) :: w ++ post) with (pre ++ [EXACT_MATCH; Z.of_nat (length w)] ++ w ++ post). rewrite app_assoc. apply skipn_pre. }
        rewrite Sb. assert (Sm : skipn i mem = skipn i s ++ after) by (unfold mem; rewrite skipn_app; replace (i - length s)%nat with O by lia; reflexivity). rewrite Sm.
        destruct (strncmp_lit w (skipn i s ++ after) 0 1 post) as (r & E & I); [easy|rewrite app_length, skipn_length; unfold len in *; lia|]. rewrite E. cbn [obind].
        rewrite firstn_app in I. replace (length w - length (skipn i s))%nat with O in I by (rewrite skipn_length; unfold len in *; lia). rewrite firstn_O, app_nil_r in I.
        destruct (Z.eqb_spec r 0) as [R|R]; cbn [negb].
        * left. exists (i + length w)%nat. split; [|split; [unfold len in *; lia|]]. { intros l j' cs. rewrite Iff. apply I in R. easy. } { f_equal. f_equal; [f_equal; cbn [length]; lia|lia]. }
        * right. split; [|eexists; eexists; split; [reflexivity|now left]]. intros l j' cs HH. apply Iff in HH. apply R, I. easy.
    - (* any *)
      rewrite (at_eq buf pre ANY post) by easy. cbn [obind]. change (ANY =? BEGIN_CAPTURE) with false. change (ANY =? END_CAPTURE) with false. change (ANY =? BEGINNING_OF_LINE) with false. change (ANY =? END_OF_LINE) with false. change (ANY =? BRANCH_START) with false. change (ANY =? BRANCH_END) with false. change (ANY =? ANY) with true. cbn match.
      destruct (Z.ltb_spec (Z.of_nat i) len) as [L|L]; unfold len in L.
      + left. exists (S i). split; [|split; [lia|f_equal; f_equal; [f_equal; cbn [length]; lia|lia]]]. intros l j' cs. split; [intros H; constructor; [lia|easy]|intros H; inversion H; subst; easy].
      + right. split; [|eexists; eexists; split; [reflexivity|now left]]. intros l j' cs H. inversion H; subst. lia.
    - (* start *)
      rewrite (at_eq buf pre BEGINNING_OF_LINE post) by easy. cbn [obind]. change (BEGINNING_OF_LINE =? BEGIN_CAPTURE) with false. change (BEGINNING_OF_LINE =? END_CAPTURE) with false. change (BEGINNING_OF_LINE =? BEGINNING_OF_LINE) with true. cbn match.
      destruct (Z.eqb_spec (Z.of_nat i) 0) as [L|L].
      + left. exists i. split; [|split; [lia|f_equal; f_equal; f_equal; cbn [length]; lia]]. intros l j' cs. assert (i = O) by lia. subst i. split; [intros H; constructor; easy|intros H; inversion H; subst; easy].
      + right. split; [|eexists; eexists; split; [reflexivity|now left]]. intros l j' cs H. inversion H; subst. lia.
    - (* end *)
      rewrite (at_eq buf pre END_OF_LINE post) by easy. cbn [obind]. change (END_OF_LINE =? BEGIN_CAPTURE) with false. change (END_OF_LINE =? END_CAPTURE) with false. change (END_OF_LINE =? BEGINNING_OF_LINE) with false. change (END_OF_LINE =? END_OF_LINE) with true. cbn match.
      destruct (Z.eqb_spec (Z.of_nat i) len) as [L|L]; unfold len in L.
      + left. exists i. split; [|split; [lia|f_equal; f_equal; f_equal; cbn [length]; lia]]. intros l j' cs. assert (i = length s) by lia. subst i. split; [intros H; constructor; easy|intros H; inversion H; subst; easy].
      + right. split; [|eexists; eexists; split; [reflexivity|now left]]. intros l j' cs H. inversion H; subst. lia.
    - (* sets *)
      destruct K as (Fe & Re_). specialize (Lk eq_refl). pose proof (room_pos es) as R0. pose proof (room_length es) as Rl.
      assert (Cin : exists cin, at_ mem (Z.of_nat i) = Some cin /\ forall c, nth_error s i = Some c -> c = cin).
      { destruct (nth_error s i) as [c|] eqn:E; [exists c; split; [now apply mem_at|congruence]|]. apply nth_error_None in E. replace i with (length s) by lia. destruct (mem_end Lk) as (c & Ec). exists c. split; [easy|]. intros; easy. }
      destruct Cin as (cin & Ci & Cs).
      assert (A1 : at_ buf (Z.of_nat (length pre)) = Some (if neg then ANY_BUT else ANY_OF)) by (now apply (at_eq buf pre _ (room es :: flat_map entry_code es ++ post))).
      assert (A2 : at_ buf (Z.of_nat (length pre) + 1) = Some (room es)) by (apply (at_eq buf (pre ++ [if neg then ANY_BUT else ANY_OF]) _ (flat_map entry_code es ++ post)); [now rewrite B, <- app_assoc|rewrite app_length; cbn [length]; lia]).
      rewrite A1. cbn [obind]. rewrite A2, Ci.
      pose proof (set_loop_ok cin es (S (Z.to_nat (room es))) buf (pre ++ [if neg then ANY_BUT else ANY_OF; room es]) post 0 (room es) Fe) as SL.
      replace (Z.of_nat (length (pre ++ [if neg then ANY_BUT else ANY_OF; room es])) - 0) with (Z.of_nat (length pre) + 1 + 1) in SL by (rewrite app_length; cbn [length]; lia).
      assert (SL' : (Exists (fun e => accepts e cin) es /\ exists k, set_loop (S (Z.to_nat (room es))) buf (Z.of_nat (length pre) + 1 + 1) (room es) 0 cin = Some (true, k) /\ k < room es) \/ (Forall (fun e => ~ accepts e cin) es /\ set_loop (S (Z.to_nat (room es))) buf (Z.of_nat (length pre) + 1 + 1) (room es) 0 cin = Some (false, room es))).
      { apply SL; try lia. now rewrite B, <- app_assoc. } clear SL.
      assert (Lc : Z.of_nat (length pre) + 1 + 1 + room es = Z.of_nat (length pre + length ((if neg then ANY_BUT else ANY_OF) :: room es :: flat_map entry_code es))) by (cbn [length]; rewrite <- (entry_room es); lia).
      destruct neg.
      + change (ANY_BUT =? BEGIN_CAPTURE) with false. change (ANY_BUT =? END_CAPTURE) with false. change (ANY_BUT =? BEGINNING_OF_LINE) with false. change (ANY_BUT =? END_OF_LINE) with false. change (ANY_BUT =? BRANCH_START) with false. change (ANY_BUT =? BRANCH_END) with false. change (ANY_BUT =? ANY) with false. change (ANY_BUT =? ANY_OF) with false. change (ANY_BUT =? ANY_BUT) with true. cbn match. cbn [obind]. rewrite i8_small by lia.
        destruct (Z.leb_spec len (Z.of_nat i)) as [L|L]; unfold len in L.
        { right. split; [|eexists; eexists; split; [reflexivity|now left]]. intros l j' cs H. inversion H as [| | | | | |? c ? ? ? ? Hn Hf Hm| |]; subst. assert (i < length s)%nat by (apply nth_error_Some; congruence). lia. }
        destruct (nth_error s i) as [c|] eqn:Hs; [|apply nth_error_None in Hs; lia]. assert (c = cin) by now apply Cs. subst c.
        destruct SL' as [(X & k & E & Lk')|(X & E)]; rewrite E; cbn [obind].
        * right. split; [|eexists; eexists; split; [reflexivity|now left]]. intros l j' cs H. inversion H as [| | | | | |? c ? ? ? ? Hn Hf Hm| |]; subst. assert (c = cin) by congruence. subst c. rewrite Exists_exists in X. rewrite Forall_forall in Hf. destruct X as (e & I & A). exact (Hf e I A).
        * left. exists (S i). split; [|split; [lia|f_equal; f_equal; [f_equal; exact Lc|lia]]]. intros l j' cs. split; [intros H; econstructor; eauto|intros H; inversion H; subst; easy].
      + change (ANY_OF =? BEGIN_CAPTURE) with false. change (ANY_OF =? END_CAPTURE) with false. change (ANY_OF =? BEGINNING_OF_LINE) with false. change (ANY_OF =? END_OF_LINE) with false. change (ANY_OF =? BRANCH_START) with false. change (ANY_OF =? BRANCH_END) with false. change (ANY_OF =? ANY) with false. change (ANY_OF =? ANY_OF) with true. cbn match. cbn [obind]. rewrite i8_small by lia.
        destruct (Z.leb_spec len (Z.of_nat i)) as [L|L]; unfold len in L.
        { right. split; [|eexists; eexists; split; [reflexivity|now left]]. intros l j' cs H. inversion H as [| | | | |? c ? ? ? ? Hn Hf Hm| | |]; subst. assert (i < length s)%nat by (apply nth_error_Some; congruence). lia. }
        destruct (nth_error s i) as [c|] eqn:Hs; [|apply nth_error_None in Hs; lia]. assert (c = cin) by now apply Cs. subst c.
        destruct SL' as [(X & k & E & Lk')|(X & E)]; rewrite E; cbn [obind].
        * left. rewrite (eqb_no k (room es)) by lia. exists (S i). split; [|split; [lia|f_equal; f_equal; [f_equal; exact Lc|lia]]]. intros l j' cs. split; [intros H; econstructor; eauto|intros H; inversion H; subst; easy].
        * right. rewrite Z.eqb_refl. split; [|eexists; eexists; split; [reflexivity|now left]]. intros l j' cs H. inversion H as [| | | | |? c ? ? ? ? Hn Hf Hm| | |]; subst. assert (c = cin) by congruence. subst c. rewrite Exists_exists in Hf. rewrite Forall_forall in X. destruct Hf as (e & I & A). exact (X e I A).
    - (* escapes *)
      specialize (Lk eq_refl).
      assert (Cin : exists cin, at_ mem (Z.of_nat i) = Some cin /\ forall c, nth_error s i = Some c -> c = cin).
      { destruct (nth_error s i) as [c|] eqn:E; [exists c; split; [now apply mem_at|congruence]|]. apply nth_error_None in E. replace i with (length s) by lia. destruct (mem_end Lk) as (c & Ec). exists c. split; [easy|]. intros; easy. }
      destruct Cin as (cin & Ci & Cs).
      rewrite (at_eq buf pre META_MATCH (entry_code e ++ post)) by easy. cbn [obind]. change (META_MATCH =? BEGIN_CAPTURE) with false. change (META_MATCH =? END_CAPTURE) with false. change (META_MATCH =? BEGINNING_OF_LINE) with false. change (META_MATCH =? END_OF_LINE) with false. change (META_MATCH =? BRANCH_START) with false. change (META_MATCH =? BRANCH_END) with false. change (META_MATCH =? ANY) with false. change (META_MATCH =? ANY_OF) with false. change (META_MATCH =? ANY_BUT) with false. change (META_MATCH =? EXACT_MATCH) with false. change (META_MATCH =? META_MATCH) with true. cbn match.
      assert (Iff : forall l j' cs, matches s (Esc e :: l) i j' cs <-> (i < length s)%nat /\ accepts e cin /\ matches s l (S i) j' cs).
      { intros l j' cs. split.
        - intros H. inversion H as [| | | | | | |? c ? ? ? ? Hn Ha Hm|]; subst. rewrite <- (Cs c Hn). split; [apply nth_error_Some; congruence|easy].
        - intros (L & A & H). destruct (nth_error s i) as [c|] eqn:Hs; [|apply nth_error_None in Hs; lia]. rewrite <- (Cs c eq_refl) in A. econstructor; eauto. }
      assert (Good : forall opend, accepts e cin -> opend = Z.of_nat (length pre + length (META_MATCH :: entry_code e)) -> 
        (exists j, (forall l j' cs, matches s l j j' cs <-> matches s (Esc e :: l) i j' cs) /\ (i <= j <= length s)%nat /\ Some (caps, opend, Z.of_nat i + 1) = Some (caps, Z.of_nat (length pre + length (META_MATCH :: entry_code e)), Z.of_nat j)) \/
        ((forall l j' cs, ~ matches s (Esc e :: l) i j' cs) /\ exists op o, Some (caps, opend, Z.of_nat i + 1) = Some (caps, op, o) /\ (o = -1 \/ len < o))).
      { intros opend A ->. destruct (Nat.ltb_spec i (length s)) as [L|L].
        - left. exists (S i). split; [|split; [lia|f_equal; f_equal; lia]]. intros l j' cs. rewrite Iff. easy.
        - right. split; [intros l j' cs H; apply Iff in H; lia|]. eexists; eexists; split; [reflexivity|]. right. unfold len. lia. }
      assert (Bad : forall op, ~ accepts e cin -> (exists j, (forall l j' cs, matches s l j j' cs <-> matches s (Esc e :: l) i j' cs) /\ (i <= j <= length s)%nat /\ Some (caps, op, NO_MATCH) = Some (caps, Z.of_nat (length pre + length (META_MATCH :: entry_code e)), Z.of_nat j)) \/
        ((forall l j' cs, ~ matches s (Esc e :: l) i j' cs) /\ exists op' o, Some (caps, op, NO_MATCH) = Some (caps, op', o) /\ (o = -1 \/ len < o))).
      { intros op N. right. split; [intros l j' cs H; apply Iff in H; apply N; apply H|]. eexists; eexists; split; [reflexivity|now left]. }
      destruct e as [d|k]; cbn [entry_code app] in B.
      + cbn [simple_ok entry_ok] in K. rewrite (at_eq buf (pre ++ [META_MATCH]) d post); [|now rewrite B, <- app_assoc|rewrite app_length; cbn [length]; lia]. cbn [obind]. rewrite Ci. cbn [obind]. rewrite (eqb_no d 0) by lia.
        destruct (Z.eqb_spec d cin) as [E|E]; [apply Good; [easy|cbn [entry_code length]; lia]|apply Bad; cbn [accepts]; congruence].
      + rewrite (at_eq buf (pre ++ [META_MATCH]) 0 (class_code k :: post)); [|now rewrite B, <- app_assoc|rewrite app_length; cbn [length]; lia]. cbn [obind]. rewrite Ci. cbn [obind]. change (0 =? 0) with true. cbn match.
        rewrite (at_eq buf (pre ++ [META_MATCH; 0]) (class_code k) post); [|now rewrite B, <- app_assoc|rewrite app_length; cbn [length]; lia]. cbn [obind].
        destruct (match_escape cin (class_code k)) eqn:M; [apply Good; [now apply class_ok|cbn [entry_code length]; lia]|apply Bad; cbn [accepts]; rewrite <- class_ok; congruence].
  Qed.
End Run.
