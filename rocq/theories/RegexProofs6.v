(** Proofs about regular expressions: branches, repetitions and the rest that does not work. *)
From Verif Require Import Base CStr Regex RegexSpec RegexProofs RegexProofs2 RegexProofs3 RegexProofs4.

Lemma plain_spells w : plain w -> Z.of_nat (length w) < 128 -> spells [Lit w] w.
Proof. intros (N & F) L. rewrite <- (app_nil_r w) at 2. constructor; try easy. constructor. Qed.
Lemma plain_pos w : plain w -> Forall (fun c => 0 < c) w.
Proof. intros (_ & F). eapply Forall_impl; [|exact F]. cbn beta. intros; lia. Qed.
Lemma plain_length w : plain w -> (0 < length w)%nat.
Proof. intros (N & _). destruct w; [easy|cbn; lia]. Qed.
Lemma fuel_large buf len k : 0 <= len -> (k <= 24 -> exists f, exec_fuel buf len = k + f)%nat.
Proof. intros L K. exists (exec_fuel buf len - k)%nat. unfold exec_fuel. nia. Qed.
Lemma occurs_room w s i : occurs w s i -> (i <= length s)%nat -> (i + length w <= length s)%nat.
Proof. unfold occurs. intros E L. apply (f_equal (@length Z)) in E. rewrite firstn_length, skipn_length in E. lia. Qed.
Lemma occurs_app x y s i : occurs (x ++ y) s i <-> occurs x s i /\ occurs y s (i + length x).
Proof.
  unfold occurs. rewrite app_length. assert (Sk : forall n (u : list Z), skipn (n + i) u = skipn n (skipn i u)).
  { intros n u. rewrite Nat.add_comm. revert u. induction i as [|i IH]; intros u; [reflexivity|]. destruct u as [|a u]; [cbn; now rewrite !skipn_nil|]. cbn [Nat.add skipn]. apply IH. }
  rewrite (Nat.add_comm i). rewrite Sk. set (u := skipn i s). clearbody u. clear Sk. revert u. induction x as [|c x IH]; intros u; cbn [length Nat.add app].
  - cbn [firstn skipn]. tauto.
  - destruct u as [|d u]; cbn [firstn skipn]. { split; [easy|]. intros (A & _). easy. }
    specialize (IH u). split.
    + intros E. injection E as -> E. destruct (proj1 IH E) as (A & B). split; [now rewrite A|easy].
    + intros (A & B). injection A as -> A. f_equal. apply IH. easy.
Qed.

Section Lits.
  Context (s after buf : list Z) (max : Z) (caps : captures).
  Let mem := s ++ after.
  Let len := Z.of_nat (length s).
  Lemma single_lit w f pre post i : plain w -> Z.of_nat (length w) < 128 -> buf = pre ++ (EXACT_MATCH :: Z.of_nat (length w) :: w) ++ post -> (i <= length s)%nat ->
    (occurs w s i /\ exec_single (S f) buf mem len (Z.of_nat (length pre)) (Z.of_nat i) caps max = Some (caps, Z.of_nat (length pre + 2 + length w), Z.of_nat (i + length w))) \/
    (~ occurs w s i /\ exec_single (S f) buf mem len (Z.of_nat (length pre)) (Z.of_nat i) caps max = Some (caps, Z.of_nat (length pre + 2 + length w), -1)).
  Proof.
    intros Pw Lw B Li. cbn [app] in B. pose proof (plain_length w Pw) as Pl. cbn [exec_single].
    rewrite (at_eq buf pre EXACT_MATCH (Z.of_nat (length w) :: w ++ post)) by easy. cbn [obind]. change (EXACT_MATCH =? BEGIN_CAPTURE) with false. change (EXACT_MATCH =? END_CAPTURE) with false. change (EXACT_MATCH =? BEGINNING_OF_LINE) with false. change (EXACT_MATCH =? END_OF_LINE) with false. change (EXACT_MATCH =? BRANCH_START) with false. change (EXACT_MATCH =? BRANCH_END) with false. change (EXACT_MATCH =? ANY) with false. change (EXACT_MATCH =? ANY_OF) with false. change (EXACT_MATCH =? ANY_BUT) with false. change (EXACT_MATCH =? EXACT_MATCH) with true. cbn match.
    rewrite (at_eq buf (pre ++ [EXACT_MATCH]) (Z.of_nat (length w)) (w ++ post)); [|now rewrite B, <- app_assoc|rewrite app_length; cbn [length]; lia]. cbn [obind]. rewrite i8_small by lia.
    replace (Z.of_nat (length pre) + 1 + 1 + Z.of_nat (length w)) with (Z.of_nat (length pre + 2 + length w)) by lia.
    destruct (Z.ltb_spec (len - Z.of_nat i) (Z.of_nat (length w))) as [Short|Room].
    - right. split; [intros O; apply occurs_room in O; unfold len in *; lia|reflexivity].
    - destruct (Z.leb_spec (Z.of_nat (length w)) 0); [lia|]. destruct (Z.ltb_spec (Z.of_nat i) 0); [lia|]. rewrite !Nat2Z.id.
      assert (Sb : skipn (Z.to_nat (Z.of_nat (length pre) + 1 + 1)) buf = w ++ post).
      { replace (Z.to_nat (Z.of_nat (length pre) + 1 + 1)) with (length (pre ++ [EXACT_MATCH; Z.of_nat (length w)])) by (rewrite app_length; cbn [length]; lia). rewrite B. change (pre ++ EXACT_MATCH :: Z.of_nat (length w) :: w ++ post) with (pre ++ [EXACT_MATCH; Z.of_nat (length w)] ++ w ++ post). rewrite app_assoc. apply skipn_pre. }
      rewrite Sb. assert (Sm : skipn i mem = skipn i s ++ after) by (unfold mem; rewrite skipn_app; replace (i - length s)%nat with O by lia; reflexivity). rewrite Sm.
      destruct (strncmp_lit w (skipn i s ++ after) 0 1 post) as (r & E & I); [now apply plain_pos|rewrite app_length, skipn_length; unfold len in *; lia|]. rewrite E. cbn [obind].
      rewrite firstn_app in I. replace (length w - length (skipn i s))%nat with O in I by (rewrite skipn_length; unfold len in *; lia). rewrite firstn_O, app_nil_r in I. fold (occurs w s i) in I.
      destruct (Z.eqb_spec r 0) as [R|R]; cbn [negb].
      + left. split; [now apply I|]. f_equal. f_equal. lia.
      + right. split; [intros O; now apply R, I|reflexivity].
  Qed.
  Lemma exec_step f op o caps' op' o' c0 : op < Z.of_nat (length buf) -> exec_single (pred f) buf mem len op o c0 max = Some (caps', op', o') -> (1 <= f)%nat -> o' <= len -> o' <> -1 ->
    exec f buf mem len op o c0 max = exec (pred f) buf mem len op' o' caps' max.
  Proof.
    intros L E F O N. destruct f as [|f]; [lia|]. cbn [exec pred] in *. destruct (Z.ltb_spec op (Z.of_nat (length buf))) as [_|X]; [|lia]. rewrite E. cbn [obind].
    destruct (Z.ltb_spec len o') as [X|_]; [lia|]. rewrite (eqb_no o' (-1)) by easy. reflexivity.
  Qed.
  Lemma exec_stop f op o caps' op' c0 : op < Z.of_nat (length buf) -> exec_single (pred f) buf mem len op o c0 max = Some (caps', op', -1) -> (1 <= f)%nat ->
    exec f buf mem len op o c0 max = Some (caps', op', -1).
  Proof.
    intros L E F. destruct f as [|f]; [lia|]. cbn [exec pred] in *. destruct (Z.ltb_spec op (Z.of_nat (length buf))) as [_|X]; [|lia]. rewrite E. cbn [obind]. change (-1 =? -1) with true. now rewrite orb_true_r.
  Qed.
  Lemma exec_none f op o c0 : op < Z.of_nat (length buf) -> exec_single (pred f) buf mem len op o c0 max = None -> exec f buf mem len op o c0 max = None.
  Proof. intros L E. destruct f as [|f]; [easy|]. cbn [exec pred] in *. destruct (Z.ltb_spec op (Z.of_nat (length buf))) as [_|X]; [|lia]. rewrite E. reflexivity. Qed.
  Lemma single_branch f op o c0 skip r op' o' : at_ buf op = Some BRANCH_START -> at_ buf (op + 1) = Some skip -> exec (pred f) buf mem len (op + 2) o c0 max = Some (r, op', o') -> (1 <= f)%nat -> o' <= len ->
    exec_single f buf mem len op o c0 max = Some (r, op', o').
  Proof.
    intros A1 A2 E F L. destruct f as [|f]; [lia|]. cbn [exec_single pred] in *. rewrite A1. cbn [obind]. change (BRANCH_START =? BEGIN_CAPTURE) with false. change (BRANCH_START =? END_CAPTURE) with false. change (BRANCH_START =? BEGINNING_OF_LINE) with false. change (BRANCH_START =? END_OF_LINE) with false. change (BRANCH_START =? BRANCH_START) with true. cbn match.
    rewrite A2. cbn [obind]. replace (op + 1 + 1) with (op + 2) by lia. rewrite E. cbn [obind]. destruct (Z.leb_spec o' len) as [_|X]; [reflexivity|lia].
  Qed.
  Lemma single_branch_end f op o c0 skip : at_ buf op = Some BRANCH_END -> at_ buf (op + 1) = Some skip -> (1 <= f)%nat -> exec_single f buf mem len op o c0 max = Some (c0, op + 2 + i8 skip, o).
  Proof.
    intros A1 A2 F. destruct f as [|f]; [lia|]. cbn [exec_single]. rewrite A1. cbn [obind]. change (BRANCH_END =? BEGIN_CAPTURE) with false. change (BRANCH_END =? END_CAPTURE) with false. change (BRANCH_END =? BEGINNING_OF_LINE) with false. change (BRANCH_END =? END_OF_LINE) with false. change (BRANCH_END =? BRANCH_START) with false. change (BRANCH_END =? BRANCH_END) with true. cbn match.
    rewrite A2. cbn [obind]. replace (op + 1 + 1) with (op + 2) by lia. reflexivity.
  Qed.
  Lemma exec_lit w f pre post i : plain w -> Z.of_nat (length w) < 128 -> buf = pre ++ (EXACT_MATCH :: Z.of_nat (length w) :: w) ++ post -> (i <= length s)%nat -> (2 <= f)%nat ->
    (occurs w s i /\ exec f buf mem len (Z.of_nat (length pre)) (Z.of_nat i) caps max = exec (pred f) buf mem len (Z.of_nat (length pre + 2 + length w)) (Z.of_nat (i + length w)) caps max) \/
    (~ occurs w s i /\ exec f buf mem len (Z.of_nat (length pre)) (Z.of_nat i) caps max = Some (caps, Z.of_nat (length pre + 2 + length w), -1)).
  Proof.
    intros Pw Lw B Li F. assert (Lb : Z.of_nat (length pre) < Z.of_nat (length buf)) by (rewrite B, !app_length; cbn [length]; lia).
    destruct f as [|[|f]]; [lia..|]. destruct (single_lit w f pre post i Pw Lw B Li) as [(O & E)|(O & E)].
    - left. split; [easy|]. pose proof (occurs_room _ _ _ O Li). apply exec_step; [easy|exact E|lia|unfold len; lia|lia].
    - right. split; [easy|]. apply exec_stop; [easy|exact E|lia].
  Qed.
  Lemma exec_done f op o : Z.of_nat (length buf) <= op -> (1 <= f)%nat -> exec f buf mem len op o caps max = Some (caps, op, o).
  Proof. intros L F. destruct f as [|f]; [lia|]. cbn [exec]. destruct (Z.ltb_spec op (Z.of_nat (length buf))); [lia|reflexivity]. Qed.
  Lemma search (P : nat -> nat -> Prop) :
    (forall i, (i <= length s)%nat -> (exists j op, P i j /\ (j <= length s)%nat /\ exec (exec_fuel buf len) buf mem len 0 (Z.of_nat i) caps max = Some (caps, op, Z.of_nat j)) \/
                                      ((forall j, ~ P i j) /\ exists op, exec (exec_fuel buf len) buf mem len 0 (Z.of_nat i) caps max = Some (caps, op, -1))) ->
    forall n i, (i + n <= S (length s))%nat ->
    (exists i' j, (i <= i' < i + n)%nat /\ P i' j /\ (forall x y, (i <= x < i')%nat -> ~ P x y) /\ match_from n buf mem len (Z.of_nat i) caps max = Some (caps, true, Some (Z.of_nat j))) \/
    ((forall x y, (i <= x < i + n)%nat -> ~ P x y) /\ match_from n buf mem len (Z.of_nat i) caps max = Some (caps, false, None)).
  Proof.
    intros H. induction n as [|n IH]; intros i L; cbn [match_from]. { right. split; [lia|easy]. }
    destruct (H i ltac:(lia)) as [(j & op & Pj & Lj & E)|(N & op & E)]; rewrite E; cbn [obind].
    - left. exists i, j. split; [lia|]. split; [easy|]. split; [lia|]. destruct (Z.leb_spec 0 (Z.of_nat j)); [|lia]. destruct (Z.leb_spec (Z.of_nat j) len) as [_|X]; [|unfold len in X; lia]. reflexivity.
    - cbn [Z.leb Z.compare andb]. change (-1 =? INTERNAL_FAILURE) with false. cbn match. replace (Z.of_nat i + 1) with (Z.of_nat (S i)) by lia.
      destruct (IH (S i) ltac:(lia)) as [(i' & j & Li & Pj & F & E')|(F & E')]; rewrite E'.
      + left. exists i', j. split; [lia|]. split; [easy|]. split; [|easy]. intros x y Lx. destruct (Nat.eq_dec x i) as [->|]; [apply N|apply F; lia].
      + right. split; [|easy]. intros x y Lx. destruct (Nat.eq_dec x i) as [->|]; [apply N|apply F; lia].
  Qed.
End Lits.

(** ** branches *)
Definition branch_code (x y : list Z) (skip : Z) : list Z :=
  [BRANCH_START; Z.of_nat (length x) + 4; EXACT_MATCH; Z.of_nat (length x)] ++ x ++ [BRANCH_END; skip; EXACT_MATCH; Z.of_nat (length y)] ++ y.
Lemma compile_branch x y f post : plain x -> plain y -> Z.of_nat (length x) < 128 -> Z.of_nat (length y) < 128 -> (length x + length y + 1 < f)%nat ->
  exists r, compile f (x ++ 124 :: y ++ post) (Z.of_nat (length x + 1 + length y)) = Some (r, ReNone, false) /\ buf r = branch_code x y 0.
Proof.
  intros Px Py Lx Ly F. unfold compile, parse. set (p := x ++ 124 :: y ++ post). set (len := Z.of_nat (length x + 1 + length y)). set (r0 := Re 0 [] (len + 128) true). change (buf_len r0) with 0.
  assert (Ap : at_ p (Z.of_nat (length x)) = Some 124) by apply at_mid.
  assert (Lp : len <= Z.of_nat (length p)) by (unfold p, len; rewrite app_length; cbn [length]; rewrite app_length; lia).
  destruct (parse_spells [Lit x] x (plain_spells x Px Lx) f r0 p [] (124 :: y ++ post) len 0 0 0 (-1)) as (f1 & r1 & last1 & E1 & F1 & B1 & C1 & D1);
    try easy; try (cbn [length Nat.add capture_count group_count fold_right groups]; unfold len; lia).
  { right. cbn [length Nat.add]. split; [unfold len; lia|]. exists 124. split; [exact Ap|cbn; tauto]. }
  cbn [length Nat.add] in E1. change (Z.of_nat 0) with 0 in E1. rewrite E1. destruct f1 as [|f1]; [lia|]. cbn [parse_loop].
  destruct (Z.ltb_spec (Z.of_nat (length x)) len) as [_|X]; [|unfold len in X; lia]. rewrite Ap. cbn [obind].
  change (124 =? 94) with false. change (124 =? 36) with false. change (124 =? 40) with false. change (124 =? 41) with false. change (124 =? 91) with false. change (124 =? 124) with true. cbn match.
  cbn [r0 capture_count buf app code icode Z.to_nat] in B1. rewrite app_nil_r in B1.
  assert (Bl : buf_len r1 = Z.of_nat (length x) + 2) by (unfold buf_len; rewrite B1; cbn [length]; lia). rewrite Bl.
  destruct (Z.leb_spec (Z.of_nat (length x) + 2) 0); [lia|].
  destruct (emit_bytes r1 [0; 0; BRANCH_END; 0] D1) as (r2 & E2 & B2 & C2 & D2). { repeat constructor; cbv; congruence. } rewrite E2. cbn [Z.to_nat skipn firstn app].
  set (r3 := with_buf r2 _). set (pre := x ++ [124]). assert (Lpre : length pre = (length x + 1)%nat) by (unfold pre; rewrite app_length; reflexivity).
  replace (Z.of_nat (length x) + 1) with (Z.of_nat (length pre)) by lia.
  destruct (parse_spells [Lit y] y (plain_spells y Py Ly) f1 r3 p pre post len 0 last1 0 (buf_len r3 - 2)) as (f2 & r4 & last2 & E4 & F4 & B4 & C4 & D4);
    try easy; try (rewrite ?Lpre; unfold len; lia).
  { unfold p, pre. now rewrite <- app_assoc. } { left. rewrite Lpre. reflexivity. } { unfold r3. cbn [with_buf capture_count]. rewrite C2, C1. cbn. lia. } { unfold r3. cbn [with_buf capture_count]. rewrite C2, C1. cbn. lia. }
  rewrite E4. destruct f2 as [|f2]; [lia|]. cbn [parse_loop]. rewrite Lpre. fold len. rewrite Z.ltb_irrefl. cbn [obind]. rewrite Z.eqb_refl. cbn [negb]. exists r4. split; [reflexivity|].
  rewrite B4. unfold r3. cbn [with_buf buf code icode app]. rewrite app_nil_r, B1. unfold branch_code. cbn [app]. f_equal. f_equal; [rewrite Z.mod_small; lia|]. rewrite <- !app_assoc. reflexivity.
Qed.
Lemma fuel_ok buf len : (24 <= exec_fuel buf len)%nat.
Proof. unfold exec_fuel. nia. Qed.
Lemma branch_body x y s after caps max i f skip : let b := branch_code x y skip in plain x -> plain y -> Z.of_nat (length x) < 128 -> Z.of_nat (length y) < 128 -> (i <= length s)%nat -> (6 <= f)%nat -> skip = 0 ->
  (occurs (x ++ y) s i /\ exec f b (s ++ after) (Z.of_nat (length s)) 2 (Z.of_nat i) caps max = Some (caps, Z.of_nat (length b), Z.of_nat (i + length x + length y))) \/
  (~ occurs (x ++ y) s i /\ exists op, exec f b (s ++ after) (Z.of_nat (length s)) 2 (Z.of_nat i) caps max = Some (caps, op, -1)).
Proof.
  intros b Px Py Lx Ly Li F Sk.
  assert (Lb : length b = (8 + length x + length y)%nat) by (unfold b, branch_code; rewrite !app_length; cbn [length]; lia).
  assert (B1 : b = [BRANCH_START; Z.of_nat (length x) + 4] ++ (EXACT_MATCH :: Z.of_nat (length x) :: x) ++ [BRANCH_END; skip; EXACT_MATCH; Z.of_nat (length y)] ++ y) by (unfold b, branch_code; cbn [app]; reflexivity).
  set (pre2 := [BRANCH_START; Z.of_nat (length x) + 4; EXACT_MATCH; Z.of_nat (length x)] ++ x ++ [BRANCH_END; skip]).
  assert (Lp2 : length pre2 = (6 + length x)%nat) by (unfold pre2; rewrite !app_length; cbn [length]; lia).
  assert (B2 : b = pre2 ++ (EXACT_MATCH :: Z.of_nat (length y) :: y) ++ []) by (unfold b, branch_code, pre2; cbn [app]; rewrite app_nil_r, <- !app_assoc; reflexivity).
  set (q := [BRANCH_START; Z.of_nat (length x) + 4; EXACT_MATCH; Z.of_nat (length x)] ++ x). assert (Lq : length q = (4 + length x)%nat) by (unfold q; rewrite app_length; cbn [length]; lia).
  assert (A1 : at_ b (Z.of_nat (length q)) = Some BRANCH_END) by (apply (at_eq b q BRANCH_END ([skip; EXACT_MATCH; Z.of_nat (length y)] ++ y)); [unfold b, branch_code, q; rewrite <- app_assoc; reflexivity|easy]).
  assert (A2 : at_ b (Z.of_nat (length q) + 1) = Some skip) by (apply (at_eq b (q ++ [BRANCH_END]) skip ([EXACT_MATCH; Z.of_nat (length y)] ++ y)); [unfold b, branch_code, q; rewrite <- !app_assoc; reflexivity|rewrite app_length; cbn [length]; lia]).
  clearbody b q pre2.
  destruct (exec_lit s after b max caps x f [BRANCH_START; Z.of_nat (length x) + 4] _ i Px Lx B1 Li ltac:(lia)) as [(O & E)|(O & E)]; cbn [length] in E; change (Z.of_nat 2) with 2 in E; rewrite E.
  2: { right. split; [rewrite occurs_app; tauto|eexists; reflexivity]. }
  pose proof (occurs_room _ _ _ O Li) as Lr. replace (2 + 2 + length x)%nat with (length q) by lia.
  rewrite (exec_step s after b max (pred f) (Z.of_nat (length q)) (Z.of_nat (i + length x)) caps (Z.of_nat (length pre2)) (Z.of_nat (i + length x)) caps); [|lia| |lia|lia|lia].
  2: { rewrite (single_branch_end s after b max (pred (pred f)) (Z.of_nat (length q)) _ caps skip A1 A2) by lia. rewrite Sk. change (i8 0) with 0. f_equal. f_equal. f_equal. lia. }
  destruct (exec_lit s after b max caps y (pred (pred f)) pre2 [] (i + length x) Py Ly B2 Lr ltac:(lia)) as [(O2 & E2)|(O2 & E2)]; rewrite E2.
  - left. split; [apply <- occurs_app; split; assumption|]. rewrite (exec_done s after b max caps) by lia. f_equal. f_equal. f_equal. lia.
  - right. split; [rewrite occurs_app; tauto|eexists; reflexivity].
Qed.
Lemma branch_try x y s after caps max i : plain x -> plain y -> Z.of_nat (length x) < 128 -> Z.of_nat (length y) < 128 -> (i <= length s)%nat ->
  let b := branch_code x y 0 in
  (exists j op, (occurs (x ++ y) s i /\ j = (i + length x + length y)%nat) /\ (j <= length s)%nat /\ exec (exec_fuel b (Z.of_nat (length s))) b (s ++ after) (Z.of_nat (length s)) 0 (Z.of_nat i) caps max = Some (caps, op, Z.of_nat j)) \/
  ((forall j, ~ (occurs (x ++ y) s i /\ j = (i + length x + length y)%nat)) /\ exists op, exec (exec_fuel b (Z.of_nat (length s))) b (s ++ after) (Z.of_nat (length s)) 0 (Z.of_nat i) caps max = Some (caps, op, -1)).
Proof.
  intros Px Py Lx Ly Li b. pose proof (fuel_ok b (Z.of_nat (length s))) as F. set (f := exec_fuel b (Z.of_nat (length s))) in *. clearbody f.
  assert (Lb : length b = (8 + length x + length y)%nat) by (unfold b, branch_code; rewrite !app_length; cbn [length]; lia).
  assert (A1 : at_ b 0 = Some BRANCH_START) by reflexivity. assert (A2 : at_ b (0 + 1) = Some (Z.of_nat (length x) + 4)) by reflexivity.
  pose proof (branch_body x y s after caps max i (pred (pred f)) 0 Px Py Lx Ly Li ltac:(lia) eq_refl) as Body. fold b in Body. clearbody b.
  destruct Body as [(O & E)|(O & op & E)].
  - left. assert (Lj : (i + length (x ++ y) <= length s)%nat) by now apply occurs_room. rewrite app_length in Lj. exists (i + length x + length y)%nat. eexists. split; [easy|]. split; [lia|].
    rewrite (exec_step s after b max f 0 (Z.of_nat i) caps (Z.of_nat (length b)) (Z.of_nat (i + length x + length y)) caps); [|lia| |lia|lia|lia].
    2: { apply (single_branch s after b max (pred f) 0 (Z.of_nat i) caps _ _ _ _ A1 A2 E); lia. }
    rewrite (exec_done s after b max caps) by lia. reflexivity.
  - right. split; [tauto|]. exists op. apply exec_stop; [lia| |lia]. apply (single_branch s after b max (pred f) 0 (Z.of_nat i) caps _ _ _ _ A1 A2 E); lia.
Qed.
Lemma branch_match x y s after caps max : plain x -> plain y -> Z.of_nat (length x) < 128 -> Z.of_nat (length y) < 128 ->
  exists b o, re_match (branch_code x y 0) (s ++ after) (Z.of_nat (length s)) caps max = Some (caps, b, o) /\ (b = true <-> exists i, (i <= length s)%nat /\ occurs (x ++ y) s i).
Proof.
  intros Px Py Lx Ly. change (re_match (branch_code x y 0) (s ++ after) (Z.of_nat (length s)) caps max) with (match_from (Z.to_nat (Z.of_nat (length s))) (branch_code x y 0) (s ++ after) (Z.of_nat (length s)) (Z.of_nat 0) caps max).
  rewrite Nat2Z.id. destruct (search s after (branch_code x y 0) max caps _ (fun i Li => branch_try x y s after caps max i Px Py Lx Ly Li) (length s) 0 ltac:(lia)) as [(i & j & Li & (O & _) & _ & E)|(N & E)]; rewrite E.
  - exists true. eexists. split; [reflexivity|]. split; [|easy]. intros _. exists i. split; [lia|easy].
  - exists false, None. split; [reflexivity|]. split; [easy|]. intros (i & Li & O). exfalso. pose proof (occurs_room _ _ _ O Li) as R. rewrite app_length in R. pose proof (plain_length x Px). apply (N i (i + length x + length y)%nat); [lia|easy].
Qed.
(** ** branches in a group *)
Lemma put_mid (a : list Z) v0 b v i : i = Z.of_nat (length a) -> put (a ++ v0 :: b) i v = Some (a ++ v :: b).
Proof.
  intros ->. unfold put. assert (T : (0 <=? Z.of_nat (length a)) && (Z.of_nat (length a) <? Z.of_nat (length (a ++ v0 :: b))) = true) by (rewrite andb_true_iff, Z.leb_le, Z.ltb_lt, app_length; cbn [length]; lia). rewrite T, Nat2Z.id.
  f_equal. rewrite firstn_pre. f_equal. f_equal. change (a ++ v0 :: b) with (a ++ [v0] ++ b). rewrite app_assoc. replace (S (length a)) with (length (a ++ [v0])) by (rewrite app_length; cbn; lia). apply skipn_pre.
Qed.
Definition group_branch_code (x y : list Z) : list Z := [BEGIN_CAPTURE; 0] ++ branch_code x y (Z.of_nat (length y) + 2) ++ [END_CAPTURE; 0].
Lemma compile_group_branch x y f post : plain x -> plain y -> Z.of_nat (length x) < 128 -> Z.of_nat (length y) < 128 -> (length x + length y + 4 < f)%nat ->
  exists r, compile f (40 :: x ++ 124 :: y ++ 41 :: post) (Z.of_nat (length x + length y + 3)) = Some (r, ReNone, false) /\ buf r = group_branch_code x y /\ capture_count r = 1.
Proof.
  intros Px Py Lx Ly F. unfold compile, parse. set (p := 40 :: x ++ 124 :: y ++ 41 :: post). set (len := Z.of_nat (length x + length y + 3)). set (r0 := Re 0 [] (len + 128) true). change (buf_len r0) with 0.
  assert (Lp : len <= Z.of_nat (length p)) by (unfold p, len; cbn [length]; rewrite app_length; cbn [length]; rewrite app_length; cbn [length]; lia).
  destruct f as [|f]; [lia|]. cbn [parse_loop]. destruct (Z.ltb_spec 0 len) as [_|X]; [|unfold len in X; lia]. change (at_ p 0) with (Some 40). cbn [obind].
  change (40 =? 94) with false. change (40 =? 36) with false. change (40 =? 40) with true. cbn match.
  set (r1 := Re (capture_count r0 + 1) (buf r0) (cap r0) (can_realloc r0)).
  destruct (emit_bytes r1 [BEGIN_CAPTURE; capture_count r0] eq_refl) as (r2 & E2 & B2 & C2 & D2). { repeat constructor; cbv; congruence. } rewrite E2. cbn [r1 r0 buf app capture_count] in B2, C2.
  assert (Bl2 : buf_len r2 = 2) by (unfold buf_len; now rewrite B2). rewrite Bl2.
  set (p1 := 40 :: x). assert (Lp1 : length p1 = (1 + length x)%nat) by reflexivity.
  assert (Ap : at_ p (Z.of_nat (length p1)) = Some 124) by (apply (at_eq p p1 124 (y ++ 41 :: post)); reflexivity).
  destruct (parse_spells [Lit x] x (plain_spells x Px Lx) f r2 p [40] (124 :: y ++ 41 :: post) len (0 + 1) 2 2 (-1)) as (f1 & r3 & last1 & E3 & F3 & B3 & C3 & D3);
    try easy; try (rewrite ?C2; cbn [length Nat.add capture_count group_count fold_right groups]; unfold len; lia).
  { right. cbn [length Nat.add]. split; [unfold len; lia|]. exists 124. split; [exact Ap|cbn; tauto]. }
  cbn [length] in E3. change (Z.of_nat 1) with (0 + 1) in E3. rewrite E3. destruct f1 as [|f1]; [lia|]. cbn [parse_loop].
  change (Z.of_nat (1 + length x)) with (Z.of_nat (length p1)).
  destruct (Z.ltb_spec (Z.of_nat (length p1)) len) as [_|X]; [|unfold len in X; lia]. rewrite Ap. cbn [obind].
  change (124 =? 94) with false. change (124 =? 36) with false. change (124 =? 40) with false. change (124 =? 41) with false. change (124 =? 91) with false. change (124 =? 124) with true. cbn match.
  rewrite B2 in B3. cbn [app code icode] in B3. rewrite app_nil_r in B3.
  assert (Bl : buf_len r3 = Z.of_nat (length x) + 4) by (unfold buf_len; rewrite B3; cbn [length]; lia). rewrite Bl.
  destruct (Z.leb_spec (Z.of_nat (length x) + 4) 2); [lia|].
  destruct (emit_bytes r3 [0; 0; BRANCH_END; 0] D3) as (r4 & E4 & B4 & C4 & D4). { repeat constructor; cbv; congruence. } rewrite E4. change (Z.to_nat 2) with 2%nat. rewrite B3. cbn [skipn firstn app].
  set (r5 := with_buf r4 _). set (pre := p1 ++ [124]). assert (Lpre : length pre = (length x + 2)%nat) by (unfold pre; rewrite app_length, Lp1; cbn; lia).
  replace (Z.of_nat (length p1) + 1) with (Z.of_nat (length pre)) by lia.
  set (a5 := [BEGIN_CAPTURE; 0; BRANCH_START; Z.of_nat (length x) + 4; EXACT_MATCH; Z.of_nat (length x)] ++ x ++ [BRANCH_END]).
  assert (B5 : buf r5 = a5 ++ [0]). { unfold r5, a5. cbn [with_buf buf app]. rewrite <- app_assoc. cbn [app]. do 3 f_equal. f_equal. rewrite Z.mod_small; lia. }
  assert (La5 : length a5 = (7 + length x)%nat) by (unfold a5; rewrite !app_length; cbn [length]; lia).
  assert (Bl5 : buf_len r5 = Z.of_nat (length x) + 8) by (unfold buf_len; rewrite B5, app_length, La5; cbn [length]; lia).
  assert (A41 : at_ p (Z.of_nat (length pre + length y)) = Some 41) by (apply (at_eq p (pre ++ y) 41 post); [unfold p, pre, p1; cbn [app]; rewrite <- !app_assoc; reflexivity|now rewrite app_length]).
  destruct (parse_spells [Lit y] y (plain_spells y Py Ly) f1 r5 p pre (41 :: post) len (0 + 1) last1 2 (buf_len r5 - 2)) as (f2 & r6 & last2 & E6 & F6 & B6 & C6 & D6);
    try easy; try (rewrite ?Lpre; unfold len; lia); try (unfold r5; cbn [with_buf capture_count group_count fold_right groups]; rewrite C4, C3, C2; cbn; lia).
  { unfold p, pre, p1. cbn [app]. now rewrite <- !app_assoc. } { right. split; [rewrite Lpre; unfold len; lia|]. exists 41. split; [exact A41|cbn; tauto]. }
  rewrite E6. destruct f2 as [|f2]; [lia|]. cbn [parse_loop].
  destruct (Z.ltb_spec (Z.of_nat (length pre + length y)) len) as [_|X]; [|rewrite Lpre in X; unfold len in X; lia]. rewrite A41. cbn [obind].
  change (41 =? 94) with false. change (41 =? 36) with false. change (41 =? 40) with false. change (41 =? 41) with true. cbn match.
  rewrite (eqb_no (buf_len r5 - 2) (-1)) by lia.
  cbn [code icode app] in B6. rewrite app_nil_r in B6.
  assert (Bl6 : buf_len r6 = Z.of_nat (length x) + Z.of_nat (length y) + 10) by (unfold buf_len; rewrite B6, app_length; cbn [length]; fold (buf_len r5) in *; unfold buf_len in Bl5; lia).
  assert (Ep : put (buf r6) (buf_len r5 - 2 + 1) ((buf_len r6 - (buf_len r5 - 2 + 2)) mod 256) = Some (a5 ++ (Z.of_nat (length y) + 2) :: EXACT_MATCH :: Z.of_nat (length y) :: y)).
  { rewrite Bl6, Bl5. replace ((Z.of_nat (length x) + Z.of_nat (length y) + 10 - (Z.of_nat (length x) + 8 - 2 + 2)) mod 256) with (Z.of_nat (length y) + 2) by (rewrite Z.mod_small by lia; lia).
    rewrite B6, B5, <- app_assoc. cbn [app]. apply put_mid. lia. }
  rewrite Ep. cbn [obind]. change (0 + 1 =? 0) with false. cbn match. cbn [obind].
  replace (Z.of_nat (length pre + length y) + 1 - 1) with (Z.of_nat (length pre + length y)) by lia. rewrite A41. cbn [obind].
  replace (Z.of_nat (length pre + length y) + 1) with len by (unfold len; rewrite Lpre; lia). rewrite Z.ltb_irrefl. cbn [orb]. change (negb (41 =? 41)) with false. cbn match.
  set (r7 := with_buf r6 _). destruct (emit_bytes r7 [END_CAPTURE; capture_count r0] D6) as (r8 & E8 & B8 & C8 & D8). { repeat constructor; cbv; congruence. } rewrite E8.
  destruct f as [|f]; [lia|]. cbn [parse_loop]. rewrite Z.ltb_irrefl. cbn [obind]. rewrite Z.eqb_refl. cbn [negb]. exists r8. split; [reflexivity|]. split.
  - rewrite B8. unfold r7, group_branch_code, branch_code, a5. cbn [with_buf buf app r0 capture_count]. rewrite <- !app_assoc. reflexivity.
  - rewrite C8. unfold r7, r5 in *. cbn [with_buf capture_count group_count fold_right groups] in *. rewrite C6, C4, C3, C2. reflexivity.
Qed.
Lemma exec_capture_none s after buf f op i k (start : bool) : at_ buf op = Some (if start then BEGIN_CAPTURE else END_CAPTURE) -> at_ buf (op + 1) = Some k -> (1 <= f)%nat ->
  exec_single f buf (s ++ after) (Z.of_nat (length s)) op i None 0 = Some (None, op + 2, i).
Proof.
  intros A1 A2 F. destruct f as [|f]; [lia|]. cbn [exec_single]. rewrite A1. cbn [obind]. rewrite A2. cbn [obind set_capture]. replace (op + 1 + 1) with (op + 2) by lia. destruct start.
  - reflexivity. - change (END_CAPTURE =? BEGIN_CAPTURE) with false. reflexivity.
Qed.
Lemma group_branch_try x y s after i : plain x -> plain y -> Z.of_nat (length x) < 126 -> Z.of_nat (length y) < 126 -> (i <= length s)%nat ->
  let b := group_branch_code x y in
  (exists j op, (occurs x s i /\ j = (i + length x)%nat) /\ (j <= length s)%nat /\ exec (exec_fuel b (Z.of_nat (length s))) b (s ++ after) (Z.of_nat (length s)) 0 (Z.of_nat i) None 0 = Some (None, op, Z.of_nat j)) \/
  ((forall j, ~ (occurs x s i /\ j = (i + length x)%nat)) /\ exists op, exec (exec_fuel b (Z.of_nat (length s))) b (s ++ after) (Z.of_nat (length s)) 0 (Z.of_nat i) None 0 = Some (None, op, -1)).
Proof.
  intros Px Py Lx Ly Li b. pose proof (fuel_ok b (Z.of_nat (length s))) as F. set (f := exec_fuel b (Z.of_nat (length s))) in *. clearbody f.
  assert (Lb : length b = (12 + length x + length y)%nat) by (unfold b, group_branch_code, branch_code; rewrite !app_length; cbn [length]; lia).
  assert (A0 : at_ b 0 = Some BEGIN_CAPTURE) by reflexivity. assert (A0' : at_ b (0 + 1) = Some 0) by reflexivity.
  assert (A1 : at_ b 2 = Some BRANCH_START) by reflexivity. assert (A2 : at_ b (2 + 1) = Some (Z.of_nat (length x) + 4)) by reflexivity.
  assert (B1 : b = [BEGIN_CAPTURE; 0; BRANCH_START; Z.of_nat (length x) + 4] ++ (EXACT_MATCH :: Z.of_nat (length x) :: x) ++ [BRANCH_END; Z.of_nat (length y) + 2; EXACT_MATCH; Z.of_nat (length y)] ++ y ++ [END_CAPTURE; 0]).
  { unfold b, group_branch_code, branch_code. cbn [app]. rewrite <- !app_assoc. reflexivity. }
  set (q := [BEGIN_CAPTURE; 0; BRANCH_START; Z.of_nat (length x) + 4; EXACT_MATCH; Z.of_nat (length x)] ++ x). assert (Lq : length q = (6 + length x)%nat) by (unfold q; rewrite app_length; cbn [length]; lia).
  set (rest := [EXACT_MATCH; Z.of_nat (length y)] ++ y). assert (Lr : length rest = (2 + length y)%nat) by (unfold rest; rewrite app_length; reflexivity).
  assert (Bq : b = q ++ BRANCH_END :: (Z.of_nat (length y) + 2) :: rest ++ [END_CAPTURE; 0]) by (rewrite B1; reflexivity).
  assert (A3 : at_ b (Z.of_nat (length q)) = Some BRANCH_END) by now apply (at_eq b q _ _ _ Bq).
  assert (A4 : at_ b (Z.of_nat (length q) + 1) = Some (Z.of_nat (length y) + 2)) by (apply (at_eq b (q ++ [BRANCH_END]) _ (rest ++ [END_CAPTURE; 0])); [now rewrite Bq, <- app_assoc|rewrite app_length; cbn [length]; lia]).
  set (e := q ++ [BRANCH_END; Z.of_nat (length y) + 2] ++ rest). assert (Le : length e = (10 + length x + length y)%nat) by (unfold e; rewrite !app_length, Lr; cbn [length]; lia).
  assert (Be : b = e ++ END_CAPTURE :: 0 :: []) by (rewrite Bq; unfold e; rewrite <- !app_assoc; reflexivity).
  assert (A5 : at_ b (Z.of_nat (length e)) = Some END_CAPTURE) by now apply (at_eq b e _ _ _ Be).
  assert (A6 : at_ b (Z.of_nat (length e) + 1) = Some 0) by (apply (at_eq b (e ++ [END_CAPTURE]) _ []); [now rewrite Be, <- app_assoc|rewrite app_length; cbn [length]; lia]).
  clearbody b q e rest.
  (* the opening bracket *)
  assert (E0 : exec f b (s ++ after) (Z.of_nat (length s)) 0 (Z.of_nat i) None 0 = exec (pred f) b (s ++ after) (Z.of_nat (length s)) 2 (Z.of_nat i) None 0).
  { apply exec_step; [lia| |lia|lia|lia]. exact (exec_capture_none s after b (pred f) 0 (Z.of_nat i) 0 true A0 A0' ltac:(lia)). }
  rewrite E0. set (f1 := pred f) in *. assert (F1 : (23 <= f1)%nat) by (unfold f1; lia). clearbody f1.
  destruct (exec_lit s after b 0 None x (pred (pred f1)) [BEGIN_CAPTURE; 0; BRANCH_START; Z.of_nat (length x) + 4] _ i Px ltac:(lia) B1 Li ltac:(lia)) as [(O & E)|(O & E)]; cbn [length] in E; change (Z.of_nat 4) with (2 + 2) in E.
  - left. pose proof (occurs_room _ _ _ O Li) as Lr'. exists (i + length x)%nat. exists (Z.of_nat (length b)). split; [easy|]. split; [lia|].
    replace (4 + 2 + length x)%nat with (length q) in E by lia.
    rewrite (exec_step s after b 0 (pred (pred (pred f1))) (Z.of_nat (length q)) (Z.of_nat (i + length x)) None (Z.of_nat (length e)) (Z.of_nat (i + length x)) None) in E; [|lia| |lia|lia|lia].
    2: { rewrite (single_branch_end s after b 0 (pred (pred (pred (pred f1)))) (Z.of_nat (length q)) _ None _ A3 A4) by lia. rewrite i8_small by lia. f_equal. f_equal. f_equal. lia. }
    rewrite (exec_step s after b 0 (pred (pred (pred (pred f1)))) (Z.of_nat (length e)) (Z.of_nat (i + length x)) None (Z.of_nat (length b)) (Z.of_nat (i + length x)) None) in E; [|lia| |lia|lia|lia].
    2: { rewrite (exec_capture_none s after b (pred (pred (pred (pred (pred f1))))) (Z.of_nat (length e)) _ 0 false A5 A6) by lia. f_equal. f_equal. f_equal. lia. }
    rewrite (exec_done s after b 0 None _ (Z.of_nat (length b))) in E by lia.
    rewrite (exec_step s after b 0 f1 2 (Z.of_nat i) None (Z.of_nat (length b)) (Z.of_nat (i + length x)) None); [|lia| |lia|lia|lia].
    2: { apply (single_branch s after b 0 (pred f1) 2 (Z.of_nat i) None _ _ _ _ A1 A2 E); lia. }
    apply exec_done; lia.
  - right. split; [tauto|]. eexists. apply exec_stop; [lia| |lia]. apply (single_branch s after b 0 (pred f1) 2 (Z.of_nat i) None _ _ _ _ A1 A2 E); lia.
Qed.
Lemma group_branch_match x y s after : plain x -> plain y -> Z.of_nat (length x) < 126 -> Z.of_nat (length y) < 126 ->
  exists b o, re_match (group_branch_code x y) (s ++ after) (Z.of_nat (length s)) None 0 = Some (None, b, o) /\ (b = true <-> exists i, (i <= length s)%nat /\ occurs x s i).
Proof.
  intros Px Py Lx Ly. change (re_match (group_branch_code x y) (s ++ after) (Z.of_nat (length s)) None 0) with (match_from (Z.to_nat (Z.of_nat (length s))) (group_branch_code x y) (s ++ after) (Z.of_nat (length s)) (Z.of_nat 0) None 0).
  rewrite Nat2Z.id. destruct (search s after (group_branch_code x y) 0 None _ (fun i Li => group_branch_try x y s after i Px Py Lx Ly Li) (length s) 0 ltac:(lia)) as [(i & j & Li & (O & _) & _ & E)|(N & E)]; rewrite E.
  - exists true. eexists. split; [reflexivity|]. split; [|easy]. intros _. exists i. split; [lia|easy].
  - exists false, None. split; [reflexivity|]. split; [easy|]. intros (i & Li & O). exfalso. pose proof (occurs_room _ _ _ O Li) as R. pose proof (plain_length x Px). apply (N i (i + length x)%nat); [lia|easy].
Qed.
