(** Proofs about regular expressions: what repetitions do when they do something. *)
From Verif Require Import Base CStr Regex RegexSpec RegexProofs RegexProofs2 RegexProofs3 RegexProofs4 RegexProofs6 RegexProofs7.

Ltac ops := repeat match goal with |- context [?a =? ?b] =>
  lazymatch a with _ => let v := eval vm_compute in (a =? b) in
    lazymatch v with true => change (a =? b) with true | false => change (a =? b) with false end end end; cbn match; cbn [orb andb].

(** one character, at [op] *)
Lemma char_at b s op f k x c caps max : at_ b op = Some EXACT_MATCH -> at_ b (op + 1) = Some 1 -> rd (skipn (Z.to_nat (op + 2)) b) 0 = Some c -> special_free c -> 0 <= op ->
  forall len, 0 <= k < len -> at_ s k = Some x -> exec_single (S f) b s len op k caps max = Some (caps, op + 3, if x =? c then k + 1 else -1).
Proof.
  intros A1 A2 A3 (Hc & _) Hop len Hk Hx. cbn [exec_single]. rewrite A1. cbn [obind]. ops. rewrite A2. cbn [obind]. change (i8 1) with 1. destruct (Z.ltb_spec (len - k) 1); [lia|].
  change (1 <=? 0) with false. destruct (Z.ltb_spec k 0); [lia|]. cbn match. change (Z.to_nat 1) with 1%nat. replace (op + 1 + 1) with (op + 2) by lia. cbn [strncmp].
  unfold at_ in Hx. destruct (Z.ltb_spec k 0); [lia|]. assert (R : rd (skipn (Z.to_nat k) s) 0 = Some x).
  { clear -Hx. revert Hx. generalize (Z.to_nat k). intros n. revert s. induction n as [|n IH]; intros [|y s]; cbn; try easy; try discriminate. apply IH. }
  rewrite R. cbn [obind]. rewrite A3. cbn [obind]. replace (op + 2 + 1) with (op + 3) by lia. destruct (Z.eqb_spec x c) as [->|N]; cbn [negb].
  - rewrite (eqb_no c 0) by lia. reflexivity.
  - reflexivity.
Qed.
Lemma dot_at b s op f k caps max len : at_ b op = Some ANY -> k < len -> exec_single (S f) b s len op k caps max = Some (caps, op + 1, k + 1).
Proof. intros A H. cbn [exec_single]. rewrite A. cbn [obind]. ops. destruct (Z.ltb_spec k len); [reflexivity|lia]. Qed.

(** "c*." and its relatives: program [q; EXACT_MATCH; 1; c; ANY] *)
Section Dot.
  Context (c q : Z) (Sc : special_free c).
  Let b := [q; EXACT_MATCH; 1; c; ANY].
  Lemma dot_rest s len k caps max f : k < len -> 0 <= k -> (3 <= f)%nat -> exec f b s len 4 k caps max = Some (caps, 5, k + 1).
  Proof.
    intros H H0 F. destruct f as [|[|[|f]]]; [lia..|]. cbn [exec]. change (4 <? Z.of_nat (length b)) with true. cbn match. rewrite (dot_at b s 4 (S f) k caps max len eq_refl H). cbn [obind].
    destruct (Z.ltb_spec len (k + 1)); [lia|]. rewrite eqb_no by lia. cbn [orb]. reflexivity.
  Qed.
  Lemma consume_greedy d s caps max len : d <> c -> forall n k best f, 0 <= k -> k + Z.of_nat n < len ->
    (forall i, k <= i < k + Z.of_nat n -> at_ s i = Some c) -> at_ s (k + Z.of_nat n) = Some d -> (n + 4 <= f)%nat ->
    consume f b s len 1 k best caps max true = Some (caps, if Nat.eqb n 0 then fst best else 5, if Nat.eqb n 0 then snd best else k + Z.of_nat n + 1).
  Proof.
    intros Nd. induction n as [|n IH]; intros k best f K L C D F; (destruct f as [|[|f]]; [lia..|]); remember (S f) as f1 eqn:Ef; cbn [consume]; rewrite Ef at 1.
    - rewrite (char_at b s 1 f k d c None 0 eq_refl eq_refl eq_refl Sc) by (try lia; rewrite <- D; f_equal; lia). rewrite eqb_no by easy. cbn [obind]. rewrite orb_true_r. reflexivity.
    - rewrite (char_at b s 1 f k c c None 0 eq_refl eq_refl eq_refl Sc) by (try lia; apply C; lia). rewrite Z.eqb_refl. cbn [obind]. destruct (Z.ltb_spec len (k + 1)); [lia|]. rewrite (eqb_no (k + 1) (-1)) by lia. cbn [orb].
      change (Z.of_nat (length b) <=? 1 + 3) with false. cbn match. change (1 + 3) with 4. rewrite dot_rest by lia. cbn [obind]. destruct (Z.leb_spec (k + 1 + 1) len); [|lia].
      assert (E : (match caps with Some _ => ' (caps, _, _) <- exec f1 b s len 4 (k + 1) caps max ;; Some caps | None => Some None end) = Some caps).
      { destruct caps as [cs|]; [|reflexivity]. rewrite dot_rest by lia. reflexivity. }
      rewrite E. cbn [obind negb andb fst snd]. change (Z.of_nat (length b) <? 5) with false. cbn match.
      rewrite IH; [|lia|lia|intros i Hi; apply C; lia|rewrite <- D; f_equal; lia|lia]. cbn [Nat.eqb]. destruct n as [|n]; cbn [Nat.eqb fst snd]; do 2 f_equal; lia.
  Qed.
  Lemma consume_lazy s caps max len k best f : 0 <= k -> k + 1 < len -> at_ s k = Some c -> (5 <= f)%nat -> consume f b s len 1 k best caps max false = Some (caps, 5, k + 2).
  Proof.
    intros K L C F. destruct f as [|[|f]]; [lia..|]. remember (S f) as f1 eqn:Ef. cbn [consume]. rewrite Ef at 1. rewrite (char_at b s 1 f k c c None 0 eq_refl eq_refl eq_refl Sc) by (try lia; easy). rewrite Z.eqb_refl. cbn [obind].
    destruct (Z.ltb_spec len (k + 1)); [lia|]. rewrite (eqb_no (k + 1) (-1)) by lia. cbn [orb]. change (Z.of_nat (length b) <=? 1 + 3) with false. cbn match. change (1 + 3) with 4. rewrite dot_rest by lia. cbn [obind]. destruct (Z.leb_spec (k + 1 + 1) len); [|lia].
    assert (E : (match caps with Some _ => ' (caps, _, _) <- exec f1 b s len 4 (k + 1) caps max ;; Some caps | None => Some None end) = Some caps).
    { destruct caps as [cs|]; [|reflexivity]. rewrite dot_rest by lia. reflexivity. }
    rewrite E. cbn [obind negb andb fst snd]. do 2 f_equal. lia.
  Qed.
End Dot.
Lemma at_app s k x r : Z.of_nat (length s) = k -> at_ (s ++ x :: r) k = Some x.
Proof. intros <-. unfold at_. destruct (Z.ltb_spec (Z.of_nat (length s)) 0); [lia|]. rewrite Nat2Z.id, nth_error_app2, Nat.sub_diag by lia. reflexivity. Qed.
Lemma at_repeat c n r i : 0 <= i < Z.of_nat n -> at_ (repeat c n ++ r) i = Some c.
Proof.
  intros H. unfold at_. destruct (Z.ltb_spec i 0); [lia|]. rewrite nth_error_app1 by (rewrite repeat_length; lia). assert (L : (Z.to_nat i < n)%nat) by lia. revert L. generalize (Z.to_nat i). clear.
  intros k. revert n. induction k as [|k IH]; intros [|n] L; try lia; [reflexivity|]. cbn. apply IH. lia.
Qed.
Lemma match_first b mem len caps max op o q r : b = q :: r -> q <> BEGINNING_OF_LINE -> 0 < len -> 0 <= o <= len -> exec (exec_fuel b len) b mem len 0 0 caps max = Some (caps, op, o) -> re_match b mem len caps max = Some (caps, true, Some o).
Proof.
  intros Eb Q L O E. unfold re_match. rewrite Eb at 1. cbn match. rewrite (eqb_no q BEGINNING_OF_LINE) by easy. destruct (Z.to_nat len) as [|n] eqn:En; [lia|]. cbn [match_from]. rewrite E. cbn [obind].
  destruct (Z.leb_spec 0 o); [|lia]. destruct (Z.leb_spec o len); [|lia]. reflexivity.
Qed.
Lemma fuel_big b len : (6 * Z.to_nat len + 24 <= exec_fuel b len)%nat.
Proof. unfold exec_fuel. nia. Qed.
(** all the c's are taken, and one character more *)
Lemma dot_greedy c q d n s after caps max : special_free c -> q = ZERO_OR_MORE \/ q = ONE_OR_MORE -> d <> c -> (0 < n)%nat ->
  let text := repeat c n ++ d :: s in
  re_match [q; EXACT_MATCH; 1; c; ANY] (text ++ after) (Z.of_nat (length text)) caps max = Some (caps, true, Some (Z.of_nat n + 1)).
Proof.
  intros Sc Q N Hn text. set (b := [q; EXACT_MATCH; 1; c; ANY]). set (mem := text ++ after). set (len := Z.of_nat (length text)).
  assert (L : Z.of_nat n < len) by (unfold len, text; rewrite app_length, repeat_length; cbn [length]; lia).
  assert (E : mem = repeat c n ++ d :: s ++ after) by (unfold mem, text; now rewrite <- app_assoc).
  apply (match_first b mem len caps max 5 (Z.of_nat n + 1) q [EXACT_MATCH; 1; c; ANY]); [reflexivity|destruct Q as [-> | ->]; discriminate|lia|lia|].
  assert (A : forall i, 0 <= i < Z.of_nat n -> at_ mem i = Some c) by (intros i Hi; rewrite E; now apply at_repeat).
  assert (D : at_ mem (Z.of_nat n) = Some d) by (rewrite E; apply at_app; now rewrite repeat_length).
  pose proof (fuel_big b len) as F. set (f := exec_fuel b len) in *. clearbody f. destruct f as [|[|f]]; [lia..|].
  assert (X : exec_single (S f) b mem len 0 0 caps max = Some (caps, 5, Z.of_nat n + 1)).
  { assert (Co : consume f b mem len 1 0 (NO_MATCH, 0) caps max true = Some (caps, 5, Z.of_nat n + 1)).
    { unfold b. rewrite (consume_greedy c q Sc d mem caps max len N n 0 (NO_MATCH, 0) f); [|lia|lia|intros; apply A; lia|now rewrite Z.add_0_l|lia]. destruct n; [lia|]. cbn [Nat.eqb]. now rewrite Z.add_0_l. }
    cbn [exec_single]. change (at_ b 0) with (Some q). cbn [obind]. change (0 + 1) with 1. destruct Q as [-> | ->]; ops; [exact Co|].
    destruct f as [|f]; [lia|]. rewrite (char_at b mem 1 f 0 c c caps max eq_refl eq_refl eq_refl Sc) by (try lia; apply A; lia). rewrite Z.eqb_refl. cbn [obind]. destruct (Z.ltb_spec len (0 + 1)); [lia|]. exact Co. }
  remember (S f) as f1. cbn [exec]. destruct (Z.ltb_spec 0 (Z.of_nat (length b))) as [_|Y]; [|cbn in Y; lia]. rewrite X. cbn [obind]. destruct (Z.ltb_spec len (Z.of_nat n + 1)); [lia|]. rewrite eqb_no by lia. cbn [orb]. subst f1. reflexivity.
Qed.
(** one c is taken, and one character more *)
Lemma dot_lazy c q x s after caps max : special_free c -> q = ONE_OR_MORE_SHORTEST \/ q = ZERO_OR_MORE_SHORTEST ->
  let text := c :: x :: s in
  re_match [q; EXACT_MATCH; 1; c; ANY] (text ++ after) (Z.of_nat (length text)) caps max = Some (caps, true, Some 2).
Proof.
  intros Sc Q text. set (b := [q; EXACT_MATCH; 1; c; ANY]). set (mem := text ++ after). set (len := Z.of_nat (length text)). assert (L : 1 < len) by (unfold len, text; cbn [length]; lia).
  apply (match_first b mem len caps max 5 2 q [EXACT_MATCH; 1; c; ANY]); [reflexivity|destruct Q as [-> | ->]; discriminate|lia|lia|].
  pose proof (fuel_big b len) as F. set (f := exec_fuel b len) in *. clearbody f. destruct f as [|[|f]]; [lia..|].
  assert (X : exec_single (S f) b mem len 0 0 caps max = Some (caps, 5, 2)).
  { assert (Co : consume f b mem len 1 0 (NO_MATCH, 0) caps max false = Some (caps, 5, 2)) by (unfold b; rewrite (consume_lazy c q Sc mem caps max len 0 (NO_MATCH, 0) f); [reflexivity|lia|lia|reflexivity|lia]).
    cbn [exec_single]. change (at_ b 0) with (Some q). cbn [obind]. change (0 + 1) with 1. destruct Q as [-> | ->]; ops; [|exact Co].
    destruct f as [|f]; [lia|]. rewrite (char_at b mem 1 f 0 c c caps max eq_refl eq_refl eq_refl Sc) by (try lia; reflexivity). rewrite Z.eqb_refl. cbn [obind]. destruct (Z.ltb_spec len (0 + 1)); [lia|]. exact Co. }
  remember (S f) as f1. cbn [exec]. destruct (Z.ltb_spec 0 (Z.of_nat (length b))) as [_|Y]; [|cbn in Y; lia]. rewrite X. cbn [obind]. destruct (Z.ltb_spec len 2); [lia|]. cbn [orb Z.eqb]. subst f1. reflexivity.
Qed.

(** ** "\d", "\D" and "\a" at the end of a pattern *)
Definition letter_class (h d : Z) : bool := if h =? 100 then between 48 d 57 else if h =? 68 then negb (between 48 d 57) else between 65 d 90 || between 97 d 122.
Lemma compile_class h f : In h [100; 68; 97] -> (2 < f)%nat -> exists r, compile f [92; h] 2 = Some (r, ReNone, false) /\ buf r = [META_MATCH; 0; if h =? 100 then 3 else if h =? 68 then 4 else 5].
Proof. intros H F. do 3 (destruct f as [|f]; [lia|]). destruct H as [<-|[<-|[<-|[]]]]; vm_compute; eexists; (split; [reflexivity|reflexivity]). Qed.
Lemma class_try h f s len caps max k d : In h [100; 68; 97] -> at_ s k = Some d -> 0 <= k < len -> (3 <= f)%nat ->
  exec f [META_MATCH; 0; if h =? 100 then 3 else if h =? 68 then 4 else 5] s len 0 k caps max = Some (caps, 3, if letter_class h d then k + 1 else -1).
Proof.
  intros H A K F. destruct f as [|[|f]]; [lia..|]. remember (S f) as f1 eqn:E. set (b := [META_MATCH; 0; if h =? 100 then 3 else if h =? 68 then 4 else 5]).
  assert (X : exec_single f1 b s len 0 k caps max = Some (caps, 3, if letter_class h d then k + 1 else -1)).
  { subst f1. cbn [exec_single]. change (at_ b 0) with (Some META_MATCH). cbn [obind]. ops. change (at_ b (0 + 1)) with (Some 0). cbn [obind]. rewrite A. cbn [obind]. ops.
    change (at_ b (0 + 1 + 1)) with (Some (if h =? 100 then 3 else if h =? 68 then 4 else 5)). cbn [obind]. unfold letter_class. destruct H as [<-|[<-|[<-|[]]]]; ops; unfold match_escape; ops; (match goal with |- (if ?x then _ else _) = _ => destruct x end); reflexivity. }
  cbn [exec]. change (0 <? Z.of_nat (length b)) with true. cbn match. rewrite X. cbn [obind]. destruct (letter_class h d).
  - destruct (Z.ltb_spec len (k + 1)); [lia|]. rewrite eqb_no by lia. cbn [orb]. subst f1. reflexivity.
  - destruct (Z.ltb_spec len (-1)); [lia|]. reflexivity.
Qed.
Lemma class_search h caps max after : In h [100; 68; 97] -> forall s0 mem len k, mem = k ++ s0 ++ after -> len = Z.of_nat (length (k ++ s0)) ->
  forall b, b = [META_MATCH; 0; if h =? 100 then 3 else if h =? 68 then 4 else 5] ->
  (forall pre d post, s0 = pre ++ d :: post -> Forall (fun x => letter_class h x = false) pre -> letter_class h d = true ->
     match_from (length s0) b mem len (Z.of_nat (length k)) caps max = Some (caps, true, Some (Z.of_nat (length k + length pre) + 1))) /\
  (Forall (fun x => letter_class h x = false) s0 -> match_from (length s0) b mem len (Z.of_nat (length k)) caps max = Some (caps, false, None)).
Proof.
  intros H. induction s0 as [|x s0 IH]; intros mem len k Em El b Eb.
  - split; [intros [|? ?] d post E; discriminate|reflexivity].
  - destruct (IH mem len (k ++ [x])) with (b := b) as (I1 & I2); [now rewrite <- app_assoc|now rewrite <- app_assoc|easy|].
    assert (A : at_ mem (Z.of_nat (length k)) = Some x) by (rewrite Em; now apply at_app).
    assert (L : 0 <= Z.of_nat (length k) < len) by (rewrite El, app_length; cbn [length]; lia).
    assert (Fu : (3 <= exec_fuel b len)%nat) by (pose proof (fuel_big b len); lia).
    rewrite app_length in I1, I2. cbn [length] in I1, I2. replace (length k + 1)%nat with (S (length k)) in I1, I2 by lia.
    cbn [length match_from]. pose proof (class_try h (exec_fuel b len) mem len caps max _ x H A L Fu) as T. rewrite <- Eb in T. rewrite T. cbn [obind]. split.
    + intros pre d post E Fp D. destruct pre as [|y pre]; cbn [app] in E; injection E as <- E.
      * rewrite D. destruct (Z.leb_spec 0 (Z.of_nat (length k) + 1)); [|lia]. destruct (Z.leb_spec (Z.of_nat (length k) + 1) len); [|lia]. cbn [andb length]. do 3 f_equal. lia.
      * rewrite (Forall_inv Fp). cbn [Z.leb Z.compare andb]. change (-1 =? INTERNAL_FAILURE) with false. cbn match. replace (Z.of_nat (length k) + 1) with (Z.of_nat (S (length k))) by lia. rewrite (I1 pre d post E (Forall_inv_tail Fp) D). cbn [length]. do 3 f_equal. lia.
    + intros Fs. rewrite (Forall_inv Fs). cbn [Z.leb Z.compare andb]. change (-1 =? INTERNAL_FAILURE) with false. cbn match. replace (Z.of_nat (length k) + 1) with (Z.of_nat (S (length k))) by lia. now apply I2, Forall_inv_tail with x.
Qed.

(** ** the last character of a literal is what is repeated *)
Lemma compile_lazy c q f post : special_free c -> In q [42; 43] -> (4 < f)%nat ->
  exists r, compile f ([c; q; 63; 46] ++ post) 4 = Some (r, ReNone, false) /\ buf r = [ONE_OR_MORE_SHORTEST; EXACT_MATCH; 1; c; ANY].
Proof.
  intros (Hc & Nc) Hq F. unfold compile, parse. set (p := [c; q; 63; 46] ++ post).
  assert (Nm : forall m, In m metas -> (c =? m) = false) by (intros m Im; apply eqb_no; intros ->; now apply Nc).
  destruct f as [|f]; [lia|]. cbn [parse_loop]. change (0 <? 4) with true. cbn match. change (at_ p 0) with (Some c). cbn [obind]. rewrite !Nm by (cbn; tauto). cbn [orb]. change (0 + 1 - 1) with 0. change (Z.to_nat 0) with 0%nat. cbn [skipn].
  assert (Ll : literal_len (firstn (Z.to_nat (4 - 0)) p) = 1).
  { change (Z.to_nat (4 - 0)) with 4%nat. unfold p. cbn [app firstn literal_len]. change META_CHARS with metas. rewrite (found_no c metas Nc). destruct Hq as [<-|[<-|[]]]; reflexivity. }
  set (r0 := Re 0 [] (4 + 128) true). rewrite Ll. rewrite (emit_fits r0 [EXACT_MATCH; 1]); [|cbn; lia|repeat constructor; cbv; congruence]. cbn [r0 buf app with_buf capture_count cap can_realloc]. change (Z.to_nat 1) with 1%nat. unfold p at 1. cbn [app firstn].
  rewrite emit_buffer_fits by (cbn; lia). cbn [with_buf buf app capture_count cap can_realloc]. change (0 + 1) with 1. destruct f as [|f]; [lia|]. cbn [parse_loop]. change (1 <? 4) with true. cbn match. change (at_ p 1) with (Some q). cbn [obind]. change (buf_len r0) with 0.
  change (with_buf (with_buf r0 [EXACT_MATCH; 1]) [EXACT_MATCH; 1; c]) with (Re 0 [EXACT_MATCH; 1; c] (4 + 128) true). set (r1 := Re 0 [EXACT_MATCH; 1; c] (4 + 128) true).
  assert (Cq : compile_quantifier r1 0 ONE_OR_MORE_SHORTEST = Some (Re 0 [ONE_OR_MORE_SHORTEST; EXACT_MATCH; 1; c] (4 + 128) true, ReNone)).
  { unfold compile_quantifier. change (at_ (buf r1) 0) with (Some EXACT_MATCH). cbn [obind]. change (EXACT_MATCH =? EXACT_MATCH) with true. cbn match. change (at_ (buf r1) (0 + 1)) with (Some 1). cbn [obind]. change (true && (1 <? i8 1)) with false. cbn match.
    rewrite emit_fits; [|cbn; lia|repeat constructor; lia]. reflexivity. }
  destruct Hq as [<-|[<-|[]]]; ops; change (quantifiable r1 0) with (Some true); cbn [obind negb]; change (1 + 1 <? 4) with true; cbn match; change (at_ p (1 + 1)) with (Some 63); cbn [obind]; ops; rewrite Cq; cbn [obind];
    (destruct f as [|f]; [lia|]); cbn [parse_loop]; change (1 + 1 + 1 <? 4) with true; cbn match; change (at_ p (1 + 1 + 1)) with (Some 46); cbn [obind]; ops; (rewrite emit_fits; [|cbn; lia|repeat constructor; cbv; congruence]); cbn [buf with_buf capture_count cap can_realloc app];
    (destruct f as [|f]; [lia|]); cbn [parse_loop]; change (1 + 1 + 1 + 1 <? 4) with false; cbn match; cbn [obind]; (eexists; split; [reflexivity|reflexivity]).
Qed.
Lemma at_nth b i x : nth_error b i = Some x -> at_ b (Z.of_nat i) = Some x.
Proof. intros H. unfold at_. destruct (Z.ltb_spec (Z.of_nat i) 0); [lia|]. now rewrite Nat2Z.id. Qed.
Lemma compile_tail w c q f post : plain w -> special_free c -> In q [42; 43] -> Z.of_nat (length w) < 127 -> (2 < f)%nat ->
  exists r, compile f (w ++ c :: q :: post) (Z.of_nat (length w + 2)) = Some (r, ReNone, false) /\ buf r = (EXACT_MATCH :: Z.of_nat (length w) :: w) ++ [quantifier q; EXACT_MATCH; 1; c].
Proof.
  intros (Wn & Wf) Sc Hq L F. assert (Iq : In q metas) by (cbn in Hq |- *; tauto).
  unfold compile, parse. set (p := w ++ c :: q :: post). set (len := Z.of_nat (length w + 2)). set (r0 := Re 0 [] (len + 128) true). change (buf_len r0) with 0.
  destruct w as [|a w]; [easy|]. assert (Nm : forall m, In m metas -> (a =? m) = false) by (intros m Im; apply eqb_no; intros ->; now apply (Forall_inv Wf)).
  destruct f as [|f]; [lia|]. cbn [parse_loop]. destruct (Z.ltb_spec 0 len) as [_|X]; [|unfold len in X; lia]. change (at_ p 0) with (Some a). cbn [obind]. rewrite !Nm by (cbn; tauto). cbn [orb]. change (0 + 1 - 1) with 0. change (Z.to_nat 0) with 0%nat. cbn [skipn].
  assert (Ll : literal_len (firstn (Z.to_nat (len - 0)) p) = Z.of_nat (length (a :: w) + 1)).
  { replace (Z.to_nat (len - 0)) with (length ((a :: w) ++ [c; q]) + 0)%nat by (unfold len; rewrite app_length; cbn [length]; lia). unfold p. change (c :: q :: post) with ([c; q] ++ post). rewrite app_assoc, firstn_app_2. cbn [firstn]. rewrite app_nil_r. change [c; q] with ([c] ++ [q]). rewrite app_assoc.
    rewrite literal_len_ok; [now rewrite app_length|apply Forall_app; split; [easy|constructor; [exact Sc|constructor]]|]. right. now exists q, []. }
  rewrite Ll. set (n := length (a :: w)) in *. assert (N1 : (1 <= n)%nat) by (unfold n; cbn [length]; lia).
  rewrite (emit_fits r0 [EXACT_MATCH; Z.of_nat (n + 1)]); [|cbn; unfold len; lia|apply Forall_forall; intros v [<-|[<-|[]]]; [cbv; split; congruence|lia]]. cbn [r0 buf app with_buf capture_count cap can_realloc].
  replace (firstn (Z.to_nat (Z.of_nat (n + 1))) p) with ((a :: w) ++ [c]).
  2:{ rewrite Nat2Z.id. unfold p. change (c :: q :: post) with ([c] ++ q :: post). rewrite app_assoc. replace (n + 1)%nat with (length ((a :: w) ++ [c]) + 0)%nat by (rewrite app_length; unfold n; cbn [length]; lia). rewrite firstn_app_2. cbn [firstn]. now rewrite app_nil_r. }
  rewrite emit_buffer_fits by (unfold buf_len, r0, with_buf; cbn [buf cap]; rewrite app_length; unfold len, n; cbn [length]; lia).
  cbn [with_buf buf capture_count cap can_realloc]. rewrite Z.add_0_l. set (r1 := with_buf _ _). assert (Er1 : r1 = Re 0 (EXACT_MATCH :: Z.of_nat (n + 1) :: (a :: w) ++ [c]) (len + 128) true) by reflexivity. clearbody r1.
  assert (Cq : forall qq, 0 <= qq < 256 -> compile_quantifier r1 0 qq = Some (Re 0 ((EXACT_MATCH :: Z.of_nat n :: a :: w) ++ [qq; EXACT_MATCH; 1; c]) (len + 128) true, ReNone)).
  { intros qq Hqq. rewrite Er1. unfold compile_quantifier. cbn [buf]. change (at_ (EXACT_MATCH :: Z.of_nat (n + 1) :: (a :: w) ++ [c]) 0) with (Some EXACT_MATCH). cbn [obind]. change (EXACT_MATCH =? EXACT_MATCH) with true. cbn match. change (at_ (EXACT_MATCH :: Z.of_nat (n + 1) :: (a :: w) ++ [c]) (0 + 1)) with (Some (Z.of_nat (n + 1))). cbn [obind].
    assert (I8 : i8 (Z.of_nat (n + 1)) = Z.of_nat (n + 1)) by (apply i8_small; lia). rewrite I8. destruct (Z.ltb_spec 1 (Z.of_nat (n + 1))); [|lia]. cbn [andb].
    assert (Ax : at_ (EXACT_MATCH :: Z.of_nat (n + 1) :: (a :: w) ++ [c]) (buf_len (Re 0 (EXACT_MATCH :: Z.of_nat (n + 1) :: (a :: w) ++ [c]) (len + 128) true) - 1) = Some c).
    { unfold buf_len. cbn [buf]. change (EXACT_MATCH :: Z.of_nat (n + 1) :: (a :: w) ++ [c]) with ((EXACT_MATCH :: Z.of_nat (n + 1) :: a :: w) ++ [c]). apply at_app. rewrite app_length. cbn [length]. lia. }
    rewrite Ax. cbn [obind]. unfold put. change (0 + 1) with 1. cbn [Z.leb Z.compare andb]. destruct (Z.ltb_spec 1 (Z.of_nat (length (EXACT_MATCH :: Z.of_nat (n + 1) :: (a :: w) ++ [c])))) as [_|X]; [|cbn [length] in X; lia].
    change (Z.to_nat 1) with 1%nat. cbn [firstn skipn app obind]. rewrite (Z.mod_small (Z.of_nat (n + 1) - 1)) by lia. replace (Z.of_nat (n + 1) - 1) with (Z.of_nat n) by lia.
    assert (Rl : removelast (EXACT_MATCH :: Z.of_nat n :: a :: w ++ [c]) = EXACT_MATCH :: Z.of_nat n :: a :: w).
    { change (EXACT_MATCH :: Z.of_nat n :: a :: w ++ [c]) with ((EXACT_MATCH :: Z.of_nat n :: a :: w) ++ [c]). apply removelast_last. }
    rewrite Rl. assert (0 < c < 256) by apply Sc. rewrite emit_fits; [reflexivity| |].
    - unfold buf_len, len, n. cbn [with_buf buf cap length]. lia.
    - apply Forall_forall. intros v [<-|[<-|[<-|[<-|[]]]]]; [lia|cbv; split; congruence|lia|lia]. }
  assert (Qu : quantifiable r1 0 = Some true).
  { rewrite Er1. unfold quantifiable, buf_len. cbn [buf]. destruct (Z.leb_spec (Z.of_nat (length (EXACT_MATCH :: Z.of_nat (n + 1) :: (a :: w) ++ [c]))) 0) as [X|_]; [cbn [length] in X; lia|]. reflexivity. }
  destruct f as [|f]; [lia|]. cbn [parse_loop]. destruct (Z.ltb_spec (Z.of_nat (n + 1)) len) as [_|X]; [|unfold len in X; fold n in X; lia].
  assert (Aq : at_ p (Z.of_nat (n + 1)) = Some q) by (unfold p; change (c :: q :: post) with ([c] ++ q :: post); rewrite app_assoc; apply at_app; now rewrite app_length). rewrite Aq. cbn [obind].
  assert (End : len = Z.of_nat (n + 1) + 1) by (unfold len; fold n; lia).
  assert (Lt : Z.of_nat (n + 1) + 1 <? len = false) by (rewrite End; apply Z.ltb_irrefl).
  change (buf_len r0) with 0. destruct Hq as [<-|[<-|[]]]; ops; rewrite Qu; cbn [obind negb]; rewrite Lt; cbn [obind]; ops; (rewrite Cq by (cbv; split; congruence)); cbn [obind]; (destruct f as [|f]; [lia|]); cbn [parse_loop]; rewrite Lt; cbn [obind]; (eexists; split; [rewrite End, Z.eqb_refl; reflexivity|reflexivity]).
Qed.
(** running it *)
Lemma tail_consume w c q s after caps max f b mem len : special_free c -> b = (EXACT_MATCH :: Z.of_nat (length w) :: w) ++ [q; EXACT_MATCH; 1; c] -> mem = (w ++ s) ++ after -> len = Z.of_nat (length (w ++ s)) -> (3 <= f)%nat ->
  forall o, o = Z.of_nat (length w) + 3 ->
  (forall s', s = c :: s' -> exec_single f b mem len o (Z.of_nat (length w)) None 0 = Some (None, o + 3, Z.of_nat (length w) + 1) /\ exec_single f b mem len o (Z.of_nat (length w)) caps max = Some (caps, o + 3, Z.of_nat (length w) + 1) /\
     consume f b mem len o (Z.of_nat (length w)) (NO_MATCH, Z.of_nat (length w)) caps max true = Some (caps, o + 3, Z.of_nat (length w) + 1)) /\
  ((forall s', s <> c :: s') -> exec_single f b mem len o (Z.of_nat (length w)) caps max = Some (caps, o + 3, -1) /\ consume f b mem len o (Z.of_nat (length w)) (NO_MATCH, Z.of_nat (length w)) caps max true = Some (caps, -1, Z.of_nat (length w))).
Proof.
  intros Sc Eb Em El F o Eo. set (k := length w) in *.
  assert (B1 : b = (EXACT_MATCH :: Z.of_nat k :: w ++ [q]) ++ [EXACT_MATCH; 1; c]) by (rewrite Eb; cbn [app]; now rewrite <- app_assoc).
  assert (Lp : Z.of_nat (length (EXACT_MATCH :: Z.of_nat k :: w ++ [q])) = o) by (cbn [length]; rewrite app_length; cbn [length]; fold k; lia).
  assert (A1 : at_ b o = Some EXACT_MATCH) by (rewrite B1; now apply at_app).
  assert (A2 : at_ b (o + 1) = Some 1) by (rewrite B1; change [EXACT_MATCH; 1; c] with ([EXACT_MATCH] ++ [1; c]); rewrite app_assoc; apply at_app; rewrite app_length; cbn [length] in *; lia).
  assert (A3 : rd (skipn (Z.to_nat (o + 2)) b) 0 = Some c).
  { rewrite B1. change [EXACT_MATCH; 1; c] with ([EXACT_MATCH; 1] ++ [c]). rewrite app_assoc. set (pp := (EXACT_MATCH :: Z.of_nat k :: w ++ [q]) ++ [EXACT_MATCH; 1]). assert (Lq : Z.to_nat (o + 2) = length pp) by (unfold pp; rewrite app_length; cbn [length] in *; lia). rewrite Lq, skipn_app, skipn_all, Nat.sub_diag. reflexivity. }
  assert (Lb : Z.of_nat (length b) = o + 3) by (rewrite B1, app_length; cbn [length] in *; lia).
  assert (Ex : forall c0 m0 f1, exec_single (S f1) b mem len o (Z.of_nat k) c0 m0 = Some (c0, o + 3, match s with x :: _ => if x =? c then Z.of_nat k + 1 else -1 | [] => -1 end)).
  { intros c0 m0 f1. destruct s as [|x s'].
    - cbn [exec_single]. rewrite A1. cbn [obind]. ops. rewrite A2. cbn [obind]. change (i8 1) with 1. rewrite El, app_nil_r. fold k. rewrite Z.sub_diag. change (0 <? 1) with true. cbn match. do 3 f_equal. lia.
    - apply (char_at b mem o f1 (Z.of_nat k) x c c0 m0 A1 A2 A3 Sc); [lia| |]; [rewrite El, app_length; fold k; cbn [length]; lia|]. rewrite Em, <- app_assoc. now apply at_app. }
  destruct f as [|[|f]]; [lia..|]. remember (S f) as f1 eqn:Ef. split.
  - intros s' ->. rewrite !Ex, Z.eqb_refl. split; [easy|]. split; [easy|]. cbn [consume]. rewrite Ef, Ex, Z.eqb_refl. cbn [obind]. rewrite El, app_length. fold k. cbn [length]. destruct (Z.ltb_spec (Z.of_nat (k + S (length s'))) (Z.of_nat k + 1)); [lia|]. rewrite eqb_no by lia. cbn [orb]. rewrite Lb, Z.leb_refl. reflexivity.
  - intros N. assert (E : match s with x :: _ => if x =? c then Z.of_nat k + 1 else -1 | [] => -1 end = -1).
    { destruct s as [|x s']; [easy|]. destruct (Z.eqb_spec x c) as [->|]; [|easy]. exfalso. now apply (N s'). }
    rewrite Ex, E. split; [easy|]. cbn [consume]. rewrite Ef, Ex, E. cbn [obind]. rewrite Z.eqb_refl, orb_true_r. reflexivity.
Qed.

Lemma tail_match w c q s after caps max : plain w -> special_free c -> q = ZERO_OR_MORE \/ q = ONE_OR_MORE -> Z.of_nat (length w) < 128 ->
  re_match ((EXACT_MATCH :: Z.of_nat (length w) :: w) ++ [q; EXACT_MATCH; 1; c]) ((w ++ c :: s) ++ after) (Z.of_nat (length (w ++ c :: s))) caps max = Some (caps, true, Some (Z.of_nat (length w) + 1)).
Proof.
  intros Pw Sc Q L. set (b := (EXACT_MATCH :: Z.of_nat (length w) :: w) ++ [q; EXACT_MATCH; 1; c]). set (mem := (w ++ c :: s) ++ after). set (len := Z.of_nat (length (w ++ c :: s))).
  assert (Ll : Z.of_nat (length w) + 1 <= len) by (unfold len; rewrite app_length; cbn [length]; lia).
  apply (match_first b mem len caps max (Z.of_nat (length w) + 6) (Z.of_nat (length w) + 1) EXACT_MATCH (Z.of_nat (length w) :: w ++ [q; EXACT_MATCH; 1; c])); [reflexivity|discriminate|lia|lia|].
  pose proof (fuel_big b len) as F. set (f := exec_fuel b len) in *. clearbody f.
  destruct (exec_lit (w ++ c :: s) after b max caps w f [] [q; EXACT_MATCH; 1; c] 0 Pw L eq_refl ltac:(lia) ltac:(lia)) as [(O & E)|(O & E)].
  2:{ exfalso. apply O. unfold occurs. cbn [skipn]. rewrite firstn_app, firstn_all, Nat.sub_diag. cbn [firstn]. apply app_nil_r. }
  cbn [length Nat.add] in E. change (Z.of_nat 0) with 0 in E. fold mem len in E. rewrite E. clear E O.
  destruct f as [|[|[|[|f]]]]; [lia..|]. cbn [pred]. set (f3 := S f) in *. assert (F3 : (3 <= f3)%nat) by (unfold f3; lia). clearbody f3.
  destruct (tail_consume w c q (c :: s) after caps max f3 b mem len Sc eq_refl eq_refl eq_refl ltac:(lia) _ eq_refl) as (T & _). destruct (T s eq_refl) as (_ & E1 & E2). clear T.
  assert (Ab : at_ b (Z.of_nat (length w) + 2) = Some q).
  { unfold b. apply at_app. cbn [length]. lia. }
  assert (X : exec_single (S f3) b mem len (Z.of_nat (S (S (length w)))) (Z.of_nat (length w)) caps max = Some (caps, Z.of_nat (length w) + 6, Z.of_nat (length w) + 1)).
  { replace (Z.of_nat (S (S (length w)))) with (Z.of_nat (length w) + 2) by lia. cbn [exec_single]. rewrite Ab. cbn [obind]. replace (Z.of_nat (length w) + 2 + 1) with (Z.of_nat (length w) + 3) by lia. replace (Z.of_nat (length w) + 3 + 3) with (Z.of_nat (length w) + 6) in * by lia.
    destruct Q as [-> | ->]; ops; [exact E2|]. rewrite E1. cbn [obind]. destruct (Z.ltb_spec len (Z.of_nat (length w) + 1)); [lia|]. exact E2. }
  assert (Lb : Z.of_nat (length b) = Z.of_nat (length w) + 6) by (unfold b; rewrite app_length; cbn [length]; lia).
  unfold mem, len in *. rewrite (exec_step (w ++ c :: s) after b max (S (S f3)) (Z.of_nat (S (S (length w)))) (Z.of_nat (length w)) caps (Z.of_nat (length w) + 6) (Z.of_nat (length w) + 1) caps); [|lia|exact X|lia|lia|lia]. apply exec_done; cbn [pred]; lia.
Qed.
Lemma tail_fault w c q s after caps max : plain w -> special_free c -> q = ZERO_OR_MORE \/ q = ONE_OR_MORE -> Z.of_nat (length w) < 128 -> (forall s', s <> c :: s') ->
  re_match ((EXACT_MATCH :: Z.of_nat (length w) :: w) ++ [q; EXACT_MATCH; 1; c]) ((w ++ s) ++ after) (Z.of_nat (length (w ++ s))) caps max = None.
Proof.
  intros Pw Sc Q L N. set (b := (EXACT_MATCH :: Z.of_nat (length w) :: w) ++ [q; EXACT_MATCH; 1; c]). set (mem := (w ++ s) ++ after). set (len := Z.of_nat (length (w ++ s))).
  assert (Pl : (0 < length w)%nat) by (destruct Pw as (Wn & _); destruct w; [easy|cbn [length]; lia]).
  assert (Ll : Z.of_nat (length w) <= len) by (unfold len; rewrite app_length; lia).
  assert (Ex : exec (exec_fuel b len) b mem len 0 0 caps max = None).
  { pose proof (fuel_big b len) as F. set (f := exec_fuel b len) in *. clearbody f.
    destruct (exec_lit (w ++ s) after b max caps w f [] [q; EXACT_MATCH; 1; c] 0 Pw L eq_refl ltac:(lia) ltac:(lia)) as [(O & E)|(O & E)].
    2:{ exfalso. apply O. unfold occurs. cbn [skipn]. rewrite firstn_app, firstn_all, Nat.sub_diag. cbn [firstn]. apply app_nil_r. }
    cbn [length Nat.add] in E. change (Z.of_nat 0) with 0 in E. fold mem len in E. rewrite E. clear E O.
    destruct f as [|[|[|[|f]]]]; [lia..|]. cbn [pred]. set (f3 := S f) in *. assert (F3 : (3 <= f3)%nat) by (unfold f3; lia). clearbody f3.
    destruct (tail_consume w c q s after caps max f3 b mem len Sc eq_refl eq_refl eq_refl ltac:(lia) _ eq_refl) as (_ & T). destruct (T N) as (E1 & E2). clear T.
    assert (Ab : at_ b (Z.of_nat (length w) + 2) = Some q) by (unfold b; apply at_app; cbn [length]; lia).
    assert (X : exec_single (S f3) b mem len (Z.of_nat (S (S (length w)))) (Z.of_nat (length w)) caps max = Some (caps, -1, Z.of_nat (length w))).
    { replace (Z.of_nat (S (S (length w)))) with (Z.of_nat (length w) + 2) by lia. cbn [exec_single]. rewrite Ab. cbn [obind]. replace (Z.of_nat (length w) + 2 + 1) with (Z.of_nat (length w) + 3) by lia.
      destruct Q as [-> | ->]; ops; [exact E2|]. rewrite E1. cbn [obind]. destruct (Z.ltb_spec len (-1)); [lia|]. exact E2. }
    assert (Lb : Z.of_nat (length b) = Z.of_nat (length w) + 6) by (unfold b; rewrite app_length; cbn [length]; lia).
    unfold mem, len in *. rewrite (exec_step (w ++ s) after b max (S (S f3)) (Z.of_nat (S (S (length w)))) (Z.of_nat (length w)) caps (-1) (Z.of_nat (length w)) caps); [|lia|exact X|lia|lia|lia]. apply exec_none; [lia|]. destruct f3; [lia|]. reflexivity. }
  unfold re_match. replace b with (EXACT_MATCH :: tl b) at 1 by reflexivity. cbn match. change (EXACT_MATCH =? BEGINNING_OF_LINE) with false. cbn match. destruct (Z.to_nat len) as [|n] eqn:En; [lia|]. cbn [match_from]. rewrite Ex. reflexivity.
Qed.
