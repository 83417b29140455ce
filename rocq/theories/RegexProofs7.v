(** Proofs about regular expressions: repetitions and other defects. *)
From Verif Require Import Base CStr Regex RegexSpec RegexProofs RegexProofs2 RegexProofs3 RegexProofs4 RegexProofs6.

Lemma push_bytes : forall vs r, Forall (fun v => 0 <= v < 256) vs -> push_ops r vs = (with_buf r (buf r ++ vs), ReNone).
Proof.
  induction vs as [|v vs IH]; intros r F; cbn [push_ops].
  - rewrite app_nil_r. now destruct r.
  - inversion F; subst. destruct (Z.ltb_spec 256 v); [lia|]. rewrite IH by easy. cbn [with_buf buf capture_count cap can_realloc]. rewrite Z.mod_small, <- app_assoc by easy. reflexivity.
Qed.
Lemma emit_fits r vs : buf_len r + Z.of_nat (length vs) <= cap r -> Forall (fun v => 0 <= v < 256) vs -> emit_ops r vs = (with_buf r (buf r ++ vs), ReNone).
Proof. intros L F. unfold emit_ops, reserve. destruct (Z.leb_spec (buf_len r + Z.of_nat (length vs)) (cap r)); [|lia]. now apply push_bytes. Qed.
Lemma emit_buffer_fits r bs : buf_len r + Z.of_nat (length bs) <= cap r -> emit_buffer r bs = (with_buf r (buf r ++ bs), ReNone).
Proof. intros L. unfold emit_buffer, reserve. destruct (Z.leb_spec (buf_len r + Z.of_nat (length bs)) (cap r)); [|lia]. reflexivity. Qed.
Definition special_free (c : Z) : Prop := 0 < c < 256 /\ ~ In c metas.
Lemma spells_question l t x : spells l t -> t <> 63 :: x.
Proof.
  intros H. inversion H; try congruence. intros E. subst t. match goal with F : Forall _ s, N : s <> [] |- _ => destruct s as [|a s0]; [easy|]; cbn [app] in E; injection E as -> _; apply Forall_inv in F; apply F; cbn; tauto end.
Qed.
(** a repeated character at the start of a pattern *)
Definition quantifier (q : Z) : Z := if q =? 42 then ZERO_OR_MORE else if q =? 43 then ONE_OR_MORE else ZERO_OR_ONE.
Lemma compile_quant c q l t f post : special_free c -> In q [42; 43; 63] -> spells l t -> Z.of_nat (group_count l) <= 256 -> (length t + 3 < f)%nat ->
  exists r, compile f (c :: q :: t ++ post) (Z.of_nat (2 + length t)) = Some (r, ReNone, false) /\ buf r = [quantifier q; EXACT_MATCH; 1; c] ++ code 0 l.
Proof.
  intros (Hc & Nc) Hq Sp G F. unfold compile, parse. set (p := c :: q :: t ++ post). set (len := Z.of_nat (2 + length t)). set (r0 := Re 0 [] (len + 128) true). change (buf_len r0) with 0.
  assert (Lp : len <= Z.of_nat (length p)) by (unfold p, len; cbn [length]; rewrite app_length; lia).
  assert (Nm : forall m, In m metas -> (c =? m) = false) by (intros m Im; apply eqb_no; intros ->; now apply Nc).
  assert (Iq : In q metas) by (cbn in Hq |- *; tauto).
  destruct f as [|[|f]]; [lia..|]. remember (S f) as F' eqn:EF. cbn [parse_loop]. destruct (Z.ltb_spec 0 len) as [_|X]; [|unfold len in X; lia]. change (at_ p 0) with (Some c). cbn [obind].
  rewrite !Nm by (cbn; tauto). cbn [orb].
  change (0 + 1 - 1) with 0. change (Z.to_nat 0) with 0%nat. cbn [skipn].
  assert (Ll : literal_len (firstn (Z.to_nat (len - 0)) p) = 1).
  { replace (Z.to_nat (len - 0)) with (S (S (length t))) by (unfold len; lia). unfold p. cbn [firstn literal_len]. change META_CHARS with metas. rewrite (found_no c metas Nc). apply found_in in Iq. rewrite Iq. reflexivity. }
  rewrite Ll. rewrite (emit_fits r0 [EXACT_MATCH; 1]); [|cbn; unfold len; lia|repeat constructor; cbv; congruence]. cbn [r0 buf app with_buf capture_count cap can_realloc]. change (Z.to_nat 1) with 1%nat. unfold p at 1. cbn [firstn].
  rewrite emit_buffer_fits by (cbn; unfold len; lia). cbn [with_buf buf app capture_count cap can_realloc]. change (0 + 1) with 1.
  rewrite EF. cbn [parse_loop]. destruct (Z.ltb_spec 1 len) as [_|X]; [|unfold len in X; lia]. change (at_ p 1) with (Some q). cbn [obind].
  set (r1 := Re 0 [EXACT_MATCH; 1; c] (len + 128) true).
  assert (Qu : quantifiable r1 (buf_len r0) = Some true) by reflexivity.
  assert (Cq : forall qq, 0 <= qq < 256 -> compile_quantifier r1 (buf_len r0) qq = Some (Re 0 [qq; EXACT_MATCH; 1; c] (len + 128) true, ReNone)).
  { intros qq Hqq. unfold compile_quantifier. change (at_ (buf r1) (buf_len r0)) with (Some EXACT_MATCH). cbn [obind]. change (EXACT_MATCH =? EXACT_MATCH) with true. cbn match. change (at_ (buf r1) (buf_len r0 + 1)) with (Some 1). cbn [obind]. change (true && (1 <? i8 1)) with false. cbn match.
    rewrite emit_fits; [|cbn; unfold len; lia|repeat constructor; lia]. cbn [r1 with_buf buf cap capture_count can_realloc app]. change (buf_len (with_buf r1 [EXACT_MATCH; 1; c; 0])) with 4. destruct (Z.leb_spec (len + 128) 4) as [X|_]; [unfold len in X; lia|]. reflexivity. }
  set (r2 := Re 0 [quantifier q; EXACT_MATCH; 1; c] (len + 128) true).
  assert (Fin : exists r, (' (r, err, o) <- parse_loop f r2 p len 2 0 (buf_len r0) 0 (-1) ;; Some (r, err, negb (match o with Some o => o | None => 0 end =? len))) = Some (r, ReNone, false) /\ buf r = [quantifier q; EXACT_MATCH; 1; c] ++ code 0 l).
  { destruct (parse_spells l t Sp f r2 p [c; q] post len 0 (buf_len r0) 0 (-1)) as (f1 & r3 & last & E & F1 & B & C & D); try easy; try (cbn [length r2 capture_count]; unfold len; lia).
    { left. reflexivity. }
    cbn [length] in E. change (Z.of_nat 2) with 2 in E. rewrite E. destruct f1 as [|f1]; [lia|]. cbn [parse_loop]. fold len. rewrite Z.ltb_irrefl. cbn [obind]. rewrite Z.eqb_refl. exists r3. split; [reflexivity|]. exact B. }
  assert (Lz : (if 1 + 1 <? len then d <- at_ p (1 + 1) ;; Some (d =? 63) else Some false) = Some false).
  { destruct (Z.ltb_spec (1 + 1) len) as [L|_]; [|reflexivity]. destruct t as [|d t]; [unfold len in L; cbn [length] in L; lia|]. change (at_ p (1 + 1)) with (Some d). cbn [obind]. rewrite eqb_no; [easy|]. intros ->. now apply (spells_question l (63 :: t) t Sp). }
  destruct Hq as [<-|[<-|[<-|[]]]].
  - change (42 =? 94) with false. change (42 =? 36) with false. change (42 =? 40) with false. change (42 =? 41) with false. change (42 =? 91) with false. change (42 =? 124) with false. change (42 =? 46) with false. change ((42 =? 42) || (42 =? 43)) with true. cbn match. change (with_buf (with_buf r0 [EXACT_MATCH; 1]) [EXACT_MATCH; 1; c]) with r1. rewrite Qu. cbn [obind negb]. rewrite Lz. cbn [obind]. change (42 =? 42) with true. cbn match. rewrite Cq by (cbv; split; congruence). cbn [obind]. exact Fin.
  - change (43 =? 94) with false. change (43 =? 36) with false. change (43 =? 40) with false. change (43 =? 41) with false. change (43 =? 91) with false. change (43 =? 124) with false. change (43 =? 46) with false. change ((43 =? 42) || (43 =? 43)) with true. cbn match. change (with_buf (with_buf r0 [EXACT_MATCH; 1]) [EXACT_MATCH; 1; c]) with r1. rewrite Qu. cbn [obind negb]. rewrite Lz. cbn [obind]. change (43 =? 42) with false. cbn match. rewrite Cq by (cbv; split; congruence). cbn [obind]. exact Fin.
  - change (63 =? 94) with false. change (63 =? 36) with false. change (63 =? 40) with false. change (63 =? 41) with false. change (63 =? 91) with false. change (63 =? 124) with false. change (63 =? 46) with false. change ((63 =? 42) || (63 =? 43)) with false. change (63 =? 63) with true. cbn match. change (with_buf (with_buf r0 [EXACT_MATCH; 1]) [EXACT_MATCH; 1; c]) with r1. rewrite Qu. cbn [obind negb]. rewrite Cq by (cbv; split; congruence). cbn [obind]. exact Fin.
Qed.

(** ** running them *)
Section Quant.
  Context (c d : Z) (s after rest : list Z) (caps : captures) (max : Z).
  Let mem := (d :: s) ++ after.
  Let len := Z.of_nat (length (d :: s)).
  Lemma char_single q f c0 m0 : special_free c -> exec_single (S f) (q :: EXACT_MATCH :: 1 :: c :: rest) mem len 1 0 c0 m0 = if d =? c then Some (c0, 4, 1) else Some (c0, 4, -1).
  Proof.
    intros (Hc & _). cbn [exec_single]. change (at_ (q :: EXACT_MATCH :: 1 :: c :: rest) 1) with (Some EXACT_MATCH). cbn [obind]. change (EXACT_MATCH =? BEGIN_CAPTURE) with false. change (EXACT_MATCH =? END_CAPTURE) with false. change (EXACT_MATCH =? BEGINNING_OF_LINE) with false. change (EXACT_MATCH =? END_OF_LINE) with false. change (EXACT_MATCH =? BRANCH_START) with false. change (EXACT_MATCH =? BRANCH_END) with false. change (EXACT_MATCH =? ANY) with false. change (EXACT_MATCH =? ANY_OF) with false. change (EXACT_MATCH =? ANY_BUT) with false. change (EXACT_MATCH =? EXACT_MATCH) with true. cbn match.
    change (at_ (q :: EXACT_MATCH :: 1 :: c :: rest) (1 + 1)) with (Some 1). cbn [obind]. change (i8 1) with 1. destruct (Z.ltb_spec (len - 0) 1) as [X|_]; [unfold len in X; cbn [length] in X; lia|].
    change (1 <=? 0) with false. change (0 <? 0) with false. cbn match. change (Z.to_nat 1) with 1%nat. change (Z.to_nat 0) with 0%nat. change (Z.to_nat (1 + 1 + 1)) with 3%nat. unfold mem. cbn [skipn app strncmp rd nth_error obind].
    destruct (Z.eqb_spec d c) as [->|N]; cbn [negb].
    - rewrite (eqb_no c 0) by lia. reflexivity.
    - reflexivity.
  Qed.
  Lemma consume_zero q f g : special_free c -> d <> c -> (2 <= f)%nat -> consume f (q :: EXACT_MATCH :: 1 :: c :: rest) mem len 1 0 (NO_MATCH, 0) caps max g = Some (caps, -1, 0).
  Proof.
    intros Sc N F. destruct f as [|[|f]]; [lia..|]. remember (S f) as f1 eqn:E. cbn [consume]. rewrite E at 1. rewrite char_single by easy. rewrite (eqb_no d c) by easy. cbn [obind]. change (-1 =? -1) with true. rewrite orb_true_r. reflexivity.
  Qed.
  (** no repetition: the next op is at -1 *)
  Lemma star_fault q : special_free c -> d <> c -> q = ZERO_OR_MORE \/ q = ONE_OR_MORE -> re_match (q :: EXACT_MATCH :: 1 :: c :: rest) mem len caps max = None.
  Proof.
    intros Sc N Q. set (b := q :: EXACT_MATCH :: 1 :: c :: rest). assert (Lb : 4 <= Z.of_nat (length b)) by (unfold b; cbn [length]; lia).
    assert (Ex : exec (exec_fuel b len) b mem len 0 0 caps max = None).
    { pose proof (fuel_ok b len) as F. set (f := exec_fuel b len) in *. clearbody f.
      assert (Es : exec_single (pred f) b mem len 0 0 caps max = Some (caps, -1, 0)).
      { destruct f as [|[|[|[|f]]]]; [lia..|]. cbn [pred]. remember (S (S f)) as f1 eqn:E1. cbn [exec_single]. destruct Q as [Q|Q].
        - replace (at_ b 0) with (Some ZERO_OR_MORE) by (unfold b; rewrite Q; reflexivity). cbn [obind]. change (ZERO_OR_MORE =? BEGIN_CAPTURE) with false. change (ZERO_OR_MORE =? END_CAPTURE) with false. change (ZERO_OR_MORE =? BEGINNING_OF_LINE) with false. change (ZERO_OR_MORE =? END_OF_LINE) with false. change (ZERO_OR_MORE =? BRANCH_START) with false. change (ZERO_OR_MORE =? BRANCH_END) with false. change (ZERO_OR_MORE =? ANY) with false. change (ZERO_OR_MORE =? ANY_OF) with false. change (ZERO_OR_MORE =? ANY_BUT) with false. change (ZERO_OR_MORE =? EXACT_MATCH) with false. change (ZERO_OR_MORE =? META_MATCH) with false. change (ZERO_OR_MORE =? ZERO_OR_MORE) with true. cbn match. change (0 + 1) with 1. apply consume_zero; [easy|easy|lia].
        - replace (at_ b 0) with (Some ONE_OR_MORE) by (unfold b; rewrite Q; reflexivity). cbn [obind]. change (ONE_OR_MORE =? BEGIN_CAPTURE) with false. change (ONE_OR_MORE =? END_CAPTURE) with false. change (ONE_OR_MORE =? BEGINNING_OF_LINE) with false. change (ONE_OR_MORE =? END_OF_LINE) with false. change (ONE_OR_MORE =? BRANCH_START) with false. change (ONE_OR_MORE =? BRANCH_END) with false. change (ONE_OR_MORE =? ANY) with false. change (ONE_OR_MORE =? ANY_OF) with false. change (ONE_OR_MORE =? ANY_BUT) with false. change (ONE_OR_MORE =? EXACT_MATCH) with false. change (ONE_OR_MORE =? META_MATCH) with false. change (ONE_OR_MORE =? ZERO_OR_MORE) with false. change (ONE_OR_MORE =? ONE_OR_MORE) with true. cbn match. change (0 + 1) with 1. rewrite E1 at 1. unfold b at 1. rewrite char_single by easy. rewrite (eqb_no d c) by easy. cbn [obind]. destruct (Z.ltb_spec len (-1)) as [X|_]; [unfold len in X; lia|]. apply consume_zero; [easy|easy|lia]. }
      unfold mem, len in *. rewrite (exec_step (d :: s) after b max f 0 0 caps (-1) 0 caps); [|lia|exact Es|lia|lia|lia].
      apply exec_none; [lia|]. destruct (pred (pred f)) as [|f2]; reflexivity. }
    unfold re_match. unfold b at 1. cbn match. fold b. destruct Q as [Q|Q]; rewrite Q; change (ZERO_OR_MORE =? BEGINNING_OF_LINE) with false; change (ONE_OR_MORE =? BEGINNING_OF_LINE) with false; cbn match; unfold len at 1; rewrite Nat2Z.id; cbn [length match_from]; rewrite Ex; reflexivity.
  Qed.
End Quant.
(** a repetition at the end: one character is taken *)
Lemma star_once c s after caps max q : special_free c -> q = ZERO_OR_MORE \/ q = ONE_OR_MORE ->
  re_match [q; EXACT_MATCH; 1; c] ((c :: s) ++ after) (Z.of_nat (length (c :: s))) caps max = Some (caps, true, Some 1).
Proof.
  intros Sc Q. set (b := [q; EXACT_MATCH; 1; c]). set (mem := (c :: s) ++ after). set (len := Z.of_nat (length (c :: s))). assert (L1 : 1 <= len) by (unfold len; cbn [length]; lia).
  assert (Co : forall f, (2 <= f)%nat -> consume f b mem len 1 0 (NO_MATCH, 0) caps max true = Some (caps, 4, 1)).
  { intros f F. destruct f as [|[|f]]; [lia..|]. remember (S f) as f1 eqn:E. cbn [consume]. rewrite E at 1. unfold b at 1, mem at 1, len at 1. rewrite (char_single c c s after []) by easy. rewrite Z.eqb_refl. cbn [obind]. destruct (Z.ltb_spec len 1) as [X|_]; [lia|]. reflexivity. }
  assert (Ex : exec (exec_fuel b len) b mem len 0 0 caps max = Some (caps, 4, 1)).
  { pose proof (fuel_ok b len) as F. set (f := exec_fuel b len) in *. clearbody f.
    assert (Es : exec_single (pred f) b mem len 0 0 caps max = Some (caps, 4, 1)).
    { destruct f as [|[|[|[|f]]]]; [lia..|]. cbn [pred]. remember (S (S f)) as f1 eqn:E1. cbn [exec_single]. destruct Q as [Q|Q].
      - replace (at_ b 0) with (Some ZERO_OR_MORE) by (unfold b; rewrite Q; reflexivity). cbn [obind]. change (ZERO_OR_MORE =? BEGIN_CAPTURE) with false. change (ZERO_OR_MORE =? END_CAPTURE) with false. change (ZERO_OR_MORE =? BEGINNING_OF_LINE) with false. change (ZERO_OR_MORE =? END_OF_LINE) with false. change (ZERO_OR_MORE =? BRANCH_START) with false. change (ZERO_OR_MORE =? BRANCH_END) with false. change (ZERO_OR_MORE =? ANY) with false. change (ZERO_OR_MORE =? ANY_OF) with false. change (ZERO_OR_MORE =? ANY_BUT) with false. change (ZERO_OR_MORE =? EXACT_MATCH) with false. change (ZERO_OR_MORE =? META_MATCH) with false. change (ZERO_OR_MORE =? ZERO_OR_MORE) with true. cbn match. change (0 + 1) with 1. apply Co. lia.
      - replace (at_ b 0) with (Some ONE_OR_MORE) by (unfold b; rewrite Q; reflexivity). cbn [obind]. change (ONE_OR_MORE =? BEGIN_CAPTURE) with false. change (ONE_OR_MORE =? END_CAPTURE) with false. change (ONE_OR_MORE =? BEGINNING_OF_LINE) with false. change (ONE_OR_MORE =? END_OF_LINE) with false. change (ONE_OR_MORE =? BRANCH_START) with false. change (ONE_OR_MORE =? BRANCH_END) with false. change (ONE_OR_MORE =? ANY) with false. change (ONE_OR_MORE =? ANY_OF) with false. change (ONE_OR_MORE =? ANY_BUT) with false. change (ONE_OR_MORE =? EXACT_MATCH) with false. change (ONE_OR_MORE =? META_MATCH) with false. change (ONE_OR_MORE =? ZERO_OR_MORE) with false. change (ONE_OR_MORE =? ONE_OR_MORE) with true. cbn match. change (0 + 1) with 1. rewrite E1 at 1. unfold b at 1, mem at 1, len at 1. rewrite (char_single c c s after []) by easy. rewrite Z.eqb_refl. cbn [obind]. destruct (Z.ltb_spec len 1) as [X|_]; [lia|]. apply Co. lia. }
    unfold mem, len in *. rewrite (exec_step (c :: s) after b max f 0 0 caps 4 1 caps); [|cbn; lia|exact Es|lia|lia|lia]. apply exec_done; [cbn; lia|lia]. }
  unfold re_match. unfold b at 1. cbn match. fold b. destruct Q as [Q|Q]; rewrite Q; change (ZERO_OR_MORE =? BEGINNING_OF_LINE) with false; change (ONE_OR_MORE =? BEGINNING_OF_LINE) with false; cbn match; unfold len at 1; rewrite Nat2Z.id; cbn [length match_from]; rewrite Ex; cbn [obind]; (destruct (Z.leb_spec 1 len) as [_|X]; [reflexivity|lia]).
Qed.
(** an optional character that is not there: the rest is tried from offset -1 *)
Lemma optional_single c d s after rest caps max f : special_free c -> d <> c -> (3 <= f)%nat ->
  let b := ZERO_OR_ONE :: EXACT_MATCH :: 1 :: c :: rest in
  let run o := exec (pred f) b ((d :: s) ++ after) (Z.of_nat (length (d :: s))) 4 o caps max in
  (run (-1) = None -> exec_single f b ((d :: s) ++ after) (Z.of_nat (length (d :: s))) 0 0 caps max = None) /\
  (forall caps' op o, run (-1) = Some (caps', op, o) -> o <= Z.of_nat (length (d :: s)) -> exec_single f b ((d :: s) ++ after) (Z.of_nat (length (d :: s))) 0 0 caps max = Some (caps', op, o)).
Proof.
  intros Sc N F b run. unfold run. set (mem := (d :: s) ++ after). set (len := Z.of_nat (length (d :: s))). clear run.
  destruct f as [|[|f]]; [lia..|]. cbn [pred]. remember (S f) as f1 eqn:E1. cbn [exec_single].
  replace (at_ b 0) with (Some ZERO_OR_ONE) by reflexivity. cbn [obind]. change (ZERO_OR_ONE =? BEGIN_CAPTURE) with false. change (ZERO_OR_ONE =? END_CAPTURE) with false. change (ZERO_OR_ONE =? BEGINNING_OF_LINE) with false. change (ZERO_OR_ONE =? END_OF_LINE) with false. change (ZERO_OR_ONE =? BRANCH_START) with false. change (ZERO_OR_ONE =? BRANCH_END) with false. change (ZERO_OR_ONE =? ANY) with false. change (ZERO_OR_ONE =? ANY_OF) with false. change (ZERO_OR_ONE =? ANY_BUT) with false. change (ZERO_OR_ONE =? EXACT_MATCH) with false. change (ZERO_OR_ONE =? META_MATCH) with false. change (ZERO_OR_ONE =? ZERO_OR_MORE) with false. change (ZERO_OR_ONE =? ONE_OR_MORE) with false. change (ZERO_OR_ONE =? ZERO_OR_MORE_SHORTEST) with false. change (ZERO_OR_ONE =? ONE_OR_MORE_SHORTEST) with false. change (ZERO_OR_ONE =? ZERO_OR_ONE) with true. cbn match. change (0 + 1) with 1.
  assert (Es : exec_single f1 b mem len 1 0 caps max = Some (caps, 4, -1)) by (rewrite E1; unfold b, mem, len; rewrite char_single by easy; rewrite (eqb_no d c) by easy; reflexivity).
  rewrite Es. cbn [obind]. destruct (Z.leb_spec (-1) len) as [_|X]; [|unfold len in X; lia].
  split; [intros ->; reflexivity|]. intros caps' op o -> L. cbn [obind]. destruct (Z.leb_spec o len) as [_|X]; [reflexivity|lia].
Qed.
Lemma optional_lit c d w s after caps max : special_free c -> d <> c -> plain w -> Z.of_nat (length w) < 128 -> (length w <= S (length (d :: s)))%nat ->
  re_match ([ZERO_OR_ONE; EXACT_MATCH; 1; c] ++ EXACT_MATCH :: Z.of_nat (length w) :: w) ((d :: s) ++ after) (Z.of_nat (length (d :: s))) caps max = None.
Proof.
  intros Sc N Pw Lw L. cbn [app]. set (b := ZERO_OR_ONE :: EXACT_MATCH :: 1 :: c :: EXACT_MATCH :: Z.of_nat (length w) :: w). set (mem := d :: s ++ after). set (len := Z.of_nat (length (d :: s))). pose proof (plain_length w Pw) as Pl.
  assert (Ex : exec (exec_fuel b len) b mem len 0 0 caps max = None).
  { pose proof (fuel_ok b len) as F. set (f := exec_fuel b len) in *. clearbody f. apply (exec_none (d :: s) after b max); [unfold b; cbn [length]; lia|].
    apply (optional_single c d s after (EXACT_MATCH :: Z.of_nat (length w) :: w) caps max (pred f) Sc N ltac:(lia)). apply exec_none; [cbn [length]; lia|]. fold b. change ((d :: s) ++ after) with mem. fold len.
    destruct (pred (pred (pred f))) as [|f1]; [reflexivity|]. cbn [exec_single]. change (at_ b 4) with (Some EXACT_MATCH). cbn [obind]. change (EXACT_MATCH =? BEGIN_CAPTURE) with false. change (EXACT_MATCH =? END_CAPTURE) with false. change (EXACT_MATCH =? BEGINNING_OF_LINE) with false. change (EXACT_MATCH =? END_OF_LINE) with false. change (EXACT_MATCH =? BRANCH_START) with false. change (EXACT_MATCH =? BRANCH_END) with false. change (EXACT_MATCH =? ANY) with false. change (EXACT_MATCH =? ANY_OF) with false. change (EXACT_MATCH =? ANY_BUT) with false. change (EXACT_MATCH =? EXACT_MATCH) with true. cbn match.
    change (at_ b (4 + 1)) with (Some (Z.of_nat (length w))). cbn [obind]. rewrite i8_small by lia. destruct (Z.ltb_spec (len - -1) (Z.of_nat (length w))) as [X|_]; [unfold len in X; lia|]. destruct (Z.leb_spec (Z.of_nat (length w)) 0); [lia|]. reflexivity. }
  unfold re_match. unfold b at 1. cbn match. fold b. change (ZERO_OR_ONE =? BEGINNING_OF_LINE) with false. cbn match. unfold len at 1. rewrite Nat2Z.id. cbn [length match_from]. change 0 with 0 in Ex. unfold mem, len in *. cbn [length] in *. rewrite Ex. reflexivity.
Qed.
Lemma optional_any c d s after caps max : special_free c -> d <> c ->
  re_match [ZERO_OR_ONE; EXACT_MATCH; 1; c; ANY] ((d :: s) ++ after) (Z.of_nat (length (d :: s))) caps max = Some (caps, true, Some 0).
Proof.
  intros Sc N. set (b := [ZERO_OR_ONE; EXACT_MATCH; 1; c; ANY]). set (len := Z.of_nat (length (d :: s))). assert (L1 : 1 <= len) by (unfold len; cbn [length]; lia).
  assert (Ex : exec (exec_fuel b len) b ((d :: s) ++ after) len 0 0 caps max = Some (caps, 5, 0)).
  { pose proof (fuel_ok b len) as F. set (f := exec_fuel b len) in *. clearbody f.
    assert (Es : exec_single (pred f) b ((d :: s) ++ after) len 0 0 caps max = Some (caps, 5, 0)).
    { apply (optional_single c d s after [ANY] caps max (pred f) Sc N ltac:(lia)); [|lia]. fold b.
      rewrite (exec_step (d :: s) after b max (pred (pred f)) 4 (-1) caps 5 0 caps); [|cbn; lia| |lia|lia|lia]. { apply exec_done; [cbn; lia|lia]. }
      fold len. destruct f as [|[|[|[|f]]]]; [lia..|]. cbn [pred exec_single]. change (at_ b 4) with (Some ANY). cbn [obind]. change (ANY =? BEGIN_CAPTURE) with false. change (ANY =? END_CAPTURE) with false. change (ANY =? BEGINNING_OF_LINE) with false. change (ANY =? END_OF_LINE) with false. change (ANY =? BRANCH_START) with false. change (ANY =? BRANCH_END) with false. change (ANY =? ANY) with true. cbn match. destruct (Z.ltb_spec (-1) len) as [_|X]; [reflexivity|lia]. }
    unfold len in *. rewrite (exec_step (d :: s) after b max f 0 0 caps 5 0 caps); [|cbn; lia|exact Es|lia|lia|lia]. apply exec_done; [cbn; lia|lia]. }
  unfold re_match. unfold b at 1. cbn match. fold b. change (ZERO_OR_ONE =? BEGINNING_OF_LINE) with false. cbn match. unfold len at 1. rewrite Nat2Z.id. cbn [length match_from]. fold len. change (d :: s ++ after) with ((d :: s) ++ after). rewrite Ex. cbn [obind]. destruct (Z.leb_spec 0 len) as [_|X]; [reflexivity|lia].
Qed.
