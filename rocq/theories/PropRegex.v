(** C56, C57: regular expressions. *)
From Verif Require Import Base CStr Regex RegexSpec RegexProofs RegexProofs2 RegexProofs3 RegexProofs4 RegexProofs5 RegexProofs6 RegexProofs7 RegexProofs8.

(** * C56 *)
(** every pattern of the fragment compiles without an error, with one capture for each group; the search with
    the program finds exactly the first match and the spans of its groups, or reports that there is none.
    It reads nothing but the subject, and the one character behind it if there are sets or escapes.
    The caller's array of captures, if there is one, has [max] entries or more. *)
Theorem C56_match : forall l t f post, spells l t -> l <> [] -> (group_count l <= 256)%nat -> (length t < f)%nat ->
  exists r, compile f (t ++ post) (Z.of_nat (length t)) = Some (r, ReNone, false) /\ capture_count r = Z.of_nat (group_count l) /\
    forall s after max caps, (existsb looks l = true -> after <> []) -> match caps with Some a => max <= Z.of_nat (length a) | None => True end ->
    exists caps' found o, re_match (buf r) (s ++ after) (Z.of_nat (length s)) caps max = Some (caps', found, o) /\
      match caps, caps' with Some a, Some b => length a = length b | None, None => True | _, _ => False end /\
      (found = true -> exists i j cs, first_match l s i j cs) /\
      (forall i j cs, first_match l s i j cs -> found = true /\ o = Some (Z.of_nat j) /\
        forall b, caps' = Some b -> forall k i' j', nth_error cs k = Some (i', j') -> Z.of_nat k < max -> nth_error b k = Some (Z.of_nat i', Z.of_nat j' - Z.of_nat i')).
Proof.
  intros l t f post Sp Ne G F. destruct (compile_spells l t f post Sp ltac:(lia) F) as (r & E & B & C). exists r. split; [easy|]. split; [easy|].
  intros s after max caps Lk O. rewrite B. destruct (re_match_ok l t Sp Ne s after Lk max caps O) as [(i & j & cs & caps' & M & Em & Sh & Ss)|(N & caps' & Em & Sh)].
  - exists caps', true. eexists. split; [exact Em|]. split; [exact Sh|]. split; [eauto|]. intros i2 j2 cs2 M2. destruct (first_match_fun _ _ _ _ _ _ _ _ M M2) as (-> & -> & ->). split; [easy|]. split; [easy|]. intros b ->. exact Ss.
  - exists caps', false, None. split; [exact Em|]. split; [exact Sh|]. split; [easy|]. intros i j cs M. destruct (N i j cs M).
Qed.
(** there is one result only: the first match and its groups are determined *)
Theorem C56_unique : forall l s i j cs i' j' cs', first_match l s i j cs -> first_match l s i' j' cs' -> i' = i /\ j' = j /\ cs' = cs.
Proof. intros. eapply first_match_fun; eauto. Qed.
(** zpl_re_match_all: if repeated searches, each from the end of the last match, come to the end of the text
    exactly, all groups of all matches are reported; if the last search fails, the result is failure *)
Theorem C56_match_all : forall l t s after f cps out base spans, spells l t -> l <> [] -> (existsb looks l = true -> after <> []) -> (length s < f)%nat -> length cps = group_count l ->
  let run := match_all f (code 0 l) (s ++ after) (Z.of_nat (length s)) (Z.of_nat base) cps (Z.of_nat (group_count l)) out in
  let reported := map (fun c => (Z.of_nat (fst c), Z.of_nat (snd c) - Z.of_nat (fst c))) spans in
  (tiles l s base spans -> run = Some (true, out ++ reported)) /\ (stops l s base spans -> run = Some (false, out ++ reported)).
Proof.
  intros l t s after f cps out base spans Sp Ne Lk F L run reported. split; intros H; unfold run.
  - rewrite (match_all_tiles l t Sp Ne after Lk s base spans H f cps out F L). reflexivity.
  - rewrite (match_all_stops l t Sp Ne after Lk s base spans H f cps out F L). reflexivity.
Qed.
(** the program is the one that compiling gives *)
Theorem C56_program : forall l t f post, spells l t -> (group_count l <= 256)%nat -> (length t < f)%nat ->
  exists r, compile f (t ++ post) (Z.of_nat (length t)) = Some (r, ReNone, false) /\ buf r = code 0 l.
Proof. intros l t f post Sp G F. destruct (compile_spells l t f post Sp ltac:(lia) F) as (r & E & B & _). eauto. Qed.

(** x([a-c]... : the pattern "x(b.)[^q]d$" on "abxbczd" *)
Definition demo : list item := [Lit [120]; Group [Lit [98]; Dot]; Set_ true [Char 113]; Lit [100]; End].
Definition demo_text : list Z := [120; 40; 98; 46; 41; 91; 94; 113; 93; 100; 36].
Lemma demo_lit c (l : list item) t : 0 < c < 256 -> ~ In c metas -> ~ starts_literal l -> spells l t -> spells (Lit [c] :: l) (c :: t).
Proof. intros H N L Sp. change (c :: t) with ([c] ++ t). constructor; [easy|cbn; lia|repeat constructor; easy|easy|easy]. Qed.
Ltac not_meta := cbn; intros X; repeat (destruct X as [X|X]; [discriminate X|]); exact X.
Example demo_spells : spells demo demo_text.
Proof.
  unfold demo, demo_text. apply demo_lit; [lia|not_meta|easy|]. change [40; 98; 46; 41; 91; 94; 113; 93; 100; 36] with (40 :: [98; 46] ++ 41 :: [91; 94; 113; 93; 100; 36]). constructor.
  - apply demo_lit; [lia|not_meta|easy|]. repeat constructor.
  - change [91; 94; 113; 93; 100; 36] with (91 :: 94 :: [113] ++ 93 :: [100; 36]). constructor; [repeat constructor; lia|cbn; lia|]. apply demo_lit; [lia|not_meta|easy|]. repeat constructor.
Qed.
Example demo_match : first_match demo [97; 98; 120; 98; 99; 122; 100] 2 7 [(3, 5)]%nat.
Proof.
  split; [cbn; lia|]. split.
  - apply m_lit; [reflexivity|]. cbn [length Nat.add]. apply (m_group _ _ _ 3 5 7 [] []).
    + apply m_lit; [reflexivity|]. apply m_dot; [cbn; lia|]. constructor.
    + apply (m_not _ _ 122); [reflexivity|constructor; [cbn; lia|constructor]|]. apply m_lit; [reflexivity|]. apply (m_end [97; 98; 120; 98; 99; 122; 100] [] 7 []). constructor.
  - intros i L _ j cs M. inversion M as [|? ? ? ? ? Hf| | | | | | |]; subst. destruct i as [|[|i]]; [discriminate Hf..|lia].
Qed.
Example demo_run : compile 20 demo_text 11 = Some (Re 1 (code 0 demo) 139 true, ReNone, false) /\
  re_match (code 0 demo) ([97; 98; 120; 98; 99; 122; 100] ++ [0]) 7 (Some [(-5, -5)]) 1 = Some (Some [(3, 2)], true, Some 7).
Proof. split; vm_compute; reflexivity. Qed.
(** a subject without a match, and one whose searches tile it: "(.)b" on "abxb" *)
Example demo_none : re_match (code 0 demo) ([120; 98; 99; 113; 100] ++ [0]) 5 (Some [(0, 0)]) 1 = Some (Some [(1, 2)], false, None).
Proof. vm_compute. reflexivity. Qed.
Example demo_all : tiles [Group [Dot]; Lit [98]] [97; 98; 120; 98] 0 [(0, 1); (2, 3)]%nat /\
  match_all 9 (code 0 [Group [Dot]; Lit [98]]) ([97; 98; 120; 98] ++ []) 4 0 [(7, 7)] 1 [] = Some (true, [(0, 1); (2, 1)]).
Proof.
  split; [|vm_compute; reflexivity].
  assert (M : forall c s, first_match [Group [Dot]; Lit [98]] (c :: 98 :: s) 0 2 [(0, 1)]%nat).
  { intros c s. split; [cbn; lia|]. split; [|lia]. apply (m_group _ _ _ 0 1 2 [] []). { apply m_dot; [cbn; lia|constructor]. } apply m_lit; [reflexivity|constructor]. }
  apply (t_step _ [97; 98; 120; 98] 0 0 2 [(0, 1)]%nat [(2, 3)]%nat); [easy|apply (M 97)|lia|]. cbn [skipn Nat.add].
  apply (t_step _ [120; 98] 2 0 2 [(0, 1)]%nat []); [easy|apply (M 120)|lia|]. cbn [skipn]. constructor.
Qed.

(** * C57 *)
(** "x|y" matches neither x nor y: only x followed by y *)
Theorem C57_branch_refuted : forall x y f post, plain x -> plain y -> Z.of_nat (length x) < 128 -> Z.of_nat (length y) < 128 -> (length x + length y + 1 < f)%nat ->
  exists r, compile f (x ++ 124 :: y ++ post) (Z.of_nat (length x + 1 + length y)) = Some (r, ReNone, false) /\
    forall s after caps max, exists found o, re_match (buf r) (s ++ after) (Z.of_nat (length s)) caps max = Some (caps, found, o) /\
      (found = true <-> exists i, (i <= length s)%nat /\ occurs (x ++ y) s i).
Proof. intros x y f post Px Py Lx Ly F. destruct (compile_branch x y f post Px Py Lx Ly F) as (r & E & B). exists r. split; [easy|]. intros. rewrite B. now apply branch_match. Qed.
(** "(x|y)" matches x only *)
Theorem C57_group_branch_refuted : forall x y f post, plain x -> plain y -> Z.of_nat (length x) < 126 -> Z.of_nat (length y) < 126 -> (length x + length y + 4 < f)%nat ->
  exists r, compile f (40 :: x ++ 124 :: y ++ 41 :: post) (Z.of_nat (length x + length y + 3)) = Some (r, ReNone, false) /\
    forall s after, exists found o, re_match (buf r) (s ++ after) (Z.of_nat (length s)) None 0 = Some (None, found, o) /\
      (found = true <-> exists i, (i <= length s)%nat /\ occurs x s i).
Proof. intros x y f post Px Py Lx Ly F. destruct (compile_group_branch x y f post Px Py ltac:(lia) ltac:(lia) F) as (r & E & B & _). exists r. split; [easy|]. intros. rewrite B. now apply group_branch_match. Qed.
(** "c*..." and "c+..." on a text that does not start with c: the program is read at index -1 *)
Theorem C57_zero_repetitions_refuted : forall c q l t f post, special_free c -> In q [42; 43] -> spells l t -> (group_count l <= 256)%nat -> (length t + 3 < f)%nat ->
  exists r, compile f (c :: q :: t ++ post) (Z.of_nat (2 + length t)) = Some (r, ReNone, false) /\
    forall d s after caps max, d <> c -> re_match (buf r) (d :: s ++ after) (Z.of_nat (length (d :: s))) caps max = None.
Proof.
  intros c q l t f post Sc Hq Sp G F. destruct (compile_quant c q l t f post Sc) as (r & E & B); [cbn in *; tauto|easy|lia|easy|]. exists r. split; [easy|]. intros d s after caps max N. rewrite B. cbn [app].
  apply (star_fault c d s after (code 0 l) caps max (quantifier q) Sc N). destruct Hq as [<-|[<-|[]]]; [now left|now right].
Qed.
(** "c*" and "c+" take one c, however many there are *)
Theorem C57_one_repetition_refuted : forall c q f post, special_free c -> In q [42; 43] -> (3 < f)%nat ->
  exists r, compile f (c :: q :: post) 2 = Some (r, ReNone, false) /\
    forall s after caps max, re_match (buf r) (c :: s ++ after) (Z.of_nat (length (c :: s))) caps max = Some (caps, true, Some 1).
Proof.
  intros c q f post Sc Hq F. destruct (compile_quant c q [] [] f post Sc) as (r & E & B); [cbn in *; tauto|constructor|cbn; lia|cbn; lia|]. cbn [app length Nat.add] in E. change (Z.of_nat 2) with 2 in E. exists r. split; [easy|]. intros s after caps max. rewrite B.
  apply (star_once c s after caps max (quantifier q) Sc). destruct Hq as [<-|[<-|[]]]; [now left|now right].
Qed.
(** "c?w" on a text that does not start with c: the text is read at index -1 *)
Theorem C57_optional_refuted : forall c w f post, special_free c -> plain w -> Z.of_nat (length w) < 128 -> (length w + 3 < f)%nat ->
  exists r, compile f (c :: 63 :: w ++ post) (Z.of_nat (2 + length w)) = Some (r, ReNone, false) /\
    forall d s after caps max, d <> c -> (length w <= S (length (d :: s)))%nat -> re_match (buf r) (d :: s ++ after) (Z.of_nat (length (d :: s))) caps max = None.
Proof.
  intros c w f post Sc Pw Lw F. destruct (compile_quant c 63 [Lit w] w f post Sc) as (r & E & B); [cbn; tauto|now apply plain_spells|cbn; lia|easy|]. exists r. split; [easy|]. intros d s after caps max N L. rewrite B. cbn [code icode]. rewrite app_nil_r.
  exact (optional_lit c d w s after caps max Sc N Pw Lw L).
Qed.
(** "c?." on such a text: an empty match *)
Theorem C57_optional_any_refuted : forall c f post, special_free c -> (4 < f)%nat ->
  exists r, compile f (c :: 63 :: 46 :: post) 3 = Some (r, ReNone, false) /\
    forall d s after caps max, d <> c -> re_match (buf r) (d :: s ++ after) (Z.of_nat (length (d :: s))) caps max = Some (caps, true, Some 0).
Proof.
  intros c f post Sc F. destruct (compile_quant c 63 [Dot] [46] f post Sc) as (r & E & B); [cbn; tauto|repeat constructor|cbn; lia|cbn; lia|]. cbn [app length Nat.add] in E. change (Z.of_nat 3) with 3 in E. exists r. split; [easy|]. intros d s after caps max N. rewrite B.
  exact (optional_any c d s after caps max Sc N).
Qed.
(** a ']' outside a set: compiling does not end *)
Theorem C57_bracket_refuted : forall l t f post len, spells l t -> (group_count l <= 256)%nat -> Z.of_nat (length t) < len <= Z.of_nat (length (t ++ 93 :: post)) -> (length t < f)%nat ->
  compile f (t ++ 93 :: post) len = None.
Proof. intros l t f post len Sp G. apply (bracket_hangs l t f post len Sp). lia. Qed.
(** "[w": accepted as w *)
Theorem C57_open_set_refuted : forall w f, plain w -> Z.of_nat (length w) < 128 -> (length w + 1 < f)%nat ->
  exists r r', compile f (91 :: w) (Z.of_nat (length (91 :: w))) = Some (r, ReNone, false) /\ compile f w (Z.of_nat (length w)) = Some (r', ReNone, false) /\ buf r = buf r'.
Proof.
  intros w f Pw Lw F. destruct (set_accepted w f Pw Lw F) as (r & E & B). destruct (compile_spells [Lit w] w f [] (plain_spells w Pw Lw) ltac:(cbn; lia) ltac:(lia)) as (r' & E' & B' & _). rewrite app_nil_r in E'.
  exists r, r'. split; [easy|]. split; [easy|]. congruence.
Qed.
(** "(w\)": accepted, though the group is not closed *)
Theorem C57_open_group_refuted : forall w f, plain w -> Z.of_nat (length w) < 128 -> (length w + 5 < f)%nat ->
  exists r, compile f (40 :: w ++ [92; 41]) (Z.of_nat (length w + 3)) = Some (r, ReNone, false) /\ buf r = code 0 [Group [Lit w; Esc (Char 41)]].
Proof. intros w f. apply group_accepted. Qed.
(** "\d", "\D" and "\a" with anything behind are the number of one character, as all hexadecimal digits *)
Theorem C57_class_refuted : forall h x f, In h [100; 68; 97] -> (2 < f)%nat -> exists r, compile f [92; h; x] 3 = Some (r, ReNone, false) /\ buf r = [META_MATCH; re_hex h x].
Proof. intros h x f H. apply hex_escape. destruct H as [<-|[<-|[<-|[]]]]; reflexivity. Qed.
(** a literal of 128 to 253 characters: the program is read before its start *)
Theorem C57_long_refuted : forall w f, plain w -> 128 <= Z.of_nat (length w) <= 253 -> (1 < f)%nat ->
  exists r, compile f w (Z.of_nat (length w)) = Some (r, ReNone, false) /\ forall s after caps max, s <> [] -> re_match (buf r) (s ++ after) (Z.of_nat (length s)) caps max = None.
Proof. intros w f Pw L F. destruct (long_compile w f Pw ltac:(lia) F) as (r & E & B). exists r. split; [easy|]. intros s after caps max N. rewrite B. now apply long_fault. Qed.
(** "$" alone is never found, though it matches at the end *)
Theorem C57_end_refuted : forall s after caps max, caps_ok max caps -> matches s [End] (length s) (length s) [] /\
  exists caps', re_match (code 0 [End]) (s ++ after) (Z.of_nat (length s)) caps max = Some (caps', false, None).
Proof.
  intros s after caps max C. split; [repeat constructor|].
  destruct (re_match_ok [End] [36] ltac:(repeat constructor) ltac:(easy) s after ltac:(easy) max caps C) as [(i & j & cs & caps' & (S1 & M & _) & _)|(_ & caps' & E & _)]; [|eauto].
  exfalso. unfold may_start in S1. cbn in S1. inversion M; subst. lia.
Qed.
(** zpl_re_compile_from_buffer: the program is empty, and all patterns are refused but "[", "[[", ..., with a last backslash or not *)
Theorem C57_buffer_refuted : forall f p len n r e, compile_from_buffer f p len n = Some (r, e) ->
  buf r = [] /\ (e = ReNone -> forall i, 0 <= i < len -> at_ p i = Some 91 \/ (i = len - 1 /\ at_ p i = Some 92)).
Proof.
  intros f p len n r e E. unfold compile_from_buffer, parse in E. change (buf_len (Re 0 [] 0 false)) with 0 in E. destruct (parse_loop _ _ _ _ _ _ _ _ _) as [((r1, e1), o)|] eqn:P; [|easy]. cbn [obind] in E. injection E as <- <-.
  exact (buffer_parse f 0 p len 0 0 r1 e1 o ltac:(lia) ltac:(lia) P).
Qed.
(** a quantifier behind a full program is moved in one byte behind it: ".*" after 64 times "a." *)
Fixpoint times (n : nat) (w : list Z) : list Z := match n with O => [] | S n => w ++ times n w end.
Theorem C57_overflow_refuted : exists r, compile 400 (times 64 [97; 46] ++ [46]) 129 = Some (r, ReNone, false) /\ buf_len r = 257 /\
  (let full := Re (capture_count r) (buf r) (130 + 128) true in at_ (buf full) 256 = Some ANY /\ compile_quantifier full 256 ZERO_OR_MORE = None /\ buf_len full + 1 <= cap full) /\
  compile 400 (times 64 [97; 46] ++ [46; 42]) 130 = None /\ compile 400 (times 63 [97; 46] ++ [46; 42]) 128 <> None.
Proof. eexists. split; [vm_compute; reflexivity|]. split; [vm_compute; reflexivity|]. split; [vm_compute; intuition congruence|]. split; [vm_compute; reflexivity|]. vm_compute. discriminate. Qed.
(** zpl_re_match_all does not end when an empty match is found *)
Theorem C57_match_all_refuted : forall l t s after i cs f base cps out, spells l t -> l <> [] -> (existsb looks l = true -> after <> []) -> s <> [] -> first_match l s i 0 cs -> length cps = group_count l ->
  match_all f (code 0 l) (s ++ after) (Z.of_nat (length s)) (Z.of_nat base) cps (Z.of_nat (group_count l)) out = None.
Proof. intros l t s after i cs f base cps out Sp Ne Lk N M L. exact (match_all_empty l t Sp Ne after Lk s i cs N M f base cps out L). Qed.

(** cases *)
Example plain_cat : plain [99; 97; 116] /\ plain [100; 111; 103].
Proof. split; (split; [easy|]); repeat constructor; try lia; not_meta. Qed.
(** "cat|dog" on "cat", "dog" and "catdog"; "(cat|dog)" on "dog" *)
Example branch_run : exists r, compile 30 [99; 97; 116; 124; 100; 111; 103] 7 = Some (r, ReNone, false) /\
  re_match (buf r) [99; 97; 116] 3 None 0 = Some (None, false, None) /\ re_match (buf r) [100; 111; 103] 3 None 0 = Some (None, false, None) /\
  re_match (buf r) [99; 97; 116; 100; 111; 103] 6 None 0 = Some (None, true, Some 6).
Proof. eexists. split; [vm_compute; reflexivity|]. repeat split; vm_compute; reflexivity. Qed.
Example group_branch_run : exists r, compile 30 [40; 99; 97; 116; 124; 100; 111; 103; 41] 9 = Some (r, ReNone, false) /\
  re_match (buf r) [100; 111; 103] 3 None 0 = Some (None, false, None) /\ re_match (buf r) [99; 97; 116] 3 None 0 = Some (None, true, Some 3).
Proof. eexists. split; [vm_compute; reflexivity|]. repeat split; vm_compute; reflexivity. Qed.
(** "a*b" on "b"; "a+" on "aaa"; "a?b" on "b"; "\d+" on "7" *)
Example repetition_run : re_match [9; 4; 1; 97; 4; 1; 98] [98] 1 None 0 = None /\ re_match [10; 4; 1; 97] [97; 97; 97] 3 None 0 = Some (None, true, Some 1) /\
  re_match [13; 4; 1; 97; 4; 1; 98] [98] 1 None 0 = None /\ (exists r, compile 9 [92; 100; 43] 3 = Some (r, ReNone, false) /\ re_match (buf r) [55; 0] 1 None 0 = Some (None, false, None)).
Proof. split; [vm_compute; reflexivity|]. split; [vm_compute; reflexivity|]. split; [vm_compute; reflexivity|]. eexists. split; vm_compute; reflexivity. Qed.
Example long_case : plain (repeat 97 130) /\ Z.of_nat (length (repeat 97 130)) = 130.
Proof. split; [|reflexivity]. split; [easy|]. apply Forall_forall. intros c I. apply repeat_spec in I. subst c. split; [lia|not_meta]. Qed.
(** "()" finds an empty match *)
Example empty_case : first_match [Group []] [97] 0 0 [(0, 0)]%nat /\ spells [Group []] [40; 41].
Proof. split; [split; [cbn; lia|]; split; [apply (m_group _ [] [] 0 0 0 [] []); constructor|lia]|]. change [40; 41] with (40 :: [] ++ 41 :: []). repeat constructor. Qed.
Example buffer_case : compile_from_buffer 9 [97] 1 64 = Some (Re 0 [] 0 false, ReTooLong) /\ compile_from_buffer 9 [91; 91; 0] 2 64 = Some (Re 0 [] 0 false, ReNone).
Proof. split; vm_compute; reflexivity. Qed.

Print Assumptions C56_match.
Print Assumptions C56_unique.
Print Assumptions C56_match_all.
Print Assumptions C56_program.
Print Assumptions C57_branch_refuted.
Print Assumptions C57_group_branch_refuted.
Print Assumptions C57_zero_repetitions_refuted.
Print Assumptions C57_one_repetition_refuted.
Print Assumptions C57_optional_refuted.
Print Assumptions C57_optional_any_refuted.
Print Assumptions C57_bracket_refuted.
Print Assumptions C57_open_set_refuted.
Print Assumptions C57_open_group_refuted.
Print Assumptions C57_class_refuted.
Print Assumptions C57_long_refuted.
Print Assumptions C57_end_refuted.
Print Assumptions C57_buffer_refuted.
Print Assumptions C57_overflow_refuted.
Print Assumptions C57_match_all_refuted.
