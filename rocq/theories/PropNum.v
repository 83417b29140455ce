(** C40, C41: integers to text and back. *)
From Verif Require Import Base CStr CStrSpec CStrProofs Num NumSpec NumProofs.

(** the canonical digits are determined by the value *)
Theorem C40_digits_unique : forall base ds es, 2 <= base -> canonical base ds -> canonical base es -> number base ds = number base es -> ds = es.
Proof. exact canonical_unique. Qed.
(** printing writes the canonical digits and a terminator, and needs exactly that much room *)
Theorem C40_u64_print : forall base v buf, 2 <= base <= 64 -> 0 <= v < 2^64 -> exists ds, canonical base ds /\ number base ds = v /\
  ((length ds < length buf)%nat -> u64_to_str v buf base = Some (map digit_char ds ++ 0 :: skipn (S (length ds)) buf)) /\
  ((length buf <= length ds)%nat -> u64_to_str v buf base = None).
Proof.
  intros base v buf Hb Hv. destruct (print_ok base v false buf Hb ltac:(lia)) as (ds & C & N & P). exists ds. split; [easy|]. split; [easy|].
  assert (E : u64_to_str v buf base = if (length ds <? length buf)%nat then Some (map digit_char ds ++ 0 :: skipn (S (length ds)) buf) else None).
  { unfold u64_to_str. rewrite (u64_small base) by lia. cbn [app length Nat.add obind] in P. rewrite map_length in P.
    etransitivity; [|exact P]. destruct (if v =? 0 then _ else _) as [(b, k)|]; easy. }
  rewrite E. destruct (Nat.ltb_spec (length ds) (length buf)); split; intros; try lia; easy.
Qed.
(** parsing: the longest run of digits, modulo 2^64, with the number of characters read *)
Theorem C40_u64_parse : forall base s ds c x, base <> 0 -> Forall2 (denotes base) s ds -> (forall d, ~ denotes base c d) -> (base = 16 -> s = [48] -> c <> 120) ->
  str_to_u64 (s ++ c :: x) base = Some (number base ds mod 2^64, length s).
Proof.
  intros base s ds c x Hb. unfold str_to_u64, guess_base. destruct (Z.eqb_spec base 0); [easy|]. cbn [obind]. apply scan_u64_ok.
Qed.
Theorem C40_u64_parse_0x : forall s ds c x, Forall2 (denotes 16) s ds -> (forall d, ~ denotes 16 c d) ->
  str_to_u64 (48 :: 120 :: s ++ c :: x) 16 = Some (number 16 ds mod 2^64, S (S (length s))).
Proof. intros s ds c x. unfold str_to_u64. cbn [guess_base Z.eqb obind]. apply scan_u64_hex. Qed.
(** base 0: hexadecimal after "0x" with something behind it, decimal otherwise *)
Theorem C40_u64_parse_auto : forall t x, cstring t -> exists b, str_to_u64 (t ++ 0 :: x) 0 = str_to_u64 (t ++ 0 :: x) b /\
  ((exists r, t = 48 :: 120 :: r /\ r <> []) -> b = 16) /\ (~ (exists r, t = 48 :: 120 :: r /\ r <> []) -> b = 10).
Proof.
  intros t x H. destruct (guess_ok t x H) as (b & E & B1 & B2). exists b. split; [|easy]. unfold str_to_u64. rewrite E. cbn [obind].
  assert (b <> 0). { intros ->. assert (N : ~ (exists r, t = 48 :: 120 :: r /\ r <> [])) by (intros Y; now apply B1 in Y). now apply B2 in N. }
  unfold guess_base. destruct (Z.eqb_spec b 0); easy.
Qed.
Theorem C40_u64_round_trip : forall base v buf out, 2 <= base <= 10 \/ base = 16 -> 0 <= v < 2^64 ->
  u64_to_str v buf base = Some out -> exists n, str_to_u64 out base = Some (v, n) /\ nth_error out n = Some 0.
Proof.
  intros base v buf out Hb Hv E. destruct (C40_u64_print base v buf ltac:(lia) Hv) as (ds & C & N & P1 & P2).
  destruct (Nat.ltb_spec (length ds) (length buf)) as [L|L]; [|rewrite P2 in E by easy; easy]. rewrite P1 in E by easy. injection E as <-.
  exists (length (map digit_char ds)). split.
  - rewrite (C40_u64_parse base _ ds); [|lia|apply denotes_chars; [lia|apply C]|intros; apply no_nul|easy].
    rewrite N, Z.mod_small by lia. easy.
  - apply rd_at.
Qed.
(** in every other base the parser does not know the letters: 10 is printed as "A" and read as 0 *)
Theorem C40_u64_round_trip_refuted : forall base, 11 <= base <= 64 -> base <> 16 ->
  u64_to_str 10 [0; 0] base = Some [65; 0] /\ str_to_u64 [65; 0] base = Some (0, O).
Proof.
  intros base Hb H16. split.
  - destruct (C40_u64_print base 10 [0; 0] ltac:(lia) ltac:(lia)) as (ds & C & N & P1 & _).
    assert (E : ds = [10]). { apply (canonical_unique base); [lia|easy| |rewrite N; unfold number; cbn; lia]. split; [repeat constructor; lia|]. right. exists 10, []. split; [easy|lia]. }
    subst ds. rewrite P1 by (cbn; lia). easy.
  - apply (C40_u64_parse base [] [] 65 [0]); [lia|constructor| |easy]. intros d. unfold denotes. lia.
Qed.
Example C40_example : canonical 16 [15; 15] /\ number 16 [15; 15] = 255 /\ u64_to_str 255 [9; 9; 9; 9] 16 = Some [70; 70; 0; 9] /\
  u64_to_str 255 [9; 9] 16 = None /\ str_to_u64 [48; 120; 102; 70; 33] 16 = Some (255, 4%nat) /\ Forall2 (denotes 16) [102; 70] [15; 15] /\
  str_to_u64 [48; 120; 102; 70; 0] 0 = Some (255, 4%nat) /\ u64_to_str (2^64 - 1) (repeat 0 21) 10 = Some (map (fun c => 48 + c) [1;8;4;4;6;7;4;4;0;7;3;7;0;9;5;5;1;6;1;5] ++ [0]).
Proof.
  split. { split; [repeat constructor; lia|]. right. exists 15, [15]. split; [easy|lia]. }
  repeat split; try reflexivity. repeat constructor; unfold denotes; lia.
Qed.

Theorem C41_i64_print : forall base v buf, 2 <= base <= 64 -> - 2^63 < v < 2^63 -> exists ds, canonical base ds /\ number base ds = Z.abs v /\
  let out := (if v <? 0 then [45] else []) ++ map digit_char ds in
  ((length out < length buf)%nat -> i64_to_str v buf base = Some (out ++ 0 :: skipn (S (length out)) buf)) /\
  ((length buf <= length out)%nat -> i64_to_str v buf base = None).
Proof.
  intros base v buf Hb Hv. destruct (print_ok base (Z.abs v) (v <? 0) buf Hb ltac:(lia)) as (ds & C & N & P). exists ds. split; [easy|]. split; [easy|].
  cbn zeta in *. set (out := _ ++ map digit_char ds) in *.
  assert (E : i64_to_str v buf base = if (length out <? length buf)%nat then Some (out ++ 0 :: skipn (S (length out)) buf) else None).
  { rewrite <- P. unfold i64_to_str. rewrite (u64_small base) by lia. cbn zeta.
    replace (if v <? 0 then chk64 (- v) else Some v) with (Some (Z.abs v)) by (destruct (Z.ltb_spec v 0); [rewrite chk_ok by lia|]; f_equal; lia).
    cbn [obind]. rewrite (u64_small (Z.abs v)) by lia. easy. }
  rewrite E. destruct (Nat.ltb_spec (length out) (length buf)); split; intros; try lia; easy.
Qed.
(** the most negative number cannot be negated *)
Theorem C41_i64_print_min_refuted : forall base buf, i64_to_str (- 2^63) buf base = None.
Proof. reflexivity. Qed.
(** parsing overflows exactly when the digits denote 2^63 or more, with either sign *)
Theorem C41_i64_parse : forall base s ds c x, 1 <= base -> Forall2 (denotes base) s ds -> (forall d, ~ denotes base c d) -> (base = 16 -> s = [48] -> c <> 120) -> (s = [] -> c <> 45) ->
  (number base ds < 2^63 -> str_to_i64 (s ++ c :: x) base = Some (number base ds, length s) /\ str_to_i64 (45 :: s ++ c :: x) base = Some (- number base ds, S (length s))) /\
  (2^63 <= number base ds -> str_to_i64 (s ++ c :: x) base = None /\ str_to_i64 (45 :: s ++ c :: x) base = None).
Proof.
  intros base s ds c x Hb Hs Hc H Hm. unfold str_to_i64, guess_base. destruct (Z.eqb_spec base 0); [lia|]. cbn [obind].
  rewrite (scan_i64_pos base s ds), (scan_i64_neg base s ds) by easy. destruct (Z.ltb_spec (number base ds) (2^63)); split; intros; try lia; easy.
Qed.
Theorem C41_i64_parse_0x : forall s ds c x, Forall2 (denotes 16) s ds -> (forall d, ~ denotes 16 c d) -> number 16 ds < 2^63 ->
  str_to_i64 (48 :: 120 :: s ++ c :: x) 16 = Some (number 16 ds, S (S (length s))).
Proof.
  intros s ds c x Hs Hc L. unfold str_to_i64. cbn [guess_base Z.eqb obind]. rewrite (scan_i64_hex s ds) by easy. destruct (Z.ltb_spec (number 16 ds) (2^63)); [easy|lia].
Qed.
Theorem C41_i64_round_trip : forall base v buf out, 2 <= base <= 10 \/ base = 16 -> - 2^63 < v < 2^63 ->
  i64_to_str v buf base = Some out -> exists n, str_to_i64 out base = Some (v, n) /\ nth_error out n = Some 0.
Proof.
  intros base v buf out Hb Hv E. destruct (C41_i64_print base v buf ltac:(lia) Hv) as (ds & C & N & P). cbn zeta in P. destruct P as (P1 & P2).
  set (o := _ ++ map digit_char ds) in *. destruct (Nat.ltb_spec (length o) (length buf)) as [L|L]; [|rewrite P2 in E by easy; easy].
  rewrite P1 in E by easy. assert (E' : out = o ++ 0 :: skipn (S (length o)) buf) by congruence. subst out. clear E. exists (length o). split; [|apply rd_at].
  assert (D : Forall2 (denotes base) (map digit_char ds) ds) by (apply denotes_chars; [lia|apply C]).
  destruct (C41_i64_parse base (map digit_char ds) ds 0 (skipn (S (length o)) buf) ltac:(lia) D ltac:(intros; apply no_nul) ltac:(easy) ltac:(easy)) as (A & _).
  destruct A as (A & B); [lia|]. set (rest := skipn _ buf) in *. clearbody rest. subst o. destruct (Z.ltb_spec v 0); cbn [app length].
  - rewrite B. do 2 f_equal. lia.
  - rewrite A. do 2 f_equal. lia.
Qed.
(** "-9223372036854775808" is in range but cannot be read; "-0x10" is not recognised as hexadecimal *)
Theorem C41_i64_parse_refuted :
  str_to_i64 (45 :: map (fun c => 48 + c) [9;2;2;3;3;7;2;0;3;6;8;5;4;7;7;5;8;0;8] ++ [0]) 10 = None /\
  number 10 [9;2;2;3;3;7;2;0;3;6;8;5;4;7;7;5;8;0;8] = 2^63 /\
  str_to_i64 [45; 48; 120; 49; 48; 0] 0 = Some (0, 2%nat) /\ str_to_i64 [45; 48; 120; 49; 48; 0] 16 = Some (-16, 5%nat).
Proof. repeat split; reflexivity. Qed.
Example C41_example : i64_to_str (-42) [9; 9; 9; 9; 9] 10 = Some [45; 52; 50; 0; 9] /\ str_to_i64 [45; 52; 50; 0; 9] 10 = Some (-42, 3%nat) /\
  i64_to_str (-42) [9; 9; 9] 10 = None.
Proof. repeat split; reflexivity. Qed.

Print Assumptions C40_digits_unique.
Print Assumptions C40_u64_print.
Print Assumptions C40_u64_parse.
Print Assumptions C40_u64_parse_0x.
Print Assumptions C40_u64_parse_auto.
Print Assumptions C40_u64_round_trip.
Print Assumptions C40_u64_round_trip_refuted.
Print Assumptions C41_i64_print.
Print Assumptions C41_i64_print_min_refuted.
Print Assumptions C41_i64_parse.
Print Assumptions C41_i64_parse_0x.
Print Assumptions C41_i64_round_trip.
Print Assumptions C41_i64_parse_refuted.
