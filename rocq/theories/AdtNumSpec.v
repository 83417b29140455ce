(** Numbers as they are written in documents. *)
From Verif Require Import Base NumSpec FloatSpec.

(** an optional sign, and whether it is a minus *)
Inductive sign_text : list Z -> bool -> Prop :=
| st_none : sign_text [] false
| st_plus : sign_text [43] false
| st_minus : sign_text [45] true.
Definition signed (neg : bool) (n : Z) : Z := if neg then - n else n.
(** 0-9 A-F a-f X x: what makes up an integer *)
Definition run_char (c : Z) : Prop := 48 <= c <= 57 \/ 65 <= c <= 70 \/ 97 <= c <= 102 \/ c = 88 \/ c = 120.
(** a character that ends an integer *)
Definition run_end (c : Z) : Prop := ~ run_char c /\ c <> 46.
(** the run may follow the sign *)
Definition run_start (sg w : list Z) : Prop := exists c r, w = c :: r /\ c <> 88 /\ c <> 120 /\ (sg = [] -> c <> 101 /\ c <> 69).
(** [ds] are the decimal digits at the beginning of [w] *)
Definition leading (ds w : list Z) : Prop :=
  Forall dig ds /\ exists r, w = chars ds ++ r /\ forall c q, r = c :: q -> ~ 48 <= c <= 57.
(** [hs] are the hexadecimal digits at the beginning of [w] *)
Definition leading16 (hs w : list Z) : Prop :=
  exists s r, w = s ++ r /\ Forall2 (denotes 16) s hs /\ forall c q, r = c :: q -> forall d, ~ denotes 16 c d.
Definition hex_prefix (w : list Z) : Prop := exists r, w = 48 :: 120 :: r \/ w = 48 :: 88 :: r.

(** an exponent: whether it is negative, and its digits *)
Inductive expo : list Z -> bool -> list Z -> Prop :=
| ex_none : expo [] false []
| ex_pos e sg es : In e [101; 69] -> In sg [[]; [43]] -> Forall dig es -> es <> [] -> expo (e :: sg ++ chars es) false es
| ex_neg e es : In e [101; 69] -> Forall dig es -> es <> [] -> expo (e :: 45 :: chars es) true es.
(** what is left of an exponent in eight and in four bits *)
Definition exp8 (es : list Z) : Z := sx 8 (number 10 es).
Definition exp4 (minus : bool) (es : list Z) : Z := sx 4 (signed minus (exp8 es)).
(** zeros at the beginning *)
Fixpoint zeros (l : list Z) : nat := match l with d :: r => if d =? 0 then S (zeros r) else O | [] => O end.
(** a missing whole part or fraction counts as the digit 0 *)
Definition or0 (l : list Z) : list Z := match l with [] => [0] | _ => l end.
(** the text handed to the conversions: at most a minus, the digits, the point, the digits *)
Definition real_text (neg : bool) (ds fs : list Z) : list Z := (if neg then [45] else []) ++ chars (or0 ds) ++ 46 :: chars (or0 fs).
