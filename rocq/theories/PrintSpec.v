(** Format strings as lists of pieces and the text each piece stands for. *)
From Verif Require Import Base CStrSpec NumSpec.

Inductive size_mod := Snone | Shh | Sh | Sl | Sll | Sz | St.
Inductive int_conv := Id | Ii | Iu | Io | Ix | IX.
(** what is printed, with its argument; behind the NUL of a string there may be anything *)
Inductive subject :=
| Str (s behind : list Z) | Chr (c : Z) | Percent | Repeat (c : Z) | Int (m : size_mod) (i : int_conv) (slot : Z) | Ptr (slot : Z).
(** a number in the format: absent, in decimal digits, or an argument *)
Inductive fnum := Absent | Digits (ds : list Z) | Star (n : Z).
Inductive piece :=
| Lit (s : list Z)
| Dir (lft zero : bool) (w p : fnum) (x : subject).

Definition size_text (m : size_mod) : list Z :=
  match m with Snone => [] | Shh => [104; 104] | Sh => [104] | Sl => [108] | Sll => [108; 108] | Sz => [122] | St => [116] end.
Definition conv_text (i : int_conv) : Z := match i with Id => 100 | Ii => 105 | Iu => 117 | Io => 111 | Ix => 120 | IX => 88 end.
Definition subject_text (x : subject) : list Z :=
  match x with Str _ _ => [115] | Chr _ => [99] | Percent => [37] | Repeat _ => [114] | Int m i _ => size_text m ++ [conv_text i] | Ptr _ => [112] end.
Definition num_text (n : fnum) : list Z := match n with Absent => [] | Digits ds => map (fun d => 48 + d) ds | Star _ => [42] end.
(** the format string *)
Definition piece_text (x : piece) : list Z :=
  match x with
  | Lit s => s
  | Dir lft zero w p x =>
    37 :: (if lft then [45] else []) ++ (if zero then [48] else []) ++ num_text w ++
    (match p with Absent => [] | _ => 46 :: num_text p end) ++ subject_text x
  end.

Definition value (n : fnum) : Z := match n with Absent => 0 | Digits ds => number 10 ds | Star n => n end.
(** directives with a definite meaning: a width, if given, is not zero *)
Definition good_num (n : fnum) : Prop :=
  match n with Absent => True | Digits ds => Forall (fun d => 0 <= d < 10) ds /\ number 10 ds < 2^31 | Star n => - 2^31 < n < 2^31 end.
Definition good_width (zero : bool) (w : fnum) : Prop :=
  good_num w /\
  match w with
  | Absent => zero = false
  | Digits ds => exists d r, ds = d :: r /\ 0 < d
  | Star n => n <> 0
  end.

(** how an integer argument is taken *)
Definition bits (m : size_mod) : Z := match m with Shh => 8 | Sh => 16 | Snone => 32 | _ => 64 end.
Definition is_signed (m : size_mod) (i : int_conv) : bool :=
  match m, i with Sz, _ => false | _, (Id | Ii | Io) => true | _, _ => false end.
Definition wrap (signed : bool) (w x : Z) : Z := if signed then sx w x else x mod 2^w.
Definition radix (i : int_conv) : Z := match i with Io => 8 | Ix | IX => 16 | _ => 10 end.
(** a number in positional notation with a sign *)
Definition hex_lower (c : Z) : Z := if (65 <=? c) && (c <=? 90) then c + 32 else c.
Definition numeral (b v : Z) (text : list Z) : Prop :=
  exists ds, canonical b ds /\ number b ds = Z.abs v /\ text = (if v <? 0 then [45] else []) ++ map digit_char ds.
(** the text before the precision and the width are applied *)
Definition body (x : subject) (text : list Z) : Prop :=
  match x with
  | Str s _ => cstring s /\ text = s
  | Chr c => 0 < c < 256 /\ text = [c]
  | Percent => text = [37]
  | Repeat c => 0 <= c < 256 /\ text = [c]
  | Int m i slot =>
    let v := wrap (is_signed m i) (bits m) slot in
    v <> - 2^63 /\ exists t, numeral (radix i) v t /\ text = (match i with Ix => map hex_lower t | _ => t end)
  | Ptr slot => exists t, numeral 16 (slot mod 2^64) t /\ text = map hex_lower t
  end.
(** the precision cuts, the width fills up: on the left with blanks, or with zeros when asked for
    and no precision is given; on the right if left-aligned *)
Definition apply_precision (p : fnum) (t : list Z) : list Z :=
  match p with Absent => t | _ => if value p <? 0 then t else firstn (Z.to_nat (value p)) t end.
Definition apply_width (lft zero : bool) (w : Z) (t : list Z) : list Z :=
  let pad := repeat (if zero then 48 else 32) (Z.to_nat (Z.abs w) - length t) in
  if lft || (w <? 0) then t ++ pad else pad ++ t.
Definition rendered (x : piece) (text : list Z) : Prop :=
  match x with
  | Lit s => cstring s /\ ~ In 37 s /\ text = s
  | Dir lft zero w p x =>
    good_width zero w /\ good_num p /\ exists t, body x t /\
    match x with
    | Repeat c => text = repeat c (Z.to_nat (Z.max 1 (Z.abs (value w))))
    | _ => text = apply_width lft (zero && match p with Absent => true | _ => false end) (value w) (apply_precision p t)
    end
  end.
(** conversions that change the case of letters look for a NUL behind the text *)
Definition cases (x : piece) : bool :=
  match x with Dir _ _ _ _ (Int _ (Ix | IX) _) | Dir _ _ _ _ (Ptr _) => true | _ => false end.
