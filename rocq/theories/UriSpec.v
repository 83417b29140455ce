(** Query strings: percent-encoding, and a query as a list of parameters. *)
From Coq Require Import String.
From Verif Require Import Base CStrSpec NumSpec PrintSpec Node.

(** RFC 3986, 2.3 *)
Definition unreserved (c : Z) : Prop := 65 <= c <= 90 \/ 97 <= c <= 122 \/ 48 <= c <= 57 \/ In c (asc "-._~").
(** unreserved characters stand for themselves, '+' for a blank, everything else is written as '%'
    and two hexadecimal digits *)
Inductive encodes : list Z -> list Z -> Prop :=
| enc_nil : encodes [] []
| enc_plain c s e : unreserved c -> encodes s e -> encodes (c :: s) (c :: e)
| enc_blank s e : encodes s e -> encodes (32 :: s) (43 :: e)
| enc_hex c s e : 0 < c < 256 -> ~ unreserved c -> c <> 32 -> encodes s e ->
                  encodes (c :: s) (37 :: digit_char (c / 16) :: digit_char (c mod 16) :: e).

(** a parameter with a text, with a number, or without a value *)
Inductive param := Text (name value : list Z) | Number (name : list Z) (v : Z) | Flag (name : list Z).
Definition param_name (p : param) : list Z := match p with Text n _ | Number n _ | Flag n => n end.
(** characters of decimal, hexadecimal and floating-point numbers *)
Definition number_char (c : Z) : Prop := 48 <= c <= 57 \/ 97 <= c <= 102 \/ 65 <= c <= 70 \/ In c (asc ".+-").
(** a text no number can be mistaken for *)
Definition textual (s : list Z) : Prop := s = [] \/ exists c, In c s /\ ~ number_char c.
(** names and texts of fewer than 65536 characters, numbers of 64 bits; a parameter has a value or a name *)
Definition buffer : Z := 65536.
Definition fits (s : list Z) : Prop := cstring s /\ Z.of_nat (length s) < buffer.
Definition good_param (p : param) : Prop :=
  fits (param_name p) /\
  match p with Text _ v => fits v /\ textual v | Number _ v => - 2^63 < v < 2^63 | Flag n => n <> [] end.
(** the node of a parameter *)
Definition node_of (p : param) : tree (list Z) :=
  match p with
  | Text n v => Tree (Some n) PROPS_NONE zero_style (VStr false (Some v))
  | Number n v => Tree (Some n) PROPS_NONE zero_style (VInt v zero_analysis)
  | Flag n => Tree (Some n) PROPS_TRUE zero_style (VReal (RConst 1) zero_analysis)
  end.
(** what comes before the query: no blanks, no '?', and nothing printf would expand *)
Definition good_origin (o : list Z) : Prop :=
  o <> [] /\ cstring o /\ (forall c, In c o -> c <> 37 /\ c <> 63 /\ ~ white c) /\ Z.of_nat (length o) + 1 < buffer.
Definition origin_name : list Z := asc "__zpl_origin__".
Definition origin_node (o : option (list Z)) : list (tree (list Z)) :=
  match o with Some o => [Tree (Some origin_name) PROPS_NONE zero_style (VStr false (Some o))] | None => [] end.

(** the text of a query: name, and '=' and the value unless it is a flag; '&' between parameters *)
Inductive written : param -> list Z -> Prop :=
| w_text n v en ev : encodes n en -> encodes v ev -> written (Text n v) (en ++ 61 :: ev)
| w_number n v en t : encodes n en -> numeral 10 v t -> written (Number n v) (en ++ 61 :: t)
| w_flag n en : encodes n en -> written (Flag n) en.
Inductive query : list param -> list Z -> Prop :=
| q_nil : query [] []
| q_one p e : written p e -> query [p] e
| q_more p q ps e es : written p e -> query (q :: ps) es -> query (p :: q :: ps) (e ++ 38 :: es).
