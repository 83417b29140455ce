(** JSON documents: what texts spell which document, and which documents can be written. *)
From Coq Require Import String.
From Verif Require Import Base CStrSpec NumSpec PrintSpec Node.

(** ** texts *)
(** blanks and line comments; [nl]: newlines may be among the blanks *)
Inductive gap (nl : bool) : list Z -> Prop :=
| gap_nil : gap nl []
| gap_white c g : white c -> nl = true \/ c <> 10 -> gap nl g -> gap nl (c :: g)
| gap_comment s g : cstring s -> ~ In 10 s -> gap nl g -> gap nl (47 :: 47 :: s ++ 10 :: g).
(** what can stand between quotes [q]: a quote only after a backslash, no backslash at the end *)
Definition literal (q : Z) (s : list Z) : Prop :=
  cstring s /\ (forall k, nth_error s k = Some q -> exists j, k = S j /\ nth_error s j = Some 92) /\ (forall r, s <> r ++ [92]).
(** constants *)
Definition word (w : list Z) (props : Z) (r : real) : Prop :=
  In (w, props, r) [(asc "true", PROPS_TRUE, RConst 1); (asc "false", PROPS_FALSE, RConst 0); (asc "null", PROPS_NULL, RConst 0);
                    (asc "Infinity", PROPS_INFINITY, RInf false); (asc "-Infinity", PROPS_INFINITY_NEG, RInf true);
                    (asc "NaN", PROPS_NAN, RNan false); (asc "-NaN", PROPS_NAN_NEG, RNan true)].
(** names *)
Definition letter (c : Z) : Prop := 65 <= c <= 90 \/ 97 <= c <= 122.
Definition name_start (c : Z) : Prop := letter c \/ c = 95 \/ c = 36.
Definition name_char (c : Z) : Prop := letter c \/ c = 95 \/ 48 <= c <= 57.
(** a backslash is the last character, stands before one of the characters that can be escaped, or
    has a hex digit among the four characters after it *)
Definition control (c : Z) : Prop := In c [34; 92; 47; 98; 102; 110; 114; 116].
Definition hex_digit (c : Z) : Prop := 48 <= c <= 57 \/ 65 <= c <= 70 \/ 97 <= c <= 102.
Definition escapes_ok (n : list Z) : Prop :=
  forall a r, n = a ++ 92 :: r -> r = [] \/ (exists c r', r = c :: r' /\ control c) \/ Exists hex_digit (firstn 4 r).
Definition name_ok (st : name_style_t) (n : list Z) : Prop :=
  match st with
  | DoubleQuote => literal 34 n /\ escapes_ok n
  | SingleQuote => cstring n /\ ~ In 39 n /\ escapes_ok n
  | NoQuotes => exists c r, n = c :: r /\ name_start c /\ Forall name_char r
  end.
Definition name_text (st : name_style_t) (n : list Z) : list Z :=
  match st with DoubleQuote => 34 :: n ++ [34] | SingleQuote => 39 :: n ++ [39] | NoQuotes => n end.
Definition assign_char (a : assign_style_t) : Z := match a with Colon => 58 | Equals => 61 | AssignLine => 124 end.
Definition delim_char (d : delim_style_t) : Z := match d with Comma => 44 | DelimLine => 124 | Newline => 10 end.
(** widths are kept in four bits *)
Definition width4 (g : list Z) : Z := Z.of_nat (length g) mod 16.
Definition delim_width (d : delim_style_t) (g : list Z) : Z := match d with DelimLine => width4 g | _ => 0 end.

(** [value_text props v t]: [t] spells [v] *)
Inductive value_text : Z -> value (list Z) -> list Z -> Prop :=
| vt_string q s : q = 34 \/ q = 39 -> literal q s -> value_text 0 (VStr false (Some s)) (q :: s ++ [q])
| vt_multi s : literal 96 s -> value_text 0 (VStr true (Some s)) (96 :: s ++ [96])
| vt_int v t : - 2^63 < v < 2^63 -> numeral 10 v t -> value_text 0 (VInt v zero_analysis) t
| vt_word w p r : word w p r -> value_text p (VReal r zero_analysis) w
| vt_array l t : elements l t -> value_text 0 (VBranch true l) (91 :: t ++ [93])
| vt_object l t : members l t -> value_text 0 (VBranch false l) (123 :: t ++ [125])
with elements : list (tree (list Z)) -> list Z -> Prop :=
| el_nil g : gap true g -> elements [] g
| el_last g p v t g' : gap true g -> value_text p v t -> gap true g' -> elements [Tree None p zero_style v] (g ++ t ++ g')
| el_cons g p v t g' l r : gap true g -> value_text p v t -> gap true g' -> elements l r ->
    elements (Tree None p zero_style v :: l) (g ++ t ++ g' ++ 44 :: r)
with members : list (tree (list Z)) -> list Z -> Prop :=
| mb_nil g : gap true g -> members [] g
| mb_last g ns n g1 a g2 p v t g3 :
    gap true g -> name_ok ns n -> gap true g1 -> gap true g2 -> value_text p v t -> gap false g3 ->
    members [Tree (Some n) p (Style false ns a Comma 0 (width4 g1)) v]
            (g ++ (name_text ns n ++ g1 ++ [assign_char a]) ++ g2 ++ t ++ g3)
| mb_cons g ns n g1 a g2 p v t g3 d l r :
    gap true g -> name_ok ns n -> gap true g1 -> gap true g2 -> value_text p v t -> gap false g3 -> members l r ->
    members (Tree (Some n) p (Style false ns a d (delim_width d g3) (width4 g1)) v :: l)
            (g ++ (name_text ns n ++ g1 ++ [assign_char a]) ++ g2 ++ t ++ g3 ++ delim_char d :: r).
(** [document root t]: a text that starts with [t] and, if there are no brackets, ends there *)
Definition doc_root (cfg arr : bool) (l : list (tree (list Z))) : tree (list Z) := Tree None 0 (Style cfg DoubleQuote Colon Comma 0 0) (VBranch arr l).
Inductive document : tree (list Z) -> list Z -> Prop :=
| doc_object g l t : gap false g -> members l t -> document (doc_root false false l) (g ++ 123 :: t ++ [125])
| doc_array g l t : gap false g -> elements l t -> document (doc_root false true l) (g ++ 91 :: t ++ [93])
| doc_bare l t c : l <> [] -> members l t -> c = 125 \/ c = 0 -> document (doc_root true false l) (t ++ [c]).

(** elements of an array, each with a comma after it *)
Inductive begun : list Z -> Prop :=
| begun_nil : begun []
| begun_cons g p v t g' r : gap true g -> value_text p v t -> gap true g' -> begun r -> begun (g ++ t ++ g' ++ 44 :: r).

(** a backslash with no character after it that can be escaped and no hex digit in the four *)
Definition bad_escape (n : list Z) : Prop :=
  exists a x1 x2 x3 x4 b, n = a ++ 92 :: x1 :: x2 :: x3 :: x4 :: b /\ ~ control x1 /\ Forall (fun x => ~ hex_digit x) [x1; x2; x3; x4].

(** ** documents that can be written *)
Definition max_text : Z := 65534.
Definition compact_indent : Z := -1000.
Definition good_string (q : Z) (s : list Z) : Prop :=
  cstring s /\ ~ In q s /\ (forall r, s <> r ++ [92]) /\ Z.of_nat (length s) < max_text.
(** the style of a member; [i] is the indent of its line *)
Definition is_object (v : value (list Z)) : Prop := exists l, v = VBranch false l.
Definition good_member (i : Z) (is_last : bool) (x : tree (list Z)) : Prop :=
  (exists n, t_name x = Some n /\ name_ok (name_style (t_style x)) n /\ Z.of_nat (length n) + 2 < max_text) /\
  cfg_mode (t_style x) = false /\ 0 <= assign_line_width (t_style x) < 16 /\ 0 <= delim_line_width (t_style x) < 16 /\
  (* the end of an object is written with a newline if the line is not indented *)
  (is_object (t_value x) -> if i =? compact_indent then delim_style (t_style x) <> DelimLine
                            else 0 < i \/ delim_style (t_style x) = Newline \/ (delim_style (t_style x) = Comma /\ is_last = true)).
Definition deeper (i : Z) : Z := if i =? compact_indent then i else i + 4.
Definition element_indent (i : Z) (x : tree (list Z)) : Z :=
  if i =? compact_indent then i else match t_value x with VBranch _ _ => 4 | _ => 0 end.
Definition indent_ok (i : Z) : Prop := compact_indent <= i < max_text.
(** [good i t]: the value of [t] can be written on a line with indent [i] *)
Fixpoint good (i : Z) (t : tree (list Z)) : Prop :=
  indent_ok i /\
  let (_, p, _, v) := t in
  match v with
  | VNone => False
  | VStr m s => p = 0 /\ match s with Some s => good_string (if m then 96 else 34) s | None => False end
  | VInt n a => p = 0 /\ a = zero_analysis /\ - 2^63 < n < 2^63
  | VReal r a => a = zero_analysis /\ exists w, word w p r
  | VBranch true l =>
    p = 0 /\ (fix go l := match l with
                          | [] => True
                          | x :: r => t_name x = None /\ t_style x = zero_style /\ good (element_indent i x) x /\ go r
                          end) l
  | VBranch false l =>
    p = 0 /\ (fix go l := match l with
                          | [] => True
                          | x :: r => good_member (deeper i) (match r with [] => true | _ => false end) x /\ good (deeper i) x /\ go r
                          end) l
  end.
(** a root is written with the indent [i] given to zpl_json_write *)
Definition good_elements (i : Z) : list (tree (list Z)) -> Prop :=
  fix go l := match l with
              | [] => True
              | x :: r => t_name x = None /\ t_style x = zero_style /\ good i x /\ go r
              end.
Definition good_members (i : Z) : list (tree (list Z)) -> Prop :=
  fix go l := match l with
              | [] => True
              | x :: r => good_member i (match r with [] => true | _ => false end) x /\ good i x /\ go r
              end.
Definition good_root (i : Z) (cfg arr : bool) (l : list (tree (list Z))) : Prop :=
  match cfg, arr with
  | false, false => indent_ok i /\ good_members (deeper i) l
  | false, true => indent_ok i /\ good_elements (deeper i) l
  | true, false => (compact_indent = i \/ compact_indent + 4 < i < max_text) /\ l <> [] /\ good_members i l
  | true, true => False
  end.

(** ** what comes back: the styles as the text shows them *)
Definition settled (compact is_last : bool) (st : style) : style :=
  Style (cfg_mode st) (name_style st) (assign_style st)
    (match delim_style st with Comma => if is_last && negb compact then Newline else Comma | d => d end)
    (match delim_style st with DelimLine => delim_line_width st | _ => 0 end)
    (match assign_style st with Colon => 0 | _ => if compact then 0 else Z.max (assign_line_width st) 1 end).
Definition with_style (st : style) (t : tree (list Z)) : tree (list Z) := let (n, p, _, v) := t in Tree n p st v.
Fixpoint settle (compact : bool) (t : tree (list Z)) : tree (list Z) :=
  let (n, p, st, v) := t in
  Tree n p st (match v with
               | VBranch arr l => VBranch arr
                   ((fix go l := match l with
                                 | [] => []
                                 | x :: r => (if arr then settle compact x
                                              else with_style (settled compact (match r with [] => true | _ => false end) (t_style x)) (settle compact x)) :: go r
                                 end) l)
               | v => v
               end).
