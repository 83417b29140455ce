(** JSON5, code/source/parsers/json.c, with the analysis of styles (ZPL_PARSER_DISABLE_ANALYSIS is
    not defined) and without ZPL_JSON_DEBUG.

    The text is the object [text] points to, with its NUL and whatever follows it; pointers into it
    are offsets. Parent links are left out and allocations succeed, as in [Node]. Writing to the file
    succeeds. *)
From Coq Require Import String.
From Verif Require Import Base CStr Num Print Node.

(** zpl_json_error, header/parsers/json.h:6-16 *)
Inductive json_error := JsonNone | JsonInternal | JsonInvalidName | JsonInvalidValue | JsonInvalidAssignment
                      | JsonUnknownKeyword | JsonArrayLeftOpen | JsonEndPairMismatched.
(** json.h:19 *)
Definition COMPACT : Z := -1000.

(** json.c:80-81; the NUL is found too *)
Definition is_assign (c : Z) : bool := strchr (asc ":=|") c.
Definition is_delim (c : Z) : bool := strchr [44; 124; 10] c.
(** zpl_char_is_control, string.h:332-334 *)
Definition is_control (c : Z) : bool := strchr [34; 92; 47; 98; 102; 110; 114; 116] c.
(** zpl_str_control_skip, string.h:341-345; [prev] is the character before [s] *)
Fixpoint control_skip (s : list Z) (prev ch : Z) : option nat :=
  match s with
  | [] => None
  | c :: r => if (negb (c =? 0) && negb (c =? ch)) || ((prev =? 92) && (c =? ch) && is_control ch)
              then n <- control_skip r c ch ;; Some (S n) else Some O
  end.

(** zpl__json_trim, json.c:352-375, on the text [s] from [base] on: the offset returned. It returns
    NULL at the end of the text after a comment; every caller then reads through NULL or fails an
    assertion, so this is [None] too. Every round steps over a character. *)
Fixpoint trim_loop (fuel : nat) (s : list Z) (catch_newline : bool) : option nat :=
  match fuel with
  | O => None
  | S f =>
    let next k := c <- rd s k ;; if c =? 0 then None else n <- trim_loop f (skipn (S k) s) catch_newline ;; Some (S k + n)%nat in
    l <- has_prefix s [47; 47; 0] ;;
    if l : bool then e <- str_skip s 10 ;; next e
    else
      b <- has_prefix s [47; 42; 0] ;;
      if b : bool then
        e <- str_skip (skipn 2 s) 42 ;;
        let e := (2 + e)%nat in
        c <- rd s e ;;
        ends <- (if c =? 0 then Some false else d <- rd s (S e) ;; Some (d =? 47)) ;;
        next (if ends : bool then (e + 2)%nat else O)
      else
        c <- rd s 0 ;;
        if (c =? 10) && catch_newline then Some O
        else if negb (char_is_space c) then Some O
        else next O
  end.
Definition json_trim (text : list Z) (p : nat) (catch_newline : bool) : option nat :=
  let s := skipn p text in n <- trim_loop (S (length s)) s catch_newline ;; Some (p + n)%nat.

(** zpl__json_validate_name, json.c:93-106 *)
Fixpoint no_hex (s : list Z) (n : nat) : option bool :=
  match n with O => Some true | S k => c <- rd s 0 ;; if char_is_hex_digit c then Some false else no_hex (tl s) k end.
Fixpoint validate_name (s : list Z) : option bool :=
  match s with
  | [] => None
  | c :: r =>
    if c =? 0 then Some true
    else
      bad <- (if c =? 92 then d <- rd r 0 ;; if is_control d then Some false else no_hex r 4 else Some false) ;;
      if bad : bool then Some false else validate_name r
  end.
(** [zpl_str_advance_while(e, ...)], json.c:305: [s] is the text after the first character *)
Fixpoint name_end (s : list Z) : option nat :=
  match s with
  | [] => None
  | c :: r => if negb (c =? 0) && (char_is_alphanumeric c || (c =? 95)) && negb (char_is_space c) && negb (is_assign c)
              then n <- name_end r ;; Some (S n) else Some O
  end.
(** zpl__json_parse_name, json.c:283-350: the text, and the name, the style and the pointer, or the error *)
Definition parse_name (text : list Z) (p : nat) : option (list Z * ((option ptr * style * nat) + json_error)) :=
  c <- rd text p ;;
  if (c =? 34) || (c =? 39) || char_is_alpha c || (c =? 95) || (c =? 36) then
    ' (text, b, e, ns) <-
      (if (c =? 34) || (c =? 39) then
         n <- control_skip (skipn (S p) text) c c ;;
         text <- wr text (S p + n) 0 ;;
         Some (text, S p, S (S p + n), if c =? 34 then DoubleQuote else SingleQuote)
       else n <- name_end (skipn (S p) text) ;; Some (text, p, (S p + n)%nat, NoQuotes)) ;;
    q <- json_trim text e false ;;
    let aw := Z.of_nat (q - e) mod 16 in
    d <- rd text q ;;
    if negb (d =? 0) && negb (is_assign d) then Some (text, inr JsonInvalidAssignment)
    else
      let assign := if d =? 61 then Equals else if d =? 124 then AssignLine else Colon in
      x <- rd text e ;;
      ' (text, ns) <- (match ns with
                       | NoQuotes => if negb (x =? 0) then text <- wr text e 0 ;; Some (text, NoQuotes) else Some (text, DoubleQuote)
                       | _ => Some (text, ns)
                       end) ;;
      valid <- validate_name (skipn b text) ;;
      Some (text, if valid : bool then inl (Some (At b), Style false ns assign Comma 0 aw, q) else inr JsonInvalidName)
  else Some (text, inl (None, zero_style, p)).

(** a string, json.c:157-163, opened by [c] *)
Definition parse_string (text : list Z) (p : nat) (c : Z) : option (list Z * ((Z * value ptr * nat) + json_error)) :=
  n <- str_skip_literal (skipn (S p) text) c ;;
  let e := (S p + n)%nat in
  text <- wr text e 0 ;;
  Some (text, inl (0, VStr (c =? 96) (Some (At (S p))), S e)).
(** a constant, json.c:164-205 *)
Definition words : list (list Z * Z * real) :=
  [(asc "true", PROPS_TRUE, RConst 1); (asc "false", PROPS_FALSE, RConst 0); (asc "null", PROPS_NULL, RConst 0);
   (asc "Infinity", PROPS_INFINITY, RInf false); (asc "-Infinity", PROPS_INFINITY_NEG, RInf true);
   (asc "NaN", PROPS_NAN, RNan false); (asc "-NaN", PROPS_NAN_NEG, RNan true)].
Fixpoint parse_word (ws : list (list Z * Z * real)) (s : list Z) : option ((Z * value ptr * nat) + json_error) :=
  match ws with
  | [] => Some (inr JsonUnknownKeyword)
  | (w, props, r) :: ws =>
    b <- has_prefix s (w ++ [0]) ;;
    if b : bool then Some (inl (props, VReal r zero_analysis, length w)) else parse_word ws s
  end.
(** the delimiter after a member, json.c:253-273: its style and how far the pointer moves; nothing
    at the end of the text. [end_p] is where the value ended. *)
Definition set_delim (st : style) (d : delim_style_t) (w : Z) : style :=
  Style (cfg_mode st) (name_style st) (assign_style st) d w (assign_line_width st).
Definition delimiter (st : style) (c : Z) (width : nat) : style * nat :=
  if is_delim c then
    (if c =? 10 then set_delim st Newline (delim_line_width st)
     else if c =? 124 then set_delim st DelimLine (Z.of_nat width mod 16) else set_delim st Comma (delim_line_width st),
     if c =? 0 then O else 1%nat)
  else (st, O).

Inductive result := Stop (p : nat) | Err (e : json_error).
(** zpl__json_parse_value, json.c:152-217; zpl__json_parse_object, json.c:219-281, up to its loop; the
    loop; the loop of zpl__json_parse_array, json.c:119-147. The first gives properties, value and
    pointer; the others the nodes read so far even when there is an error. *)
Fixpoint parse_value (fuel : nat) (text : list Z) (p : nat) : option (list Z * ((Z * value ptr * nat) + json_error)) :=
  match fuel with
  | O => None
  | S f =>
    c <- rd text p ;;
    if strchr [96; 34; 39] c then parse_string text p c
    else
      word <- (if char_is_alpha c then Some true
               else if c =? 45 then d <- rd text (S p) ;; Some (negb (char_is_digit d)) else Some false) ;;
      if word : bool then
        r <- parse_word words (skipn p text) ;;
        Some (text, match r with inl (pr, v, n) => inl (pr, v, (p + n)%nat) | inr e => inr e end)
      else if char_is_digit c || (c =? 43) || (c =? 45) || (c =? 46) then
        ' (r, n) <- parse_number (skipn p text) ;;
        Some (text, inl (match r with Some (pr, v) => (pr, v) | None => (0, VNone) end, (p + n)%nat))
      else if strchr [91; 123] c then
        ' (text, v, r) <- parse_object f text p ;;
        Some (text, match r with Stop p => inl (0, v, S p) | Err e => inr e end)
      else Some (text, inl (0, VNone, p))
  end
with parse_object (fuel : nat) (text : list Z) (p : nat) : option (list Z * value ptr * result) :=
  match fuel with
  | O => None
  | S f =>
    p <- json_trim text p false ;;
    c <- rd text p ;;
    if c =? 91 then ' (text, nodes, r) <- array_loop f text (S p) [] ;; Some (text, VBranch true nodes, r)
    else ' (text, nodes, r) <- object_loop f text (if c =? 123 then S p else p) [] ;; Some (text, VBranch false nodes, r)
  end
with object_loop (fuel : nat) (text : list Z) (p : nat) (nodes : list (tree ptr)) : option (list Z * list (tree ptr) * result) :=
  match fuel with
  | O => None
  | S f =>
    p <- json_trim text p false ;;
    c <- rd text p ;;
    if c =? 125 then Some (text, nodes, Stop p)
    else if strchr [125; 93] c then Some (text, nodes, Err JsonEndPairMismatched)
    else
      ' (text, n) <- parse_name text p ;;
      match n with
      | inr e => Some (text, nodes, Err e)
      | inl (name, st, p) =>
        p <- json_trim text (S p) false ;;
        ' (text, v) <- parse_value f text p ;;
        match v with
        | inr e => Some (text, nodes, Err e)
        | inl (props, v, end_p) =>
          p <- json_trim text end_p true ;;
          c <- rd text p ;;
          let (st, k) := delimiter st c (p - end_p) in
          let nodes := nodes ++ [Tree name props st v] in
          if c =? 0 then Some (text, nodes, Stop p)
          else
            p <- json_trim text (p + k) false ;;
            c <- rd text p ;;
            if c =? 0 then Some (text, nodes, Stop p) else object_loop f text p nodes
        end
      end
  end
with array_loop (fuel : nat) (text : list Z) (p : nat) (nodes : list (tree ptr)) : option (list Z * list (tree ptr) * result) :=
  match fuel with
  | O => None
  | S f =>
    c <- rd text p ;;
    if c =? 0 then Some (text, nodes, Err JsonInternal)
    else
      p <- json_trim text p false ;;
      c <- rd text p ;;
      if c =? 93 then Some (text, nodes, Stop p)
      else
        ' (text, v) <- parse_value f text p ;;
        match v with
        | inr e => Some (text, nodes, Err e)
        | inl (props, v, p) =>
          let nodes := nodes ++ [Tree None props zero_style v] in
          p <- json_trim text p false ;;
          c <- rd text p ;;
          if c =? 44 then array_loop f text (S p) nodes
          else if c =? 93 then Some (text, nodes, Stop p)
          else Some (text, nodes, Err JsonArrayLeftOpen)
        end
  end.
(** zpl_json_parse, json.c:32-47. Every round of a loop but the last, and every bracket, steps over a
    character, so the fuel is enough. *)
Definition json_root {A} (cfg : bool) (v : value A) : tree A := Tree None 0 (Style cfg DoubleQuote Colon Comma 0 0) v.
Definition json_parse (text : list Z) : option (json_error * list Z * tree ptr) :=
  p <- json_trim text 0 true ;;
  c <- rd text p ;;
  ' (text, v, r) <- parse_object (2 * length text + 3) text p ;;
  Some (match r with Stop _ => JsonNone | Err e => e end, text, json_root (negb (strchr [123; 91] c)) v).

(** ** Writing *)
(** [zpl___ind(x)], json.c:30 *)
Definition ind (x : Z) : option (list Z) := if 0 <? x then fprintf (asc "%*r") [AInt x; AInt 32] else Some [].
(** json.c:82-90 *)
Definition space_of (indent : Z) : list Z := if indent =? COMPACT then [] else [32].
Definition eol_of (st : style) (indent : Z) : list Z :=
  match delim_style st with Comma => if indent =? COMPACT then [] else [10] | _ => [10] end.
Definition name_arg (n : option (list Z)) : arg := AStr (match n with Some s => Some (s ++ [0]) | None => None end).
(** the name and the assignment of a member, json.c:427-453 *)
Definition write_name (n : option (list Z)) (st : style) (indent : Z) : option (list Z) :=
  a <- (match name_style st with
        | DoubleQuote => fprintf (34 :: asc "%s" ++ [34]) [name_arg n]
        | SingleQuote => fprintf (asc "'%s'") [name_arg n]
        | NoQuotes => fprintf (asc "%s") [name_arg n]
        end) ;;
  b <- (match assign_style st with
        | Colon => fprintf (asc ":%s") [AS (space_of indent)]
        | s =>
          i <- (if indent =? COMPACT then Some [] else ind (Z.max (assign_line_width st) 1)) ;;
          c <- fprintf (match s with Equals => asc "=%s" | _ => asc "|%s" end) [AS (space_of indent)] ;;
          Some (i ++ c)
        end) ;;
  Some (a ++ b).
(** what follows a value, json.c:493-517 *)
Definition write_delim (st : style) (indent : Z) (is_last : bool) : option (list Z) :=
  match delim_style st with
  | Newline => fprintf [10] []
  | DelimLine => i <- ind (delim_line_width st) ;; b <- fprintf [124; 10] [] ;; Some (i ++ b)
  | Comma => if is_last then fprintf (asc "%s") [AS (eol_of st indent)] else fprintf (asc ",%s") [AS (eol_of st indent)]
  end.
(** the loops over the nodes, json.c:397-399 and 472-477: [w] writes a node, told whether it is the last *)
Definition write_nodes (w : tree (list Z) -> bool -> option (list Z)) : list (tree (list Z)) -> option (list Z) :=
  fix go l := match l with
              | [] => Some []
              | x :: r => a <- w x (match r with [] => true | _ => false end) ;; b <- go r ;; Some (a ++ b)
              end.
(** zpl_json_write, json.c:377-415, given how to write a node (with the indent) *)
Definition write_object (w : Z -> tree (list Z) -> bool -> option (list Z)) (st : style) (arr : bool) (nodes : list (tree (list Z))) (indent : Z)
  : option (list Z) :=
  a <- ind (indent - 4) ;;
  b <- (if cfg_mode st then Some [] else fprintf (asc "%c%s") [AInt (if arr then 91 else 123); AS (eol_of st indent)]) ;;
  let indent := if cfg_mode st then indent - 4 else indent in
  c <- write_nodes (w indent) nodes ;;
  d <- ind indent ;;
  e <- (if 0 <? indent then fprintf (asc "%c") [AInt (if arr then 93 else 125)]
        else if cfg_mode st then Some []
        else fprintf (asc "%c%s") [AInt (if arr then 93 else 125); AS (eol_of st indent)]) ;;
  Some (a ++ b ++ c ++ d ++ e).
Definition is_branch {A} (v : value A) : bool := match v with VBranch _ _ => true | _ => false end.
(** zpl__json_write_value, json.c:417-520; [in_array]: whether [t] is an array *)
Fixpoint write_value (in_array : bool) (indent : Z) (is_inline : bool) (o : tree (list Z)) (is_last : bool) : option (list Z) :=
  let (name, props, st, v) := o in
  let indent := if indent =? COMPACT then indent else indent + 4 in
  a <- (if is_inline then Some []
        else i <- ind indent ;; n <- (if in_array then Some [] else write_name name st indent) ;; Some (i ++ n)) ;;
  b <- (match v with
        | VNone => Some []
        | VStr multi s =>
          let q := if multi then [96] else [34] in
          a <- fprintf q [] ;; b <- print_string s q [92] ;; c <- fprintf q [] ;; Some (a ++ b ++ c)
        | VInt _ _ | VReal _ _ => print_number o
        | VBranch true nodes =>
          a <- fprintf [91] [] ;;
          b <- write_nodes (fun x last =>
                 let i := if is_branch (t_value x) then 0 else -4 in
                 a <- write_value true (if indent =? COMPACT then indent else i) true x true ;;
                 b <- (if last : bool then Some [] else fprintf [44; 32] []) ;; Some (a ++ b)) nodes ;;
          c <- fprintf [93] [] ;; Some (a ++ b ++ c)
        | VBranch false nodes => write_object (fun i x last => write_value false i false x last) st false nodes indent
        end) ;;
  c <- (if is_inline then Some [] else write_delim st indent is_last) ;;
  Some (a ++ b ++ c).
Definition json_write (root : tree (list Z)) (indent : Z) : option (list Z) :=
  match t_value root with
  | VBranch arr nodes => write_object (fun i x last => write_value arr i false x last) (t_style root) arr nodes indent
  | _ => None
  end.
