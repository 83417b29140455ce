(** ADT nodes as values, with the style fields and the number analysis the parsers keep
    (ZPL_PARSER_DISABLE_ANALYSIS is not defined), and the routines shared by the text formats:
    code/header/adt.h:15-92, code/source/adt.c:353-639, code/source/core/print.c:14-19.

    A node is a tree: parent links, which C58 is about, are left out, and allocations succeed.
    Strings are as in [CStr]. What zpl_str_to_f64 is given is kept in a real; [real_value] is
    its value. *)
From Coq Require Import String Ascii.
From Coq Require Import SpecFloat.
From Verif Require Import Base CStr Num Float Print.

(** a string constant of the program, without its NUL *)
Fixpoint asc (s : string) : list Z :=
  match s with EmptyString => [] | String a r => Z.of_N (N_of_ascii a) :: asc r end.
(** [!!zpl_strchr(l, c)] for a constant [l]: the NUL at its end is found too, string.h:362-368 *)
Definition strchr (l : list Z) (c : Z) : bool := (c =? 0) || existsb (Z.eqb c) l.

(** zpl_adt_props, adt.h:15-29 *)
Definition PROPS_NONE := 0. Definition PROPS_NAN := 1. Definition PROPS_NAN_NEG := 2.
Definition PROPS_INFINITY := 3. Definition PROPS_INFINITY_NEG := 4. Definition PROPS_FALSE := 5.
Definition PROPS_TRUE := 6. Definition PROPS_NULL := 7. Definition PROPS_IS_EXP := 8.
Definition PROPS_IS_HEX := 9. Definition PROPS_IS_PARSED_REAL := 10.
(** adt.h:31-47 *)
Inductive name_style_t := DoubleQuote | SingleQuote | NoQuotes.
Inductive assign_style_t := Colon | Equals | AssignLine.
Inductive delim_style_t := Comma | DelimLine | Newline.
(** adt.h:64-71; the widths have four bits *)
Record style := Style { cfg_mode : bool; name_style : name_style_t; assign_style : assign_style_t; delim_style : delim_style_t;
                        delim_line_width : Z; assign_line_width : Z }.
Definition zero_style : style := Style false DoubleQuote Colon Comma 0 0.
(** adt.h:84-90; [base2_offset] has four bits and [exp] four bits with a sign *)
Record analysis := Analysis { nbase : Z; nbase2 : Z; base2_offset : Z; nexp : Z; neg_zero : bool; lead_digit : bool }.
Definition zero_analysis : analysis := Analysis 0 0 0 0 false false.
(** the value of a real: a constant, or the digits read and how often they are multiplied by ten or
    by a tenth *)
Inductive real := RConst (z : Z) | RInf (neg : bool) | RNan (neg : bool) | RText (digits : list Z) (tenth : bool) (times : nat).
(** the zpl_f32 constants 10 and 0.1f as doubles *)
Definition f_eb (tenth : bool) : f64 := if tenth then S754_finite false 13421773 (-27) else f_of_int 10.
(** [node->real]: adt.c:465 and the loop 487 *)
Definition real_value (r : real) : option f64 :=
  match r with
  | RConst z => Some (f_of_int z)
  | RInf neg => Some (S754_infinity neg)
  | RNan _ => Some S754_nan
  | RText digits tenth times => ' (v, _) <- str_to_f64 (digits ++ [0]) ;; Some (scale_by times (f_eb tenth) v)
  end.

(** zpl_adt_node; [S] is the type of strings: pointers during parsing, contents afterwards *)
Inductive tree (S : Type) : Type := Tree (name : option S) (props : Z) (st : style) (v : value S)
with value (S : Type) : Type :=
| VNone                                       (* ZPL_ADT_TYPE_UNINITIALISED *)
| VStr (multi : bool) (s : option S)          (* STRING, MULTISTRING *)
| VInt (i : Z) (a : analysis)                 (* INTEGER *)
| VReal (r : real) (a : analysis)             (* REAL *)
| VBranch (is_array : bool) (nodes : list (tree S)).  (* OBJECT, ARRAY *)
Arguments Tree {S}. Arguments VNone {S}. Arguments VStr {S}. Arguments VInt {S}. Arguments VReal {S}. Arguments VBranch {S}.
Definition t_name {S} (t : tree S) := let (n, _, _, _) := t in n.
Definition t_props {S} (t : tree S) := let (_, p, _, _) := t in p.
Definition t_style {S} (t : tree S) := let (_, _, s, _) := t in s.
Definition t_value {S} (t : tree S) := let (_, _, _, v) := t in v.
Definition set_name {S} n (t : tree S) := let (_, p, s, v) := t in Tree n p s v.
Definition set_style {S} s (t : tree S) := let (n, p, _, v) := t in Tree n p s v.
(** [zpl_adt_node x = {0}] *)
Definition zero_tree {S} : tree S := Tree None 0 zero_style VNone.

(** a pointer kept in a node: into the text being parsed, or to a constant *)
Inductive ptr := At (k : nat) | Const (s : list Z).
(** the string at a pointer: the characters before the NUL *)
Fixpoint until_nul (s : list Z) : option (list Z) :=
  match s with [] => None | c :: r => if c =? 0 then Some [] else t <- until_nul r ;; Some (c :: t) end.
Definition string_at (text : list Z) (p : ptr) : option (list Z) :=
  match p with At k => until_nul (skipn k text) | Const s => Some s end.
Definition string_opt (text : list Z) (p : option ptr) : option (option (list Z)) :=
  match p with None => Some None | Some p => s <- string_at text p ;; Some (Some s) end.
(** a parsed document as its user sees it: all strings read from the text as the parser left it *)
Fixpoint view (text : list Z) (t : tree ptr) : option (tree (list Z)) :=
  let (n, p, s, v) := t in
  n <- string_opt text n ;;
  v <- (match v with
        | VNone => Some VNone
        | VStr m x => x <- string_opt text x ;; Some (VStr m x)
        | VInt i a => Some (VInt i a)
        | VReal r a => Some (VReal r a)
        | VBranch arr l =>
          l <- (fix go l := match l with [] => Some [] | x :: r => x <- view text x ;; r <- go r ;; Some (x :: r) end) l ;;
          Some (VBranch arr l)
        end) ;;
  Some (Tree n p s v).

(** ** Printing *)
(** print.h:14 *)
Definition PRINTF_MAXLEN : Z := 65536.
(** zpl_fprintf, print.c:14-19: the bytes written to the file. What the static buffer holds from
    earlier calls is taken as zeros (C55: it does not matter when the text fits). A result of -1
    makes zpl_file_write copy -2 bytes: [None]. *)
Definition fprintf (fmt : list Z) (va : list arg) : option (list Z) :=
  ' (buf, len) <- snprintf (repeat 0 (Z.to_nat PRINTF_MAXLEN)) PRINTF_MAXLEN (fmt ++ [0]) va ;;
  if len <? 1 then None else Some (firstn (Z.to_nat (len - 1)) buf).
(** a string argument *)
Definition AS (s : list Z) : arg := AStr (Some (s ++ [0])).

(** zpl_adt_print_number, adt.c:511-564, for a node of type INTEGER or REAL *)
Definition print_number {S} (t : tree S) : option (list Z) :=
  match t_value t with
  | VInt i a =>
    m <- (if neg_zero a then fprintf (asc "-") [] else Some []) ;;
    o <- (if t_props t =? PROPS_IS_HEX then fprintf (asc "0x%llx") [AInt i] else fprintf (asc "%lld") [AInt i]) ;;
    Some (m ++ o)
  | VReal r a =>
    m <- (if neg_zero a then fprintf (asc "-") [] else Some []) ;;
    o <- (if t_props t =? PROPS_NAN then fprintf (asc "NaN") []
          else if t_props t =? PROPS_NAN_NEG then fprintf (asc "-NaN") []
          else if t_props t =? PROPS_INFINITY then fprintf (asc "Infinity") []
          else if t_props t =? PROPS_INFINITY_NEG then fprintf (asc "-Infinity") []
          else if t_props t =? PROPS_TRUE then fprintf (asc "true") []
          else if t_props t =? PROPS_FALSE then fprintf (asc "false") []
          else if t_props t =? PROPS_NULL then fprintf (asc "null") []
          else if t_props t =? PROPS_IS_EXP then
            fprintf (asc "%lld.%0*d%llde%lld") [AInt (nbase a); AInt (base2_offset a); AInt 0; AInt (nbase2 a); AInt (nexp a)]
          else if t_props t =? PROPS_IS_PARSED_REAL then
            if negb (lead_digit a) then fprintf (asc ".%0*d%lld") [AInt (base2_offset a); AInt 0; AInt (nbase2 a)]
            else fprintf (asc "%lld.%0*d%lld") [AInt (base2_offset a); AInt 0; AInt (nbase a); AInt (nbase2 a)]
          else v <- real_value r ;; fprintf (asc "%f") [AF64 v]) ;;
    Some (m ++ o)
  | _ => None
  end.

(** the loop of zpl_adt_print_string, adt.c:580-588; [s] is the string from [p = b] on, with its
    NUL; every round but the last steps over a character *)
Fixpoint print_string_loop (fuel : nat) (s escaped symbol : list Z) : option (list Z) :=
  match fuel with
  | O => None
  | S f =>
    n <- str_skip_any s (escaped ++ [0]) ;;
    o <- fprintf (asc "%.*s") [AInt (Z.of_nat n); AStr (Some s)] ;;
    c <- rd s n ;;
    ' (o, n) <- (if negb (c =? 0) && strchr escaped c
                 then e <- fprintf (asc "%s%c") [AS symbol; AInt c] ;; Some (o ++ e, S n) else Some (o, n)) ;;
    let s := skipn n s in
    c <- rd s 0 ;;
    if c =? 0 then Some o else r <- print_string_loop f s escaped symbol ;; Some (o ++ r)
  end.
(** zpl_adt_print_string, adt.c:566-591, for a node holding the string [s] *)
Definition print_string (s : option (list Z)) (escaped symbol : list Z) : option (list Z) :=
  match s with None => Some [] | Some s => print_string_loop (S (length s)) (s ++ [0]) escaped symbol end.

(** ** Numbers *)
(** [do { buf[ib++] = *e; } while (more( *++e))] and the loops without a first round, adt.c:396-440;
    [e] is the text from the pointer on *)
Fixpoint copy_while (more : Z -> bool) (e buf : list Z) (ib : nat) : option (list Z * list Z * nat) :=
  match e with
  | [] => None
  | c :: r => if more c then buf <- wr buf ib c ;; copy_while more r buf (S ib) else Some (e, buf, ib)
  end.
Definition is_hexish (c : Z) : bool := char_is_hex_digit c || (char_to_lower c =? 120).
(** [zpl_strncmp(e, "0X", 2) == 0] *)
Definition is_0X (text : list Z) : option bool := r <- strncmp 2 0 1 text [48; 88; 0] ;; Some (r =? 0).
(** [while (orig_exp-- > 0) node->integer *= (zpl_i64)eb] *)
Fixpoint mul_times (n : nat) (i eb : Z) : option Z :=
  match n with O => Some i | S k => i <- chk64 (i * eb) ;; mul_times k i eb end.
(** [while ( *base_string_off++ == '0') base2_offset++] *)
Fixpoint count_zeros (s : list Z) (n : Z) : option Z :=
  match s with [] => None | c :: r => if c =? 48 then count_zeros r (u8 (n + 1)) else Some n end.
(** the exponent, adt.c:449-463: rest of the text, [exp], and whether [eb] is a tenth *)
Definition parse_exp (e : list Z) : option (list Z * Z * bool) :=
  c <- rd e 0 ;;
  if negb (c =? 0) && strchr (asc "eE") c then
    let e := tl e in
    c <- rd e 0 ;;
    ' (e, expbuf, tenth) <-
      (if (c =? 43) || (c =? 45) || char_is_digit c then
         let e := if char_is_digit c then e else tl e in
         ' (e, expbuf, _) <- copy_while char_is_digit e (repeat 0 6) 0 ;;
         Some (e, expbuf, c =? 45)
       else Some (e, repeat 0 6, false)) ;;
    ' (v, _) <- str_to_i64 expbuf 10 ;;
    Some (e, i8 (u8 v), tenth)
  else Some (e, 0, false).
(** zpl_adt_parse_number, adt.c:372-509, on the text [s] from [base_str] on: what is stored in the
    node (properties and value; [None] if it is left alone) and the offset returned *)
Definition parse_number {A} (s : list Z) : option (option (Z * value A) * nat) :=
  c <- rd s 0 ;;
  skip <- (if strchr (asc "eE") c then Some true
           else if strchr (asc ".+-") c then d <- rd s 1 ;; Some (negb (char_is_hex_digit d) && negb (d =? 46)) else Some false) ;;
  if skip : bool then Some (None, 1%nat)
  else
    let buf := repeat 0 48 in
    ' (e, buf, ib) <- (if c =? 43 then Some (tl s, buf, O)
                       else if c =? 45 then buf <- wr buf 0 45 ;; Some (tl s, buf, 1%nat) else Some (s, buf, O)) ;;
    c <- rd e 0 ;;
    r <- (if c =? 46 then
            buf <- wr buf ib 48 ;; buf <- wr buf (S ib) 46 ;;
            ' (e, buf, ib) <- copy_while char_is_digit (tl e) buf (S (S ib)) ;;
            Some (Some (e, buf, true, PROPS_IS_PARSED_REAL, false))
          else
            x <- is_0x e ;; X <- is_0X e ;;
            let hex := x || X in
            if (char_to_lower c =? 120) && negb hex then Some None
            else
              let props := if hex then PROPS_IS_HEX else PROPS_NONE in
              ' (e, buf, ib) <- copy_while is_hexish e buf ib ;;
              d <- rd e 0 ;;
              if d =? 46 then
                buf <- wr buf ib 46 ;;
                ' (e, buf, ib') <- copy_while char_is_digit (tl e) buf (S ib) ;;
                buf <- (if (ib' =? S ib)%nat then wr buf ib' 48 else Some buf) ;;
                Some (Some (e, buf, true, props, true))
              else Some (Some (e, buf, false, props, false))) ;;
    match r with
    | None => Some (None, 1%nat)
    | Some (e, buf, is_real, props, lead) =>
      c <- rd e 0 ;;
      if c =? 46 then Some (None, 1%nat)
      else
        ' (e, exp, tenth) <- parse_exp e ;;
        let consumed := (length s - length e)%nat in
        b0 <- rd buf 0 ;;
        let neg := b0 =? 45 in
        if is_real : bool then
          k <- str_skip buf 46 ;;
          q <- wr buf k 0 ;;
          let base_string2 := skipn (S k) q in
          z <- count_zeros base_string2 0 ;;
          ' (base, _) <- str_to_i64 q 0 ;;
          ' (base2, _) <- str_to_i64 base_string2 0 ;;
          let base := i32 base in let base2 := i32 base2 in
          let exp' := if exp =? 0 then 0 else if tenth then i8 (- exp) else exp in
          let props := if exp =? 0 then props else PROPS_IS_EXP in
          digits <- until_nul buf ;;
          Some (Some (props, VReal (RText digits tenth (Z.to_nat exp))
                       (Analysis base base2 (z mod 16) (sx 4 exp') ((base =? 0) && neg) lead)), consumed)
        else
          ' (i, _) <- str_to_i64 buf 0 ;;
          i' <- mul_times (Z.to_nat exp) i (if tenth then 0 else 10) ;;
          Some (Some (props, VInt i' (Analysis 0 0 0 (sx 4 exp) ((i =? 0) && neg) false)), consumed)
    end.
(** zpl_adt_parse_number_strict, adt.c:353-370 *)
Fixpoint all_number_chars (s : list Z) : option bool :=
  match s with
  | [] => None
  | c :: r => if c =? 0 then Some true else if strchr (asc "eE.+-") c || char_is_hex_digit c then all_number_chars r else Some false
  end.
Definition parse_number_strict {A} (s : list Z) : option (option (Z * value A) * nat) :=
  b <- all_number_chars s ;; if b : bool then parse_number s else Some (None, O).
(** zpl_adt_str_to_number and zpl_adt_str_to_number_strict, adt.c:593-617, on a node holding a
    string of the text *)
Definition str_to_number (strict : bool) (text : list Z) (t : tree ptr) : option (tree ptr) :=
  let (n, p, s, v) := t in
  match v with
  | VStr _ (Some x) =>
    str <- (match x with At k => Some (skipn k text) | Const c => Some (c ++ [0]) end) ;;
    ' (r, _) <- (if strict then parse_number_strict str else parse_number str) ;;
    Some (match r with None => t | Some (p, v) => Tree n p s v end)
  | VStr _ None => None
  | _ => Some t
  end.
