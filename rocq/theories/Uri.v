(** URI query strings, code/source/parsers/uri.c.

    The text is the object [text] points to; pointers into it are offsets. Characters 128..255 are
    negative [char]s, which are neither letters, digits nor blanks. *)
From Coq Require Import String.
From Verif Require Import Base CStr Num Print Node.

(** zpl__uri_decode_str, uri.c:5-31. The loop, 10-27, on the text from [tp] on: the buffer and the
    position in it *)
Fixpoint decode_loop (tp buf : list Z) (p : nat) : option (list Z * nat) :=
  match tp with
  | [] => None
  | ch :: tp =>
    if ch =? 0 then Some (buf, p)
    else if negb (ch =? 37) then buf <- wr buf p (if ch =? 43 then 32 else ch) ;; decode_loop tp buf (S p)
    else
      match tp with
      | h0 :: h1 :: tp => ' (b, _) <- str_to_i64 [h0; h1; 0] 16 ;; buf <- wr buf p (u8 b) ;; decode_loop tp buf (S p)
      | _ => None
      end
  end.
Definition decode_str (text : list Z) (k : nat) : option (list Z) :=
  ' (buf, p) <- decode_loop (skipn k text) (repeat 0 (Z.to_nat PRINTF_MAXLEN)) 0 ;;
  d <- strcpy (skipn k text) buf ;;
  d <- wr d p 0 ;;
  Some (firstn k text ++ d).

Definition ORIGIN : list Z := asc "__zpl_origin__".
(** zpl_adt_append_str, zpl_adt_append_flt, adt.c:333-346 *)
Definition str_node {A} (name value : A) : tree A := Tree (Some name) 0 zero_style (VStr false (Some value)).
Definition flag_node {A} (name : A) : tree A := Tree (Some name) PROPS_TRUE zero_style (VReal (RConst 1) zero_analysis).
(** zpl_uri_init, uri.c:33-41: the children of the root *)
Definition uri_init {A} (name_origin : A) (origin : option A) : list (tree A) :=
  match origin with Some o => [str_node name_origin o] | None => [] end.

(** [while ( *p && !stop( *p)) ++p] *)
Fixpoint scan (stop : Z -> bool) (t : list Z) : option nat :=
  match t with [] => None | c :: r => if (c =? 0) || stop c then Some O else n <- scan stop r ;; Some (S n) end.
Definition ends_origin (c : Z) : bool := (c =? 63) || char_is_space c.
Definition ends_name (c : Z) : bool := (c =? 38) || (c =? 63) || (c =? 61) || char_is_space c.
Definition ends_value (c : Z) : bool := (c =? 38) || (c =? 63) || char_is_space c.
(** the loop of zpl_uri_parse, uri.c:75-108; every round but the last moves [p] *)
Fixpoint params (fuel : nat) (text : list Z) (p : nat) (nodes : list (tree ptr)) : option (list Z * list (tree ptr)) :=
  match fuel with
  | O => None
  | S f =>
    ch <- rd text p ;;
    if (ch =? 0) || char_is_space ch then Some (text, nodes)
    else
      let b := p in
      n <- scan ends_name (skipn p text) ;;
      let p := (p + n)%nat in
      c <- rd text p ;; text <- wr text p 0 ;;
      text <- decode_str text b ;;
      ' (text, p, c, node) <-
        (if c =? 61 then
           let p := S p in
           n <- scan ends_value (skipn p text) ;;
           let v := p in
           let p := (p + n)%nat in
           c <- rd text p ;; text <- wr text p 0 ;;
           text <- decode_str text v ;;
           node <- str_to_number true text (str_node (At b) (At v)) ;;
           Some (text, p, c, node)
         else Some (text, p, c, flag_node (At b))) ;;
      let nodes := nodes ++ [node] in
      if c =? 0 then Some (text, nodes) else params f text (S p) nodes
  end.
(** zpl_uri_parse, uri.c:43-112: the text as it is left, and the root *)
Definition uri_root {A} (nodes : list (tree A)) : tree A := Tree None 0 zero_style (VBranch false nodes).
Definition uri_parse (text : list Z) : option (list Z * tree ptr) :=
  p <- str_trim text false ;;
  c <- rd text p ;;
  if c =? 0 then Some (text, uri_root [])
  else
    ' (text, p, nodes, fin) <-
      (if negb (c =? 63) then
         n <- scan ends_origin (skipn p text) ;;
         let b := p in
         let p := (p + n)%nat in
         c <- rd text p ;; text <- wr text p 0 ;;
         Some (text, p, [str_node (Const ORIGIN) (At b)], c =? 0)
       else Some (text, p, [], false)) ;;
    if fin : bool then Some (text, uri_root nodes)
    else ' (text, nodes) <- params (S (length text)) text (S p) nodes ;; Some (text, uri_root nodes).

(** zpl__uri_print_str, uri.c:114-138: the bytes written *)
Fixpoint uri_print_str (s : list Z) : option (list Z) :=
  match s with
  | [] => Some []
  | ch :: s =>
    o <- (if ch =? 32 then fprintf (asc "%s") [AS (asc "+")]
          else if char_is_alphanumeric ch || strchr (asc "-_.~") ch then fprintf (asc "%c") [AInt ch]
          else ' (buf, _) <- snprintf (repeat 0 10) 10 (asc "%02X" ++ [0]) [AInt ch] ;;
               fprintf (asc "%c%s") [AInt 37; AStr (Some buf)]) ;;
    r <- uri_print_str s ;; Some (o ++ r)
  end.
(** zpl_adt_query for the one name looked for, zpl_adt_find, adt.c:45-66: the index found *)
Fixpoint find_name (nm : list Z) (nodes : list (tree (list Z))) (i : nat) : option (option nat) :=
  match nodes with
  | [] => Some None
  | t :: r =>
    n <- t_name t ;;
    d <- strcmp (n ++ [0]) (nm ++ [0]) ;; if d =? 0 then Some (Some i) else find_name nm r (S i)
  end.
(** uri.c:162-179 *)
Fixpoint write_params (origin : option nat) (count i : nat) (nodes : list (tree (list Z))) : option (list Z) :=
  match nodes with
  | [] => Some []
  | t :: r =>
    if (match origin with Some k => (k =? i)%nat | None => false end) then write_params origin count (S i) r
    else
      o <- (match t_name t with Some n => uri_print_str n | None => Some [] end) ;;
      v <- (match t_value t with
            | VStr false s =>
              e <- fprintf (asc "%c") [AInt 61] ;;
              x <- (match s with Some s => uri_print_str s | None => Some [] end) ;; Some (e ++ x)
            | VInt _ _ | VReal _ _ =>
              if negb (t_props t =? PROPS_TRUE) then e <- fprintf (asc "%c") [AInt 61] ;; x <- print_number t ;; Some (e ++ x)
              else Some []
            | _ => Some []
            end) ;;
      a <- (if (S i <? count)%nat then fprintf (asc "%s") [AS (asc "&")] else Some []) ;;
      rest <- write_params origin count (S i) r ;;
      Some (o ++ v ++ a ++ rest)
  end.
(** zpl_uri_write, uri.c:140-180, for an object with the given children. The origin is printed as a
    format; the pointer of a node that is not a string is not a string. *)
Definition uri_write (nodes : list (tree (list Z))) : option (list Z) :=
  origin <- find_name ORIGIN nodes 0 ;;
  o <- (match origin with
        | Some k => t <- nth_error nodes k ;;
                    match t_value t with VStr _ (Some s) => fprintf s [] | _ => None end
        | None => Some []
        end) ;;
  q <- (match nodes with [] => Some [] | _ => fprintf (asc "%s") [AS (asc "?")] end) ;;
  ps <- write_params origin (length nodes) 0 nodes ;;
  Some (o ++ q ++ ps).
