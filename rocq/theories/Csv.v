(** Comma-separated values, code/source/parsers/csv.c.

    The text is the object [text] points to, with its NUL; pointers into it are offsets. A column is
    the list of its cells, the table the list of its columns. *)
From Coq Require Import String.
From Verif Require Import Base CStr Num Print Node.

(** zpl_csv_error, header/parsers/csv.h:6-11 *)
Inductive csv_error := CsvOk | CsvInternal | CsvUnexpectedEnd | CsvMismatchedRows.

(** where a quoted cell ends, csv.c:39-45; every round but the last steps over two quotes *)
Fixpoint quote_end (fuel : nat) (text : list Z) (e : nat) : option nat :=
  match fuel with
  | O => None
  | S f =>
    n <- str_skip (skipn e text) 34 ;;
    let e := (e + n)%nat in
    c <- rd text e ;;
    if c =? 0 then Some e
    else d <- rd text (S e) ;;
         if d =? 34 then
           let e := S (S e) in
           c <- rd text e ;; if c =? 0 then Some e else quote_end f text e
         else Some e
  end.
(** unescaping, csv.c:56-64, on the text from [ep] on *)
Fixpoint unescape (fuel : nat) (s : list Z) : option (list Z) :=
  match fuel with
  | O => None
  | S f =>
    c <- rd s 0 ;;
    s <- (if c =? 34 then
            d <- rd s 1 ;;
            if d =? 34 then n <- strlen s ;; Some (firstn n (tl s) ++ skipn n s) else Some s
          else Some s) ;;
    match s with
    | [] => None
    | c :: r => d <- rd r 0 ;; if d =? 0 then Some s else r <- unescape f r ;; Some (c :: r)
    end
  end.
(** [do { e++; } while ( *e && *e != delim && *e != '\n')], csv.c:74-76: [s] is the text after the
    first character *)
Definition ends_cell (delim c : Z) : bool := (c =? 0) || (c =? delim) || (c =? 10).
Fixpoint cell_end (delim : Z) (s : list Z) : option nat :=
  match s with [] => None | c :: r => if ends_cell delim c then Some O else n <- cell_end delim r ;; Some (S n) end.
(** [while (zpl_char_is_space( *(e-1))) { e--; }] *)
Fixpoint back (text : list Z) (e : nat) : option nat :=
  match e with O => None | S k => c <- rd text k ;; if char_is_space c then back text k else Some e end.
(** whether a cell is taken for a number, csv.c:89-96 *)
Fixpoint number_cell (s : list Z) : option bool :=
  match s with
  | [] => None
  | c :: r => if negb (char_is_hex_digit c) && negb (strchr (asc "+-.eExX") c) then Some false
              else if c =? 0 then Some true else number_cell r
  end.
Definition cell_style (n : name_style_t) : style := Style false n Colon Comma 0 0.
Definition str_cell (n : name_style_t) (s : ptr) : tree ptr := Tree None 0 (cell_style n) (VStr false (Some s)).

(** a cell, csv.c:32-101, at [p], where the character [c] is: the text, [p], [d] and the node;
    [None] inside: unmatched quotes *)
Definition parse_cell (delim : Z) (text : list Z) (p : nat) (c : Z) : option (option (list Z * nat * Z * tree ptr)) :=
  if c =? 34 then
    let b := S p in
    e <- quote_end (length text) text b ;;
    c <- rd text e ;;
    if c =? 0 then Some None
    else
      text <- wr text e 0 ;;
      n <- str_trim (skipn (S e) text) true ;;
      let p := (S e + n)%nat in
      d <- rd text p ;;
      s <- unescape (length text) (skipn b text) ;;
      Some (Some (firstn b text ++ s, p, d, str_cell DoubleQuote (At b)))
  else if c =? delim then Some (Some (text, p, c, str_cell NoQuotes (Const [])))
  else
    let b := p in
    n <- cell_end delim (skipn (S p) text) ;;
    let e := (S p + n)%nat in
    c <- rd text e ;;
    ' (text, p, d) <-
      (if negb (c =? 0) then
         n <- str_trim (skipn e text) true ;;
         let p := (e + n)%nat in
         e <- back text e ;;
         d <- rd text p ;;
         text <- wr text e 0 ;;
         Some (text, p, d)
       else Some (text, e, 0)) ;;
    num <- number_cell (skipn b text) ;;
    node <- (if num : bool then str_to_number false text (str_cell NoQuotes (At b)) else Some (str_cell NoQuotes (At b))) ;;
    Some (Some (text, p, d, node)).

(** csv.c:103-107: a column is added when there is none with the number [colc] *)
Fixpoint add_at {A} (cols : list (list A)) (colc : nat) (x : A) : option (list (list A)) :=
  match cols, colc with
  | c :: r, O => Some ((c ++ [x]) :: r)
  | c :: r, S k => r <- add_at r k x ;; Some (c :: r)
  | [], _ => None
  end.
Definition add_cell {A} (cols : list (list A)) (colc : nat) (x : A) : option (list (list A)) :=
  add_at (if (length cols <=? colc)%nat then cols ++ [[]] else cols) colc x.
(** the loop, csv.c:22-124; every round but the last moves [p] *)
Fixpoint csv_loop (fuel : nat) (delim : Z) (text : list Z) (p : nat) (cols : list (list (tree ptr))) (colc total : nat)
  : option (csv_error * list Z * list (list (tree ptr))) :=
  match fuel with
  | O => None
  | S f =>
    n <- str_trim (skipn p text) false ;;
    let p := (p + n)%nat in
    c <- rd text p ;;
    if c =? 0 then Some (CsvOk, text, cols)
    else
      r <- parse_cell delim text p c ;;
      match r with
      | None => Some (CsvUnexpectedEnd, text, cols)
      | Some (text, p, d, node) =>
        cols <- add_cell cols colc node ;;
        let next p colc total := c <- rd text p ;; if c =? 0 then Some (CsvOk, text, cols) else csv_loop f delim text p cols colc total in
        if d =? delim then next (S p) (S colc) total
        else if (d =? 10) || (d =? 0) then
          if (total <? colc)%nat then next (if d =? 0 then p else S p) O colc
          else if negb (total =? colc)%nat then Some (CsvMismatchedRows, text, cols)
          else next (if d =? 0 then p else S p) O total
        else next p colc total
      end
  end.
(** csv.c:133-140; the name of a column whose first cell is not a string is not a string *)
Definition col_node {A} (name : option A) (cells : list (tree A)) : tree A := Tree name 0 zero_style (VBranch true cells).
Definition head_col (cells : list (tree ptr)) : option (tree ptr) :=
  match cells with
  | Tree _ _ _ (VStr _ (Some s)) :: r => Some (col_node (Some s) r)
  | _ => None
  end.
Fixpoint map_opt {A B} (f : A -> option B) (l : list A) : option (list B) :=
  match l with [] => Some [] | x :: r => y <- f x ;; r <- map_opt f r ;; Some (y :: r) end.
(** zpl_csv_parse_delimiter, csv.c:13-143 *)
Definition csv_root {A} (has_header : bool) (cols : list (tree A)) : tree A := Tree None 0 zero_style (VBranch (negb has_header) cols).
Definition csv_parse (text : list Z) (has_header : bool) (delim : Z) : option (csv_error * list Z * tree ptr) :=
  ' (err, text, cols) <- csv_loop (S (length text)) delim text 0 [] 0 0 ;;
  match err with
  | CsvOk =>
    match cols with
    | [] => Some (CsvUnexpectedEnd, text, csv_root has_header [])
    | _ => if has_header then nodes <- map_opt head_col cols ;; Some (CsvOk, text, csv_root has_header nodes)
           else Some (CsvOk, text, csv_root has_header (map (col_node None) cols))
    end
  | _ => Some (err, text, csv_root has_header (map (col_node None) cols))
  end.

(** zpl__csv_write_record, csv.c:148-173: the bytes written *)
Definition write_string (n : name_style_t) (s : option (list Z)) : option (list Z) :=
  match n with
  | DoubleQuote =>
    a <- fprintf [34] [] ;; b <- print_string s [34] [34] ;; c <- fprintf [34] [] ;; Some (a ++ b ++ c)
  | NoQuotes => fprintf (asc "%s") [AStr (match s with Some s => Some (s ++ [0]) | None => None end)]
  | SingleQuote => Some []
  end.
Definition write_record (t : tree (list Z)) : option (list Z) :=
  match t_value t with
  | VStr false s => write_string (name_style (t_style t)) s
  | VReal _ _ | VInt _ _ => print_number t
  | _ => Some []
  end.
(** zpl__csv_write_header, csv.c:175-180 *)
Definition write_header (t : tree (list Z)) : option (list Z) := write_string (name_style (t_style t)) (t_name t).
(** a row, csv.c:195-201, 205-211 *)
Fixpoint write_row (f : tree (list Z) -> option (list Z)) (delim : Z) (l : list (tree (list Z))) : option (list Z) :=
  match l with
  | [] => fprintf [10] []
  | t :: r => a <- f t ;; b <- (match r with [] => Some [] | _ => fprintf (asc "%c") [AInt delim] end) ;;
              c <- write_row f delim r ;; Some (a ++ b ++ c)
  end.
Definition cells_of (t : tree (list Z)) : option (list (tree (list Z))) := match t_value t with VBranch _ l => Some l | _ => None end.
Fixpoint write_rows (delim : Z) (cols : list (tree (list Z))) (r n : nat) : option (list Z) :=
  match n with
  | O => Some []
  | S n => row <- map_opt (fun c => l <- cells_of c ;; nth_error l r) cols ;;
           a <- write_row write_record delim row ;; b <- write_rows delim cols (S r) n ;; Some (a ++ b)
  end.
(** zpl_csv_write_delimiter, csv.c:182-213, for an object with the given children *)
Definition csv_write (cols : list (tree (list Z))) (delim : Z) : option (list Z) :=
  match cols with
  | [] => Some []
  | c0 :: _ =>
    l <- cells_of c0 ;;
    match l with
    | [] => Some []
    | _ =>
      h <- (match t_name c0 with Some _ => write_row write_header delim cols | None => Some [] end) ;;
      b <- write_rows delim cols 0 (length l) ;; Some (h ++ b)
    end
  end.
