(** Tables of cells, and how they are written. *)
From Coq Require Import String.
From Verif Require Import Base CStrSpec NumSpec PrintSpec Node UriSpec.

(** a quoted text, a text as it is, a whole number, or nothing *)
Inductive cell := Quoted (s : list Z) | Plain (s : list Z) | Int (v : Z) | Blank.
(** a separator that no cell can be mistaken for *)
Definition good_delim (d : Z) : Prop := 0 < d < 256 /\ ~ white d /\ d <> 34 /\ ~ number_char d.
(** characters of numbers here: 'x' and 'X' too *)
Definition cell_number_char (c : Z) : Prop := number_char c \/ c = 120 \/ c = 88.
(** texts fit the print buffer. A quoted text is not empty. A plain text does not start with a quote
    or a blank, does not end with a blank, has no separator and no newline in it, and is not made of
    characters of numbers. Nothing at all is allowed except at the end of a row. *)
Definition cell_ok (d : Z) (is_last : bool) (c : cell) : Prop :=
  match c with
  | Quoted s => s <> [] /\ cstring s /\ Z.of_nat (length s) + 1 < buffer
  | Plain s => cstring s /\ Z.of_nat (length s) + 1 < buffer /\ ~ In d s /\ ~ In 10 s /\
               (exists a r, s = a :: r /\ a <> 34 /\ ~ white a) /\ (exists r a, s = r ++ [a] /\ ~ white a) /\
               (exists a, In a s /\ ~ cell_number_char a)
  | Int v => - 2^63 < v < 2^63
  | Blank => is_last = false
  end.
Fixpoint row_ok (d : Z) (r : list cell) : Prop :=
  match r with [] => True | c :: r => cell_ok d (match r with [] => true | _ => false end) c /\ row_ok d r end.
(** a table of [n] columns *)
Definition table_ok (d : Z) (n : nat) (rows : list (list cell)) : Prop :=
  rows <> [] /\ (0 < n)%nat /\ Forall (fun r => length r = n /\ row_ok d r) rows.
Definition header_ok (n : nat) (names : list (list Z)) : Prop :=
  length names = n /\ Forall (fun s => s <> [] /\ cstring s /\ Z.of_nat (length s) + 1 < buffer) names.

(** the node of a cell *)
Definition quote_style (n : name_style_t) : style := Style false n Colon Comma 0 0.
Definition cell_node (c : cell) : tree (list Z) :=
  match c with
  | Quoted s => Tree None PROPS_NONE (quote_style DoubleQuote) (VStr false (Some s))
  | Plain s => Tree None PROPS_NONE (quote_style NoQuotes) (VStr false (Some s))
  | Int v => Tree None PROPS_NONE (quote_style NoQuotes) (VInt v zero_analysis)
  | Blank => Tree None PROPS_NONE (quote_style NoQuotes) (VStr false (Some []))
  end.
(** column [j] of a table, and the children of the root *)
Definition column (rows : list (list cell)) (j : nat) : list (tree (list Z)) := map (fun r => cell_node (nth j r Blank)) rows.
Definition column_node (name : option (list Z)) (cells : list (tree (list Z))) : tree (list Z) := Tree name PROPS_NONE zero_style (VBranch true cells).
Definition columns (header : option (list (list Z))) (n : nat) (rows : list (list cell)) : list (tree (list Z)) :=
  map (fun j => column_node (match header with Some names => nth_error names j | None => None end) (column rows j)) (seq 0 n).

(** the text: quotes doubled, cells separated, a newline after each row *)
Fixpoint doubled (s : list Z) : list Z := match s with [] => [] | c :: r => (if c =? 34 then [34; 34] else [c]) ++ doubled r end.
Inductive cell_text : cell -> list Z -> Prop :=
| ct_quoted s : cell_text (Quoted s) (34 :: doubled s ++ [34])
| ct_plain s : cell_text (Plain s) s
| ct_int v t : numeral 10 v t -> cell_text (Int v) t
| ct_blank : cell_text Blank [].
Inductive row_text (d : Z) : list cell -> list Z -> Prop :=
| rt_last c t : cell_text c t -> row_text d [c] (t ++ [10])
| rt_more c c' r t t' : cell_text c t -> row_text d (c' :: r) t' -> row_text d (c :: c' :: r) (t ++ d :: t').
Inductive rows_text (d : Z) : list (list cell) -> list Z -> Prop :=
| rs_nil : rows_text d [] []
| rs_cons r rs t ts : row_text d r t -> rows_text d rs ts -> rows_text d (r :: rs) (t ++ ts).
