(** Command-line options, code/source/opts.c. The entries are kept as a list with the capacity of
    the array; [era] counts how often it was moved, and pointers to entries kept in [positioned]
    carry the era they were made in: a pointer of an earlier era points to released memory.
    Strings are without their NULs. Allocations succeed. *)
From Coq Require Import String.
From Verif Require Import Base CStr Num Float Print Node Json.
Open Scope string_scope. Open Scope Z_scope. Open Scope list_scope.

(** zpl_opts_types, opts.h:14-19 *)
Inductive otype := OString | OFloat | OFlag | OInt.
Definition is_flag (t : otype) : bool := match t with OFlag => true | _ => false end.
(** the union of zpl_opts_entry, opts.h:21-32 *)
Inductive oval := NoVal | Text (s : list Z) | Real (x : f64) | Int (i : Z).
Record entry := Entry { name : option (list Z); lname : option (list Z); desc : list Z; ty : otype; met : bool; pos : bool; val : oval }.
(** zpl_opts_err_type, opts.h:34-39 *)
Inductive err := ErrValue | ErrOption | ErrExtra | ErrMissing.
Record opts := Opts { appname : list Z; entries : list entry; cap : nat; era : nat; positioned : list (nat * nat); errors : list (err * list Z) }.

(** zpl_opts_init, opts.c:11-20 *)
Definition opts_init (app : list Z) : opts := Opts app [] 8 0 [] [].
(** zpl_opts_add, opts.c:35-46; the array grows by 2x+8, array.h:78 *)
Definition opts_add (o : opts) (n ln : option (list Z)) (d : list Z) (t : otype) : opts :=
  let full := (cap o <? S (List.length (entries o)))%nat in
  Opts (appname o) (entries o ++ [Entry n ln d t false false NoVal]) (if full then 2 * cap o + 8 else cap o)%nat (if full then S (era o) else era o) (positioned o) (errors o).

(** zpl__opts_find, opts.c:48-60: the position *)
Fixpoint find_from (l : list entry) (buf : list Z) (len : nat) (longname : bool) (i : nat) : option (option nat) :=
  match l with
  | [] => Some None
  | e :: r =>
    match (if longname then lname e else name e) with
    | None => find_from r buf len longname (S i)
    | Some n =>
      a <- strnlen buf len ;; b <- strlen (n ++ [0]) ;;
      c <- (if (a =? b)%nat then c <- strncmp len 0 1 (n ++ [0]) buf ;; Some (c =? 0) else Some false) ;;
      if c : bool then Some (Some i) else find_from r buf len longname (S i)
    end
  end.
Definition opts_find (o : opts) (buf : list Z) (len : nat) (longname : bool) : option (option nat) := find_from (entries o) buf len longname O.
Fixpoint upd (l : list entry) (i : nat) (f : entry -> entry) : list entry :=
  match l, i with [], _ => [] | e :: r, O => f e :: r | e :: r, S k => e :: upd r k f end.
Definition set_entries (o : opts) (l : list entry) : opts := Opts (appname o) l (cap o) (era o) (positioned o) (errors o).
Definition set_positioned (o : opts) (p : list (nat * nat)) : opts := Opts (appname o) (entries o) (cap o) (era o) p (errors o).

(** zpl_opts_positional_add, opts.c:62-69 *)
Definition opts_positional_add (o : opts) (n : list Z) : option opts :=
  k <- opts_find o (n ++ [0]) (List.length n) true ;;
  Some (match k with
        | None => o
        | Some i => set_positioned (set_entries o (upd (entries o) i (fun e => Entry (name e) (lname e) (desc e) (ty e) (met e) true (val e)))) ((era o, i) :: positioned o)
        end).
(** the entry at a pointer *)
Definition deref (o : opts) (p : nat * nat) : option entry := if (fst p =? era o)%nat then nth_error (entries o) (snd p) else None.

(** the loop of zpl__opts_set_value, opts.c:108-113 *)
Fixpoint drop_positioned (o : opts) (ln : option (list Z)) (l : list (nat * nat)) : option (list (nat * nat)) :=
  match l with
  | [] => Some []
  | p :: r =>
    e <- deref o p ;; a <- lname e ;; b <- ln ;;
    c <- strcmp (a ++ [0]) (b ++ [0]) ;;
    if c =? 0 then Some r else r <- drop_positioned o ln r ;; Some (p :: r)
  end.
(** zpl__opts_set_value, opts.c:91-114, on the [i]th entry *)
Definition set_value (o : opts) (i : nat) (b : list Z) : option opts :=
  e <- nth_error (entries o) i ;;
  v <- (match ty e with
        | OString => s <- until_nul b ;; Some (Text s)
        | OFloat => ' (x, _) <- str_to_f64 b ;; Some (Real x)
        | OInt => ' (x, _) <- str_to_i64 b 10 ;; Some (Int x)
        | OFlag => Some (val e)
        end) ;;
  let o := set_entries o (upd (entries o) i (fun e => Entry (name e) (lname e) (desc e) (ty e) true (pos e) v)) in
  p <- drop_positioned o (lname e) (positioned o) ;;
  Some (set_positioned o p).
(** zpl__opts_push_error, opts.c:165-170 *)
Definition push_error (o : opts) (t : err) (b : list Z) : option opts :=
  s <- until_nul b ;; Some (Opts (appname o) (entries o) (cap o) (era o) (positioned o) (errors o ++ [(t, s)])).

(** zpl_char_is_alphanumeric, string.h:127-134; opts.c:189 *)
Definition name_char (c : Z) : bool := char_is_alphanumeric c || (c =? 45) || (c =? 95).
Fixpoint name_len (b : list Z) : option nat :=
  match b with [] => None | c :: r => if name_char c then n <- name_len r ;; Some (S n) else Some O end.

(** zpl_opts_compile, opts.c:172-247, from the arguments [argv[i]...] on; argv[argc] is NULL.
    [had] are the errors so far. *)
Fixpoint compile (o : opts) (args : list (list Z)) (had : bool) : option (bool * opts) :=
  match args with
  | [] => Some (negb had, o)
  | a :: rest =>
    let p := a ++ [0] in
    c <- rd p 0 ;;
    if c =? 0 then compile o rest had
    else
      k <- str_trim p false ;;
      let p := skipn k p in
      c <- rd p 0 ;;
      if c =? 45 then
        d <- rd p 1 ;;
        let checkln := d =? 45 in
        let b := skipn (if checkln then 2 else 1) p in
        n <- name_len b ;;
        t <- opts_find o b n checkln ;;
        match t with
        | None => o <- push_error o ErrOption b ;; compile o rest true
        | Some i =>
          t <- nth_error (entries o) i ;;
          e <- rd b n ;;
          if e =? 61 then
            if is_flag (ty t) then o <- push_error o ErrExtra (firstn n b ++ [0]) ;; compile o rest true
            else
              _ <- control_skip (skipn (S n) b) 61 0 ;;
              o <- set_value o i (skipn (S n) b) ;; compile o rest had
          else if e =? 0 then
            match rest with
            | sp :: rest' =>
              s <- rd (sp ++ [0]) 0 ;;
              if negb (s =? 45) && ((match positioned o with [] => true | _ => false end) || negb (is_flag (ty t))) then
                if is_flag (ty t) then o <- push_error o ErrExtra (skipn n b) ;; compile o rest true
                else
                  (* str[-1] is read when the argument is empty *)
                  _ <- (if s =? 0 then None else control_skip (sp ++ [0]) 0 0) ;;
                  o <- set_value o i (sp ++ [0]) ;; compile o rest' had
              else if negb (is_flag (ty t)) then o <- push_error o ErrMissing b ;; compile o rest true
              else compile (set_entries o (upd (entries o) i (fun e => Entry (name e) (lname e) (desc e) (ty e) true (pos e) (val e)))) rest had
            | [] =>
              if negb (is_flag (ty t)) then o <- push_error o ErrMissing b ;; compile o rest true
              else compile (set_entries o (upd (entries o) i (fun e => Entry (name e) (lname e) (desc e) (ty e) true (pos e) (val e)))) rest had
            end
          else
            _ <- control_skip (skipn n b) 0 0 ;;
            o <- set_value o i (skipn n b) ;; compile o rest had
        end
      else
        match rev (positioned o) with
        | l :: r =>
          let o := set_positioned o (rev r) in
          _ <- deref o l ;;
          o <- set_value o (snd l) p ;; compile o rest had
        | [] => o <- push_error o ErrValue p ;; compile o rest true
        end
  end.
Definition opts_compile (o : opts) (argv : list (list Z)) : option (bool * opts) := compile o (tl argv) false.

(** zpl_opts_positionals_filled, opts.c:71; zpl_opts_string, real, integer and has_arg, opts.c:73-89 and 116-122 *)
Definition positionals_filled (o : opts) : bool := match positioned o with [] => true | _ => false end.
Definition lookup (o : opts) (n : list Z) : option (option entry) :=
  k <- opts_find o (n ++ [0]) (List.length n) true ;;
  match k with None => Some None | Some i => e <- nth_error (entries o) i ;; Some (Some e) end.
(** what is in the union, or the fallback *)
Definition opts_value (o : opts) (n : list Z) (fallback : oval) : option oval :=
  e <- lookup o n ;; Some (match e with Some e => if met e then val e else fallback | None => fallback end).
Definition has_arg (o : opts) (n : list Z) : option bool := e <- lookup o n ;; Some (match e with Some e => met e | None => false end).

(** zpl_opts_print_help, opts.c:124-143; slots of the array that were never used are zero *)
Definition zero_entry : entry := Entry None None [] OString false false NoVal.
Definition slot (o : opts) (i : nat) : option entry :=
  if (i <? List.length (entries o))%nat then nth_error (entries o) i else if (i <? cap o)%nat then Some zero_entry else None.
Definition AOpt (s : option (list Z)) : arg := AStr (match s with Some s => Some (s ++ [0]) | None => None end).
Fixpoint help_pos (o : opts) (i : nat) : option (list Z) :=
  e <- slot o i ;;
  w <- (if pos e then fprintf (asc " [%s]") [AOpt (lname e)] else Some []) ;;
  r <- (match i with O => Some [] | S k => help_pos o k end) ;; Some (w ++ r).
Fixpoint help_lines (l : list entry) : option (list Z) :=
  match l with
  | [] => Some []
  | e :: r =>
    w <- (match name e, lname e with
          | Some n, Some ln => fprintf (9 :: asc "-%s, --%s: %s" ++ [10]) [AS n; AS ln; AS (desc e)]
          | Some n, None => fprintf (9 :: asc "-%s: %s" ++ [10]) [AS n; AS (desc e)]
          | None, ln => fprintf (9 :: asc "--%s: %s" ++ [10]) [AOpt ln; AS (desc e)]
          end) ;;
    r <- help_lines r ;; Some (w ++ r)
  end.
Definition print_help (o : opts) : option (list Z) :=
  a <- fprintf (asc "USAGE: %s") [AS (appname o)] ;;
  p <- help_pos o (List.length (entries o)) ;;
  h <- fprintf (10 :: asc "OPTIONS:" ++ [10]) [] ;;
  l <- help_lines (entries o) ;; Some (a ++ p ++ h ++ l).
