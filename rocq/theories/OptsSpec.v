(** What the arguments of a program mean. *)
From Coq Require Import String.
From Verif Require Import Base CStrSpec NumSpec FloatSpec Float Print Node AdtNumSpec QuerySpec Opts.
Open Scope string_scope. Open Scope Z_scope. Open Scope list_scope.

(** The options a program has. *)
Record decl := Decl { d_name : option (list Z); d_lname : list Z; d_ty : otype }.
(** letters, digits, - and _ *)
Definition letter (c : Z) : Prop := 65 <= c <= 90 \/ 97 <= c <= 122 \/ 48 <= c <= 57 \/ c = 45 \/ c = 95.
Definition word (w : list Z) : Prop := Forall letter w.
Definition good (T : list decl) : Prop :=
  Forall (fun d => cstring (d_lname d) /\ forall n, d_name d = Some n -> cstring n) T /\ NoDup (map d_lname T).
(** the option a name stands for: the first *)
Definition called (long : bool) (w : list Z) (d : decl) : Prop := if long then d_lname d = w else d_name d = Some w.
Definition option_of (T : list decl) (long : bool) (w : list Z) (i : nat) (d : decl) : Prop :=
  nth_error T i = Some d /\ called long w d /\ forall j d', (j < i)%nat -> nth_error T j = Some d' -> ~ called long w d'.
Definition unknown (T : list decl) (long : bool) (w : list Z) : Prop := forall d, In d T -> ~ called long w d.

(** What is known so far: for each option whether it was given, and with which value; the options
    still to be filled by position; what was wrong. *)
Record state := State { given : list (option oval); queue : list nat; wrong : list (err * list Z) }.
Definition set (v : list (option oval)) (i : nat) (y : oval) : list (option oval) := firstn i v ++ Some y :: skipn (S i) v.
Definition without (i : nat) (q q' : list nat) : Prop :=
  (~ In i q /\ q' = q) \/ exists a b, q = a ++ i :: b /\ ~ In i b /\ q' = a ++ b.
(** the value a text has for an option *)
Definition reads (t : otype) (s : list Z) (y : oval) : Prop :=
  match t with
  | OString => y = Text s
  | OInt => exists i, index_of s i /\ y = Int i
  | OFloat => exists x r, str_to_f64 (s ++ [0]) = Some (x, r) /\ y = Real x
  | OFlag => y = NoVal
  end.
Definition give (i : nat) (t : otype) (s : list Z) (st st' : state) : Prop :=
  exists y q, reads t s y /\ without i (queue st) q /\ st' = State (set (given st) i y) q (wrong st).
Definition complain (k : err) (s : list Z) (st : state) : state := State (given st) (queue st) (wrong st ++ [(k, s)]).

Definition blank (b : list Z) : Prop := Forall white b.
Definition option_text (b : list Z) (long : bool) (w : list Z) (more : list Z) : list Z := b ++ (if long then [45; 45] else [45]) ++ w ++ more.
(** the name ends where [more] begins; after one - there is none more *)
Definition parts (b : list Z) (long : bool) (w more : list Z) : Prop :=
  blank b /\ word w /\ (forall c r, more = c :: r -> ~ letter c) /\ (long = false -> forall r, w <> 45 :: r).
(** the next argument is there and does not begin with - *)
Definition plain_next (r : list (list Z)) : Prop := exists s r', r = s :: r' /\ forall q, s <> 45 :: q.
Definition no_backslash (s : list Z) : Prop := forall q, s <> q ++ [92].

(** One argument, sometimes two. *)
Inductive step (T : list decl) (st : state) : list (list Z) -> state -> list (list Z) -> Prop :=
| s_empty r : step T st ([] :: r) st r
| s_switch b long w i d r : parts b long w [] -> option_of T long w i d -> d_ty d = OFlag -> (queue st = [] -> ~ plain_next r) ->
    step T st (option_text b long w [] :: r) (State (set (given st) i NoVal) (queue st) (wrong st)) r
| s_equals b long w s i d r st' : parts b long w (61 :: s) -> option_of T long w i d -> d_ty d <> OFlag -> no_backslash s ->
    give i (d_ty d) s st st' -> step T st (option_text b long w (61 :: s) :: r) st' r
| s_next b long w s i d r st' : parts b long w [] -> option_of T long w i d -> d_ty d <> OFlag -> s <> [] -> (forall q, s <> 45 :: q) -> no_backslash s ->
    give i (d_ty d) s st st' -> step T st (option_text b long w [] :: s :: r) st' r
| s_stuck b long w c s i d r st' : parts b long w (c :: s) -> c <> 61 -> option_of T long w i d -> no_backslash (c :: s) ->
    give i (d_ty d) (c :: s) st st' -> step T st (option_text b long w (c :: s) :: r) st' r
| s_word b s i q d r st' : blank b -> (forall c t, s = c :: t -> ~ white c /\ c <> 45) -> b ++ s <> [] -> queue st = i :: q -> nth_error T i = Some d ->
    give i (d_ty d) s (State (given st) q (wrong st)) st' -> step T st ((b ++ s) :: r) st' r
| s_unknown b long w more r : parts b long w more -> unknown T long w ->
    step T st (option_text b long w more :: r) (complain ErrOption (w ++ more) st) r
| s_extra b long w s i d r : parts b long w (61 :: s) -> option_of T long w i d -> d_ty d = OFlag ->
    step T st (option_text b long w (61 :: s) :: r) (complain ErrExtra w st) r
| s_extra_next b long w i d r : parts b long w [] -> option_of T long w i d -> d_ty d = OFlag -> queue st = [] -> plain_next r ->
    step T st (option_text b long w [] :: r) (complain ErrExtra [] st) r
| s_missing b long w i d r : parts b long w [] -> option_of T long w i d -> d_ty d <> OFlag -> ~ plain_next r ->
    step T st (option_text b long w [] :: r) (complain ErrMissing w st) r
| s_stray b s r : blank b -> (forall c t, s = c :: t -> ~ white c /\ c <> 45) -> b ++ s <> [] -> queue st = [] ->
    step T st ((b ++ s) :: r) (complain ErrValue s st) r.
Inductive runs (T : list decl) : state -> list (list Z) -> state -> Prop :=
| r_nil st : runs T st [] st
| r_step st args st1 rest st' : step T st args st1 rest -> runs T st1 rest st' -> runs T st args st'.

(** What the parser's memory holds. *)
Definition entry_holds (e : entry) (d : decl) (v : option oval) : Prop :=
  name e = d_name d /\ lname e = Some (d_lname d) /\ ty e = d_ty d /\ (ty e = OFlag -> val e = NoVal) /\
  match v with Some y => met e = true /\ val e = y | None => met e = false end.
Inductive all3 {A B C} (P : A -> B -> C -> Prop) : list A -> list B -> list C -> Prop :=
| a3_nil : all3 P [] [] []
| a3_cons a b c l m n : P a b c -> all3 P l m n -> all3 P (a :: l) (b :: m) (c :: n).
Definition holds (o : opts) (T : list decl) (st : state) : Prop :=
  good T /\ all3 entry_holds (entries o) T (given st) /\ Forall (fun i => (i < List.length T)%nat) (queue st) /\
  positioned o = rev (map (fun i => (era o, i)) (queue st)) /\ errors o = wrong st.

(** The help text: [ name ] for the options that may be given by position, from the last to the first;
    a line for each option. *)
Definition bracket (e : entry) : list Z := asc " [" ++ match lname e with Some n => n | None => [] end ++ asc "]".
Definition help_line (e : entry) : list Z :=
  9 :: (match name e, lname e with
        | Some n, Some ln => asc "-" ++ n ++ asc ", --" ++ ln
        | Some n, None => asc "-" ++ n
        | None, Some ln => asc "--" ++ ln
        | None, None => []
        end) ++ asc ": " ++ desc e ++ [10].
Definition help_text (o : opts) : list Z :=
  asc "USAGE: " ++ appname o ++ concat (map bracket (rev (filter pos (entries o)))) ++ 10 :: asc "OPTIONS:" ++ 10 :: concat (map help_line (entries o)).
(** texts that fit in a line; every option has a name, those given by position a long one *)
Definition short (s : list Z) : Prop := cstring s /\ Z.of_nat (List.length s) < 1000.
Definition printable (e : entry) : Prop :=
  short (desc e) /\ (forall n, name e = Some n -> short n) /\ (forall n, lname e = Some n -> short n) /\ (name e <> None \/ lname e <> None) /\ (pos e = true -> lname e <> None).
