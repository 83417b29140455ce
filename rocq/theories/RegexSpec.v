(** Regular expressions without quantifiers and branches: how they are spelled and what they match. *)
From Verif Require Import Base.

Inductive class := White | NotWhite | Lower | Upper | Word | NotWord | HexDigit | Printable.
Inductive entry := Char (c : Z) | Class (k : class).
Inductive item := Lit (s : list Z) | Dot | Start | End | Set_ (neg : bool) (es : list entry) | Esc (e : entry) | Group (l : list item).

(** ** spelling *)
Definition metas : list Z := [94; 36; 40; 41; 91; 93; 46; 42; 43; 63; 124; 92].
Definition class_letter (k : class) : Z :=
  match k with White => 115 | NotWhite => 83 | Lower => 108 | Upper => 117 | Word => 119 | NotWord => 87 | HexDigit => 120 | Printable => 112 end.
(** what can follow a backslash *)
Inductive escaped : entry -> Z -> Prop :=
| esc_meta c : In c metas -> escaped (Char c) c
| esc_class k : escaped (Class k) (class_letter k)
| esc_tab : escaped (Char 9) 116
| esc_newline : escaped (Char 10) 110
| esc_return : escaped (Char 13) 114
| esc_vertical : escaped (Char 11) 118.
Inductive entries : list entry -> list Z -> Prop :=
| es_nil : entries [] []
| es_char c es t : 0 < c < 256 -> c <> 92 -> c <> 93 -> entries es t -> entries (Char c :: es) (c :: t)
| es_escape e c es t : escaped e c -> entries es t -> entries (e :: es) (92 :: c :: t).
(** room in the compiled set: a class takes two bytes *)
Definition room (es : list entry) : Z := fold_right (fun e n => match e with Char _ => 1 | Class _ => 2 end + n) 0 es.
Definition starts_literal (l : list item) : Prop := match l with Lit _ :: _ => True | _ => False end.
Inductive spells : list item -> list Z -> Prop :=
| sp_nil : spells [] []
| sp_lit s l t : s <> [] -> Z.of_nat (length s) < 128 -> Forall (fun c => 0 < c < 256 /\ ~ In c metas) s -> ~ starts_literal l -> spells l t ->
    spells (Lit s :: l) (s ++ t)
| sp_dot l t : spells l t -> spells (Dot :: l) (46 :: t)
| sp_start l t : spells l t -> spells (Start :: l) (94 :: t)
| sp_end l t : spells l t -> spells (End :: l) (36 :: t)
| sp_set es te l t : entries es te -> room es < 128 -> (forall x, te <> 94 :: x) -> spells l t -> spells (Set_ false es :: l) (91 :: te ++ 93 :: t)
| sp_not es te l t : entries es te -> room es < 128 -> spells l t -> spells (Set_ true es :: l) (91 :: 94 :: te ++ 93 :: t)
| sp_esc e c l t : escaped e c -> spells l t -> spells (Esc e :: l) (92 :: c :: t)
| sp_group g tg l t : spells g tg -> spells l t -> spells (Group g :: l) (40 :: tg ++ 41 :: t).
(** the number of groups *)
Fixpoint groups (x : item) : nat := match x with Group g => S (fold_right (fun x n => groups x + n)%nat O g) | _ => O end.
Definition group_count (l : list item) : nat := fold_right (fun x n => groups x + n)%nat O l.
(** sets and escapes look at the character behind the subject *)
Fixpoint looks (x : item) : bool := match x with Set_ _ _ | Esc _ => true | Group g => existsb looks g | _ => false end.

(** ** matching *)
Definition in_class (k : class) (c : Z) : Prop :=
  match k with
  | White => In c [32; 9; 10; 11; 12; 13]
  | NotWhite => ~ In c [32; 9; 10; 11; 12; 13]
  | Lower => 97 <= c <= 122
  | Upper => 65 <= c <= 90
  | Word => 97 <= c <= 122 \/ 65 <= c <= 90 \/ 48 <= c <= 57 \/ c = 95
  | NotWord => ~ (97 <= c <= 122 \/ 65 <= c <= 90 \/ 48 <= c <= 57 \/ c = 95)
  | HexDigit => 97 <= c <= 102 \/ 65 <= c <= 70 \/ 48 <= c <= 57
  | Printable => 32 <= c <= 126
  end.
Definition accepts (e : entry) (c : Z) : Prop := match e with Char d => c = d | Class k => in_class k c end.
(** [matches s l i j cs]: the items match the part of [s] from [i] to [j]; [cs]: where the groups begin
    and end, in the order of their opening brackets *)
Inductive matches (s : list Z) : list item -> nat -> nat -> list (nat * nat) -> Prop :=
| m_nil i : matches s [] i i []
| m_lit t l i j cs : firstn (length t) (skipn i s) = t -> matches s l (i + length t) j cs -> matches s (Lit t :: l) i j cs
| m_dot l i j cs : (i < length s)%nat -> matches s l (S i) j cs -> matches s (Dot :: l) i j cs
| m_start l j cs : matches s l 0 j cs -> matches s (Start :: l) 0 j cs
| m_end l j cs : matches s l (length s) j cs -> matches s (End :: l) (length s) j cs
| m_set es c l i j cs : nth_error s i = Some c -> Exists (fun e => accepts e c) es -> matches s l (S i) j cs -> matches s (Set_ false es :: l) i j cs
| m_not es c l i j cs : nth_error s i = Some c -> Forall (fun e => ~ accepts e c) es -> matches s l (S i) j cs -> matches s (Set_ true es :: l) i j cs
| m_esc e c l i j cs : nth_error s i = Some c -> accepts e c -> matches s l (S i) j cs -> matches s (Esc e :: l) i j cs
| m_group g l i k j cs cs' : matches s g i k cs -> matches s l k j cs' -> matches s (Group g :: l) i j ((i, k) :: cs ++ cs').
(** where a search can begin: inside the subject; only at its start if the expression starts with '^' *)
Definition anchored (l : list item) : bool := match l with Start :: _ => true | _ => false end.
Definition may_start (l : list item) (s : list Z) (i : nat) : Prop := if anchored l then i = O else (i < length s)%nat.
(** the first match *)
Definition first_match (l : list item) (s : list Z) (i j : nat) (cs : list (nat * nat)) : Prop :=
  may_start l s i /\ matches s l i j cs /\ forall i', (i' < i)%nat -> may_start l s i' -> forall j' cs', ~ matches s l i' j' cs'.
(** [tiles l s spans]: repeated searches, each from the end of the last match, come to the end of [s] exactly;
    [spans]: the groups of every match, counted from the start of [s] *)
Inductive tiles (l : list item) : list Z -> nat -> list (nat * nat) -> Prop :=
| t_done base : tiles l [] base []
| t_step s base i j cs rest : s <> [] -> first_match l s i j cs -> (0 < j)%nat -> tiles l (skipn j s) (base + j) rest ->
    tiles l s base (map (fun c => (base + fst c, base + snd c)%nat) cs ++ rest).
(** the same, but the last search finds nothing though there is text left *)
Inductive stops (l : list item) : list Z -> nat -> list (nat * nat) -> Prop :=
| u_none s base : s <> [] -> (forall i j cs, ~ first_match l s i j cs) -> stops l s base []
| u_step s base i j cs rest : s <> [] -> first_match l s i j cs -> (0 < j)%nat -> stops l (skipn j s) (base + j) rest ->
    stops l s base (map (fun c => (base + fst c, base + snd c)%nat) cs ++ rest).
(** ** for the parts that do not work *)
(** a text without special characters *)
Definition plain (w : list Z) : Prop := w <> [] /\ Forall (fun c => 0 < c < 256 /\ ~ In c metas) w.
(** [w] stands in [s] at [i] *)
Definition occurs (w s : list Z) (i : nat) : Prop := firstn (length w) (skipn i s) = w.
