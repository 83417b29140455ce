(** Paths as lists of names, and what is in a file system. *)
From Verif Require Import Base CStrSpec Path.
Open Scope list_scope.

(** what is at a path: [true] a directory, [false] a file *)
Inductive at_path : node -> list (list Z) -> bool -> Prop :=
| at_file : at_path NFile [] false
| at_dir l : at_path (NDir l) [] true
| at_below l n x cs b : In (n, x) l -> at_path x cs b -> at_path (NDir l) (n :: cs) b.
(** the part of a file system below a path *)
Inductive below : node -> list (list Z) -> node -> Prop :=
| below_here t : below t [] t
| below_in l n x cs t : In (n, x) l -> below x cs t -> below (NDir l) (n :: cs) t.
Definition prefix {A} (a b : list A) : Prop := exists r, b = a ++ r.
(** no two entries of a directory have the same name *)
Inductive distinct : node -> Prop :=
| di_file : distinct NFile
| di_dir l : NoDup (map fst l) -> Forall (fun e => distinct (snd e)) l -> distinct (NDir l).
(** how names are written as a path: any number of slashes between, before and after them *)
Inductive spells : list Z -> list (list Z) -> Prop :=
| sp_nil : spells [] []
| sp_slash p cs : spells p cs -> spells (47 :: p) cs
| sp_last n : n <> [] -> ~ In 47 n -> spells n [n]
| sp_name n p cs : n <> [] -> ~ In 47 n -> spells p cs -> spells (n ++ 47 :: p) (n :: cs).
(** . and the names that begin with .. *)
Definition hidden (n : list Z) : Prop := n = [46] \/ exists r, n = 46 :: 46 :: r.
(** a line of a listing *)
Definition line_of (dirname : list Z) (cs : list (list Z)) : list Z := dirname ++ flat_map (fun n => 47 :: n) cs.
(** the string that starts at an offset *)
Definition string_at (buf : list Z) (k : nat) (s : list Z) : Prop := exists a b, buf = a ++ s ++ 0 :: b /\ length a = k.
