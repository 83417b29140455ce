(** Mathematical strings against which the C string routines are stated. *)
From Verif Require Import Base.

(** contents of a NUL-terminated string *)
Definition cstring (t : list Z) : Prop := Forall (fun c => 0 < c < 256) t.

(** lexicographic order on byte values *)
Inductive before : list Z -> list Z -> Prop :=
| before_nil c t : before [] (c :: t)
| before_head a b s t : a < b -> before (a :: s) (b :: t)
| before_tail a s t : before s t -> before (a :: s) (a :: t).

Definition white (c : Z) : Prop := In c [32; 9; 10; 11; 12; 13].

(** lines of a text, each followed by a newline *)
Definition text_of (lines : list (list Z)) : list Z := flat_map (fun l => l ++ [10]) lines.
(** a line without its newline and without one carriage return before it, NUL-padded *)
Definition chomped (l : list Z) : list Z :=
  match rev l with 13 :: r => rev r ++ [0; 0] | _ => l ++ [0] end.
(** where the lines start; empty ones are left out on request *)
Fixpoint starts (strip : bool) (k : nat) (lines : list (list Z)) : list nat :=
  match lines with
  | [] => []
  | l :: rest => (match l with [] => if strip then [] else [k] | _ => [k] end) ++ starts strip (k + length l + 1) rest
  end.
