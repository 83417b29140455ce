(** Byte strings, and histories of operations on one string. *)
From Verif Require Import Base CStrSpec Utf8Spec.

(** [t] is [s] without the longest prefix and then the longest suffix of bytes in the set *)
Definition trimmed (cut : Z -> Prop) (s t : list Z) : Prop :=
  exists a b, s = a ++ t ++ b /\ Forall cut a /\ Forall cut b /\
    (forall c r, t = c :: r -> ~ cut c) /\ (forall c r, t = r ++ [c] -> ~ cut c).
Fixpoint joined (parts : list (list Z)) (glue : list Z) : list Z :=
  match parts with
  | [] => []
  | [p] => p
  | p :: rest => p ++ glue ++ joined rest glue
  end.

Inductive op :=
| OAppend (t : list Z)            (* bytes with a length *)
| OAppendC (t tl : list Z)        (* a C string, and what follows its terminator *)
| OAppendRune (r : Z)
| OSet (t tl : list Z)
| OSpace (n : Z)                  (* make_space_for *)
| OClear
| OTrim (cut tl : list Z).

Inductive effect : op -> list Z -> list Z -> Prop :=
| eff_append s t : effect (OAppend t) s (s ++ t)
| eff_appendc s t tl : effect (OAppendC t tl) s (s ++ t)
| eff_rune s r : scalar r -> effect (OAppendRune r) s (s ++ utf8 r)
| eff_rune_bad s r : 0 <= r -> ~ scalar r -> effect (OAppendRune r) s (s ++ utf8 0xFFFD)
| eff_rune_neg s r : r < 0 -> effect (OAppendRune r) s s
| eff_set s t tl : effect (OSet t tl) s t
| eff_space s n : effect (OSpace n) s s
| eff_clear s : effect OClear s []
| eff_trim s t cut tl : trimmed (fun c => c = 0 \/ In c cut) s t -> effect (OTrim cut tl) s t.
Inductive effects : list op -> list Z -> list Z -> Prop :=
| effs_nil s : effects [] s s
| effs_cons o os s t u : effect o s t -> effects os t u -> effects (o :: os) s u.
(** C string arguments are C strings *)
Definition argument (o : op) : Prop :=
  match o with
  | OAppend t => bytes t
  | OAppendC t _ | OSet t _ => cstring t
  | OAppendRune r => in_i32 r
  | OTrim cut _ => cstring cut
  | _ => True
  end.
