(** What is said about making and removing directories. *)
From Verif Require Import Base CStrSpec Path PathSpec.
Open Scope list_scope.

(** names and path are short enough for Linux *)
Definition fits (p : list Z) (cs : list (list Z)) : Prop := Z.of_nat (length p) <= 4095 /\ Forall (fun c => Z.of_nat (length c) <= 255) cs.
Definition nothing_at (t : node) (cs : list (list Z)) : Prop := forall b, ~ at_path t cs b.
(** a file where a directory should be *)
Definition file_before (t : node) (cs : list (list Z)) : Prop := exists d r, cs = d ++ r /\ r <> [] /\ at_path t d false.
Definition same (t u : node) : Prop := forall q b, at_path u q b <-> at_path t q b.
