(** What the owner of a thread may rely on. *)
From Verif Require Import Base Thread.
Open Scope list_scope.

(** the procedures started, with their user data *)
Fixpoint starts (tr : list label) : list (Z * Z) :=
  match tr with [] => [] | Start p u :: r => (p, u) :: starts r | _ :: r => starts r end.
(** starting and joining take turns; [true]: started and not joined yet *)
Inductive turns : list label -> bool -> Prop :=
| turns_nil : turns [] false
| turns_start tr p u : turns tr false -> turns (tr ++ [Start p u]) true
| turns_failed tr p u e h : turns tr false -> turns (tr ++ [Failed p u e h]) false
| turns_started tr b r : turns tr b -> turns (tr ++ [Started r]) b
| turns_join tr : turns tr true -> turns (tr ++ [Join]) true
| turns_joined tr : turns tr true -> turns (tr ++ [Joined]) false
| turns_work tr b : turns tr b -> turns (tr ++ [Work]) b.
(** a step that is no call of the owner *)
Definition internal (l : label) : Prop := match l with Started _ | Joined | Work => True | _ => False end.
