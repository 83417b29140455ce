(** What trimming a mapping is meant to do, byte by byte. *)
From Verif Require Import Base Vm.

Definition within (x a n : Z) : Prop := a <= x < a + n.
(** Page-aligned mapping [v], cut at page boundaries (the only place munmap can cut). *)
Definition aligned_cut (ps : Z) (v : vm) (lead size : Z) : Prop :=
  0 < ps /\ vdata v mod ps = 0 /\ vsize v mod ps = 0 /\ lead mod ps = 0 /\ size mod ps = 0 /\
  0 <= lead /\ 0 <= size /\ lead + size <= vsize v.
(** exactly [lead, lead+size) of [v] stays, the rest of [v] goes, nothing else changes *)
Definition trims_exactly (ps : Z) (s s' : space) (v : vm) (lead size : Z) : Prop :=
  forall x, mapped ps s' x = true <->
    mapped ps s x = true /\ (within x (vdata v) (vsize v) -> within x (vdata v + lead) size).
