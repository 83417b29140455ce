(** Positional notation. *)
From Verif Require Import Base.

(** the number written by the digits [ds], most significant first *)
Definition number (base : Z) (ds : list Z) : Z := fold_left (fun a d => a * base + d) ds 0.
(** digits of the base, no superfluous leading zero *)
Definition canonical (base : Z) (ds : list Z) : Prop :=
  Forall (fun d => 0 <= d < base) ds /\ (ds = [0] \/ exists d r, ds = d :: r /\ 0 < d).
(** 0-9, A-Z, a-z, @ and $ *)
Definition digit_char (d : Z) : Z :=
  if d <? 10 then 48 + d else if d <? 36 then 65 + (d - 10) else if d <? 62 then 97 + (d - 36) else if d =? 62 then 64 else 36.
(** the characters the parser takes as digits: 0-9 in every base, and A-F, a-f in base 16 *)
Definition denotes (base c d : Z) : Prop :=
  (0 <= d < 10 /\ c = 48 + d) \/ (base = 16 /\ 10 <= d < 16 /\ (c = 65 + (d - 10) \/ c = 97 + (d - 10))).
