(** Base64 after RFC 4648, section 4. *)
From Verif Require Import Base.

(** the 64 characters *)
Definition digit (v : Z) : Z :=
  if v <? 26 then 65 + v else if v <? 52 then 97 + (v - 26) else if v <? 62 then 48 + (v - 52)
  else if v =? 62 then 43 else 47.
Definition pad_char : Z := 61.
Fixpoint rfc_encode (m : list Z) : list Z :=
  match m with
  | a :: b :: c :: r =>
    digit (a / 4) :: digit (a mod 4 * 16 + b / 16) :: digit (b mod 16 * 4 + c / 64) :: digit (c mod 64) :: rfc_encode r
  | [a; b] => [digit (a / 4); digit (a mod 4 * 16 + b / 16); digit (b mod 16 * 4); pad_char]
  | [a] => [digit (a / 4); digit (a mod 4 * 16); pad_char; pad_char]
  | [] => []
  end.
(** characters a text may contain *)
Definition alphabet (c : Z) : Prop := (exists v, 0 <= v < 64 /\ c = digit v) \/ c = pad_char.
(** number of trailing padding characters *)
Fixpoint leading_pads (l : list Z) : nat :=
  match l with c :: r => if c =? pad_char then S (leading_pads r) else O | [] => O end.
Definition padding (t : list Z) : nat := leading_pads (rev t).
