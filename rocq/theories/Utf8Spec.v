(** UTF-8 and UTF-16 after the Unicode standard, section 3.9. *)
From Verif Require Import Base.

Definition scalar (r : Z) : Prop := 0 <= r < 0xD800 \/ 0xE000 <= r <= 0x10FFFF.
Definition utf8 (r : Z) : list Z :=
  if r <? 0x80 then [r]
  else if r <? 0x800 then [0xC0 + r / 64; 0x80 + r mod 64]
  else if r <? 0x10000 then [0xE0 + r / 4096; 0x80 + r / 64 mod 64; 0x80 + r mod 64]
  else [0xF0 + r / 262144; 0x80 + r / 4096 mod 64; 0x80 + r / 64 mod 64; 0x80 + r mod 64].
Definition utf16 (r : Z) : list Z :=
  if r <? 0x10000 then [r] else [0xD800 + (r - 0x10000) / 1024; 0xDC00 + (r - 0x10000) mod 1024].
(** texts *)
Definition utf8s (rs : list Z) : list Z := flat_map utf8 rs.
Definition utf16s (rs : list Z) : list Z := flat_map utf16 rs.
(** characters that can appear inside a NUL-terminated string *)
Definition character (r : Z) : Prop := scalar r /\ r <> 0.
(** how many of the characters begin before byte [max] *)
Fixpoint starting_before (max : Z) (rs : list Z) : Z :=
  match rs with
  | [] => 0
  | r :: rest => if 0 <? max then 1 + starting_before (max - Z.of_nat (length (utf8 r))) rest else 0
  end.
