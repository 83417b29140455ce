(** The archive format and lexical path resolution. *)
From Verif Require Import Base CStrSpec NumSpec PrintSpec.

Definition total (l : list Z) : Z := fold_right Z.add 0 l.
Definition padto (n : nat) (s : list Z) : list Z := s ++ repeat 0 (n - length s).
Record entry := Entry { e_name : list Z; e_data : list Z; e_mtime : Z }.
(** numbers are in octal; the checksum is the sum of all bytes with blanks in its own field *)
Definition header_of (e : entry) (h : list Z) : Prop := exists size mtime sum,
  numeral 8 (Z.of_nat (length (e_data e))) size /\
  numeral 8 (sx 32 (e_mtime e)) mtime /\
  h = padto 100 (e_name e) ++ padto 8 [54; 54; 52] ++ repeat 0 16 ++ padto 12 size ++ padto 12 mtime ++ padto 8 sum ++ [48] ++ repeat 0 355 /\
  numeral 8 (total (firstn 148 h ++ repeat 32 8 ++ skipn 156 h)) sum.
Definition rounded (n : Z) : Z := (n + 511) / 512 * 512.
Definition padded_data (d : list Z) : list Z := padto (Z.to_nat (rounded (Z.of_nat (length d)))) d.
Definition entry_of (e : entry) (x : list Z) : Prop := exists h, header_of e h /\ x = h ++ padded_data (e_data e).
Definition archive_of (es : list entry) (x : list Z) : Prop := exists xs, Forall2 entry_of es xs /\ x = concat xs ++ repeat 0 1024.
(** what the format and this implementation can hold *)
Definition storable (e : entry) : Prop := cstring (e_name e) /\ (length (e_name e) <= 12)%nat /\ Z.of_nat (length (e_data e)) < 2^31.

(** * Paths *)
Fixpoint split (sep : Z) (s : list Z) : list (list Z) :=
  match s with
  | [] => [[]]
  | c :: r => if c =? sep then [] :: split sep r
              else match split sep r with [] => [[c]] | w :: ws => (c :: w) :: ws end
  end.
Definition dot : list Z := [46].
Definition dotdot : list Z := [46; 46].
Definition step (depth : Z) (c : list Z) : Z :=
  if list_eq_dec Z.eq_dec c [] then depth
  else if list_eq_dec Z.eq_dec c dot then depth
  else if list_eq_dec Z.eq_dec c dotdot then depth - 1
  else depth + 1.
(** the path climbs above the directory it is taken from *)
Definition escapes (path : list Z) : Prop := exists n, fold_left step (firstn n (split 47 path)) 0 < 0.
