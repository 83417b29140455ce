(** Abstract files: contents and a position. *)
From Verif Require Import Base.

Inductive kind := Growing | Fixed | ReadOnly.
Record file := File { contents : list Z; pos : Z }.
Definition size (f : file) : Z := Z.of_nat (length (contents f)).
Definition splice (c : list Z) (p : Z) (data : list Z) : list Z :=
  firstn (Z.to_nat p) c ++ data ++ skipn (Z.to_nat p + length data) c.
Definition clamp (x lo hi : Z) : Z := Z.max lo (Z.min x hi).

Inductive fop :=
| FWrite (data : list Z) | FRead (n : Z) | FSeek (k : Z) | FSkip (k : Z) | FEnd | FTell
| FWriteAt (data : list Z) (off : Z) | FReadAt (n off : Z).
Inductive fout := OWrote (success : bool) | OData (xs : list Z) | OPos (p : Z) | OWroteN (success : bool) (n : Z).

(** what a caller may ask for *)
Definition allowed (o : fop) (f : file) : Prop :=
  match o with
  | FRead n => 0 <= n <= size f - pos f
  | FReadAt n off => 0 <= n /\ 0 <= off /\ off + n <= size f
  | FWriteAt data off => 0 <= off <= size f /\ off + Z.of_nat (length data) < 2^63
  | FWrite data => pos f + Z.of_nat (length data) < 2^63
  | FSeek k => in_i64 k
  | FSkip k => in_i64 (pos f + k)
  | _ => True
  end.
(** what the write of [data] at [p] makes of the contents *)
Definition written (k : kind) (c : list Z) (p : Z) (data : list Z) : list Z :=
  match k with
  | Growing => splice c p data
  | Fixed => splice c p (firstn (length c - Z.to_nat p) data)
  | ReadOnly => c
  end.
Inductive fstep (k : kind) : bool -> fop -> file -> fout -> file -> Prop :=
| s_write ok c p data : k <> ReadOnly ->
    fstep k ok (FWrite data) (File c p) (OWrote true)
      (File (written k c p data) (Z.min (p + Z.of_nat (length data)) (Z.of_nat (length (written k c p data)))))
| s_write_fail ok c p data : k = ReadOnly \/ (k = Growing /\ ok = false) ->
    fstep k ok (FWrite data) (File c p) (OWrote false) (File c (Z.min (p + Z.of_nat (length data)) (Z.of_nat (length c))))
| s_read ok c p n : fstep k ok (FRead n) (File c p) (OData (firstn (Z.to_nat n) (skipn (Z.to_nat p) c))) (File c (p + n))
| s_seek ok c p x : fstep k ok (FSeek x) (File c p) (OPos (clamp x 0 (Z.of_nat (length c)))) (File c (clamp x 0 (Z.of_nat (length c))))
| s_skip ok c p x : fstep k ok (FSkip x) (File c p) (OPos (clamp (p + x) 0 (Z.of_nat (length c)))) (File c (clamp (p + x) 0 (Z.of_nat (length c))))
| s_end ok c p : fstep k ok FEnd (File c p) (OPos (Z.of_nat (length c))) (File c (Z.of_nat (length c)))
| s_tell ok c p : fstep k ok FTell (File c p) (OPos p) (File c p)
| s_write_at ok c p data off : k <> ReadOnly ->
    fstep k ok (FWriteAt data off) (File c p)
      (OWroteN true (match k with Fixed => Z.min (Z.of_nat (length data)) (Z.of_nat (length c) - off) | _ => Z.of_nat (length data) end)) (File (written k c off data) p)
| s_write_at_fail ok c p data off : k = ReadOnly \/ (k = Growing /\ ok = false) ->
    fstep k ok (FWriteAt data off) (File c p) (OWroteN false 0) (File c p)
| s_read_at ok c p n off : fstep k ok (FReadAt n off) (File c p) (OData (firstn (Z.to_nat n) (skipn (Z.to_nat off) c))) (File c p).

(** a history and its results; [legal]: every call of the history is allowed when it is made *)
Inductive fsteps (k : kind) : list (bool * fop) -> file -> list fout -> file -> Prop :=
| ss_nil f : fsteps k [] f [] f
| ss_cons ok o l f r f' rs f'' : fstep k ok o f r f' -> fsteps k l f' rs f'' -> fsteps k ((ok, o) :: l) f (r :: rs) f''.
Fixpoint legal (k : kind) (l : list (bool * fop)) (f : file) : Prop :=
  match l with
  | [] => True
  | (ok, o) :: l => allowed o f /\ forall r f', fstep k ok o f r f' -> legal k l f'
  end.
