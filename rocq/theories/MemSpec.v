(** Independent specifications for the memory routines. *)
From Verif Require Import Base Mem.

(** [n] bytes at [a] may be accessed and hold byte values. *)
Definition accessible (m : mem) (a n : Z) : Prop :=
  forall x, a <= x < a + n -> exists b, m x = Some b /\ byte b.

(** [m'] is [m] except that [n] bytes at [p] are all [c]. *)
Definition is_fill (m : mem) (p c n : Z) (m' : mem) : Prop :=
  (forall x, p <= x < p + n -> m' x = Some c) /\
  (forall x, ~ (p <= x < p + n) -> m' x = m x).

(** [m'] is [m] except that the [n] bytes at [d] are those [m] has at [s]. *)
Definition is_copy (m : mem) (d s n : Z) (m' : mem) : Prop :=
  (forall i, 0 <= i < n -> m' (d + i) = m (s + i)) /\
  (forall x, ~ (d <= x < d + n) -> m' x = m x).

(** [m'] is [m] with the [n]-byte regions at [i] and [j] exchanged. *)
Definition is_swap (m : mem) (i j n : Z) (m' : mem) : Prop :=
  (forall k, 0 <= k < n -> m' (i + k) = m (j + k) /\ m' (j + k) = m (i + k)) /\
  (forall x, ~ (i <= x < i + n) -> ~ (j <= x < j + n) -> m' x = m x).

Definition disjoint_ranges (i j n : Z) : Prop := i + n <= j \/ j + n <= i.

(** First / last position of [c] among the [n] bytes at [p]. *)
Definition first_at (m : mem) (p n c : Z) (r : option Z) : Prop :=
  match r with
  | Some q => p <= q < p + n /\ m q = Some c /\ forall x, p <= x < q -> m x <> Some c
  | None => forall x, p <= x < p + n -> m x <> Some c
  end.
Definition last_at (m : mem) (p n c : Z) (r : option Z) : Prop :=
  match r with
  | Some q => p <= q < p + n /\ m q = Some c /\ forall x, q < x < p + n -> m x <> Some c
  | None => forall x, p <= x < p + n -> m x <> Some c
  end.

(** Byte-wise lexicographic comparison of equally long regions. *)
Definition lex_result (m : mem) (a b n r : Z) : Prop :=
  (r = 0 /\ forall k, 0 <= k < n -> m (a + k) = m (b + k)) \/
  (exists k x y, 0 <= k < n /\ (forall i, 0 <= i < k -> m (a + i) = m (b + i)) /\
     m (a + k) = Some x /\ m (b + k) = Some y /\ x <> y /\ (r < 0 <-> x < y) /\ (r > 0 <-> x > y)).
