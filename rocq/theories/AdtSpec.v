(** Trees with operations on the lists of children. Only the operation names, leaf values and
    outcomes are taken from [Adt]. *)
From Verif Require Import Base CStrSpec Adt.

(** a branch whose children could not be allocated has [None] *)
Inductive tree := TLeaf (nm : option (list Z)) (l : leaf) | TBranch (nm : option (list Z)) (is_array : bool) (children : option (list tree)).

Fixpoint tget (t : tree) (path : list nat) : option tree :=
  match path with
  | [] => Some t
  | i :: r => match t with TBranch _ _ (Some ts) => c <- nth_error ts i ;; tget c r | _ => None end
  end.
Definition replace_nth {A} (l : list A) (i : nat) (x : A) : list A := firstn i l ++ x :: skipn (S i) l.
Definition insert_nth {A} (l : list A) (i : nat) (x : A) : list A := firstn i l ++ x :: skipn i l.
Definition delete_nth {A} (l : list A) (i : nat) : list A := firstn i l ++ skipn (S i) l.
Fixpoint tset (t : tree) (path : list nat) (x : tree) : option tree :=
  match path with
  | [] => Some x
  | i :: r =>
    match t with
    | TBranch nm k (Some ts) => c <- nth_error ts i ;; c <- tset c r x ;; Some (TBranch nm k (Some (replace_nth ts i c)))
    | _ => None
    end
  end.
Definition children_at (t : tree) (path : list nat) : option (list tree) :=
  s <- tget t path ;; match s with TBranch _ _ (Some ts) => Some ts | _ => None end.
Definition set_children (t : tree) (path : list nat) (ts : list tree) : option tree :=
  s <- tget t path ;; match s with TBranch nm k (Some _) => tset t path (TBranch nm k (Some ts)) | _ => None end.
Definition tinsert (t : tree) (path : list nat) (i : nat) (x : tree) : option tree :=
  ts <- children_at t path ;; if (i <=? length ts)%nat then set_children t path (insert_nth ts i x) else None.
Definition tdelete (t : tree) (path : list nat) (i : nat) : option tree :=
  ts <- children_at t path ;; if (i <? length ts)%nat then set_children t path (delete_nth ts i) else None.
(** where [p] is after an insertion at position [i] of the branch [q] *)
Fixpoint shift (q : list nat) (i : nat) (p : list nat) : list nat :=
  match q, p with
  | [], k :: r => (if (i <=? k)%nat then S k else k) :: r
  | a :: q, b :: p => if (a =? b)%nat then b :: shift q i p else b :: p
  | _, _ => p
  end.
Fixpoint prefix (p q : list nat) : Prop :=
  match p, q with
  | [], _ => True
  | a :: p, b :: q => a = b /\ prefix p q
  | _, _ => False
  end.

(** a call on the tree: outcomes of the allocations, result (false for NULL), new tree *)
Inductive tstep (oks : bool * bool) (t : tree) : aop -> bool -> tree -> Prop :=
| s_append p nm l ts t' : children_at t p = Some ts -> set_children t p (ts ++ [TLeaf nm l]) = Some t' -> tstep oks t (AAppend p nm l) true t'
| s_append_null p nm l : fst oks = false \/ children_at t p = None -> tstep oks t (AAppend p nm l) false t
| s_append_branch p nm k ts t' : children_at t p = Some ts -> set_children t p (ts ++ [TBranch nm k (Some [])]) = Some t' -> tstep oks t (AAppendBranch p nm k) true t'
| s_append_branch_null p nm k : fst oks = false \/ snd oks = false \/ children_at t p = None -> tstep oks t (AAppendBranch p nm k) false t
| s_insert p i nm l t' : 0 <= i -> tinsert t p (Z.to_nat i) (TLeaf nm l) = Some t' -> tstep oks t (AInsert p i nm l) true t'
| s_insert_null p i nm l : fst oks = false \/ i < 0 \/ tinsert t p (Z.to_nat i) (TLeaf nm l) = None -> tstep oks t (AInsert p i nm l) false t
| s_set p nm l t' : tset t p (TLeaf nm l) = Some t' -> tstep oks t (ASet p nm l) true t'
| s_set_branch p nm k t' : tset t p (TBranch nm k (Some [])) = Some t' -> fst oks = true -> tstep oks t (ASetBranch p nm k) true t'
| s_set_branch_null p nm k t' : tset t p (TBranch nm k None) = Some t' -> fst oks = false -> tstep oks t (ASetBranch p nm k) false t'
| s_remove p i t' : tdelete t p i = Some t' -> tstep oks t (ARemove (p ++ [i])) true t'
| s_move p j q i x t1 t' : 0 <= i -> tget t (p ++ [j]) = Some x -> tinsert t q (Z.to_nat i) x = Some t1 ->
    tdelete t1 (shift q (Z.to_nat i) p) j = Some t' -> tstep oks t (AMove (p ++ [j]) q i) true t'
| s_swap p q x y t1 t' : tget t p = Some x -> tget t q = Some y -> tset t p y = Some t1 -> tset t1 q x = Some t' -> tstep oks t (ASwap p q) true t'.
Inductive tsteps : tree -> list ((bool * bool) * aop) -> list bool -> tree -> Prop :=
| ts_nil t : tsteps t [] [] t
| ts_cons t oks o h r t1 rs t' : tstep oks t o r t1 -> tsteps t1 h rs t' -> tsteps t ((oks, o) :: h) (r :: rs) t'.
(** moves go to a different branch, outside the moved node; swapped nodes do not contain each other *)
Definition sensible (o : aop) : Prop :=
  match o with
  | AMove p q _ => ~ prefix p q /\ forall j, p <> q ++ [j]
  | ASwap p q => ~ prefix p q /\ ~ prefix q p
  | _ => True
  end.

(** * What memory shows *)
(** a node read back through the header of its children *)
Inductive shows (m : mem) : node -> tree -> Prop :=
| sh_leaf nm par l : shows m (Node nm par (Leaf l)) (TLeaf nm l)
| sh_null nm par k : shows m (Node nm par (Branch k None)) (TBranch nm k None)
| sh_branch nm par k b a ts : blocks m b = Some a -> Array.count a = Z.of_nat (length ts) ->
    (forall i c, nth_error ts i = Some c -> exists n, Array.get_at a (Z.of_nat i) = Some n /\ shows m n c) -> shows m (Node nm par (Branch k (Some b))) (TBranch nm k (Some ts)).
Definition root_shows (m : mem) (t : tree) : Prop := exists n, deref m root = Some n /\ shows m n t.

(** operations on the children of the root, in range *)
Definition flat (t : tree) (o : aop) : Prop :=
  match o, t with
  | AAppend [] _ _, _ | AAppendBranch [] _ _, _ | AInsert [] _ _ _, _ => True
  | ASet [i] _ _, TBranch _ _ (Some ts) | ASetBranch [i] _ _, TBranch _ _ (Some ts) | ARemove [i], TBranch _ _ (Some ts) => (i < length ts)%nat
  | ASwap [i] [j], TBranch _ _ (Some ts) => (i < length ts)%nat /\ (j < length ts)%nat /\ i <> j
  | _, _ => False
  end.
(** whatever allocations fail *)
Fixpoint all_flat (t : tree) (h : list ((bool * bool) * aop)) : Prop :=
  match h with
  | [] => True
  | (oks, o) :: h => flat t o /\ forall r t', tstep oks t o r t' -> all_flat t' h
  end.

(** * Search by name *)
(** names as strings; a name is stored with its terminator *)
Definition tname (t : tree) : option (list Z) := match t with TLeaf nm _ | TBranch nm _ _ => nm end.
Definition named (s : list Z) (t : tree) : bool := match tname t with Some nm => if list_eq_dec Z.eq_dec nm (s ++ [0]) then true else false | None => false end.
Fixpoint index_of {A} (f : A -> bool) (l : list A) (i : nat) : option nat := match l with [] => None | x :: r => if f x then Some i else index_of f r (S i) end.
(** the first child with the name; else, in a deep search, the result of the first child that finds one *)
Fixpoint tfind (s : list Z) (deep : bool) (t : tree) : option (list nat) :=
  match t with
  | TBranch _ false (Some ts) =>
    match index_of (named s) ts 0 with
    | Some i => Some [i]
    | None => if deep then (fix each (l : list tree) (i : nat) {struct l} := match l with [] => None | x :: r => match tfind s deep x with Some p => Some (i :: p) | None => each r (S i) end end) ts 0%nat else None
    end
  | _ => None
  end.
(** children of objects have names; an object's children were allocated *)
Fixpoint all_named (t : tree) : Prop :=
  match t with
  | TBranch _ false (Some ts) => (fix each l := match l with [] => True | x :: r => (exists s, cstring s /\ tname x = Some (s ++ [0])) /\ all_named x /\ each r end) ts
  | TBranch _ false None => False
  | _ => True
  end.
Fixpoint depth (t : tree) : nat := match t with TBranch _ _ (Some ts) => S ((fix each l := match l with [] => 0%nat | x :: r => Nat.max (depth x) (each r) end) ts) | _ => 1%nat end.
