(** Independent specification of dynamic arrays: operations on mathematical lists. *)
From Verif Require Import Base Array.

Section Spec.
  Context {T : Type}.

  (** Which operations are within the documented ranges, given the contents. *)
  Definition valid (l : list T) (o : aop T) : Prop :=
    let n := Z.of_nat (length l) in
    match o with
    | OAppendAt _ i => 0 <= i <= n
    | OAppendVAt _ i => 0 <= i
    | OFill b e _ => 0 <= b /\ e <= n
    | ORemoveAt i => 0 <= i < n
    | OPop => l <> []
    | OResize k | OReserve k | OSetCapacity k | OGrow k => 0 <= k
    | OAppend _ | OAppendV _ | OClear => True
    end.

  Definition insert (l xs : list T) (i : Z) : list T := firstn (Z.to_nat i) l ++ xs ++ skipn (Z.to_nat i) l.
  Definition delete (l : list T) (i : Z) : list T := firstn (Z.to_nat i) l ++ skipn (S (Z.to_nat i)) l.

  (** [means l o l']: performing [o] on a list [l] may give [l']. *)
  Definition means (l : list T) (o : aop T) (l' : list T) : Prop :=
    match o with
    | OAppend x => l' = l ++ [x]
    | OAppendAt x i => l' = insert l [x] i
    | OAppendV xs => l' = l ++ xs
    | OAppendVAt xs i => l' = insert l xs i
    | OFill b e x => length l' = length l /\
        forall i, (i < length l)%nat ->
          nth_error l' i = if (b <=? Z.of_nat i) && (Z.of_nat i <? e) then Some x else nth_error l i
    | ORemoveAt i => l' = delete l i
    | OPop => l' = removelast l
    | OClear => l' = []
    | OResize n => length l' = Z.to_nat n /\ (* a prefix survives *)
        firstn (min (length l) (Z.to_nat n)) l' = firstn (min (length l) (Z.to_nat n)) l
    | OReserve n => l' = l
    | OGrow n => l' = l
    | OSetCapacity n => l' = firstn (Z.to_nat n) l
    end.

  (** What an operation that reported failure may have done: nothing, except that
      set_capacity below the count drops the tail. *)
  Definition means_failed (l : list T) (o : aop T) (l' : list T) : Prop :=
    match o with
    | OSetCapacity n => l' = firstn (Z.to_nat n) l
    | _ => l' = l
    end.

  Inductive list_run : list T -> list (bool * aop T) -> list bool -> list T -> Prop :=
  | LR_nil l : list_run l [] [] l
  | LR_ok l ok o h l1 bs l2 : valid l o -> means l o l1 -> list_run l1 h bs l2 -> list_run l ((ok, o) :: h) (true :: bs) l2
  | LR_fail l o h l1 bs l2 : valid l o -> means_failed l o l1 -> list_run l1 h bs l2 ->
      list_run l ((false, o) :: h) (false :: bs) l2.

  (** A history of operations each within its documented range, whatever the sizes of
      uninitialised tails; lengths are all that ranges depend on. *)
  Fixpoint all_valid (l : list T) (h : list (bool * aop T)) : Prop :=
    match h with
    | [] => True
    | (ok, o) :: r => valid l o /\ (forall l1, means l o l1 -> all_valid l1 r) /\
                      (ok = false -> forall l1, means_failed l o l1 -> all_valid l1 r)
    end.

  (** contents of the C object *)
  Definition contents (a : arr T) : list T := firstn (Z.to_nat (count a)) (cells a).
  (** header invariants *)
  Definition well_formed (a : arr T) : Prop :=
    0 <= count a <= capacity a /\ Z.of_nat (length (cells a)) = capacity a.
End Spec.
