(** Independent specification of hash tables: finite maps as functions, plus the
    sequence of (key, value) pairs for iteration. *)
From Verif Require Import Base Hashtable.

Section Spec.
  Context {V : Type}.
  Definition fmap := Z -> option V.
  Definition fempty : fmap := fun _ => None.
  Definition fset (m : fmap) (k : Z) (v : V) : fmap := fun x => if x =? k then Some v else m x.
  Definition fremove (m : fmap) (k : Z) : fmap := fun x => if x =? k then None else m x.

  Definition mstep (m : fmap) (o : hop V) : fmap :=
    match o with
    | HSet k v => fset m k v
    | HRemove k => fremove m k
    | HClear => fempty
    | HMapMut f => fun x => option_map (f x) (m x)
    | HRehash _ | HGrow | HRehashFast => m
    end.
  Definition mrun (m : fmap) (ops : list (hop V)) : fmap := fold_left mstep ops m.
  Definition hvalid (o : hop V) : Prop := match o with HRehash n => 0 <= n | _ => True end.
End Spec.
Arguments fmap : clear implicits.
