(** zpl_list, code/header/essentials/collections/list.h. Nodes live in a store from
    addresses to nodes; address 0 is NULL; touching an unmapped address is [None]. *)
From Verif Require Import Base.

(** struct zpl__list, list.h:47-50 *)
Record node := mkNode { n_ptr : Z; n_next : Z; n_prev : Z }.
Definition store := Z -> option node.
Definition put (st : store) (a : Z) (n : node) : store := fun x => if x =? a then Some n else st x.
Definition deref (st : store) (a : Z) : option node := if a =? 0 then None else st a.
(** [a->next = v], [a->prev = v] *)
Definition set_next (st : store) (a v : Z) : option store :=
  n <- deref st a ;; Some (put st a (mkNode (n_ptr n) v (n_prev n))).
Definition set_prev (st : store) (a v : Z) : option store :=
  n <- deref st a ;; Some (put st a (mkNode (n_ptr n) (n_next n) v)).

(** zpl_list_init, list.h:59-63 *)
Definition list_init (st : store) (a ptr : Z) : option store :=
  deref st a ;;; Some (put st a (mkNode ptr 0 0)).
(** zpl_list_add, list.h:65-73 *)
Definition list_add (st : store) (list item : Z) : option (store * Z) :=
  st <- set_next st item 0 ;;
  l <- deref st list ;;
  st <- (if n_next l =? 0 then Some st else set_next st item (n_next l)) ;;
  st <- set_next st list item ;;
  st <- set_prev st item list ;;
  Some (st, item).
(** zpl_list_remove, list.h:75-79 *)
Definition list_remove (st : store) (list : Z) : option (store * Z) :=
  l <- deref st list ;;
  st <- (if n_prev l =? 0 then Some st else set_next st (n_prev l) (n_next l)) ;;
  l <- deref st list ;;
  Some (st, n_next l).
