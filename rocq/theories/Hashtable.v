(** ZPL_TABLE_DEFINE, code/header/essentials/collections/hashtable.h:83-235.

    The two zpl_arrays [hashes] and [entries] are lists (their behaviour is C16; the
    allocations succeed). An index outside a list is [None]; so is a collision chain that
    never ends. [full] is the test of _full (132-134), [0.75f * hashes < entries]: the
    functional theorems hold for every such test, so float rounding plays no role;
    [full75] is the exact one. Keys are zpl_u64. *)
From Verif Require Import Base Array.

Section Table.
  Context {V : Type} (vz : V) (full : Z -> Z -> bool).

  (** NAME##Entry, hashtable.h:54-58 *)
  Record entry := mkEntry { key : Z; next : Z; value : V }.
  Record table := mkTable { hashes : list Z; entries : list entry }.

  Definition set_next (j : Z) (e : entry) : entry := mkEntry (key e) j (value e).
  Definition set_value (v : V) (e : entry) : entry := mkEntry (key e) (next e) v.

  Definition at_ {A} (l : list A) (i : Z) : option A :=
    if 0 <=? i then nth_error l (Z.to_nat i) else None.
  Fixpoint upd_nat {A} (l : list A) (i : nat) (f : A -> A) : option (list A) :=
    match l, i with
    | [], _ => None
    | x :: r, O => Some (f x :: r)
    | x :: r, S k => r <- upd_nat r k f ;; Some (x :: r)
    end.
  (** in-place update of element [i] *)
  Definition upd {A} (l : list A) (i : Z) (f : A -> A) : option (list A) :=
    if 0 <=? i then upd_nat l (Z.to_nat i) f else None.

  (** init, hashtable.h:84-87 *)
  Definition table_init : table := mkTable [] [].
  (** clear, hashtable.h:94-97 *)
  Definition table_clear (h : table) : table := mkTable (map (fun _ => -1) (hashes h)) [].

  (** slot, hashtable.h:99-106 *)
  Fixpoint slot_from (es : list entry) (i : Z) (k : Z) : Z :=
    match es with
    | [] => -1
    | e :: r => if key e =? k then i else slot_from r (i + 1) k
    end.
  Definition slot (h : table) (k : Z) : Z := slot_from (entries h) 0 k.

  (** _add_entry, hashtable.h:108-116 *)
  Definition add_entry (h : table) (k : Z) : Z * table :=
    (Z.of_nat (length (entries h)), mkTable (hashes h) (entries h ++ [mkEntry k (-1) vz])).

  (** _find, hashtable.h:118-130: (hash_index, entry_prev, entry_index) *)
  Fixpoint find_loop (fuel : nat) (es : list entry) (k prev idx : Z) : option (Z * Z) :=
    match fuel with
    | O => None
    | S f =>
      if 0 <=? idx then
        e <- at_ es idx ;;
        if key e =? k then Some (prev, idx) else find_loop f es k idx (next e)
      else Some (prev, idx)
    end.
  Definition find (h : table) (k : Z) : option (Z * Z * Z) :=
    let c := Z.of_nat (length (hashes h)) in
    if 0 <? c then
      let hi := k mod c in
      s <- at_ (hashes h) hi ;;
      '(p, i) <- find_loop (S (length (entries h))) (entries h) k (-1) s ;;
      Some (hi, p, i)
    else Some (-1, -1, -1).

  (** linking entry [j] where _find ended: hashtable.h:155-158, 176-179, 225-229 *)
  Definition link (h : table) (hi prev j : Z) : option table :=
    if prev <? 0 then
      hs <- upd (hashes h) hi (fun _ => j) ;; Some (mkTable hs (entries h))
    else
      es <- upd (entries h) prev (set_next j) ;; Some (mkTable (hashes h) es).

  (** the loop of rehash, hashtable.h:148-161. The call [grow(&nh)] of line 151 happens
      only with no entries in [nh], where grow just makes GROW(0) empty buckets. *)
  Fixpoint rehash_loop (nh : table) (es : list entry) : option table :=
    match es with
    | [] => Some nh
    | e :: r =>
      nh <- (match hashes nh with
             | [] => match entries nh with
                     | [] => Some (mkTable (repeat (-1) (Z.to_nat (grow_formula 0))) [])
                     | _ => None
                     end
             | _ => Some nh
             end) ;;
      '(hi, p, i) <- find nh (key e) ;;
      let '(j, nh) := add_entry nh (key e) in
      nh <- link nh hi p j ;;
      es1 <- upd (entries nh) j (set_next i) ;;
      es2 <- upd es1 j (set_value (value e)) ;;
      rehash_loop (mkTable (hashes nh) es2) r
    end.
  (** rehash, hashtable.h:141-165 *)
  Definition rehash (h : table) (new_count : Z) : option table :=
    if new_count <? 0 then None
    else rehash_loop (mkTable (repeat (-1) (Z.to_nat new_count)) []) (entries h).
  (** grow, hashtable.h:136-139 *)
  Definition table_grow (h : table) : option table :=
    rehash h (grow_formula (Z.of_nat (length (entries h)))).

  (** rehash_fast, hashtable.h:167-181 *)
  Fixpoint rehash_fast_loop (h : table) (i : Z) (n : nat) : option table :=
    match n with
    | O => Some h
    | S m =>
      e <- at_ (entries h) i ;;
      '(hi, p, _) <- find h (key e) ;;
      h <- link h hi p i ;;
      rehash_fast_loop h (i + 1) m
    end.
  Definition rehash_fast (h : table) : option table :=
    rehash_fast_loop (mkTable (map (fun _ => -1) (hashes h)) (map (set_next (-1)) (entries h))) 0 (length (entries h)).

  (** get, hashtable.h:183-187: the value behind the returned pointer, or NULL *)
  Definition get (h : table) (k : Z) : option (option V) :=
    '(_, _, i) <- find h k ;;
    if 0 <=? i then e <- at_ (entries h) i ;; Some (Some (value e)) else Some None.

  (** zpl_array_remove_at on a list (C16) *)
  Definition list_remove_at {A} (l : list A) (i : Z) : option (list A) :=
    if (0 <=? i) && (i <? Z.of_nat (length l))
    then Some (firstn (Z.to_nat i) l ++ skipn (S (Z.to_nat i)) l) else None.
  (** remove, hashtable.h:189-195 *)
  Definition remove (h : table) (k : Z) : option table :=
    '(_, _, i) <- find h k ;;
    if 0 <=? i then
      es <- list_remove_at (entries h) i ;; rehash_fast (mkTable (hashes h) es)
    else Some h.
  (** remove_entry, hashtable.h:197-199 *)
  Definition remove_entry (h : table) (i : Z) : option table :=
    es <- list_remove_at (entries h) i ;; Some (mkTable (hashes h) es).

  (** map, hashtable.h:201-207: the calls made to the callback, in order *)
  Definition table_map (h : table) : list (Z * V) := map (fun e => (key e, value e)) (entries h).
  (** map_mut, hashtable.h:209-215: the callback may overwrite the value *)
  Definition table_map_mut (h : table) (f : Z -> V -> V) : table :=
    mkTable (hashes h) (map (fun e => set_value (f (key e) (value e)) e) (entries h)).

  (** set, hashtable.h:217-234 *)
  Definition set (h : table) (k : Z) (v : V) : option table :=
    h <- (match hashes h with [] => table_grow h | _ => Some h end) ;;
    '(hi, p, i) <- find h k ;;
    '(idx, h) <- (if 0 <=? i then Some (i, h) else
                  let '(j, h) := add_entry h k in
                  h <- (if 0 <=? p
                        then (es <- upd (entries h) p (set_next j) ;; Some (mkTable (hashes h) es))
                        else (hs <- upd (hashes h) hi (fun _ => j) ;; Some (mkTable hs (entries h)))) ;;
                  Some (j, h)) ;;
    es <- upd (entries h) idx (set_value v) ;;
    let h := mkTable (hashes h) es in
    if full (Z.of_nat (length (hashes h))) (Z.of_nat (length (entries h))) then table_grow h else Some h.

  Inductive hop := HSet (k : Z) (v : V) | HRemove (k : Z) | HRehash (n : Z) | HGrow | HRehashFast | HClear
                 | HMapMut (f : Z -> V -> V).
  Definition hexec (h : table) (o : hop) : option table :=
    match o with
    | HSet k v => set h k v
    | HRemove k => remove h k
    | HRehash n => rehash h n
    | HGrow => table_grow h
    | HRehashFast => rehash_fast h
    | HClear => Some (table_clear h)
    | HMapMut f => Some (table_map_mut h f)
    end.
  Fixpoint hrun (h : table) (ops : list hop) : option table :=
    match ops with
    | [] => Some h
    | o :: r => h <- hexec h o ;; hrun h r
    end.
End Table.
Arguments entry : clear implicits.
Arguments table : clear implicits.
Arguments hop : clear implicits.

(** 0.75f * hashes < entries, exactly *)
Definition full75 (hashes entries : Z) : bool := 3 * hashes <? 4 * entries.
