(** What a path means. *)
From Verif Require Import Base CStrSpec NumSpec FloatSpec AdtNumSpec Node Query.

(** a segment: a name or an index, [k=v], [v] *)
Inductive seg := Word (w : list Z) | Field (k v : list Z) | Value (v : list Z).
Definition seg_text (s : seg) : list Z :=
  match s with Word w => w | Field k v => 91 :: k ++ 61 :: v ++ [93] | Value v => 91 :: v ++ [93] end.
(** 47 / 61 = 91 [ 93 ] *)
Definition seg_ok (s : seg) : Prop :=
  cstring (seg_text s) /\ ~ In 47 (seg_text s) /\
  match s with
  | Word w => exists c r, w = c :: r /\ c <> 91
  | Field k v => ~ In 61 k /\ ~ In 93 k /\ ~ In 93 v
  | Value v => ~ In 61 v /\ ~ In 93 v
  end.
(** segments with one or two slashes between them; at most one in front, and one or two behind *)
Definition slash (s : list Z) : Prop := s = [] \/ s = [47].
Inductive uri_text : list seg -> list Z -> Prop :=
| ut_nil sl : slash sl -> uri_text [] sl
| ut_last sl s : slash sl -> uri_text [s] (sl ++ seg_text s)
| ut_more sl s segs u : slash sl -> uri_text segs u -> uri_text (s :: segs) (sl ++ seg_text s ++ 47 :: u).

(** the text a leaf is compared by: a string itself, a number as zpl_adt_print_number writes it *)
Definition shows (t : doc) (s : list Z) : Prop :=
  match t_value t with VStr _ (Some x) => s = x | VInt _ _ | VReal _ _ => print_number t = Some s | _ => False end.
Definition has_field (l : list doc) (k v : list Z) : Prop := exists x, In x l /\ t_name x = Some k /\ shows x v.
(** the first element with a property *)
Definition first {A} (P : A -> Prop) (l : list A) (r : option (nat * A)) : Prop :=
  match r with
  | Some (i, x) => nth_error l i = Some x /\ P x /\ forall j y, (j < i)%nat -> nth_error l j = Some y -> ~ P y
  | None => forall x, In x l -> ~ P x
  end.
(** the number at the beginning of a word *)
Definition index_of (w : list Z) (i : Z) : Prop :=
  exists neg r ds, w = (if neg : bool then [45] else []) ++ r /\ (neg = false -> forall q, r <> 45 :: q) /\ leading ds r /\ number 10 ds < 2^63 /\ i = signed neg (number 10 ds).
(** one step: the node found and the way to it *)
Definition step (t : doc) (s : seg) (r : option (list nat * doc)) : Prop :=
  match t_value t, s with
  | VBranch false l, Word w => exists q, first (fun x => t_name x = Some w) l q /\ r = below q
  | VBranch false l, Field k v => has_field l k v /\ r = Some ([], t) \/ ~ has_field l k v /\ r = None
  | VBranch false l, Value v => False
  | VBranch true l, Word w => exists i, index_of w i /\ r = if i <? 0 then None else below (option_map (fun x => (Z.to_nat i, x)) (nth_error l (Z.to_nat i)))
  | VBranch true l, Field k v => exists q, first (fun x => exists l', t_value x = VBranch false l' /\ has_field l' k v) l q /\ r = below q
  | VBranch true l, Value v => exists q, first (fun x => shows x v) l q /\ r = below q
  | _, _ => r = None
  end.
Inductive walk : doc -> list seg -> option (list nat) -> Prop :=
| w_nil t : walk t [] (Some [])
| w_stop t s segs : step t s None -> walk t (s :: segs) None
| w_go t s segs p x q : step t s (Some (p, x)) -> walk x segs q -> walk t (s :: segs) (option_map (app p) q).

(** documents whose objects have named members, and whose numbers can be printed *)
Inductive tidy : doc -> Prop :=
| tidy_leaf t : (forall arr l, t_value t <> VBranch arr l) -> (forall m s, t_value t = VStr m (Some s) -> cstring s) ->
    (forall i a, t_value t = VInt i a -> exists s, print_number t = Some s /\ cstring s /\ (length s < 4096)%nat) ->
    (forall i a, t_value t = VReal i a -> exists s, print_number t = Some s /\ cstring s /\ (length s < 4096)%nat) -> tidy t
| tidy_branch t arr l : t_value t = VBranch arr l -> Forall tidy l -> (arr = false -> Forall (fun x => exists n, t_name x = Some n /\ cstring n) l) -> tidy t.
