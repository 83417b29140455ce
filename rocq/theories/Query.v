(** Looking up nodes by a path, code/source/adt.c:66-217. Trees are as in [Node], with the strings of
    the document read; a node found is given by the positions leading to it. *)
From Coq Require Import String.
From Verif Require Import Base CStr Num Print Node.
Open Scope string_scope. Open Scope Z_scope. Open Scope list_scope.

Notation doc := (tree (list Z)).
(** zpl_bprintf, print.c:21-25: the static buffer afterwards. What it holds from earlier calls is
    taken as zeros. *)
Definition bprintf (fmt : list Z) (va : list arg) : option (list Z) :=
  ' (buf, _) <- snprintf (repeat 0 (Z.to_nat PRINTF_MAXLEN)) PRINTF_MAXLEN (fmt ++ [0]) va ;; Some buf.
(** [!zpl_strcmp(s, value)] for a string kept in a node; NULL is undefined *)
Definition same (s : option (list Z)) (value : list Z) : option bool :=
  match s with None => None | Some s => r <- strcmp (s ++ [0]) value ;; Some (r =? 0) end.

(** zpl__adt_get_value, adt.c:67-99: whether the node matches; numbers are printed into a buffer of
    4096 zeros *)
Definition get_value (t : doc) (value : list Z) : option bool :=
  match t_value t with
  | VStr _ None => Some false
  | VStr _ s => same s value
  | VInt _ _ | VReal _ _ => o <- print_number t ;; if (List.length o <? 4096)%nat then same (Some o) value else None
  | _ => Some false
  end.
(** zpl__adt_get_field, adt.c:101-112: whether some node has the name and the value *)
Fixpoint get_field (nodes : list doc) (name value : list Z) : option bool :=
  match nodes with
  | [] => Some false
  | t :: r =>
    b <- same (t_name t) name ;;
    b <- (if b : bool then get_value t value else Some false) ;;
    if b : bool then Some true else get_field r name value
  end.
(** a loop over the nodes up to the first one that matches: its position and itself *)
Fixpoint search (test : doc -> option bool) (nodes : list doc) (i : nat) : option (option (nat * doc)) :=
  match nodes with
  | [] => Some None
  | t :: r => b <- test t ;; if b : bool then Some (Some (i, t)) else search test r (S i)
  end.
(** zpl_adt_find without deep_search, adt.c:44-53 *)
Definition find_name (nodes : list doc) (name : list Z) : option (option (nat * doc)) := search (fun t => same (t_name t) name) nodes O.
(** a child that is an object with the field, adt.c:165-176 *)
Definition object_field (name value : list Z) (t : doc) : option bool :=
  match t_value t with VBranch false l => get_field l name value | _ => Some false end.
Definition below (r : option (nat * doc)) : option (list nat * doc) := match r with Some (i, t) => Some ([i], t) | None => None end.

(** the lookup in brackets, adt.c:138-188; [l] is the buffer behind the bracket *)
Definition bracket (t : doc) (arr : bool) (nodes : list doc) (l : list Z) : option (option (list nat * doc)) :=
  e <- str_skip l 61 ;; e2 <- str_skip l 93 ;;
  c <- rd l e ;; c2 <- rd l e2 ;;
  if ((c =? 0) && negb arr) || (c2 =? 0) then None
  else
    l <- wr l e2 0 ;;
    c <- rd l e ;;
    if negb (c =? 0) then
      l <- wr l e 0 ;;
      let v := skipn (S e) l in
      if negb arr then b <- get_field nodes l v ;; Some (if b : bool then Some ([], t) else None)
      else r <- search (object_field l v) nodes O ;; Some (below r)
    else r <- search (fun t => get_value t l) nodes O ;; Some (below r).

(** zpl_adt_query, adt.c:114-217; every call of itself is on a shorter [uri]. The result is the way
    to the node. *)
Fixpoint query (fuel : nat) (node : option doc) (uri : list Z) : option (option (list nat)) :=
  match fuel with
  | O => None
  | S f =>
    c <- rd uri 0 ;;
    let uri := if c =? 47 then tl uri else uri in
    c <- rd uri 0 ;;
    if c =? 0 then Some (match node with Some _ => Some [] | None => None end)
    else
      match node with
      | Some t =>
        match t_value t with
        | VBranch arr nodes =>
          k <- str_skip uri 47 ;;
          buf <- bprintf (asc "%.*s") [AInt (Z.of_nat k); AStr (Some uri)] ;;
          e <- rd uri k ;;
          found <- (if c =? 91 then bracket t arr nodes (tl buf)
                    else if negb arr then r <- find_name nodes buf ;; Some (below r)
                    else ' (i, _) <- str_to_i64 buf 10 ;;
                         Some (if (0 <=? i) && (i <? Z.of_nat (List.length nodes)) then below (option_map (fun x => (Z.to_nat i, x)) (nth_error nodes (Z.to_nat i))) else None)) ;;
          if negb (e =? 0) then
            match found with
            | Some (p, x) => r <- query f (Some x) (skipn (S k) uri) ;; Some (option_map (app p) r)
            | None => query f None (skipn (S k) uri)
            end
          else Some (option_map fst found)
        | _ => Some None
        end
      | None => Some None
      end
  end.
