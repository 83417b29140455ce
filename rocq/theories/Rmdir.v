(** Making and removing directories with their results on Unix, code/source/core/file_misc.c:212-272, on the trees of [Path].
    mkdir(2) and rmdir(2) are as on Linux; of the permissions there is one, for the directory the entry is in; the names . and .. are left out. *)
From Verif Require Import Base CStr Path.
Open Scope list_scope.

(** errno.h of Linux *)
Definition EPERM : Z := 1.
Definition ENOENT : Z := 2.
Definition EACCES : Z := 13.
Definition EBUSY : Z := 16.
Definition EEXIST : Z := 17.
Definition ENOTDIR : Z := 20.
Definition ENAMETOOLONG : Z := 36.
Definition ENOTEMPTY : Z := 39.
(** zpl_file_error, header/core/file.h:31-42 *)
Definition ERROR_NONE : Z := 0.
Definition ERROR_EXISTS : Z := 3.
Definition ERROR_NOT_EXISTS : Z := 4.
Definition ERROR_PERMISSION : Z := 5.
Definition ERROR_NOT_EMPTY : Z := 7.
Definition ERROR_NAME_TOO_LONG : Z := 8.
Definition ERROR_UNKNOWN : Z := 9.

(** NAME_MAX and PATH_MAX of Linux *)
Definition long_name (c : list Z) : bool := 255 <? Z.of_nat (length c).
(** the kernel follows the names: an error or what is there *)
Fixpoint walk (cs : list (list Z)) (t : node) : Z + node :=
  match cs, t with
  | [], _ => inr t
  | _, NFile => inl ENOTDIR
  | c :: cs, NDir l => if long_name c then inl ENAMETOOLONG else match get l c with None => inl ENOENT | Some x => walk cs x end
  end.
(** [l] without the entry, the tree with another directory at a path *)
Fixpoint del (l : list (list Z * node)) (n : list Z) : list (list Z * node) :=
  match l with [] => [] | (m, y) :: r => if list_eq_dec Z.eq_dec m n then r else (m, y) :: del r n end.
Fixpoint replace (cs : list (list Z)) (t new : node) : node :=
  match cs, t with
  | [], _ => new
  | _, NFile => t
  | c :: cs, NDir l => match get l c with None => t | Some x => NDir (put l c (replace cs x new)) end
  end.
(** the directory the last name is looked up in *)
Definition parent (p : list Z) : Z + (list (list Z) * list (list Z * node) * list Z) -> Z + (list (list Z) * list (list Z * node) * list Z) :=
  fun r => match p with [] => inl ENOENT | _ => if 4095 <? Z.of_nat (length p) then inl ENAMETOOLONG else r end.
Definition resolve_parent (t : node) (p : list Z) (root : Z) : Z + (list (list Z) * list (list Z * node) * list Z) :=
  parent p
    match rev (names p) with
    | [] => inl root
    | c :: d =>
      match walk (rev d) t with
      | inl e => inl e
      | inr NFile => inl ENOTDIR
      | inr (NDir l) => if long_name c then inl ENAMETOOLONG else inr (rev d, l, c)
      end
    end.
(** mkdir(2), rmdir(2): 0 or errno, and the tree *)
Definition sys_mkdir (allowed : bool) (t : node) (p : list Z) : Z * node :=
  match resolve_parent t p EEXIST with
  | inl e => (e, t)
  | inr (d, l, c) => match get l c with Some _ => (EEXIST, t) | None => if allowed then (0, replace d t (NDir (l ++ [(c, NDir [])]))) else (EACCES, t) end
  end.
Definition sys_rmdir (allowed : bool) (t : node) (p : list Z) : Z * node :=
  match resolve_parent t p EBUSY with
  | inl e => (e, t)
  | inr (d, l, c) =>
    match get l c with
    | None => (ENOENT, t)
    | Some x => if allowed then match x with NFile => (ENOTDIR, t) | NDir [] => (0, replace d t (NDir (del l c))) | NDir _ => (ENOTEMPTY, t) end else (EACCES, t)
    end
  end.
(** zpl_path_mkdir, file_misc.c:212-230 *)
Definition mkdir (allowed : bool) (t : node) (p : list Z) : Z * node :=
  let (errno, t) := sys_mkdir allowed t p in
  (if errno =? 0 then ERROR_NONE
   else if (errno =? EPERM) || (errno =? EACCES) then ERROR_PERMISSION
   else if errno =? EEXIST then ERROR_EXISTS
   else if errno =? ENAMETOOLONG then ERROR_NAME_TOO_LONG
   else ERROR_UNKNOWN, t).
(** zpl_path_rmdir, file_misc.c:253-272 *)
Definition rmdir (allowed : bool) (t : node) (p : list Z) : Z * node :=
  let (errno, t) := sys_rmdir allowed t p in
  (if errno =? 0 then ERROR_NONE
   else if (errno =? EPERM) || (errno =? EACCES) then ERROR_PERMISSION
   else if errno =? ENOENT then ERROR_NOT_EXISTS
   else if errno =? ENOTEMPTY then ERROR_NOT_EMPTY
   else if errno =? ENAMETOOLONG then ERROR_NAME_TOO_LONG
   else ERROR_UNKNOWN, t).
