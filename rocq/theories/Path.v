(** Paths and directories on Unix, code/header/core/file_misc.h and code/source/core/file_misc.c.
    The file system is a tree with the current directory as its root; links, permissions and the
    names . and .. are left out. Strings are without their NULs where they are only read. *)
From Verif Require Import Base CStr.
Open Scope list_scope.

(** ZPL_PATH_SEPARATOR, file_misc.h:10; zpl_path_fix_slashes does nothing, file_misc.c:467-478 *)
Definition SEP : Z := 47.
(** zpl_path_is_absolute and zpl_path_is_root, file_misc.h:104-126 *)
Definition path_is_absolute (p : list Z) : option bool := n <- strlen p ;; if (0 <? n)%nat then c <- rd p 0 ;; Some (c =? SEP) else Some false.
Definition path_is_root (p : list Z) : option bool := b <- path_is_absolute p ;; if b : bool then n <- strlen p ;; Some (n =? 1)%nat else Some false.
(** zpl_path_base_name and zpl_path_extension, file_misc.h:128-141: the offset; the inner [None] is NULL *)
Definition path_base_name (p : list Z) : option nat := o <- last_occurence p SEP ;; Some (match o with None => O | Some k => S k end).
Definition path_extension (p : list Z) : option (option nat) := o <- last_occurence p 46 ;; Some (match o with None => None | Some k => Some (S k) end).

Inductive node := NFile | NDir (l : list (list Z * node)).
Fixpoint get (l : list (list Z * node)) (n : list Z) : option node :=
  match l with [] => None | (m, x) :: r => if list_eq_dec Z.eq_dec m n then Some x else get r n end.
Fixpoint put (l : list (list Z * node)) (n : list Z) (x : node) : list (list Z * node) :=
  match l with [] => [] | (m, y) :: r => if list_eq_dec Z.eq_dec m n then (m, x) :: r else (m, y) :: put r n x end.

(** the names in a path: what is between slashes *)
Fixpoint names_from (p cur : list Z) : list (list Z) :=
  match p with
  | [] => match cur with [] => [] | _ => [cur] end
  | c :: r => if c =? 47 then match cur with [] => names_from r [] | _ => cur :: names_from r [] end else names_from r (cur ++ [c])
  end.
Definition names (p : list Z) : list (list Z) := names_from p [].
(** mkdir(2): a directory is made if the one it shall be in exists and the name is not taken *)
Fixpoint make (cs : list (list Z)) (t : node) : node :=
  match cs, t with
  | [], _ | _, NFile => t
  | [c], NDir l => match get l c with None => NDir (l ++ [(c, NDir [])]) | Some _ => t end
  | c :: cs, NDir l => match get l c with None => t | Some x => NDir (put l c (make cs x)) end
  end.
(** zpl_path_mkdir, file_misc.c:212-230, without its result *)
Definition path_mkdir (t : node) (p : list Z) : node := make (names p) t.
(** zpl_path_mkdir_recursive, file_misc.c:232-251: [pre] is what the loop has passed *)
Fixpoint mkdir_loop (t : node) (pre rest : list Z) : node :=
  match rest with
  | [] => path_mkdir t pre
  | c :: r => mkdir_loop (if c =? SEP then path_mkdir t pre else t) (pre ++ [c]) r
  end.
Definition MAX_PATH : Z := 4096.
Definition path_mkdir_recursive (t : node) (p : list Z) : Z * node :=
  if MAX_PATH - 1 <? Z.of_nat (length p) then (-1, t)
  else (0, match p with [] => path_mkdir t [] | c :: r => mkdir_loop t [c] r end).

(** zpl__file_direntry, file_misc.c:274-299: the text appended and the directory streams left to be
    opened; nothing is ever closed. [t] is what opendir(dirname) finds, below it the entry itself is
    passed on instead of being looked up again by its path *)
Definition skipped (n : list Z) : bool :=
  match n with [46] => true | 46 :: 46 :: _ => true | _ => false end.
Fixpoint direntry (t : node) (dirname : list Z) (recurse : bool) (avail : nat) : list Z * nat :=
  match t, avail with
  | NDir l, S avail =>
    (fix go (l : list (list Z * node)) (avail : nat) : list Z * nat :=
       match l with
       | [] => ([], avail)
       | (n, x) :: r =>
         if skipped n then go r avail
         else
           let dirpath := dirname ++ [47] ++ n in
           let '(sub, avail) :=
             match recurse, x, avail with
             | true, NDir _, S avail => direntry x dirpath recurse avail
             | _, _, _ => ([], avail)
             end in
           let '(more, avail) := go r avail in
           (dirpath ++ [10] ++ sub ++ more, avail)
       end) l avail
  | _, _ => ([], avail)
  end.
(** opendir(3) resolves the path; the empty path names nothing *)
Fixpoint find (cs : list (list Z)) (t : node) : option node :=
  match cs, t with
  | [], _ => Some t
  | c :: cs, NDir l => x <- get l c ;; find cs x
  | _, NFile => None
  end.
Definition resolve (t : node) (p : list Z) : option node := match p with [] => None | _ => find (names p) t end.
(** zpl_path_dirlist, file_misc.c:346-350 *)
Definition path_dirlist (root : node) (dirname : list Z) (recurse : bool) (avail : nat) : list Z * nat :=
  match resolve root dirname with Some t => direntry t dirname recurse avail | None => ([], avail) end.

(** zpl_dirinfo_init, file_misc.c:352-375: the names of the entries; malloc returns [mem], of the
    length asked for, which becomes fullpath *)
Definition dirinfo_fullpath (mem path : list Z) : option (list Z) := strcpy (firstn (length path) mem) (path ++ [0]).
Definition dirinfo_names (t : node) (path : list Z) (avail : nat) : option (list Z * list nat) :=
  str_split_lines (fst (path_dirlist t path false avail) ++ [0]) false.

(** zpl_dirinfo_step, file_misc.c:426-446, for an entry that is no folder: the static buffer, which
    is then given to zpl_dirinfo_init as a string *)
Definition step_buf (buf path : list Z) : option (list Z) :=
  o <- last_occurence (path ++ [0]) SEP ;; k <- o ;; strncpy buf (path ++ [0]) (Z.of_nat k).
