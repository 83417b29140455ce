(** Archives of directories: zpl_tar_pack_dir, code/source/core/file_tar.c:100-108, from the listing of
    [Path] and the archives of [Tar]. *)
From Verif Require Import Base CStr Array FStream Path Tar.

(** the string at a pointer, with its NUL *)
Fixpoint string_from (p : list Z) : list Z :=
  match p with [] => [] | c :: r => if c =? 0 then [0] else c :: string_from r end.
(** [root] is the file system as zpl_path_dirlist sees it, [fs] what zpl_file_open_mode finds under a name *)
Definition pack_dir (root : node) (fs : list Z -> opened) (avail : nat) (archive : stream) (path : list Z) : option (Z * stream) :=
  let filelst := fst (path_dirlist root path true avail) in
  ' (buf, files) <- str_split_lines (filelst ++ [0]) false ;;
  pack fs [] archive (map (fun o => string_from (skipn o buf)) files).
(** zpl_tar_default_unpack_file makes the directories of the path it creates, file_tar.c:193-203 *)
Definition unpack_folders (t : node) (tmp : list Z) : option node :=
  last_slash <- last_occurence tmp SEP ;;
  Some (match last_slash with None => t | Some i => snd (path_mkdir_recursive t (firstn i tmp)) end).
