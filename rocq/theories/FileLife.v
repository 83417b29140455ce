(** What files hold: descriptors and memory, code/source/core/file.c:225-296, 366-378 and 400-422, on Unix.

    Only descriptors and memory are looked at; [Posix.v] has the contents. The kernel's and the allocator's
    answers are arguments: a descriptor that is not in use (negative if the call fails) and a block that is not
    in use. zpl_file_dirinfo_refresh is left out: [dir] is always NULL. [None]: undefined behaviour or a panic. *)
From Verif Require Import Base.

(** open descriptors, blocks of the heap in use, FILE objects of the C library in use *)
Record system := System { fds : list Z; blocks : list Z; streams : Z }.
(** zpl_file, header/core/file.h:92-100; [filename] is a block or NULL *)
Record zfile := ZFile { fd : Z; filename : option Z; has_ops : bool; is_temp : bool }.
Definition zeroed : zfile := ZFile 0 None false false.

(** free(3): of NULL nothing; of what is not in use undefined *)
Definition free (s : system) (b : option Z) : option system :=
  match b with
  | None => Some s
  | Some b => if in_dec Z.eq_dec b (blocks s) then Some (System (fds s) (remove Z.eq_dec b (blocks s)) (streams s)) else None
  end.
(** close(2): an error (EBADF), which is ignored, if not open *)
Definition close (s : system) (fd : Z) : system := System (remove Z.eq_dec fd (fds s)) (blocks s) (streams s).
(** the modes zpl__posix_file_open knows, file.c:202-212 *)
Definition known_mode (mode : Z) : bool := existsb (Z.eqb (Z.land mode 15)) [1; 2; 4; 9; 10; 12].
(** zpl_file_open_mode, zpl__posix_file_open, zpl_file_new, file.c:202-249; [true] is ZPL_FILE_ERROR_NONE *)
Definition file_open_mode (s : system) (mode new_fd new_block : Z) : option (bool * zfile * system) :=
  if known_mode mode then
    if new_fd <? 0 then Some (false, ZFile new_fd None false false, s)
    else Some (true, ZFile new_fd (Some new_block) true false, System (new_fd :: fds s) (new_block :: blocks s) (streams s))
  else None.
(** zpl_file_create, zpl_file_open, file.c:284-290 *)
Definition file_create (s : system) := file_open_mode s 10.
Definition file_open (s : system) := file_open_mode s 1.
(** zpl_file_temp, file.c:400-422: the FILE object is forgotten; [new_fd] is negative if tmpfile(3) fails *)
Definition file_temp (s : system) (new_fd : Z) : bool * zfile * system :=
  if new_fd <? 0 then (false, zeroed, s)
  else (true, ZFile new_fd None true true, System (new_fd :: fds s) (blocks s) (streams s + 1)).
(** zpl_file_get_standard, file.c:366-378 *)
Definition standard (n : Z) : zfile := ZFile n None true false.
(** zpl_file_close, file.c:254-281, of a file that is not NULL. The name is not cleared *)
Definition file_close (s : system) (f : zfile) : option (bool * zfile * system) :=
  s <- free s (filename f) ;;
  if fd f <? 0 then Some (false, f, s)
  else if is_temp f then (if has_ops f then Some (true, f, close s (fd f)) else None)
  else Some (true, ZFile (fd f) (filename f) true false, close s (fd f)).
(** zpl_file_name, file.c:292: the block of the name, or [None] for the empty string *)
Definition file_name (f : zfile) : option Z := filename f.

(** zpl_fs_get_type, file_misc.c:399-424: [None] if stat(2) fails; ZPL_DIR_TYPE_FILE 0, FOLDER 1, UNKNOWN 2 *)
Definition fs_get_type (st_mode : option Z) : Z :=
  match st_mode with Some m => if Z.land m 0x4000 =? 0 then 0 else 1 | None => 2 end.
