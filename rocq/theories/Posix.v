(** Files on Linux, code/source/core/file.c, code/source/core/file_misc.c and the inline functions of
    code/header/core/file.h. The system calls are modelled on regular files without links and
    permissions; a file that is open is not removed. A failing call is -1, here an inner [None].
    [room] is how many bytes the device takes during a call. Allocations succeed. *)
From Verif Require Import Base CStr.
Open Scope list_scope.

Definition fsys := list Z -> option (list Z).
Definition set (fs : fsys) (p : list Z) (d : option (list Z)) : fsys := fun q => if list_eq_dec Z.eq_dec q p then d else fs q.
(** an open file: the descriptor of zpl_file, file.h:92-100, with what the kernel keeps for it *)
Record file := File { name : list Z; pos : Z; can_read : bool; can_write : bool; appending : bool; last_write_time : Z }.
Definition at_pos (f : file) (p : Z) : file := File (name f) p (can_read f) (can_write f) (appending f) (last_write_time f).
Definition data (fs : fsys) (f : file) : list Z := match fs (name f) with Some d => d | None => [] end.
Definition size_of (fs : fsys) (f : file) : Z := Z.of_nat (length (data fs f)).
Definition len (l : list Z) : Z := Z.of_nat (length l).
(** what one read(2), write(2) or sendfile(2) moves at most *)
Definition MAX_RW : Z := 0x7ffff000.
Definition I64_MAX : Z := 2 ^ 63 - 1.

(** ** system calls *)
Inductive whence := Begin | Current | End.
Definition lseek (fs : fsys) (f : file) (offset : Z) (w : whence) : option Z :=
  let p := match w with Begin => 0 | Current => pos f | End => size_of fs f end + offset in
  if (p <? 0) || (I64_MAX <? p) then None else Some p.
Definition pread (fs : fsys) (f : file) (size offset : Z) : option (list Z) :=
  if can_read f && (0 <=? offset) then Some (firstn (Z.to_nat (Z.min size MAX_RW)) (skipn (Z.to_nat offset) (data fs f))) else None.
(** bytes put at an offset; a gap is filled with zeros *)
Definition splice (d : list Z) (offset : Z) (b : list Z) : list Z :=
  match b with
  | [] => d
  | _ => firstn (Z.to_nat offset) (d ++ repeat 0 (Z.to_nat (offset - len d))) ++ b ++ skipn (Z.to_nat offset + length b) d
  end.
Definition store (room : Z) (fs : fsys) (f : file) (b : list Z) (offset : Z) : option (Z * Z * fsys) :=
  let n := Z.min (Z.min (len b) MAX_RW) room in
  let at_ := if appending f then size_of fs f else offset in
  if negb (can_write f) || (offset <? 0) || ((0 <? len b) && (room <=? 0)) then None
  else Some (n, at_ + n, set fs (name f) (Some (splice (data fs f) at_ (firstn (Z.to_nat n) b)))).
Definition pwrite (room : Z) (fs : fsys) (f : file) (b : list Z) (offset : Z) : option (Z * fsys) :=
  match store room fs f b offset with Some (n, _, fs) => Some (n, fs) | None => None end.
Definition write (room : Z) (fs : fsys) (f : file) (b : list Z) : option (Z * fsys * file) :=
  match b with
  | [] => if can_write f then Some (0, fs, f) else None
  | _ => match store room fs f b (pos f) with Some (n, p, fs) => Some (n, fs, at_pos f p) | None => None end
  end.
Definition ftruncate (fs : fsys) (f : file) (size : Z) : option fsys :=
  if can_write f && (0 <=? size) then Some (set fs (name f) (Some (firstn (Z.to_nat size) (data fs f ++ repeat 0 (Z.to_nat (size - size_of fs f)))))) else None.

(** ** the operations of a file, file.c:159-195 *)
(** zpl__posix_file_seek, file.c:162-171; the offset stored, if any *)
Definition posix_seek (fs : fsys) (f : file) (offset : Z) (w : whence) : option Z * file :=
  match lseek fs f offset w with Some p => (Some p, at_pos f p) | None => (None, f) end.
(** zpl__posix_file_read, file.c:173-179; the buffer and the number of bytes *)
Definition posix_read (fs : fsys) (f : file) (buffer : list Z) (offset : Z) : bool * list Z * Z :=
  match pread fs f (len buffer) offset with
  | Some b => (true, b ++ skipn (length b) buffer, len b)
  | None => (false, buffer, 0)
  end.
(** zpl__posix_file_write, file.c:181-194 *)
Definition posix_write (room : Z) (fs : fsys) (f : file) (buffer : list Z) (offset : Z) : bool * Z * fsys * file :=
  let '(o, f) := posix_seek fs f 0 Current in
  let curr_offset := match o with Some p => p | None => 0 end in
  if curr_offset =? offset then
    match write room fs f buffer with Some (n, fs, f) => (true, n, fs, f) | None => (false, 0, fs, f) end
  else match pwrite room fs f buffer offset with Some (n, fs) => (true, n, fs, f) | None => (false, 0, fs, f) end.

(** ** the interface, file.h:336-395: zpl_file_seek, zpl_file_seek_to_end, zpl_file_skip, zpl_file_tell *)
Definition moved (r : option Z * file) : Z * file := (match fst r with Some p => p | None => 0 end, snd r).
Definition file_seek (fs : fsys) (f : file) (offset : Z) : Z * file := moved (posix_seek fs f offset Begin).
Definition file_seek_to_end (fs : fsys) (f : file) : Z * file := moved (posix_seek fs f 0 End).
Definition file_skip (fs : fsys) (f : file) (bytes : Z) : Z * file := moved (posix_seek fs f bytes Current).
Definition file_tell (fs : fsys) (f : file) : Z * file := moved (posix_seek fs f 0 Current).
Definition i64 (x : Z) : option Z := if (- I64_MAX - 1 <=? x) && (x <=? I64_MAX) then Some x else None.
(** zpl_file_read_at and zpl_file_write_at *)
Definition file_read_at (fs : fsys) (f : file) (buffer : list Z) (offset : Z) : bool * list Z :=
  let '(r, b, _) := posix_read fs f buffer offset in (r, b).
Definition file_write_at (room : Z) (fs : fsys) (f : file) (buffer : list Z) (offset : Z) : bool * fsys * file :=
  let '(r, _, fs, f) := posix_write room fs f buffer offset in (r, fs, f).
(** zpl_file_read and zpl_file_write *)
Definition file_read (fs : fsys) (f : file) (buffer : list Z) : option (bool * list Z * file) :=
  let '(cur, f) := file_tell fs f in
  let '(at_, f) := file_tell fs f in
  let '(r, b) := file_read_at fs f buffer at_ in
  s <- i64 (cur + len buffer) ;;
  let '(_, f) := file_seek fs f s in
  Some (r, b, f).
Definition file_write (room : Z) (fs : fsys) (f : file) (buffer : list Z) : option (bool * fsys * file) :=
  let '(cur, f) := file_tell fs f in
  let '(at_, f) := file_tell fs f in
  let '(r, fs, f) := file_write_at room fs f buffer at_ in
  s <- i64 (cur + len buffer) ;;
  let '(_, f) := file_seek fs f s in
  Some (r, fs, f).

(** zpl_file_size, file.c:391-398 *)
Definition file_size (fs : fsys) (f : file) : Z * file :=
  let '(prev, f) := file_tell fs f in
  let '(_, f) := file_seek_to_end fs f in
  let '(size, f) := file_tell fs f in
  let '(_, f) := file_seek fs f prev in
  (size, f).
(** zpl_file_truncate, file.c:380-385; [true] is ZPL_FILE_ERROR_NONE *)
Definition file_truncate (fs : fsys) (f : file) (size : Z) : bool * fsys :=
  match ftruncate fs f size with Some fs => (true, fs) | None => (false, fs) end.

(** zpl__posix_file_open and zpl_file_open_mode, file.c:201-247: READ 1, WRITE 2, APPEND 4, RW 8; any
    other combination panics. The inner [None] is ZPL_FILE_ERROR_INVALID *)
Definition file_open_mode (fs : fsys) (mode : Z) (filename : list Z) : option (option (fsys * file)) :=
  let m := Z.land mode 15 in
  let rw := Z.testbit m 3 in
  if (m =? 1) || (m =? 9) then
    Some (match fs filename with Some _ => Some (fs, File filename 0 true rw false 0) | None => None end)
  else if (m =? 2) || (m =? 10) then Some (Some (set fs filename (Some []), File filename 0 rw true false 0))
  else if (m =? 4) || (m =? 12) then
    Some (Some (match fs filename with Some _ => fs | None => set fs filename (Some []) end, File filename 0 rw true true 0))
  else None.
(** zpl_fs_exists, file.c:387 *)
Definition fs_exists (fs : fsys) (p : list Z) : bool := match fs p with Some _ => true | None => false end.

(** zpl_file_read_contents, file.c:426-454: data, [None] for NULL, and size; [mem n] is the memory
    that an allocation of [n] bytes gives *)
Definition file_read_contents (mem : Z -> list Z) (zero_terminate : bool) (fs : fsys) (filepath : list Z) : option (option (list Z) * Z) :=
  o <- file_open_mode fs 1 filepath ;;
  match o with
  | None => Some (None, 0)
  | Some (fs, f) =>
    let '(size, f) := file_size fs f in
    if 0 <? size then
      let m := mem (if zero_terminate then size + 1 else size) in
      let '(_, b) := file_read_at fs f (firstn (Z.to_nat size) m) 0 in
      let m := b ++ skipn (Z.to_nat size) m in
      m <- (if zero_terminate then wr m (Z.to_nat size) 0 else Some m) ;;
      Some (Some m, size)
    else Some (None, 0)
  end.
(** zpl_file_write_contents, file.c:463-480 *)
Definition file_write_contents (room : Z) (fs : fsys) (filepath buffer : list Z) : option (bool * fsys) :=
  o <- file_open_mode fs 2 filepath ;;
  match o with
  | None => Some (false, fs)
  | Some (fs, f) => ' (r, fs, _) <- file_write room fs f buffer ;; Some (r, fs)
  end.
(** zpl_file_read_lines, file.c:482-494: the contents after splitting and the lines; a file that is
    not opened has size 0 *)
Definition file_read_lines (mem : Z -> list Z) (fs : fsys) (filename : list Z) (strip : bool) : option (list Z * list nat) :=
  o <- file_open_mode fs 1 filename ;;
  match o with
  | None => str_split_lines [0] strip
  | Some (fs, f) =>
    let '(size, f) := file_size fs f in
    let m := mem (size + 1) in
    ' (_, b, _) <- file_read fs f (firstn (Z.to_nat size) m) ;;
    m <- wr (b ++ skipn (Z.to_nat size) m) (Z.to_nat size) 0 ;;
    str_split_lines m strip
  end.

(** zpl_fs_copy, file_misc.c:107-134: [junk] is what the uninitialised stat has for a size if
    the file to copy is missing *)
Definition fs_copy (room junk : Z) (fs : fsys) (existing new : list Z) (fail_if_exists : bool) : bool * fsys :=
  let src := fs existing in
  let fs := match fs new with Some _ => fs | None => set fs new (Some []) end in
  match src with
  | None => (-1 =? junk, fs)
  | Some b =>
    match write room fs (File new 0 false true false 0) (firstn (Z.to_nat MAX_RW) b) with
    | Some (n, fs, _) => (n =? len b, fs)
    | None => (-1 =? len b, fs)
    end
  end.
(** zpl_fs_move and zpl_fs_remove, file_misc.c:136-147: link(2) does not replace a file *)
Definition fs_move (fs : fsys) (existing new : list Z) : bool * fsys :=
  match fs existing, fs new with
  | Some b, None => (true, set (set fs new (Some b)) existing None)
  | _, _ => (false, fs)
  end.
Definition fs_remove (fs : fsys) (p : list Z) : bool * fsys :=
  match fs p with Some _ => (true, set fs p None) | None => (false, fs) end.
(** zpl_fs_last_write_time, file_misc.c:90-97: the time is taken if stat(2) fails; [mtime] is what
    stat(2) gives, [junk] the uninitialised memory *)
Definition fs_last_write_time (mtime : list Z -> option Z) (junk : Z) (p : list Z) : Z := match mtime p with Some _ => 0 | None => junk end.
(** zpl_file_has_changed, file.c:294-304 *)
Definition file_has_changed (mtime : list Z -> option Z) (junk : Z) (f : file) : bool * file :=
  let t := fs_last_write_time mtime junk (name f) in
  if last_write_time f =? t then (false, f)
  else (true, File (name f) (pos f) (can_read f) (can_write f) (appending f) t).
