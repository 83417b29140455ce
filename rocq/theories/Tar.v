(** Tar archives, code/source/core/file_tar.c, on a memory stream ([FStream]).

    The 512-byte header is a list of bytes with the fields at the offsets of zpl__tar_header (4-15). A
    file system is a function from paths to file contents and modification times; reading a file
    gives at most the number of bytes asked for (pread). zpl_bprintf("%*r", n, 0) gives n NULs
    (C55_fits). [oks] are the outcomes of the allocations of successive writes to the archive. A text
    too long for its field runs into the next fields of the header, as in the code. The directory
    creation of zpl_tar_default_unpack_file is not modelled. *)
From Verif Require Import Base CStr Num Print Bits FStream.

(** zpl_offset_of in zpl__tar_header, file_tar.c:4-15 *)
Definition o_name := 0%nat.
Definition o_mode := 100%nat.
Definition o_size := 124%nat.
Definition o_mtime := 136%nat.
Definition o_checksum := 148%nat.
Definition o_type := 156%nat.
Definition header_size := 512%nat.
Definition TYPE_REGULAR := 48.
(** zpl_tar_errors, file_tar.h:19-26 *)
Definition ERROR_INTERRUPTED := 1.
Definition ERROR_IO := 2.
Definition ERROR_BAD_CHECKSUM := 3.
Definition ERROR_FILE_NOT_FOUND := 4.

Definition sum (l : list Z) : Z := fold_left Z.add l 0.
(** zpl__tar_checksum, file_tar.c:17-26 *)
Definition checksum (hr : list Z) : Z := u64 (256 + sum (firstn o_checksum hr) + sum (skipn o_type hr)).

(** zpl_snprintf into the field at [off] *)
Definition field (hr : list Z) (off : nat) (max_len : Z) (fmt : list Z) (va : list arg) : option (list Z) :=
  ' (t, _) <- snprintf (skipn off hr) max_len fmt va ;; Some (firstn off hr ++ t).
Definition fmt_s : list Z := [37; 115; 0].
Definition fmt_o : list Z := [37; 111; 0].
(** the header, file_tar.c:41-58; [path] is NUL-terminated *)
Definition pack_header (path : list Z) (file_size mtime : Z) : option (list Z) :=
  let hr := repeat 0 header_size in
  hr <- field hr o_name 12 fmt_s [AStr (Some path)] ;;
  hr <- field hr o_size 12 fmt_o [AInt file_size] ;;
  hr <- field hr o_mode 8 fmt_o [AInt 436] ;;
  hr <- field hr o_mtime 12 fmt_o [AInt mtime] ;;
  hr <- wr hr o_type TYPE_REGULAR ;;
  field hr o_checksum 8 fmt_o [AInt (checksum hr)].

(** zpl_file_open_mode for reading; a directory can be opened and has some size, but reading it fails *)
Inductive opened := Opened (data : list Z) (mtime : Z) | Directory (size mtime : Z) | NotExists | OpenError.
Definition next (oks : list bool) : bool * list bool := match oks with [] => (true, []) | b :: r => (b, r) end.
(** the copy loop, file_tar.c:69-83; each round before the last reads 4096 bytes *)
Fixpoint copy_loop (fuel : nat) (oks : list bool) (archive : stream) (data : list Z) (pos : nat) (remaining : Z) : option (list bool * stream) :=
  match fuel with
  | O => None
  | S n =>
    let chunk := firstn 4096 (skipn pos data) in
    match chunk with
    | [] => Some (oks, archive)
    | _ =>
      let '(ok, oks) := next oks in
      ' (_, archive) <- file_write ok archive chunk ;;
      let remaining := remaining - Z.of_nat (length chunk) in
      if 0 <? remaining then copy_loop n oks archive data (pos + length chunk) remaining else Some (oks, archive)
    end
  end.
(** zpl__tar_write_null, file_tar.c:28-33 *)
Definition write_null (oks : list bool) (archive : stream) (cnt : Z) : option (bool * list bool * stream) :=
  let '(ok, oks) := next oks in
  ' (r, archive) <- file_write ok archive (repeat 0 (Z.to_nat cnt)) ;; Some (r, oks, archive).
(** zpl_tar_pack, file_tar.c:35-98: the result and the archive *)
Fixpoint pack_loop (fs : list Z -> opened) (oks : list bool) (archive : stream) (paths : list (list Z)) : option (Z * list bool * stream) :=
  match paths with
  | [] => Some (0, oks, archive)
  | path :: paths =>
    match fs path with
    | NotExists => Some (- ERROR_FILE_NOT_FOUND, oks, archive)
    | OpenError => Some (- ERROR_IO, oks, archive)
    | Directory file_size mtime =>
      hr <- pack_header path file_size mtime ;;
      let '(ok, oks) := next oks in
      ' (_, archive) <- file_write ok archive hr ;;
      _ <- align_forward_i64 file_size 512 ;;
      Some (- ERROR_IO, oks, archive)
    | Opened data mtime =>
      let file_size := Z.of_nat (length data) in
      hr <- pack_header path file_size mtime ;;
      let '(ok, oks) := next oks in
      ' (_, archive) <- file_write ok archive hr ;;
      total <- align_forward_i64 file_size 512 ;;
      ' (oks, archive) <- copy_loop (S (length data)) oks archive data 0 file_size ;;
      let padding := total - file_size in
      ' (r, oks, archive) <- (if 0 <? padding then write_null oks archive padding else Some (true, oks, archive)) ;;
      if r then pack_loop fs oks archive paths else Some (- ERROR_IO, oks, archive)
    end
  end.
Definition pack (fs : list Z -> opened) (oks : list bool) (archive : stream) (paths : list (list Z)) : option (Z * stream) :=
  ' (r, oks, archive) <- pack_loop fs oks archive paths ;;
  if r =? 0 then
    ' (w, _, archive) <- write_null oks archive 1024 ;;
    Some (if w : bool then 0 else - ERROR_IO, archive)
  else Some (r, archive).

(** zpl_tar_record, file_tar.h:38-44; [path] is the header from its name on *)
Record record := Rec { r_type : Z; r_path : list Z; r_offset : Z; r_length : Z; r_error : Z }.
(** the header as a record, file_tar.c:127-138 *)
Definition parse_header (hr : list Z) (pos : Z) : option record :=
  ty <- rd hr o_type ;;
  ' (len, _) <- str_to_i64 (skipn o_size hr) 8 ;;
  ' (c1, _) <- str_to_i64 (skipn o_checksum hr) 8 ;;
  Some (Rec ty (skipn o_name hr) pos len (if u64 c1 =? checksum hr then 0 else ERROR_BAD_CHECKSUM)).
(** zpl_tar_unpack, file_tar.c:109-151. [proc] is the callback with its state. One round: the
    state goes on, or the result is final. *)
Section Unpack.
  Context {A : Type} (proc : A -> stream -> record -> option (Z * A)).
  Definition unpack_round (s : A) (archive : stream) : option (A * stream * option Z) :=
    ' (hr, archive) <- file_read archive 512 ;;
    c <- rd hr o_checksum ;;
    if c =? 0 then Some (s, archive, Some 0)
    else
      ' (pos, archive) <- file_tell archive ;;
      rec <- parse_header hr pos ;;
      ' (e, s) <- proc s archive rec ;;
      if 0 <? e then Some (s, archive, Some (- ERROR_INTERRUPTED))
      else
        a <- align_forward_i64 (r_length rec) 512 ;;
        t <- chk64 (pos + a) ;;
        ' (_, archive) <- file_seek archive t ;;
        Some (s, archive, None).
  (** [None] when the rounds run out *)
  Fixpoint unpack (fuel : nat) (s : A) (archive : stream) : option (Z * A * stream) :=
    match fuel with
    | O => None
    | S n =>
      ' (s, archive, r) <- unpack_round s archive ;;
      match r with Some r => Some (r, s, archive) | None => unpack n s archive end
    end.
End Unpack.

(** the copy loop of zpl_tar_default_unpack_file, file_tar.c:207-222, from a memory stream: the
    bytes written to the new file *)
Fixpoint extract_loop (fuel : nat) (archive : stream) (pos remaining : Z) : option (list Z) :=
  match fuel with
  | O => None
  | S n =>
    let k := Z.min 4096 remaining in
    xs <- FStream.read archive k pos ;;
    if k =? 0 then Some []
    else if 0 <? remaining - k then ys <- extract_loop n archive (pos + k) (remaining - k) ;; Some (xs ++ ys)
    else Some xs
  end.
(** zpl_tar_default_unpack_file, file_tar.c:167-225; ZPL_MAX_PATH is 4096. The result and the file
    created: its path and contents. *)
Definition default_unpack (base_path : list Z) (archive : stream) (f : record) : option (Z * option (list Z * list Z)) :=
  if negb (r_error f =? 0) then Some (0, None)
  else if negb (r_type f =? TYPE_REGULAR) then Some (0, None)
  else
    c <- strncmp 2 0 1 (r_path f) [46; 46; 0] ;;
    if c =? 0 then Some (0, None)
    else
      base_len <- strlen base_path ;;
      len <- strlen (r_path f) ;;
      if negb (Z.of_nat base_len + Z.of_nat len - 2 <? 4096) then None
      else
        tmp <- strcpy (repeat 0 4096) base_path ;;
        c <- rd tmp 0 ;;
        tmp <- (if negb (c =? 0) then l <- rd tmp (base_len - 1) ;; if negb (l =? 47) then strcat tmp [47; 0] else Some tmp else Some tmp) ;;
        tmp <- strcat tmp (r_path f) ;;
        data <- extract_loop (S (Z.to_nat (r_length f))) archive (r_offset f) (r_length f) ;;
        n <- strlen tmp ;;
        Some (0, Some (firstn n tmp, data)).
