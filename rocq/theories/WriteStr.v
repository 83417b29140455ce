(** Writing documents into strings: zpl_json_write_string, source/parsers/json.c:53-64,
    zpl_csv_write_string_delimiter, source/parsers/csv.c:215-224, zpl_uri_write_string,
    source/parsers/uri.c:186-195. What the writers of [Json], [Csv] and [Uri] print is taken as the
    list of the texts of their calls of zpl_fprintf (print.c:14-19), each with the answer to the memory it may
    ask for. The last number of a result counts the blocks of the stream which are not released. *)
From Verif Require Import Base Array FStream StrLib.

(** zpl_file_stream_new, source/core/file_stream.c:39-56: memory for both blocks, for none, or not for the array *)
Inductive opening := Opened | NoBlock | NoArray.
Definition open_stream (o : opening) : option stream * Z :=
  match o with
  | NoBlock => (None, 0)
  | NoArray => (stream_new false, 1)
  | Opened => (stream_new true, 2)
  end.
(** zpl__json_fprintf, json.c:25-28, and zpl__adt_fprintf, source/adt.c:5-8: the first failure ends the writing *)
Fixpoint write_strict (d : stream) (pieces : list (bool * list Z)) : option (bool * stream) :=
  match pieces with
  | [] => Some (true, d)
  | (ok, t) :: pieces => ' (r, d) <- file_write ok d t ;; if r : bool then write_strict d pieces else Some (false, d)
  end.
(** csv.c:150-213, uri.c:120-180: the results of zpl_fprintf are not looked at *)
Fixpoint write_lenient (d : stream) (pieces : list (bool * list Z)) : option stream :=
  match pieces with
  | [] => Some d
  | (ok, t) :: pieces => ' (_, d) <- file_write ok d t ;; write_lenient d pieces
  end.
(** zpl__memory_file_close, file_stream.c:137-143, after zpl_file_close, file.c:254-269 *)
Definition close_stream (held : Z) : Z := held - 2.
Definition take_text (new : allocator) (d : stream) (held : Z) : option (option zstring * Z) :=
  let (buf, fsize) := stream_buf d in
  output <- make_length new (Some buf) fsize ;;
  Some (output, close_stream held).
Definition json_write_string (new : allocator) (o : opening) (pieces : list (bool * list Z)) : option (option zstring * Z) :=
  let (s, held) := open_stream o in
  match s with
  | None => Some (None, held)
  | Some d => ' (r, d) <- write_strict d pieces ;; if r : bool then take_text new d held else Some (None, held)
  end.
(** the file is used whether or not it was opened: an uninitialised or empty descriptor faults *)
Definition csv_write_string (new : allocator) (o : opening) (pieces : list (bool * list Z)) : option (option zstring * Z) :=
  let (s, held) := open_stream o in
  d <- s ;; d <- write_lenient d pieces ;; take_text new d held.
Definition uri_write_string := csv_write_string.
