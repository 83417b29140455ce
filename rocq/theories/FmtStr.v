(** Formatted text in strings and static buffers: code/source/core/stringlib.c and print.c.
    The variable arguments are a list as in [Print]; the thread-local static buffers are given
    as they were left by the call before and returned with the result. *)
From Verif Require Import Base CStr Print StrLib.

(** ZPL_PRINTF_MAXLEN, code/header/core/print.h:14 *)
Definition maxlen : Z := 65536.
Definition cleared : list Z := repeat 0 (Z.to_nat maxlen).

(** zpl_string_append_fmt, stringlib.c:194-202 *)
Definition append_fmt (new : allocator) (s : zstring) (fmt : list Z) (va : list arg) : option (option zstring) :=
  ' (buf, n) <- snprintf cleared (maxlen - 1) fmt va ;;
  let res := n - 1 in
  append_length new s buf res.
(** zpl_string_sprintf, stringlib.c:58-65: the buffer and the string *)
Definition sprintf (new : allocator) (buf : list Z) (num_bytes : Z) (fmt : list Z) (va : list arg) : option (list Z * option zstring) :=
  ' (buf, _) <- snprintf buf num_bytes fmt va ;;
  r <- make new (Some buf) ;;
  Some (buf, r).
(** zpl_string_sprintf_buf, stringlib.c:48-56 *)
Definition sprintf_buf (new : allocator) (buf : list Z) (fmt : list Z) (va : list arg) := sprintf new buf maxlen fmt va.
(** zpl_bprintf_va, print.c:21-25: the buffer is the result *)
Definition bprintf (buffer : list Z) (fmt : list Z) (va : list arg) : option (list Z) :=
  ' (buffer, _) <- snprintf buffer maxlen fmt va ;; Some buffer.
(** zpl_alloc_str_len, header/essentials/memory_custom.h:284-290, and zpl_alloc_str,
    source/essentials/memory_custom.c:28-30; without memory the copy faults *)
Definition alloc_str_len (new : allocator) (str : list Z) (len : Z) : option (list Z) :=
  match new (len + 1) with
  | None => None
  | Some b => b <- blit b 0 str (Z.to_nat len) ;; wr b (Z.to_nat len) 0
  end.
Definition alloc_str (new : allocator) (str : list Z) : option (list Z) :=
  n <- strlen str ;; alloc_str_len new str (Z.of_nat n).
(** zpl_asprintf_va, print.c:27-34: the static buffer, the text in a new block, the result *)
Definition asprintf (new : allocator) (tmp : list Z) (fmt : list Z) (va : list arg) : option (list Z * list Z * Z) :=
  ' (tmp, res) <- snprintf tmp maxlen fmt va ;;
  s <- alloc_str new tmp ;;
  Some (tmp, s, res).
