(** Environment variables and commands, code/source/core/misc.c, on Unix.

    The environment is the list of names and values (without terminators), as getenv(3), setenv(3)
    and unsetenv(3) handle it: a name is not empty and contains no "=". A command is what popen(3)
    lets read: [None] if it fails, otherwise the output of the command. *)
From Verif Require Import Base CStr StrLib.

Definition name_eqb (a b : list Z) : bool := if list_eq_dec Z.eq_dec a b then true else false.
Definition environment := list (list Z * list Z).
(** setenv(3) and unsetenv(3) fail with EINVAL for other names *)
Definition valid_name (n : list Z) : bool := negb (name_eqb n []) && negb (existsb (Z.eqb 61) n).
Definition getenv (e : environment) (n : list Z) : option (list Z) :=
  match find (fun p => name_eqb (fst p) n) e with Some p => Some (snd p) | None => None end.
Fixpoint replace (e : environment) (n v : list Z) : environment :=
  match e with
  | [] => [(n, v)]
  | (m, w) :: r => if name_eqb m n then (m, v) :: r else (m, w) :: replace r n v
  end.
Definition setenv (e : environment) (n v : list Z) : environment := if valid_name n then replace e n v else e.
Definition unsetenv (e : environment) (n : list Z) : environment :=
  if valid_name n then filter (fun p => negb (name_eqb (fst p) n)) e else e.

(** zpl_get_env_buf, misc.c:28-45: a pointer into the environment *)
Definition get_env_buf (e : environment) (n : list Z) : option (list Z) :=
  match getenv e n with Some v => Some (v ++ [0]) | None => None end.
(** zpl_get_env, misc.c:14-26; copying to NULL is undefined *)
Definition get_env (new : allocator) (e : environment) (n : list Z) : option (option (list Z)) :=
  match get_env_buf e n with
  | None => Some None
  | Some ptr =>
    ptr_size <- strlen ptr ;;
    match new (Z.of_nat ptr_size + 1) with
    | None => None
    | Some buffer => b <- blit buffer 0 ptr (ptr_size + 1) ;; Some (Some b)
    end
  end.
(** zpl_get_env_str, misc.c:47-56 *)
Definition get_env_str (new : allocator) (e : environment) (n : list Z) : option (option zstring) :=
  match get_env_buf e n with None => Some None | Some buf => make new (Some buf) end.
(** zpl_set_env, zpl_unset_env, misc.c:58-72 *)
Definition set_env := setenv.
Definition unset_env := unsetenv.

(** the loop of zpl_system_command, misc.c:91-95: what is left of the output, and of the buffer the part from [k] on *)
Fixpoint command_loop (output : list Z) (i buffer_len : Z) (buffer : list Z) (k : nat) : option (list Z) :=
  match output with
  | [] => Some buffer
  | c :: rest => if i <? buffer_len then b <- wr buffer k c ;; command_loop rest (i + 1) buffer_len b (S k) else Some buffer
  end.
(** zpl_system_command, misc.c:78-106 *)
Definition system_command (popen : option (list Z)) (buffer_len : Z) (buffer : list Z) : option (Z * list Z) :=
  match popen with
  | None => Some (0, buffer)
  | Some output => b <- command_loop output 0 buffer_len buffer 0 ;; Some (1, b)
  end.
(** zpl_system_command_str, misc.c:108-138 *)
Fixpoint command_str_loop (new : allocator) (output : list Z) (s : option zstring) : option (option zstring) :=
  match output with
  | [] => Some s
  | c :: rest => s <- appendc_null new s [c; 0] ;; command_str_loop new rest s
  end.
Definition system_command_str (new : allocator) (popen : option (list Z)) : option (option zstring) :=
  match popen with
  | None => Some None
  | Some output => s <- make_reserve new 4 ;; command_str_loop new output s
  end.
