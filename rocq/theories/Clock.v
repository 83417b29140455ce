(** The clocks on Linux, code/source/core/time.c:150-233. What clock_gettime(2) reports is a parameter:
    tv_sec and tv_nsec. Doubles are as in [Float]. *)
From Coq Require Import SpecFloat.
From Verif Require Import Base Float.

(** the constants 1e-3, 1e-6 and 1e6: the doubles nearest to them *)
Definition f_1em3 : f64 := fdiv (f_of_int 1) (f_of_int 1000).
Definition f_1em6 : f64 := fdiv (f_of_int 1) (f_of_int 1000000).
Definition f_1e6 : f64 := f_of_int 1000000.
(** ZPL__UNIX_TO_WIN32_EPOCH, header/core/time.h:57 *)
Definition epoch : Z := 11644473600000.
(** a product of type long that overflows is undefined *)
Definition long (z : Z) : option Z := if (- 2^63 <=? z) && (z <? 2^63) then Some z else None.

(** zpl__unix_gettime, time.c:151-158 *)
Definition gettime (sec nsec : Z) : option Z :=
  ms <- long (1000 * sec) ;;
  f_to_u64 (fadd (f_of_int ms) (fmul f_1em6 (f_of_int nsec))).
(** zpl_time_rel_ms, time.c:161-188: [start] is the static unix_timestart, read again if it is 0; one reading of the
    clock for it, one for now *)
Definition time_rel_ms (start : Z) (first now : Z * Z) : option (Z * Z) :=
  start <- (if start =? 0 then gettime (fst first) (snd first) else Some start) ;;
  now <- gettime (fst now) (snd now) ;;
  Some (start, u64 (now - start)).
(** zpl_time_utc_ms, time.c:190-204 *)
Definition time_utc_ms (sec nsec : Z) : option Z :=
  f_to_u64 (fadd (fadd (f_of_int (u64 (u64 sec * 1000))) (fmul (f_of_int nsec) f_1em6)) (f_of_int epoch)).
(** zpl_sleep_ms, time.c:206-210: what nanosleep(2) is asked for *)
Definition sleep_ms (ms : Z) : option (Z * Z) :=
  s <- f_trunc (fmul (f_of_int ms) f_1em3) ;;
  n <- f_trunc (fmul (f_of_int (ms mod 1000)) f_1e6) ;;
  Some (s, n).
(** zpl_time_tz_ms, time.c:212-220. [local t] is what mktime(3) makes of the broken-down time localtime_r(3) gives for t,
    with its tm_isdst; [tz] is the global timezone. *)
Definition time_tz_ms (local : Z -> Z * Z) (tz : Z) (sec nsec : Z) : option Z :=
  utc <- time_utc_ms sec nsec ;;
  let result := u64 (utc - epoch) in
  let ms := u16 (result mod 1000) in
  result <- f_to_u64 (fmul (f_of_int result) f_1em3) ;;
  let (back, isdst) := local result in
  Some (u64 (u64 (u64 (u64 (u64 back - tz) + isdst * 3600) * 1000) + ms + epoch)).
(** zpl_time_rel and the others, time.c:223-233: the same as seconds *)
Definition seconds (ms : Z) : f64 := fmul (f_of_int ms) f_1em3.
(** zpl_time_win32_to_unix and zpl_time_unix_to_win32, header/core/time.h:60-66 *)
Definition win32_to_unix (ms : Z) : Z := u64 (ms - epoch).
Definition unix_to_win32 (ms : Z) : Z := u64 (ms + epoch).
