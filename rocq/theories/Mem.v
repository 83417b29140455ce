(** Byte memory and the memory routines.

    A memory maps addresses to bytes; [None] is an address the program may not
    access. Loads and stores outside the accessible part make the whole function
    return [None], as does a misaligned access through a word pointer where the C
    code goes out of its way to align (memset, memmove, memchr).
    Simplification: pointer comparisons are integer comparisons, and address
    computations do not wrap. *)
From Verif Require Import Base.

Definition mem := Z -> option Z.

Definition load8 (m : mem) (a : Z) : option Z := m a.

Definition store8 (m : mem) (a v : Z) : option mem :=
  match m a with
  | Some _ => Some (fun b => if b =? a then Some (v mod 256) else m b)
  | None => None
  end.

(** Little-endian words of [k] bytes. *)
Fixpoint loadn (m : mem) (a : Z) (k : nat) : option Z :=
  match k with
  | O => Some 0
  | S k' => b <- load8 m a ;; r <- loadn m (a+1) k' ;; Some (b + 256 * r)
  end.
Fixpoint storen (m : mem) (a : Z) (k : nat) (v : Z) : option mem :=
  match k with
  | O => Some m
  | S k' => m' <- store8 m a v ;; storen m' (a+1) k' (v / 256)
  end.

(** Word accesses with the alignment the C type requires. *)
Definition load64a (m : mem) (a : Z) : option Z := if a mod 8 =? 0 then loadn m a 8 else None.
Definition store64a (m : mem) (a v : Z) : option mem := if a mod 8 =? 0 then storen m a 8 v else None.
Definition store32a (m : mem) (a v : Z) : option mem := if a mod 4 =? 0 then storen m a 4 v else None.

(** [n] successive bytes starting at [a]. *)
Fixpoint load_range (m : mem) (a : Z) (n : nat) : option (list Z) :=
  match n with
  | O => Some []
  | S n' => b <- load8 m a ;; r <- load_range m (a+1) n' ;; Some (b :: r)
  end.
Fixpoint store_range (m : mem) (a : Z) (l : list Z) : option mem :=
  match l with
  | [] => Some m
  | b :: l' => m' <- store8 m a b ;; store_range m' (a+1) l'
  end.

(** zpl_memcopy, code/source/essentials/memory.c:70-73. A NULL destination returns
    NULL (0) with memory unchanged; otherwise libc memcpy, which is undefined for
    overlapping regions ([n] > 0), and copies the bytes otherwise. *)
Definition memcopy (m : mem) (dest source n : Z) : option (mem * Z) :=
  if dest =? 0 then Some (m, 0) else
  if n <? 0 then None else
  if (n =? 0) || (source + n <=? dest) || (dest + n <=? source) then
    l <- load_range m source (Z.to_nat n) ;;
    m' <- store_range m dest l ;;
    Some (m', dest)
  else None.

(** The loops of zpl_memmove, code/header/essentials/memory.h:150-189. Each loop
    has fuel; running out of it is None. *)

(** lines 162-165: [while (d % 8) { if (!n--) return dest; *d++ = *s++; }]
    [inl m] = returned, [inr (m, d, s, n)] = loop left. *)
Fixpoint mm_fwd_head (fuel : nat) (m : mem) (d s n : Z) : option (mem + (mem * Z * Z * Z)) :=
  if d mod 8 =? 0 then Some (inr (m, d, s, n)) else
  match fuel with
  | O => None
  | S f =>
    if n =? 0 then Some (inl m) else
    b <- load8 m s ;; m' <- store8 m d b ;; mm_fwd_head f m' (d+1) (s+1) (n-1)
  end.
(** lines 166-171 *)
Fixpoint mm_fwd_words (fuel : nat) (m : mem) (d s n : Z) : option (mem * Z * Z * Z) :=
  if 8 <=? n then
    match fuel with
    | O => None
    | S f => w <- load64a m s ;; m' <- store64a m d w ;; mm_fwd_words f m' (d+8) (s+8) (n-8)
    end
  else Some (m, d, s, n).
(** line 173: [for (; n; n--) *d++ = *s++;] *)
Fixpoint mm_fwd_tail (fuel : nat) (m : mem) (d s n : Z) : option mem :=
  if n =? 0 then Some m else
  match fuel with
  | O => None
  | S f => b <- load8 m s ;; m' <- store8 m d b ;; mm_fwd_tail f m' (d+1) (s+1) (n-1)
  end.
(** lines 176-179: [while ((d + n) % 8) { if (!n--) return dest; d[n] = s[n]; }] *)
Fixpoint mm_bwd_head (fuel : nat) (m : mem) (d s n : Z) : option (mem + (mem * Z)) :=
  if (d + n) mod 8 =? 0 then Some (inr (m, n)) else
  match fuel with
  | O => None
  | S f =>
    if n =? 0 then Some (inl m) else
    b <- load8 m (s + (n-1)) ;; m' <- store8 m (d + (n-1)) b ;; mm_bwd_head f m' d s (n-1)
  end.
(** lines 180-183 *)
Fixpoint mm_bwd_words (fuel : nat) (m : mem) (d s n : Z) : option (mem * Z) :=
  if 8 <=? n then
    match fuel with
    | O => None
    | S f => w <- load64a m (s + (n-8)) ;; m' <- store64a m (d + (n-8)) w ;; mm_bwd_words f m' d s (n-8)
    end
  else Some (m, n).
(** line 185: [while (n) n--, d[n] = s[n];] *)
Fixpoint mm_bwd_tail (fuel : nat) (m : mem) (d s n : Z) : option mem :=
  if n =? 0 then Some m else
  match fuel with
  | O => None
  | S f => b <- load8 m (s + (n-1)) ;; m' <- store8 m (d + (n-1)) b ;; mm_bwd_tail f m' d s (n-1)
  end.

(** zpl_memmove, code/header/essentials/memory.h:150-189 *)
Definition memmove (m : mem) (d s n : Z) : option (mem * Z) :=
  if d =? 0 then Some (m, 0) else
  if d =? s then Some (m, d) else
  if (s + n <=? d) || (d + n <=? s) then memcopy m d s n else
  let fuel := S (Z.to_nat n) in
  if d <? s then
    if s mod 8 =? d mod 8 then
      r <- mm_fwd_head fuel m d s n ;;
      match r with
      | inl m' => Some (m', d)
      | inr (m1, d1, s1, n1) =>
        '(m2, d2, s2, n2) <- mm_fwd_words fuel m1 d1 s1 n1 ;;
        m3 <- mm_fwd_tail fuel m2 d2 s2 n2 ;;
        Some (m3, d)
      end
    else m' <- mm_fwd_tail fuel m d s n ;; Some (m', d)
  else
    if s mod 8 =? d mod 8 then
      r <- mm_bwd_head fuel m d s n ;;
      match r with
      | inl m' => Some (m', d)
      | inr (m1, n1) =>
        '(m2, n2) <- mm_bwd_words fuel m1 d s n1 ;;
        m3 <- mm_bwd_tail fuel m2 d s n2 ;;
        Some (m3, d)
      end
    else m' <- mm_bwd_tail fuel m d s n ;; Some (m', d).

(** The 32-byte loop of zpl_memset, code/header/essentials/memory.h:235-243 *)
Fixpoint ms_loop (fuel : nat) (m : mem) (s n c64 : Z) : option mem :=
  if 31 <? n then
    match fuel with
    | O => None
    | S f =>
      m <- store64a m (s + 0) c64 ;;
      m <- store64a m (s + 8) c64 ;;
      m <- store64a m (s + 16) c64 ;;
      m <- store64a m (s + 24) c64 ;;
      ms_loop f m (s + 32) (n - 32) c64
    end
  else Some m.

(** zpl_memset, code/header/essentials/memory.h:191-247. [s[0] = s[n-1] = c] is the
    two stores right to left. A negative [n] stores before the start (line 199 on),
    as in C. *)
Definition memset (m : mem) (dest c n : Z) : option (mem * Z) :=
  if dest =? 0 then Some (m, 0) else
  let s := dest in
  let c32 := u32 ((2^32 - 1) / 255 * c) in
  if n =? 0 then Some (m, dest) else
  m <- store8 m (s + (n-1)) c ;; m <- store8 m (s + 0) c ;;
  if n <? 3 then Some (m, dest) else
  m <- store8 m (s + (n-2)) c ;; m <- store8 m (s + 1) c ;;
  m <- store8 m (s + (n-3)) c ;; m <- store8 m (s + 2) c ;;
  if n <? 7 then Some (m, dest) else
  m <- store8 m (s + (n-4)) c ;; m <- store8 m (s + 3) c ;;
  if n <? 9 then Some (m, dest) else
  let k := Z.land (- s) 3 in
  let s := s + k in
  let n := Z.land (n - k) (-4) in
  m <- store32a m (s + 0) c32 ;;
  m <- store32a m (s + n - 4) c32 ;;
  if n <? 9 then Some (m, dest) else
  m <- store32a m (s + 4) c32 ;;
  m <- store32a m (s + 8) c32 ;;
  m <- store32a m (s + n - 12) c32 ;;
  m <- store32a m (s + n - 8) c32 ;;
  if n <? 25 then Some (m, dest) else
  m <- store32a m (s + 12) c32 ;;
  m <- store32a m (s + 16) c32 ;;
  m <- store32a m (s + 20) c32 ;;
  m <- store32a m (s + 24) c32 ;;
  m <- store32a m (s + n - 28) c32 ;;
  m <- store32a m (s + n - 24) c32 ;;
  m <- store32a m (s + n - 20) c32 ;;
  m <- store32a m (s + n - 16) c32 ;;
  let k := 24 + Z.land s 4 in
  let s := s + k in
  let n := n - k in
  let c64 := Z.lor (u64 (Z.shiftl c32 32)) c32 in
  m <- ms_loop (Z.to_nat n) m s n c64 ;;
  Some (m, dest).

(** zpl_memcompare, code/header/essentials/memory.h:249-260 *)
Fixpoint memcompare_loop (m : mem) (s1 s2 : Z) (size : nat) : option Z :=
  match size with
  | O => Some 0
  | S k =>
    a <- load8 m s1 ;; b <- load8 m s2 ;;
    let d := a - b in
    if negb (d =? 0) then Some d else memcompare_loop m (s1+1) (s2+1) k
  end.
Definition memcompare (m : mem) (s1 s2 size : Z) : option Z :=
  if (s1 =? 0) || (s2 =? 0) then Some 0 else
  if size <? 0 then None (* [while (size--)] runs through all of memory *)
  else memcompare_loop m s1 s2 (Z.to_nat size).

(** zpl_memswap, code/source/essentials/memory.c:9-36. The 4- and 8-byte paths use
    word accesses; unlike memset/memmove nothing aligns them, so they are modelled
    as the unaligned accesses every supported target performs. *)
Fixpoint swap_bytes (m : mem) (a b : Z) (n : nat) : option mem :=
  match n with
  | O => Some m
  | S k =>
    x <- load8 m a ;; y <- load8 m b ;;
    m <- store8 m a y ;; m <- store8 m b x ;;
    swap_bytes m (a+1) (b+1) k
  end.
Definition swap_word (m : mem) (i j : Z) (k : nat) : option mem :=
  x <- loadn m i k ;; y <- loadn m j k ;; m <- storen m i k y ;; storen m j k x.
(** lines 32-34: through the 256-byte buffer; the inner memcopy calls are libc
    memcpy (destination not NULL there). *)
Definition swap_buffer (m : mem) (i j n : Z) : option mem :=
  buf <- load_range m i (Z.to_nat n) ;;
  '(m, _) <- memcopy m i j n ;;
  store_range m j buf.
(** lines 25-30: the chunk loop; the recursive call has size 256 and therefore
    goes straight to lines 32-34. *)
Fixpoint swap_chunks (fuel : nat) (m : mem) (i j size : Z) : option mem :=
  if 256 <? size then
    match fuel with
    | O => None
    | S f => m <- swap_buffer m i j 256 ;; swap_chunks f m (i+256) (j+256) (size-256)
    end
  else swap_buffer m i j size.
Definition memswap (m : mem) (i j size : Z) : option mem :=
  if i =? j then Some m else
  if size =? 4 then swap_word m i j 4
  else if size =? 8 then swap_word m i j 8
  else if size <? 8 then
    if size <? 0 then None else swap_bytes m i j (Z.to_nat size)
  else swap_chunks (Z.to_nat size) m i j size.

(** ZPL__ONES, ZPL__HIGHS, ZPL__HAS_ZERO, code/header/essentials/memory.h:111-113 *)
Definition ONES : Z := (2^64 - 1) / 255.
Definition HIGHS : Z := u64 (ONES * (255 / 2 + 1)).
Definition has_zero (x : Z) : bool :=
  negb (Z.land (Z.land (u64 (x - ONES)) (u64 (Z.lnot x))) HIGHS =? 0).

(** zpl_memchr, code/source/essentials/memory.c:38-60; NULL is [Some None].
    [Z.land s 7] is [(zpl_uintptr) s & (sizeof(zpl_usize) - 1)]. *)
Fixpoint mc_head (fuel : nat) (m : mem) (s c n : Z) : option (Z * Z) :=
  if Z.land s 7 =? 0 then Some (s, n) else
  if n =? 0 then Some (s, n) else
  b <- load8 m s ;;
  if b =? c then Some (s, n) else
  match fuel with O => None | S f => mc_head f m (s+1) c (n-1) end.
Fixpoint mc_words (fuel : nat) (m : mem) (w k n : Z) : option (Z * Z) :=
  if 8 <=? n then
    x <- load64a m w ;;
    if has_zero (Z.lxor x k) then Some (w, n) else
    match fuel with O => None | S f => mc_words f m (w+8) k (n-8) end
  else Some (w, n).
Fixpoint mc_tail (fuel : nat) (m : mem) (s c n : Z) : option (Z * Z) :=
  if n =? 0 then Some (s, n) else
  b <- load8 m s ;;
  if b =? c then Some (s, n) else
  match fuel with O => None | S f => mc_tail f m (s+1) c (n-1) end.
Definition memchr (m : mem) (data c n : Z) : option (option Z) :=
  let fuel := Z.to_nat n in
  '(s, n) <- mc_head fuel m data c n ;;
  '(s, n) <-
    (if n =? 0 then Some (s, n) else
     b <- load8 m s ;;
     if b =? c then Some (s, n) else
     let k := u64 (ONES * c) in
     '(s, n) <- mc_words fuel m s k n ;;
     mc_tail fuel m s c n) ;;
  Some (if n =? 0 then None else Some s).

(** zpl_memrchr, code/source/essentials/memory.c:62-68 *)
Fixpoint memrchr_loop (m : mem) (s c : Z) (n : nat) : option (option Z) :=
  match n with
  | O => Some None
  | S k =>
    b <- load8 m (s + Z.of_nat k) ;;
    if b =? c then Some (Some (s + Z.of_nat k)) else memrchr_loop m s c k
  end.
Definition memrchr (m : mem) (data c n : Z) : option (option Z) :=
  if n <? 0 then None else memrchr_loop m data c (Z.to_nat n).
