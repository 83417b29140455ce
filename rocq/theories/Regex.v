(** Regular expressions: code/header/regex.h, code/source/regex.c.

    The compiled program and the texts are byte lists (0..255); operands that the code reads through a
    [char] are taken as signed. [None]: an access outside the subject, the pattern or the used part of the
    program, or a loop that goes on longer than the fuel given (functions with a first argument [f]).
    A capture is kept as the offset of its start in the subject and its length. Allocation succeeds;
    the resized program keeps its bytes. *)
From Verif Require Import Base CStr.

(** zplreOp, regex.c:6-28 *)
Definition BEGIN_CAPTURE := 0.
Definition END_CAPTURE := 1.
Definition BEGINNING_OF_LINE := 2.
Definition END_OF_LINE := 3.
Definition EXACT_MATCH := 4.
Definition META_MATCH := 5.
Definition ANY := 6.
Definition ANY_OF := 7.
Definition ANY_BUT := 8.
Definition ZERO_OR_MORE := 9.
Definition ONE_OR_MORE := 10.
Definition ZERO_OR_MORE_SHORTEST := 11.
Definition ONE_OR_MORE_SHORTEST := 12.
Definition ZERO_OR_ONE := 13.
Definition BRANCH_START := 14.
Definition BRANCH_END := 15.
(** zpl_regex_error, regex.h:62-71 *)
Inductive re_error := ReNone | ReNoMatch | ReTooLong | ReMismatchedCaptures | ReMismatchedBlocks | ReBranchFailure | ReInvalidQuantifier | ReInternalFailure.
(** regex.c:55-56, [^$()\[\].*+?|\\] and the blanks *)
Definition META_CHARS : list Z := [94; 36; 40; 41; 91; 93; 46; 42; 43; 63; 124; 92].
Definition WHITESPACE : list Z := [32; 13; 9; 10; 11; 12].
Definition NO_MATCH := -1.
Definition INTERNAL_FAILURE := -2.
(** zpl_re__strfind, regex.c:80-88, from offset 0 with the contract of zpl_memchr (C07): whether it is found *)
Definition found (c : Z) (s : list Z) : bool := existsb (Z.eqb c) s.
(** an access at a signed index *)
Definition at_ (s : list Z) (i : Z) : option Z := if i <? 0 then None else nth_error s (Z.to_nat i).

(** ** Matching *)
Definition between (a c b : Z) : bool := (a <=? c) && (c <=? b).
Definition word_char (c : Z) : bool := between 65 c 90 || between 97 c 122 || between 48 c 57 || (c =? 95).
(** zpl_re__match_escape, regex.c:90-112; the code is [k << 8] *)
Definition match_escape (c k : Z) : bool :=
  if k =? 0 then c =? 0
  else if k =? 1 then found c WHITESPACE
  else if k =? 2 then negb (found c WHITESPACE)
  else if k =? 3 then between 48 c 57
  else if k =? 4 then negb (between 48 c 57)
  else if k =? 5 then between 65 c 90 || between 97 c 122
  else if k =? 6 then between 97 c 122
  else if k =? 7 then between 65 c 90
  else if k =? 8 then word_char c
  else if k =? 9 then negb (word_char c)
  else if k =? 10 then found c [48; 49; 50; 51; 52; 53; 54; 55; 56; 57; 65; 66; 67; 68; 69; 70; 97; 98; 99; 100; 101; 102]
  else if k =? 11 then between 32 c 126
  else false.
(** captures: NULL or an array *)
Definition captures := option (list (Z * Z)).
(** [captures\[capture\] = ...] if [capture < max_capture_count] *)
Definition set_capture (caps : captures) (max capture : Z) (g : Z * Z -> Z * Z) : option captures :=
  match caps with
  | None => Some None
  | Some cs => if capture <? max
               then x <- nth_error cs (Z.to_nat capture) ;; Some (Some (firstn (Z.to_nat capture) cs ++ g x :: skipn (S (Z.to_nat capture)) cs))
               else Some caps
  end.
(** the loops over a set, regex.c:211-220 and 239-247: the index at which an entry accepts the character, or at which the loop ends *)
Fixpoint set_loop (f : nat) (buf : list Z) (op n i cin : Z) : option (bool * Z) :=
  match f with
  | O => None
  | S f =>
    if i <? n then
      m <- at_ buf (op + i) ;;
      if m =? 0 then k <- at_ buf (op + i + 1) ;; if match_escape cin k then Some (true, i + 1) else set_loop f buf op n (i + 2) cin
      else if cin =? m then Some (true, i) else set_loop f buf op n (i + 1) cin
    else Some (false, i)
  end.
(** zpl_re__exec_single, regex.c:146-342; zpl_re__exec, regex.c:344-357; the loop of zpl_re__consume,
    regex.c:124-141: the captures, the op and the offset *)
Fixpoint exec_single (f : nat) (buf s : list Z) (len op offset : Z) (caps : captures) (max : Z) : option (captures * Z * Z) :=
  match f with
  | O => None
  | S f =>
    code <- at_ buf op ;;
    let op := op + 1 in
    let fail op := Some (caps, op, NO_MATCH) in
    if code =? BEGIN_CAPTURE then
      k <- at_ buf op ;; caps <- set_capture caps max k (fun x => (offset, snd x)) ;; Some (caps, op + 1, offset)
    else if code =? END_CAPTURE then
      k <- at_ buf op ;; caps <- set_capture caps max k (fun x => (fst x, offset - fst x)) ;; Some (caps, op + 1, offset)
    else if code =? BEGINNING_OF_LINE then if offset =? 0 then Some (caps, op, offset) else fail op
    else if code =? END_OF_LINE then if offset =? len then Some (caps, op, offset) else fail op
    else if code =? BRANCH_START then
      skip <- at_ buf op ;;
      let op := op + 1 in
      ' (caps, op', offset') <- exec f buf s len op offset caps max ;;
      if offset' <=? len then Some (caps, op', offset') else exec f buf s len (op + i8 skip) offset caps max
    else if code =? BRANCH_END then skip <- at_ buf op ;; Some (caps, op + 1 + i8 skip, offset)
    else if code =? ANY then if offset <? len then Some (caps, op, offset + 1) else fail op
    else if code =? ANY_OF then
      cin <- at_ s offset ;; n <- at_ buf op ;;
      let n := i8 n in
      let op := op + 1 in
      if len <=? offset then fail (op + n)
      else ' (_, i) <- set_loop (S (Z.to_nat n)) buf op n 0 cin ;; if i =? n then fail (op + n) else Some (caps, op + n, offset + 1)
    else if code =? ANY_BUT then
      cin <- at_ s offset ;; n <- at_ buf op ;;
      let n := i8 n in
      let op := op + 1 in
      if len <=? offset then fail (op + n)
      else ' (m, _) <- set_loop (S (Z.to_nat n)) buf op n 0 cin ;; if m : bool then fail (op + n) else Some (caps, op + n, offset + 1)
    else if code =? EXACT_MATCH then
      n <- at_ buf op ;;
      let n := i8 n in
      let op := op + 1 in
      if len - offset <? n then fail (op + n)
      else
        r <- (if (n <=? 0) then Some 0
              else if (offset <? 0) then None
              else strncmp (Z.to_nat n) 0 1 (skipn (Z.to_nat offset) s) (skipn (Z.to_nat op) buf)) ;;
        if negb (r =? 0) then fail (op + n) else Some (caps, op + n, offset + n)
    else if code =? META_MATCH then
      cin <- at_ buf op ;; cmatch <- at_ s offset ;;
      let op := op + 1 in
      let offset := offset + 1 in
      if cin =? 0 then k <- at_ buf op ;; if match_escape cmatch k then Some (caps, op + 1, offset) else fail (op + 1)
      else if cin =? cmatch then Some (caps, op, offset) else fail op
    else if code =? ZERO_OR_MORE then consume f buf s len op offset (NO_MATCH, offset) caps max true
    else if code =? ONE_OR_MORE then
      ' (caps, op', offset') <- exec_single f buf s len op offset caps max ;;
      if len <? offset' then Some (caps, op', offset') else consume f buf s len op offset (NO_MATCH, offset) caps max true
    else if code =? ZERO_OR_MORE_SHORTEST then consume f buf s len op offset (NO_MATCH, offset) caps max false
    else if code =? ONE_OR_MORE_SHORTEST then
      ' (caps, op', offset') <- exec_single f buf s len op offset caps max ;;
      if len <? offset' then Some (caps, op', offset') else consume f buf s len op offset (NO_MATCH, offset) caps max false
    else if code =? ZERO_OR_ONE then
      ' (caps, op1, offset1) <- exec_single f buf s len op offset caps max ;;
      ' (caps, r) <- (if offset1 <=? len then
                        ' (caps, op2, offset2) <- exec f buf s len op1 offset1 caps max ;;
                        Some (caps, if offset2 <=? len then Some (op2, offset2) else None)
                      else Some (caps, None)) ;;
      match r with
      | Some (op2, offset2) => Some (caps, op2, offset2)
      | None =>
        ' (caps, op3, offset3) <- exec f buf s len op1 offset caps max ;;
        if offset3 <=? len then Some (caps, op3, offset3) else Some (caps, op, NO_MATCH)
      end
    else Some (caps, op, INTERNAL_FAILURE)
  end
with exec (f : nat) (buf s : list Z) (len op offset : Z) (caps : captures) (max : Z) : option (captures * Z * Z) :=
  match f with
  | O => None
  | S f =>
    if op <? Z.of_nat (length buf) then
      ' (caps, op, offset) <- exec_single f buf s len op offset caps max ;;
      if (len <? offset) || (offset =? -1) then Some (caps, op, offset) else exec f buf s len op offset caps max
    else Some (caps, op, offset)
  end
with consume (f : nat) (buf s : list Z) (len op offset : Z) (best : Z * Z) (caps : captures) (max : Z) (greedy : bool) : option (captures * Z * Z) :=
  match f with
  | O => None
  | S f =>
    ' (_, op1, offset1) <- exec_single f buf s len op offset None 0 ;;
    if (len <? offset1) || (offset1 =? -1) then Some (caps, fst best, snd best)
    else if Z.of_nat (length buf) <=? op1 then Some (caps, op1, offset1)
    else
      ' (caps, op2, offset2) <- exec f buf s len op1 offset1 caps max ;;
      ' (caps, best) <- (if offset2 <=? len then
                           caps <- (match caps with Some _ => ' (caps, _, _) <- exec f buf s len op1 offset1 caps max ;; Some caps | None => Some None end) ;;
                           Some (caps, (op2, offset2))
                         else Some (caps, best)) ;;
      if (offset2 <=? len) && negb greedy then Some (caps, fst best, snd best)
      else consume f buf s len op offset1 (if Z.of_nat (length buf) <? fst best then op1 else fst best, snd best) caps max greedy
  end.
(** zpl_re_match, regex.c:715-732: the captures, the result and the offset if it is set. The fuel is more
    than the steps on any path of calls: at most all ops, each with at most one round for every character. *)
Definition exec_fuel (buf : list Z) (len : Z) : nat := 4 * (length buf + 2) * (Z.to_nat len + 3).
Fixpoint match_from (n : nat) (buf s : list Z) (len i : Z) (caps : captures) (max : Z) : option (captures * bool * option Z) :=
  match n with
  | O => Some (caps, false, None)
  | S n =>
    ' (caps, _, o) <- exec (exec_fuel buf len) buf s len 0 i caps max ;;
    if (0 <=? o) && (o <=? len) then Some (caps, true, Some o)
    else if o =? INTERNAL_FAILURE then Some (caps, false, None)
    else match_from n buf s len (i + 1) caps max
  end.
Definition re_match (buf s : list Z) (len : Z) (caps : captures) (max : Z) : option (captures * bool * option Z) :=
  match buf with
  | [] => Some (caps, true, None)
  | c :: _ => match_from (if c =? BEGINNING_OF_LINE then 1%nat else Z.to_nat len) buf s len 0 caps max
  end.

(** ** Compiling *)
(** zpl_re, regex.h:48-54: what matters of it *)
Record re := Re { capture_count : Z; buf : list Z; cap : Z; can_realloc : bool }.
Definition buf_len (r : re) : Z := Z.of_nat (length (buf r)).
Definition with_buf (r : re) (b : list Z) : re := Re (capture_count r) b (cap r) (can_realloc r).
(** room for [n] more, regex.c:362-371 and 387-396 *)
Definition reserve (r : re) (n : Z) : option re :=
  if buf_len r + n <=? cap r then Some r
  else if can_realloc r then Some (Re (capture_count r) (buf r) (cap r * 2 + n) true) else None.
(** zpl_re__emit_ops, regex.c:359-384 *)
Fixpoint push_ops (r : re) (vs : list Z) : re * re_error :=
  match vs with
  | [] => (r, ReNone)
  | v :: vs => if 256 <? v then (r, ReTooLong) else push_ops (with_buf r (buf r ++ [v mod 256])) vs
  end.
Definition emit_ops (r : re) (vs : list Z) : re * re_error :=
  match reserve r (Z.of_nat (length vs)) with Some r => push_ops r vs | None => (r, ReTooLong) end.
(** zpl_re__emit_ops_buffer, regex.c:386-404 *)
Definition emit_buffer (r : re) (bs : list Z) : re * re_error :=
  match reserve r (Z.of_nat (length bs)) with Some r => (with_buf r (buf r ++ bs), ReNone) | None => (r, ReTooLong) end.
(** zpl_re__encode_escape, regex.c:406-436 *)
Definition encode_escape (c : Z) : Z :=
  if c =? 116 then 9 else if c =? 110 then 10 else if c =? 114 then 13 else if c =? 102 then 12 else if c =? 118 then 11
  else if c =? 48 then 0
  else if c =? 115 then 0x100 else if c =? 83 then 0x200
  else if c =? 100 then 0x300 else if c =? 68 then 0x400
  else if c =? 97 then 0x500 else if c =? 108 then 0x600 else if c =? 117 then 0x700
  else if c =? 119 then 0x800 else if c =? 87 then 0x900
  else if c =? 120 then 0xa00 else if c =? 112 then 0xb00
  else i8 c.
(** zpl_re__hex, regex.c:76-78 *)
Definition re_hex (c d : Z) : Z := Z.lor (Z.land (Z.shiftl (char_to_hex_digit c) 4) 0xf0) (Z.land (char_to_hex_digit d) 0x0f).
(** the loop of zpl_re__parse_group, regex.c:450-496: the set, and the offset after the bracket or the error *)
Fixpoint group_loop (f : nat) (p : list Z) (len offset : Z) (b : list Z) : option (list Z * (Z + re_error)) :=
  match f with
  | O => None
  | S f =>
    if offset <? len then
      c <- at_ p offset ;;
      if c =? 93 then Some (b, inl (offset + 1))
      else if 256 <=? Z.of_nat (length b) then Some (b, inr ReTooLong)
      else if c =? 92 then
        let offset := offset + 1 in
        hex <- (if offset + 1 <? len then h <- at_ p offset ;; Some (char_is_hex_digit h) else Some false) ;;
        if hex : bool then
          h <- at_ p offset ;; d <- at_ p (offset + 1) ;;
          group_loop f p len (offset + 2) (b ++ [re_hex h d])
        else if offset <? len then
          x <- at_ p offset ;;
          let code := encode_escape x in
          if (code =? 0) || (255 <? code) then
            if 256 <=? Z.of_nat (length b) + 1 then Some (b, inr ReTooLong)
            else group_loop f p len (offset + 1) (b ++ [0; Z.shiftr code 8 mod 256])
          else group_loop f p len (offset + 1) (b ++ [code mod 256])
        else group_loop f p len (offset + 1) b
      else group_loop f p len (offset + 1) (b ++ [c])
    else Some (b, inr ReMismatchedBlocks)
  end.
(** zpl_re__parse_group, regex.c:438-502: the offset if it is set *)
Definition parse_group (r : re) (p : list Z) (len offset : Z) : option (re * re_error * option Z) :=
  c <- at_ p offset ;;
  let neg := c =? 94 in
  ' (b, e) <- group_loop (S (Z.to_nat len)) p len (if neg then offset + 1 else offset) [] ;;
  match e with
  | inr err => Some (r, err, None)
  | inl o =>
    let (r, err) := emit_ops r [if neg then ANY_BUT else ANY_OF; Z.of_nat (length b)] in
    match err with
    | ReNone => let (r, err) := emit_buffer r b in match err with ReNone => Some (r, ReNone, Some o) | _ => Some (r, err, None) end
    | _ => Some (r, err, None)
    end
  end.
Definition put (b : list Z) (i v : Z) : option (list Z) :=
  if (0 <=? i) && (i <? Z.of_nat (length b)) then Some (firstn (Z.to_nat i) b ++ v :: skipn (S (Z.to_nat i)) b) else None.
(** zpl_re__compile_quantifier, regex.c:504-529. The move at the end writes one byte behind the program. *)
Definition compile_quantifier (r : re) (last q : Z) : option (re * re_error) :=
  c <- at_ (buf r) last ;;
  n <- (if c =? EXACT_MATCH then n <- at_ (buf r) (last + 1) ;; Some (i8 n) else Some 0) ;;
  if (c =? EXACT_MATCH) && (1 <? n) then
    x <- at_ (buf r) (buf_len r - 1) ;;
    b <- put (buf r) (last + 1) ((n - 1) mod 256) ;;
    Some (emit_ops (with_buf r (removelast b)) [q; EXACT_MATCH; 1; x])
  else
    let (r', err) := emit_ops r [0] in
    match err with
    | ReNone =>
      if cap r' <=? buf_len r' then None
      else Some (with_buf r' (firstn (Z.to_nat last) (buf r) ++ q :: skipn (Z.to_nat last) (buf r)), ReNone)
    | _ => Some (r', err)
    end.
(** the length of a literal, regex.c:661-664 *)
Fixpoint literal_len (s : list Z) : Z := match s with [] => 0 | c :: r => if found c META_CHARS then 0 else 1 + literal_len r end.
Definition quantifiable (r : re) (last : Z) : option bool :=
  if buf_len r <=? last then Some false
  else c <- at_ (buf r) last ;; Some (negb ((i8 c <? EXACT_MATCH) || (ANY_BUT <? i8 c))).
(** zpl_re__parse, regex.c:531-679: the offset if it is set. The arguments after [level]: [last_buf_len],
    [branch_begin], [branch_op]. *)
Fixpoint parse_loop (f : nat) (r : re) (p : list Z) (len offset level last bb bop : Z) : option (re * re_error * option Z) :=
  match f with
  | O => None
  | S f =>
    if offset <? len then
      c <- at_ p offset ;;
      let offset := offset + 1 in
      let next r last bop offset := parse_loop f r p len offset level last bb bop in
      let emit r vs (k : re -> option (re * re_error * option Z)) := let (r, err) := emit_ops r vs in match err with ReNone => k r | _ => Some (r, err, None) end in
      if c =? 94 then emit r [BEGINNING_OF_LINE] (fun r => next r last bop offset)
      else if c =? 36 then emit r [END_OF_LINE] (fun r => next r last bop offset)
      else if c =? 40 then
        let capture := capture_count r in
        let r := Re (capture + 1) (buf r) (cap r) (can_realloc r) in
        let last := buf_len r in
        emit r [BEGIN_CAPTURE; capture] (fun r =>
          ' (r, _, o) <- parse_loop f r p len offset (level + 1) (buf_len r) (buf_len r) (-1) ;;
          let offset := match o with Some o => o | None => offset end in
          x <- at_ p (offset - 1) ;;
          if (len <? offset) || negb (x =? 41) then Some (r, ReMismatchedCaptures, None)
          else emit r [END_CAPTURE; capture] (fun r => next r last bop offset))
      else if c =? 41 then
        b <- (if bop =? -1 then Some (buf r) else put (buf r) (bop + 1) ((buf_len r - (bop + 2)) mod 256)) ;;
        let r := with_buf r b in
        if level =? 0 then Some (r, ReMismatchedCaptures, None) else Some (r, ReNone, Some offset)
      else if c =? 91 then
        let last := buf_len r in
        ' (r, err, o) <- parse_group r p len offset ;;
        let offset := match o with Some o => o | None => offset end in
        if len <? offset then Some (r, err, None) else next r last bop offset
      else if c =? 124 then
        if buf_len r <=? bb then Some (r, ReBranchFailure, None)
        else
          let size := buf_len r - bb in
          let body := skipn (Z.to_nat bb) (buf r) in
          let before := firstn (Z.to_nat bb) (buf r) in
          emit r [0; 0; BRANCH_END; 0] (fun r =>
            let r := with_buf r (before ++ [BRANCH_START; (size + 2) mod 256] ++ body ++ [BRANCH_END; 0]) in
            next r last (buf_len r - 2) offset)
      else if c =? 46 then emit r [ANY] (fun r' => next r' (buf_len r) bop offset)
      else if (c =? 42) || (c =? 43) then
        ok <- quantifiable r last ;;
        if negb ok then Some (r, ReInvalidQuantifier, None)
        else
          lazy <- (if offset <? len then d <- at_ p offset ;; Some (d =? 63) else Some false) ;;
          let q := if lazy : bool then ONE_OR_MORE_SHORTEST else if c =? 42 then ZERO_OR_MORE else ONE_OR_MORE in
          ' (r, err) <- compile_quantifier r last q ;;
          match err with ReNone => next r last bop (if lazy then offset + 1 else offset) | _ => Some (r, err, None) end
      else if c =? 63 then
        ok <- quantifiable r last ;;
        if negb ok then Some (r, ReInvalidQuantifier, None)
        else
          ' (r, err) <- compile_quantifier r last ZERO_OR_ONE ;;
          match err with ReNone => next r last bop offset | _ => Some (r, err, None) end
      else if c =? 92 then
        let last := buf_len r in
        hex <- (if offset + 1 <? len then h <- at_ p offset ;; Some (char_is_hex_digit h) else Some false) ;;
        if hex : bool then
          h <- at_ p offset ;; d <- at_ p (offset + 1) ;;
          emit r [META_MATCH; re_hex h d] (fun r => next r last bop (offset + 2))
        else if offset <? len then
          x <- at_ p offset ;;
          let code := encode_escape x in
          if (code =? 0) || (255 <? code) then emit r [META_MATCH; 0; Z.shiftr code 8 mod 256] (fun r => next r last bop (offset + 1))
          else emit r [META_MATCH; code] (fun r => next r last bop (offset + 1))
        else next r last bop offset
      else
        let start := skipn (Z.to_nat (offset - 1)) p in
        let size := literal_len (firstn (Z.to_nat (len - (offset - 1))) start) in
        emit r [EXACT_MATCH; size] (fun r' =>
          let (r', err) := emit_buffer r' (firstn (Z.to_nat size) start) in
          match err with ReNone => next r' (buf_len r) bop (offset - 1 + size) | _ => Some (r', err, None) end)
    else Some (r, ReNone, Some offset)
  end.
Definition parse (f : nat) (r : re) (p : list Z) (len : Z) : option (re * re_error * option Z) :=
  parse_loop f r p len 0 0 (buf_len r) (buf_len r) (-1).
(** zpl_re_compile_from_buffer, regex.c:681-691; zpl_re_compile, regex.c:693-711: the expression, the error
    and whether the program is freed again *)
Definition compile_from_buffer (f : nat) (p : list Z) (len buffer_len : Z) : option (re * re_error) :=
  ' (r, err, _) <- parse f (Re 0 [] 0 false) p len ;; Some (r, err).
Definition compile (f : nat) (p : list Z) (len : Z) : option (re * re_error * bool) :=
  ' (r, err, o) <- parse f (Re 0 [] (len + 128) true) p len ;;
  Some (r, err, negb ((match o with Some o => o | None => 0 end) =? len)).
(** the loop of zpl_re_match_all, regex.c:745-758: whether it reports success, and the captures added. [cps]: the
    array of captures, counted from the current position [base]; at first it is not initialised. *)
Fixpoint match_all (f : nat) (buf s : list Z) (len base : Z) (cps : list (Z * Z)) (max : Z) (out : list (Z * Z)) : option (bool * list (Z * Z)) :=
  match f with
  | O => None
  | S f =>
    if 0 <? len then
      ' (caps, ok, o) <- re_match buf s len (Some cps) max ;;
      match caps with
      | None => None
      | Some cps =>
        if negb ok then Some (false, out)
        else
          let k := match o with Some o => o | None => 0 end in
          match_all f buf (skipn (Z.to_nat k) s) (len - k) (base + k) (map (fun x => (fst x - k, snd x)) cps) max
                    (out ++ map (fun x => (base + fst x, snd x)) (firstn (Z.to_nat max) cps))
      end
    else Some (true, out)
  end.
