(** Base64, code/source/hashing.c:176-324.

    Input bytes are a list; reading outside it, indexing a table outside its entries and
    writing outside the allocated result are [None]. The result buffer is a list of
    cells, [None] meaning not yet written. Allocation of a non-negative size succeeds
    (the NULL result of a failing allocator is asserted away, hashing.c:298). *)
From Verif Require Import Base.

Definition cells := list (option Z).
(** [ret[i] = v] *)
Fixpoint set_cell (b : cells) (i : nat) (v : Z) : option cells :=
  match b, i with
  | [], _ => None
  | _ :: r, O => Some (Some v :: r)
  | c :: r, S k => r <- set_cell r k v ;; Some (c :: r)
  end.
Definition store (b : cells) (i v : Z) : option cells :=
  if i <? 0 then None else set_cell b (Z.to_nat i) v.
Definition alloc (size : Z) : option cells := if size <? 0 then None else Some (repeat None (Z.to_nat size)).
Definition get (s : list Z) (i : Z) : option Z := if i <? 0 then None else nth_error s (Z.to_nat i).

(** zpl__base64_chars, hashing.c:178 *)
Definition b64_chars : list Z :=
  [65;66;67;68;69;70;71;72;73;74;75;76;77;78;79;80;81;82;83;84;85;86;87;88;89;90;
   97;98;99;100;101;102;103;104;105;106;107;108;109;110;111;112;113;114;115;116;117;118;119;120;121;122;
   48;49;50;51;52;53;54;55;56;57;43;47].
(** zpl__base64_dec_table, hashing.c:195-201 *)
Definition b64_dec_table : list Z :=
  [62; -1; -1; -1; 63; 52; 53; 54; 55; 56; 57; 58;
   59; 60; 61; -1; -1; -1; -1; -1; -1; -1; 0; 1; 2; 3; 4; 5;
   6; 7; 8; 9; 10; 11; 12; 13; 14; 15; 16; 17; 18; 19; 20;
   21; 22; 23; 24; 25; -1; -1; -1; -1; -1; -1; 26; 27; 28;
   29; 30; 31; 32; 33; 34; 35; 36; 37; 38; 39; 40; 41; 42;
   43; 44; 45; 46; 47; 48; 49; 50; 51].

(** hashing.c:203-214 *)
Definition encoded_size (len : Z) : Z :=
  let ret := if Z.rem len 3 =? 0 then len else len + (3 - Z.rem len 3) in
  Z.quot ret 3 * 4.

(** one round of the encoding loop, hashing.c:265-282 *)
Definition encode_step (s : list Z) (len i j : Z) (ret : cells) : option cells :=
  v <- get s i ;;
  v <- (if i + 1 <? len then x <- get s (i + 1) ;; Some (Z.lor (Z.shiftl v 8) x) else Some (Z.shiftl v 8)) ;;
  v <- (if i + 2 <? len then x <- get s (i + 2) ;; Some (Z.lor (Z.shiftl v 8) x) else Some (Z.shiftl v 8)) ;;
  c0 <- get b64_chars (Z.land (Z.shiftr v 18) 0x3F) ;;
  ret <- store ret j c0 ;;
  c1 <- get b64_chars (Z.land (Z.shiftr v 12) 0x3F) ;;
  ret <- store ret (j + 1) c1 ;;
  ret <- (if i + 1 <? len then c2 <- get b64_chars (Z.land (Z.shiftr v 6) 0x3F) ;; store ret (j + 2) c2
          else store ret (j + 2) 61) ;;
  if i + 2 <? len then c3 <- get b64_chars (Z.land v 0x3F) ;; store ret (j + 3) c3
  else store ret (j + 3) 61.
(** hashing.c:264-283 *)
Fixpoint encode_loop (fuel : nat) (s : list Z) (len i j : Z) (ret : cells) : option cells :=
  match fuel with
  | O => None
  | S f =>
    if i <? len then ret <- encode_step s len i j ret ;; encode_loop f s len (i + 3) (j + 4) ret
    else Some ret
  end.
(** zpl_base64_encode, hashing.c:251-285; the inner [None] is the NULL result *)
Definition base64_encode (s : list Z) : option (option cells) :=
  let len := Z.of_nat (length s) in
  if len =? 0 then Some None
  else
    let enc_len := encoded_size len in
    ret <- alloc (enc_len + 1) ;;
    ret <- store ret enc_len 0 ;;
    ret <- encode_loop (S (length s)) s len 0 0 ret ;;
    Some (Some ret).

(** zpl_strlen of the text *)
Fixpoint strlen (s : list Z) : option nat :=
  match s with
  | [] => None
  | c :: r => if c =? 0 then Some O else n <- strlen r ;; Some (S n)
  end.
(** hashing.c:227-233, counting down from [i] *)
Fixpoint trail (s : list Z) (i : nat) (ret : Z) : option Z :=
  match i with
  | O => Some ret
  | S k => c <- nth_error s k ;; if c =? 61 then trail s k (ret - 1) else Some ret
  end.
(** zpl__base64_decoded_size, hashing.c:216-236 *)
Definition decoded_size (s : list Z) : option Z :=
  len <- strlen s ;; trail s len (Z.quot (Z.of_nat len) 4 * 3).
(** hashing.c:238-249 *)
Definition valid_char (c : Z) : bool :=
  ((48 <=? c) && (c <=? 57)) || ((65 <=? c) && (c <=? 90)) || ((97 <=? c) && (c <=? 122)) ||
  (c =? 43) || (c =? 47) || (c =? 61).
(** hashing.c:302-305 *)
Fixpoint check_loop (s : list Z) (len : nat) {struct len} : option bool :=
  match len with
  | O => Some true
  | S k => match s with [] => None | c :: r => if valid_char c then check_loop r k else Some false end
  end.
(** one round of the decoding loop, hashing.c:308-320 *)
Definition decode_step (s : list Z) (i j : Z) (ret : cells) : option cells :=
  c0 <- get s i ;; v <- get b64_dec_table (c0 - 43) ;;
  c1 <- get s (i + 1) ;; x <- get b64_dec_table (c1 - 43) ;;
  let v := Z.lor (Z.shiftl v 6) x in
  c2 <- get s (i + 2) ;;
  v <- (if c2 =? 61 then Some (Z.shiftl v 6)
        else x <- get b64_dec_table (c2 - 43) ;; Some (Z.lor (Z.shiftl v 6) x)) ;;
  c3 <- get s (i + 3) ;;
  v <- (if c3 =? 61 then Some (Z.shiftl v 6)
        else x <- get b64_dec_table (c3 - 43) ;; Some (Z.lor (Z.shiftl v 6) x)) ;;
  ret <- store ret j (Z.land (Z.shiftr v 16) 0xFF) ;;
  ret <- (if c2 =? 61 then Some ret else store ret (j + 1) (Z.land (Z.shiftr v 8) 0xFF)) ;;
  if c3 =? 61 then Some ret else store ret (j + 2) (Z.land v 0xFF).
(** hashing.c:307-321 *)
Fixpoint decode_loop (fuel : nat) (s : list Z) (len i j : Z) (ret : cells) : option cells :=
  match fuel with
  | O => None
  | S f =>
    if i <? len then ret <- decode_step s i j ret ;; decode_loop f s len (i + 4) (j + 3) ret
    else Some ret
  end.
(** zpl_base64_decode, hashing.c:287-324 *)
Definition base64_decode (s : list Z) (len : Z) : option (option cells) :=
  alen <- decoded_size s ;;
  ret <- alloc (alen + 1) ;;
  ret <- store ret alen 0 ;;
  ok <- check_loop s (Z.to_nat len) ;;
  if ok then ret <- decode_loop (S (Z.to_nat len)) s len 0 0 ret ;; Some (Some ret) else Some None.
