(** C34, C35: base64. *)
From Verif Require Import Base Base64 Base64Spec Base64Proofs.

(** the encoder produces RFC 4648 text followed by a terminator, writing every byte of
    the buffer it allocated and nothing else *)
Theorem C34_base64_encode : forall m, bytes m -> m <> [] ->
  base64_encode m = Some (Some (map Some (rfc_encode m) ++ [Some 0])) /\
  Z.of_nat (length (rfc_encode m)) = 4 * ((Z.of_nat (length m) + 2) / 3) /\
  Forall alphabet (rfc_encode m).
Proof.
  intros m B H. split; [now apply encode_ok|]. split; [|now apply rfc_alphabet].
  rewrite rfc_length. unfold enc_len. rewrite Nat2Z.inj_mul, Nat2Z.inj_div, Nat2Z.inj_add. reflexivity.
Qed.
(** decoding that text gives the bytes back *)
Theorem C34_base64_round_trip : forall m, bytes m -> m <> [] ->
  exists t, base64_encode m = Some (Some (map Some t ++ [Some 0])) /\
    base64_decode (t ++ [0]) (Z.of_nat (length t)) = Some (Some (map Some m ++ [Some 0])).
Proof. intros m B H. exists (rfc_encode m). split; [now apply encode_ok|now apply decode_ok]. Qed.
Theorem C34_base64_empty : base64_encode [] = Some None.
Proof. reflexivity. Qed.
(** "hello" *)
Example C34_example : base64_encode [104; 101; 108; 108; 111] = Some (Some (map Some [97;71;86;115;98;71;56;61] ++ [Some 0]))
  /\ base64_decode [97;71;86;115;98;71;56;61;0] 8 = Some (Some (map Some [104; 101; 108; 108; 111] ++ [Some 0])).
Proof. vm_compute. split; reflexivity. Qed.

(** for text made of base64 characters, the exact condition for staying in bounds *)
Theorem C35_base64_decode_bounds : forall t, Forall alphabet t -> t <> [] ->
  (exists r, base64_decode (t ++ [0]) (Z.of_nat (length t)) = Some r) <-> (Z.of_nat (length t) mod 4 = 0 /\ (padding t <= 3)%nat).
Proof. exact decode_safe_iff. Qed.
(** other text is rejected, but only after the output size has been computed from it *)
Theorem C35_base64_decode_foreign : forall t, bytes t -> Forall (fun c => c <> 0) t -> ~ Forall alphabet t ->
  base64_decode (t ++ [0]) (Z.of_nat (length t)) =
    if Z.of_nat (padding t) <=? 3 * (Z.of_nat (length t) / 4) then Some None else None.
Proof. exact decode_bad. Qed.
(** "====" and "!====" write before the buffer, "abc" indexes the table with a negative number *)
Theorem C35_base64_decode_refuted :
  base64_decode [61; 61; 61; 61; 0] 4 = None /\ base64_decode [33; 61; 61; 61; 61; 0] 5 = None /\
  base64_decode [97; 98; 99; 0] 3 = None.
Proof. vm_compute. repeat split; reflexivity. Qed.
Example C35_example : base64_decode [97; 98; 99; 100; 97; 61; 61; 61; 0] 8 <> None /\ base64_decode [33; 61; 61; 61; 0] 4 = Some None.
Proof. vm_compute. split; [discriminate|reflexivity]. Qed.

Print Assumptions C34_base64_encode.
Print Assumptions C34_base64_round_trip.
Print Assumptions C35_base64_decode_bounds.
Print Assumptions C35_base64_decode_foreign.
Print Assumptions C35_base64_decode_refuted.
