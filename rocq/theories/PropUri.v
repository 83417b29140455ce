(** C51: URI query strings. *)
From Coq Require Import String.
From Verif Require Import Base CStr CStrSpec Num NumSpec Print PrintSpec Node Uri NodeProofs UriSpec UriProofs.

(** encoding: every NUL-free string has one percent-encoded form, and that is what is written *)
Theorem C51_encode : forall s, cstring s -> exists e, encodes s e /\ uri_print_str s = Some e /\ (forall e', encodes s e' -> e' = e).
Proof.
  intros s C. destruct (enc_exists s C) as (e & E). exists e. split; [easy|]. split; [now apply print_str_ok|]. intros e' E'. eapply enc_fun; eauto.
Qed.
Theorem C51_alphabet : forall s e, uri_print_str s = Some e -> cstring s -> forall c, In c e -> unreserved c \/ c = 43 \/ c = 37.
Proof.
  intros s e P C. destruct (C51_encode s C) as (e' & E & P' & _). rewrite P in P'. injection P' as ->. now apply (enc_alphabet s).
Qed.
Example C51_encode_ex : uri_print_str (asc "a b/%") = Some (asc "a+b%2F%25").
Proof.
  assert (N : forall c, c = 47 \/ c = 37 -> ~ unreserved c) by (unfold unreserved; change (asc "-._~") with [45; 46; 95; 126]; cbn [In]; lia).
  apply print_str_ok. apply (enc_plain 97); [unfold unreserved; lia|]. apply enc_blank. apply (enc_plain 98); [unfold unreserved; lia|].
  apply (enc_hex 47); [lia|apply N; lia|lia|]. apply (enc_hex 37); [lia|apply N; lia|lia|]. constructor.
Qed.

(** decoding in place: the string comes back, terminated, and nothing around it changes *)
Theorem C51_decode : forall s e pre post, uri_print_str s = Some e -> cstring s -> Z.of_nat (List.length s) < buffer ->
  exists mid, decode_str (pre ++ e ++ 0 :: post) (List.length pre) = Some (pre ++ (s ++ 0 :: mid) ++ post) /\ List.length (s ++ 0 :: mid) = S (List.length e).
Proof.
  intros s e pre post P C L. destruct (C51_encode s C) as (e' & E & P' & _). rewrite P in P'. injection P' as ->.
  exists (skipn (S (List.length s)) (e' ++ [0])). split; [now apply (decode_str_ok s e')|exact (decoded_len s e' E)].
Qed.
(** the static limit: longer strings write past the end of the buffer, or leave it without an end *)
Theorem C51_decode_long_refuted : forall s e pre post, uri_print_str s = Some e -> cstring s -> buffer <= Z.of_nat (List.length s) ->
  decode_str (pre ++ e ++ 0 :: post) (List.length pre) = None.
Proof.
  intros s e pre post P C L. destruct (C51_encode s C) as (e' & E & P' & _). rewrite P in P'. injection P' as ->. now apply (decode_str_long s e').
Qed.

(** a whole URI: what is written for an origin and a list of parameters parses to the same nodes *)
Theorem C51_write : forall ps e, query ps e -> Forall good_param ps ->
  ((forall p, In p ps -> param_name p <> origin_name) -> uri_write (map node_of ps) = Some (match ps with [] => [] | _ => 63 :: e end)) /\
  (forall o, good_origin o -> uri_write (origin_node (Some o) ++ map node_of ps) = Some (o ++ 63 :: e)).
Proof. intros ps e Q F. split; [intros N; now apply uri_write_query|intros o G; now apply uri_write_origin]. Qed.
Theorem C51_query_exists : forall ps, Forall good_param ps -> exists e, query ps e.
Proof. exact query_exists. Qed.
Theorem C51_round_trip : forall o ps post, Forall good_param ps -> (match o with Some o => good_origin o | None => forall p, In p ps -> param_name p <> origin_name end) ->
  exists text text' root, uri_write (origin_node o ++ map node_of ps) = Some text /\
    uri_parse (text ++ 0 :: post) = Some (text', root) /\ view text' root = Some (uri_root (origin_node o ++ map node_of ps)).
Proof.
  intros o ps post F G. destruct (query_exists ps F) as (e & Q). destruct o as [o|].
  - exists (o ++ 63 :: e). destruct (uri_parse_origin o ps e post G Q F) as (text' & root & P & V). exists text', root. split; [now apply uri_write_origin|]. split; [|easy].
    rewrite <- app_assoc. exact P.
  - cbn [origin_node app]. rewrite (uri_write_query ps e) by easy. destruct ps as [|p ps].
    + exists []. do 2 eexists. split; [reflexivity|]. split; [reflexivity|]. reflexivity.
    + exists (63 :: e). destruct (uri_parse_query (p :: ps) e post Q F) as (text' & root & P & V). exists text', root. split; [easy|]. split; [exact P|exact V].
Qed.
Example C51_round_trip_ex : Forall good_param [Text (asc "q") (asc "x & y"); Number (asc "n") (-42); Flag (asc "v")] /\ good_origin (asc "http://zpl.pw/a").
Proof.
  assert (Cs : forall s, forallb (fun c => (0 <? c) && (c <? 256)) s = true -> cstring s).
  { intros s H. apply Forall_forall. intros c I. rewrite forallb_forall in H. apply H in I. apply andb_true_iff in I. destruct I as (I1 & I2). apply Z.ltb_lt in I1, I2. lia. }
  split.
  - repeat (apply Forall_cons || apply Forall_nil).
    + refine (conj (conj _ _) (conj (conj _ _) _)); [now apply Cs|vm_compute; easy|now apply Cs|vm_compute; easy|]. right. exists 32. split; [cbn; lia|]. unfold number_char. change (asc ".+-") with [46; 43; 45]. cbn. lia.
    + refine (conj (conj _ _) _); [now apply Cs|vm_compute; easy|]. lia.
    + refine (conj (conj _ _) _); [now apply Cs|vm_compute; easy|]. discriminate.
  - refine (conj _ (conj _ (conj _ _))); [discriminate|now apply Cs| |vm_compute; easy].
    intros c I. assert (B : forallb (fun c => negb (c =? 37) && negb (c =? 63) && negb (existsb (Z.eqb c) [32; 9; 10; 11; 12; 13])) (asc "http://zpl.pw/a") = true) by reflexivity.
    rewrite forallb_forall in B. apply B in I. rewrite !andb_true_iff, !negb_true_iff, !Z.eqb_neq in I. destruct I as ((I1 & I2) & I3). split; [easy|]. split; [easy|]. unfold white. intros W.
    assert (existsb (Z.eqb c) [32; 9; 10; 11; 12; 13] = true); [|congruence]. cbn [existsb]. rewrite ?orb_true_iff, ?Z.eqb_eq. cbn [In] in W. lia.
Qed.

(** ** what goes wrong outside that *)
(** a '%' within two characters of the end reads past it *)
Theorem C51_truncated_refuted : decode_str (asc "50%" ++ [0]) 0 = None.
Proof. reflexivity. Qed.
(** text made of hexadecimal digits becomes a number: "dead" becomes 0 *)
Theorem C51_hex_text_refuted : exists text' root, uri_parse (asc "?k=dead" ++ [0]) = Some (text', root) /\
  view text' root = Some (uri_root [Tree (Some (asc "k")) PROPS_NONE zero_style (VInt 0 zero_analysis)]).
Proof. do 2 eexists. split; vm_compute; reflexivity. Qed.
(** a last flag without a name is lost *)
Theorem C51_empty_flag_refuted : exists text text' root, uri_write (map node_of [Flag (asc "a"); Flag []]) = Some text /\
  uri_parse (text ++ [0]) = Some (text', root) /\ view text' root = Some (uri_root (map node_of [Flag (asc "a")])).
Proof. do 3 eexists. split; [vm_compute; reflexivity|]. split; vm_compute; reflexivity. Qed.
(** the origin is taken as a printf format: its directives have no arguments *)
Theorem C51_origin_format_refuted : uri_write (origin_node (Some (asc "a%s"))) = None.
Proof. vm_compute. reflexivity. Qed.

Print Assumptions C51_encode.
Print Assumptions C51_alphabet.
Print Assumptions C51_decode.
Print Assumptions C51_decode_long_refuted.
Print Assumptions C51_write.
Print Assumptions C51_query_exists.
Print Assumptions C51_round_trip.
Print Assumptions C51_truncated_refuted.
Print Assumptions C51_hex_text_refuted.
Print Assumptions C51_empty_flag_refuted.
Print Assumptions C51_origin_format_refuted.
