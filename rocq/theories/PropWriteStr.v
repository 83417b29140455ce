(** C113: documents written into strings. *)
From Coq Require Import String.
From Verif Require Import Base CStr CStrSpec Array ArraySpec ArrayProofs FStream FStreamSpec FStreamProofs PropFStream StrLib StrLibProofs PropStrLib WriteStr.
From Verif Require Import Node NodeProofs Json JsonSpec JsonProofs JsonProofs2 JsonProofs3 JsonProofs4 JsonProofs5 PropJson Csv UriSpec CsvSpec CsvProofs PropCsv Uri UriProofs PropUri.
Open Scope Z_scope. Open Scope list_scope.

Definition total (pieces : list (bool * list Z)) : Z := Z.of_nat (length (concat (map snd pieces))).
(** a stream at its end *)
Definition at_end (d : stream) (c : list Z) : Prop := srep d (File c (Z.of_nat (length c))) /\ kind_of d = Growing.
Lemma opened : exists d, open_stream Opened = (Some d, 2) /\ at_end d [].
Proof. eexists. split; [reflexivity|]. split; [|reflexivity]. repeat split; cbn; try lia. eexists. cbn. repeat split. Qed.
Lemma append_piece ok d c t : at_end d c -> Z.of_nat (length c + length t) < 2^63 ->
  (exists d', file_write ok d t = Some (true, d') /\ at_end d' (c ++ t)) \/ (ok = false /\ exists d', file_write ok d t = Some (false, d') /\ at_end d' c).
Proof.
  intros (S & K) L. destruct (call_ok ok (FWrite t) d _ S) as (r & d' & f & C & F & S' & K'); [cbn; lia|].
  cbn [call] in C. destruct (file_write ok d t) as [(b & d1)|]; [|discriminate]. cbn [obind] in C. injection C as <- <-. rewrite K in F, K'. inversion F as [? ? ? ? N|? ? ? ? X| | | | | | | |]; subst.
  - left. exists d1. split; [reflexivity|]. cbn [FStreamSpec.written] in S'. unfold splice in S'. rewrite Nat2Z.id, firstn_all, skipn_all2, app_nil_r in S' by lia.
    split; [|exact K']. rewrite app_length in *. replace (Z.min _ _) with (Z.of_nat (length c + length t)) in S' by lia. exact S'.
  - right. destruct X as [?|[_ ->]]; [discriminate|]. split; [reflexivity|]. exists d1. split; [reflexivity|]. split; [|exact K']. replace (Z.min _ _) with (Z.of_nat (length c)) in S' by lia. exact S'.
Qed.
Lemma take_ok new d c held : sane new -> at_end d c ->
  (take_text new d held = Some (None, held - 2) /\ new (Z.of_nat (length c) + 1) = None) \/ (exists t, take_text new d held = Some (Some t, held - 2) /\ holds t c).
Proof.
  intros Hn (S & _). destruct (srep_buf _ _ S) as (A & B). unfold take_text. rewrite A. cbn [contents size] in *. unfold size. cbn [contents].
  assert (E : exists r, fst (stream_buf d) = c ++ r) by (exists (skipn (length c) (fst (stream_buf d))); rewrite <- B at 1; now rewrite firstn_skipn). destruct E as (r & ->).
  destruct (C45_make new c r Hn) as [(-> & N)|(t & -> & H)]; cbn [obind]; [left; split; [reflexivity|exact N]|right; exists t; split; [reflexivity|exact H]].
Qed.
Lemma strict_ok : forall pieces d c, at_end d c -> Z.of_nat (length c) + total pieces < 2^63 ->
  (exists d', write_strict d pieces = Some (true, d') /\ at_end d' (c ++ concat (map snd pieces))) \/
  ((exists t, In (false, t) pieces) /\ exists d', write_strict d pieces = Some (false, d')).
Proof.
  induction pieces as [|(ok, t) pieces IH]; intros d c A L; cbn [write_strict map concat snd].
  - left. exists d. rewrite app_nil_r. auto.
  - unfold total in *. cbn [map concat snd] in L. rewrite app_length in L. destruct (append_piece ok d c t A) as [(d' & -> & A')|(-> & d' & -> & A')]; [lia| |]; cbn [obind].
    + destruct (IH d' (c ++ t) A') as [(d2 & -> & B)|((u & I) & d2 & ->)]; [rewrite app_length; lia| |].
      * left. exists d2. split; [reflexivity|]. now rewrite app_assoc.
      * right. split; [exists u; now right|now exists d2].
    + right. split; [exists t; now left|now exists d'].
Qed.
(** which pieces arrive: all of those for which there is memory *)
Inductive arrive : list (bool * list Z) -> list (list Z) -> Prop :=
| arrive_nil : arrive [] []
| arrive_written ok t ps ts : arrive ps ts -> arrive ((ok, t) :: ps) (t :: ts)
| arrive_lost t ps ts : arrive ps ts -> arrive ((false, t) :: ps) ts.
Lemma lenient_ok : forall pieces d c, at_end d c -> Z.of_nat (length c) + total pieces < 2^63 ->
  exists d' ts, write_lenient d pieces = Some d' /\ arrive pieces ts /\ at_end d' (c ++ concat ts).
Proof.
  induction pieces as [|(ok, t) pieces IH]; intros d c A L; cbn [write_lenient].
  - exists d, []. split; [reflexivity|]. split; [constructor|]. now rewrite app_nil_r.
  - unfold total in *. cbn [map concat snd] in L. rewrite app_length in L. destruct (append_piece ok d c t A) as [(d' & -> & A')|(-> & d' & -> & A')]; [lia| |]; cbn [obind].
    + destruct (IH d' (c ++ t) A') as (d2 & ts & -> & B & C); [rewrite app_length; lia|]. exists d2, (t :: ts). split; [reflexivity|]. split; [now constructor|]. cbn [concat]. now rewrite app_assoc.
    + destruct (IH d' c A') as (d2 & ts & -> & B & C); [lia|]. exists d2, ts. split; [reflexivity|]. split; [now constructor|exact C].
Qed.
Lemma arrive_all pieces ts : Forall (fun p => fst p = true) pieces -> arrive pieces ts -> ts = map snd pieces.
Proof. intros F A. induction A; inversion F; subst; cbn [map snd fst] in *; [reflexivity|f_equal; auto|discriminate]. Qed.

(** JSON: a string of the whole text, or NULL *)
Theorem C113_json : forall new pieces, sane new -> total pieces < 2^63 ->
  (exists t, json_write_string new Opened pieces = Some (Some t, 0) /\ holds t (concat (map snd pieces))) \/
  (json_write_string new Opened pieces = Some (None, 0) /\ new (total pieces + 1) = None) \/
  (json_write_string new Opened pieces = Some (None, 2) /\ exists t, In (false, t) pieces).
Proof.
  intros new pieces Hn L. unfold json_write_string. destruct opened as (d & -> & A). destruct (strict_ok pieces d [] A L) as [(d' & -> & B)|(I & d' & ->)]; cbn [obind app] in *.
  - destruct (take_ok new d' _ 2 Hn B) as [(-> & N)|(t & -> & H)]; [right; left; split; [reflexivity|exact N]|left; exists t; split; [reflexivity|exact H]].
  - right. right. split; [reflexivity|exact I].
Qed.
Theorem C113_json_not_opened : forall new pieces, json_write_string new NoBlock pieces = Some (None, 0) /\ json_write_string new NoArray pieces = Some (None, 1).
Proof. intros. split; reflexivity. Qed.
(** CSV and URI: a string of what could be written *)
Theorem C113_csv_uri : forall new pieces, sane new -> total pieces < 2^63 -> exists ts, arrive pieces ts /\
  ((exists t, csv_write_string new Opened pieces = Some (Some t, 0) /\ holds t (concat ts)) \/
   (csv_write_string new Opened pieces = Some (None, 0) /\ new (Z.of_nat (length (concat ts)) + 1) = None)) /\
  uri_write_string new Opened pieces = csv_write_string new Opened pieces.
Proof.
  intros new pieces Hn L. change uri_write_string with csv_write_string. unfold csv_write_string. destruct opened as (d & -> & A). cbn [obind]. destruct (lenient_ok pieces d [] A L) as (d' & ts & E & R & B). exists ts. split; [exact R|].
  split; [|reflexivity]. rewrite E. cbn [obind app] in *. destruct (take_ok new d' _ 2 Hn B) as [(-> & N)|(t & -> & H)]; [right; split; [reflexivity|exact N]|left; exists t; split; [reflexivity|exact H]].
Qed.
Theorem C113_csv_not_opened_refuted : forall new o pieces, o <> Opened -> csv_write_string new o pieces = None /\ uri_write_string new o pieces = None.
Proof. intros new [| |] pieces N; [now destruct N|split; reflexivity|split; reflexivity]. Qed.
(** with memory for everything the whole text *)
Theorem C113_all_written : forall new pieces, sane new -> total pieces < 2^63 -> Forall (fun p => fst p = true) pieces -> new (total pieces + 1) <> None ->
  (exists t, json_write_string new Opened pieces = Some (Some t, 0) /\ holds t (concat (map snd pieces))) /\
  (exists t, csv_write_string new Opened pieces = Some (Some t, 0) /\ holds t (concat (map snd pieces))) /\
  (exists t, uri_write_string new Opened pieces = Some (Some t, 0) /\ holds t (concat (map snd pieces))).
Proof.
  intros new pieces Hn L F N. destruct (C113_csv_uri new pieces Hn L) as (ts & R & D & E). apply arrive_all in R; [|exact F]. subst ts.
  assert (X : exists t, csv_write_string new Opened pieces = Some (Some t, 0) /\ holds t (concat (map snd pieces))) by (destruct D as [D|(_ & D)]; [exact D|now destruct N]).
  split; [|split; [exact X|rewrite E; exact X]]. destruct (C113_json new pieces Hn L) as [D'|[(_ & D')|(_ & t & I)]]; [exact D'|now destruct N|]. rewrite Forall_forall in F. apply F in I. discriminate.
Qed.

(** a string as bytes: its text and a NUL *)
Lemma holds_bytes t c : holds t c -> exists x, sbuf t = c ++ 0 :: x.
Proof. intros (r & E & _). exists r. exact E. Qed.
(** round trips: the text is read back as the document it was written from, however it was cut into pieces *)
Definition cut_of (pieces : list (bool * list Z)) (t : list Z) : Prop := concat (map snd pieces) = t /\ Forall (fun p => fst p = true) pieces.
Theorem C113_json_round_trip : forall i cfg arr l, good_root i cfg arr l -> exists text,
  json_write (doc_root cfg arr l) i = Some text /\
  forall new pieces, sane new -> (forall n, new n <> None) -> Z.of_nat (length text) < 2^63 -> cut_of pieces text ->
  exists s text' tree, json_write_string new Opened pieces = Some (Some s, 0) /\ json_parse (sbuf s) = Some (JsonNone, text', tree) /\
    view text' tree = Some (settle (i =? compact_indent) (doc_root cfg arr l)).
Proof.
  intros i cfg arr l G. destruct (C53_round_trip i cfg arr l [] G) as (text & _ & _ & W & _). exists text. split; [exact W|]. intros new pieces Hn N L (<- & F).
  destruct (C113_all_written new pieces Hn L F (N _)) as ((s & E & H) & _). destruct (holds_bytes _ _ H) as (x & X).
  destruct (C53_round_trip i cfg arr l x G) as (text2 & text' & tree & W2 & P & V). rewrite W in W2. injection W2 as <-. exists s, text', tree. rewrite X. auto.
Qed.
Theorem C113_csv_round_trip : forall d n rows, good_delim d -> table_ok d n rows -> exists text,
  csv_write (columns None n rows) d = Some text /\
  forall new pieces, sane new -> (forall n, new n <> None) -> Z.of_nat (length text) < 2^63 -> cut_of pieces text ->
  exists s text' root, csv_write_string new Opened pieces = Some (Some s, 0) /\ csv_parse (sbuf s) false d = Some (CsvOk, text', root) /\
    view text' root = Some (csv_root false (columns None n rows)).
Proof.
  intros d n rows G T. destruct (C52_write d n rows G T) as (text & R & W). exists text. split; [exact W|]. intros new pieces Hn N L (<- & F).
  destruct (C113_all_written new pieces Hn L F (N _)) as (_ & (s & E & H) & _). destruct (holds_bytes _ _ H) as (x & X).
  destruct (C52_parse d n rows _ x G T R) as (text' & root & P & V). exists s, text', root. rewrite X. auto.
Qed.
Theorem C113_uri_round_trip : forall o ps, Forall good_param ps -> (match o with Some o => good_origin o | None => forall p, In p ps -> param_name p <> origin_name end) ->
  exists text, uri_write (origin_node o ++ map node_of ps) = Some text /\
  forall new pieces, sane new -> (forall n, new n <> None) -> Z.of_nat (length text) < 2^63 -> cut_of pieces text ->
  exists s text' root, uri_write_string new Opened pieces = Some (Some s, 0) /\ uri_parse (sbuf s) = Some (text', root) /\
    view text' root = Some (uri_root (origin_node o ++ map node_of ps)).
Proof.
  intros o ps G O. destruct (C51_round_trip o ps [] G O) as (text & _ & _ & W & _). exists text. split; [exact W|]. intros new pieces Hn N L (<- & F).
  destruct (C113_all_written new pieces Hn L F (N _)) as (_ & _ & s & E & H). destruct (holds_bytes _ _ H) as (x & X).
  destruct (C51_round_trip o ps x G O) as (text2 & text' & root & W2 & P & V). rewrite W in W2. injection W2 as <-. exists s, text', root. rewrite X. auto.
Qed.
(** without memory for the middle piece: NULL and two blocks kept, or a text with a hole *)
Theorem C113_out_of_memory_refuted : 
  json_write_string heap Opened [(true, [97]); (false, repeat 98 20); (true, [99])] = Some (None, 2) /\
  exists t, csv_write_string heap Opened [(true, [97]); (false, repeat 98 20); (true, [99])] = Some (Some t, 0) /\ slen t = 2 /\ firstn 3 (sbuf t) = [97; 99; 0].
Proof. split; [vm_compute; reflexivity|]. eexists. split; [vm_compute; reflexivity|]. split; reflexivity. Qed.
Example C113_ex : (r <- json_write_string heap Opened [(true, [123]); (true, [97; 58; 49]); (true, [125])] ;; Some (option_map sbuf (fst r), snd r)) = Some (Some [123; 97; 58; 49; 125; 0], 0) /\
  cut_of [(true, [123]); (true, [97; 58; 49]); (true, [125])] [123; 97; 58; 49; 125].
Proof. split; [vm_compute; reflexivity|]. split; [reflexivity|repeat constructor]. Qed.
Print Assumptions C113_json.
Print Assumptions C113_json_not_opened.
Print Assumptions C113_csv_uri.
Print Assumptions C113_csv_not_opened_refuted.
Print Assumptions C113_all_written.
Print Assumptions C113_json_round_trip.
Print Assumptions C113_csv_round_trip.
Print Assumptions C113_uri_round_trip.
Print Assumptions C113_out_of_memory_refuted.
