(** C53, C54: JSON texts that are refused, and with which error. *)
From Coq Require Import String.
From Verif Require Import Base CStr CStrSpec Num NumSpec Print PrintSpec Node Json NodeProofs JsonSpec JsonProofs JsonProofs2 JsonProofs3 JsonProofs5 JsonProofs6 PropJson.

(** after an element of an array stands neither a comma nor the bracket, be it the end of the text *)
Theorem C54_array_left_open : forall g s g1 p v t g2 z post, gap false g -> begun s -> gap true g1 -> value_text p v t -> gap true g2 -> solid z -> after_int z -> z <> 44 -> z <> 93 ->
  exists text root, json_parse (g ++ 91 :: s ++ g1 ++ t ++ g2 ++ z :: post) = Some (JsonArrayLeftOpen, text, root).
Proof. exact left_open. Qed.
(** the text ends right after the opening bracket or a comma *)
Theorem C54_array_ends : forall g s post, gap false g -> begun s -> exists text root, json_parse (g ++ 91 :: s ++ 0 :: post) = Some (JsonInternal, text, root).
Proof. exact never_closed. Qed.
(** a word that is not a constant *)
Theorem C54_unknown_word : forall g s g1 c post, gap false g -> begun s -> gap true g1 -> letter c -> In 0 post -> (forall w p r, word w p r -> firstn (List.length w) (c :: post) <> w) ->
  exists text root, json_parse (g ++ 91 :: s ++ g1 ++ c :: post) = Some (JsonUnknownKeyword, text, root).
Proof. exact unknown_word. Qed.
(** an object closed by a square bracket *)
Theorem C54_mismatched : forall g g1 post, gap false g -> gap true g1 -> exists text root, json_parse (g ++ 123 :: g1 ++ 93 :: post) = Some (JsonEndPairMismatched, text, root).
Proof. exact mismatched. Qed.
(** a name with a backslash that does not escape anything *)
Theorem C54_invalid_name : forall g g1 q n g2 a rest, gap false g -> gap true g1 -> gap true g2 -> (q = 34 /\ literal 34 n) \/ (q = 39 /\ cstring n /\ ~ In 39 n) -> bad_escape n ->
  exists text root, json_parse (g ++ 123 :: g1 ++ q :: n ++ q :: g2 ++ assign_char a :: rest) = Some (JsonInvalidName, text, root).
Proof.
  intros g g1 q n g2 a rest G G1 G2 Hq B.
  assert (H : (q = 34 \/ q = 39) /\ cstring n /\ closes q n).
  { destruct Hq as [(-> & L)|(-> & C & N)]; (split; [auto|split]); [now destruct L|now apply double_closes|easy|now apply single_closes]. }
  destruct H as (Q & C & Cl). apply object_name_refused; [easy|easy|apply solid_of; cbn; lia|lia|lia|lia|].
  destruct (quoted_bad q n g2 a (g ++ 123 :: g1) rest Q C Cl B G2) as (text & E). exists text. rewrite <- E. f_equal. f_equal. cbn [app]. f_equal. rewrite <- app_assoc. cbn [app]. rewrite <- app_assoc. reflexivity.
Qed.
(** a name without an assignment *)
Theorem C54_unassigned : forall g g1 q n g2 z rest, gap false g -> gap true g1 -> gap true g2 -> (q = 34 /\ literal 34 n) \/ (q = 39 /\ cstring n /\ ~ In 39 n) -> solid z -> z <> 0 -> ~ In z [58; 61; 124] ->
  exists text root, json_parse (g ++ 123 :: g1 ++ q :: n ++ q :: g2 ++ z :: rest) = Some (JsonInvalidAssignment, text, root).
Proof.
  intros g g1 q n g2 z rest G G1 G2 Hq Sz Z0 N.
  assert (H : (q = 34 \/ q = 39) /\ cstring n /\ closes q n).
  { destruct Hq as [(-> & L)|(-> & C & Nn)]; (split; [auto|split]); [now destruct L|now apply double_closes|easy|now apply single_closes]. }
  destruct H as (Q & C & Cl). apply object_name_refused; [easy|easy|apply solid_of; cbn; lia|lia|lia|lia|]. now apply unassigned.
Qed.

(** the errors for some texts *)
Definition error_of (t : list Z) : option json_error := match json_parse t with Some (e, _, _) => Some e | None => None end.
Example C54_errors : map (fun s => error_of (q1 s ++ [0])) ["[1"; "[1 2]"; "["; "[1,"; "[tru]"; "{]"; "{'a\qxyz':1}"; "{'a' 1}"]%string =
  map Some [JsonArrayLeftOpen; JsonArrayLeftOpen; JsonInternal; JsonInternal; JsonUnknownKeyword; JsonEndPairMismatched; JsonInvalidName; JsonInvalidAssignment].
Proof. now vm_compute. Qed.
Example C54_errors_hyp : begun (asc "1,") /\ begun [] /\ solid 0 /\ after_int 0 /\ bad_escape (asc "a\qxyz") /\ literal 34 (asc "a\qxyz") /\
  (forall w p r, word w p r -> firstn (List.length w) (asc "tru]" ++ [0]) <> w).
Proof.
  split; [apply (begun_cons [] 0 (VInt 1 zero_analysis) (asc "1") [] []); try constructor; [lia|exists [1]; split; [split; [constructor; [lia|constructor]|right; exists 1, []; split; [reflexivity|lia]]|split; reflexivity]]|].
  split; [constructor|]. split; [apply solid_of; cbn; lia|]. split; [apply after_ok; cbn; lia|]. split; [|split].
  - exists (asc "a"), 113, 120, 121, 122, []. split; [reflexivity|]. unfold control, hex_digit. cbn [In]. split; [lia|]. repeat (constructor; [lia|]). constructor.
  - split; [repeat constructor|]. split.
    + intros k E. do 7 (destruct k as [|k]; [discriminate E|]). cbn in E. now destruct k.
    + intros r E. do 6 (destruct r as [|? r]; [discriminate E|injection E as _ E]). now destruct r.
  - intros w p r W. unfold word in W. cbn [In] in W. repeat (destruct W as [W|W]; [injection W as <- <- <-; discriminate|]). easy.
Qed.
(** names with escapes: a quote after a backslash belongs to the name, and so does the backslash;
    an apostrophe ends the name even after a backslash *)
Example C53_names : name_ok DoubleQuote (asc "a\" ++ 34 :: asc "bA") /\ name_ok SingleQuote (asc "a\") /\
  outcome (q1 "{'a\'bA':1}" ++ [0]) = Some (JsonNone, Some (doc_root false false [Tree (Some (asc "a\" ++ 34 :: asc "bA")) 0 zero_style (VInt 1 zero_analysis)])) /\
  outcome (asc "{'a\':1}" ++ [0]) = Some (JsonNone, Some (doc_root false false [Tree (Some (asc "a\")) 0 (Style false SingleQuote Colon Comma 0 0) (VInt 1 zero_analysis)])).
Proof.
  split; [|split; [|now vm_compute]].
  - split; [split; [repeat constructor|split]|].
    + intros k E. destruct k as [|[|[|[|[|k]]]]]; try discriminate E; [now exists 1%nat|]. cbn in E. now destruct k.
    + intros r E. do 5 (destruct r as [|? r]; [discriminate E|injection E as _ E]). now destruct r.
    + intros a r E. destruct a as [|x a]; [discriminate E|]. injection E as _ E. destruct a as [|x1 a].
      * injection E as <-. right. left. do 2 eexists. split; [reflexivity|]. now left.
      * injection E as _ E. do 3 (destruct a as [|? a]; [discriminate E|injection E as _ E]). now destruct a.
  - split; [repeat constructor|]. split; [cbn; lia|]. intros a r E. destruct a as [|x a]; [discriminate E|]. injection E as _ E. destruct a as [|x1 a]; [injection E as <-; now left|]. injection E as _ E. now destruct a.
Qed.
Print Assumptions C54_array_left_open.
Print Assumptions C54_array_ends.
Print Assumptions C54_unknown_word.
Print Assumptions C54_mismatched.
Print Assumptions C54_invalid_name.
Print Assumptions C54_unassigned.
