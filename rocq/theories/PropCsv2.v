(** C52: texts that are not tables. *)
From Coq Require Import String.
From Verif Require Import Base CStr CStrSpec Num NumSpec Print PrintSpec Node Csv NodeProofs CStrProofs UriSpec UriProofs CsvSpec CsvProofs CsvProofs2.

(** white space alone is not a table *)
Theorem C52_blank_text : forall d w post, Forall white w ->
  exists root, csv_parse (w ++ 0 :: post) false d = Some (CsvUnexpectedEnd, w ++ 0 :: post, root) /\ t_value root = VBranch true [].
Proof.
  intros d w post F. unfold csv_parse. cbn [csv_loop skipn]. rewrite trim_all by easy. cbn [obind Nat.add]. rewrite rd_at. cbn [obind]. eexists. split; reflexivity.
Qed.
(** complete rows, then a quote that is never closed *)
Theorem C52_unmatched_quote : forall d n rows ts s post h, good_delim d -> (0 < n)%nat -> Forall (fun r => List.length r = n /\ row_ok d r) rows -> rows_text d rows ts -> cstring s ->
  exists text root, csv_parse (ts ++ 34 :: doubled s ++ 0 :: post) h d = Some (CsvUnexpectedEnd, text, root).
Proof.
  intros d n rows ts s post h Gd Hn F T C. destruct (rows_then d n rows ts (34 :: doubled s ++ 0 :: post) Gd Hn T F) as (full & cols & total & Lf & _ & P).
  destruct (P 34 _ eq_refl ltac:(discriminate)) as (f & E & _). unfold csv_parse. rewrite E, loop_open by easy. cbn [obind]. do 2 eexists. reflexivity.
Qed.
(** a row with fewer cells than those before it *)
Theorem C52_short_row : forall d n rows ts r t post h, good_delim d -> rows <> [] -> Forall (fun r => List.length r = n /\ row_ok d r) rows -> rows_text d rows ts ->
  row_text d r t -> row_ok d r -> (List.length r < n)%nat ->
  exists text root, csv_parse (ts ++ t ++ post) h d = Some (CsvMismatchedRows, text, root).
Proof.
  intros d n rows ts r t post h Gd Ne F T R Ro Hr. destruct (rows_then d n rows ts (t ++ post) Gd ltac:(lia) T F) as (full & cols & total & Lf & Hc & P).
  destruct Hc as [(_ & _ & ->)|(Lc & ->)]; [easy|].
  destruct (short_row d Gd r t R Ro full post [] cols (n - 1)%nat) as ((ch & Rd & N0) & Q); [lia| |].
  { inversion R; subst; cbn [List.length] in *; lia. }
  unfold rd in Rd. rewrite nth_error_app2, Nat.sub_diag in Rd by lia. destruct (t ++ post) as [|ch' rest] eqn:Et; [discriminate Rd|]. cbn in Rd. injection Rd as ->.
  destruct (P ch rest eq_refl N0) as (f & E & Hf). unfold csv_parse. rewrite E.
  assert (Hl : (List.length r <= f)%nat) by (pose proof (row_len d r t R) as HL; apply (f_equal (@List.length Z)) in Et; rewrite app_length in Et; lia).
  replace (S f) with (List.length r + (S f - List.length r))%nat by lia. destruct (Q (S f - List.length r)%nat) as (text & cs & E2). cbn [app List.length] in E2. rewrite E2. cbn [obind]. do 2 eexists. reflexivity.
Qed.
Example C52_refused_ex :
  (exists t r, csv_parse ([32; 10; 9] ++ [0]) false 44 = Some (CsvUnexpectedEnd, t, r)) /\
  (exists t r, csv_parse (asc "a,b" ++ 10 :: 34 :: doubled (asc "c") ++ [0]) false 44 = Some (CsvUnexpectedEnd, t, r)) /\
  (exists t r, csv_parse (asc "a,b" ++ [10] ++ asc "c" ++ [10; 0]) false 44 = Some (CsvMismatchedRows, t, r)).
Proof. repeat split; do 2 eexists; vm_compute; reflexivity. Qed.
Example C52_refused_hyp : good_delim 44 /\ rows_text 44 [[Plain (asc "a"); Plain (asc "b")]] (asc "a,b" ++ [10]) /\ row_text 44 [Plain (asc "c")] (asc "c" ++ [10]) /\ cstring (asc "c").
Proof.
  split; [|split; [|split]].
  - split; [lia|]. unfold white, number_char. cbn [In]. change (asc ".+-") with [46; 43; 45]. cbn [In]. lia.
  - apply (rs_cons 44 _ [] (asc "a,b" ++ [10]) []); [|constructor]. apply (rt_more 44 _ _ _ (asc "a") (asc "b" ++ [10])); [constructor|constructor; constructor].
  - constructor. constructor.
  - repeat constructor.
Qed.
Print Assumptions C52_blank_text.
Print Assumptions C52_unmatched_quote.
Print Assumptions C52_short_row.
