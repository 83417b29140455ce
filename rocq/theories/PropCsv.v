(** C52: tables as comma-separated values. *)
From Coq Require Import String.
From Verif Require Import Base CStr CStrSpec Num NumSpec Print PrintSpec Node Csv NodeProofs UriSpec CsvSpec CsvProofs.

(** what is written: the text of the table, with or without names of columns *)
Theorem C52_write : forall d n rows, good_delim d -> table_ok d n rows -> exists ts,
  rows_text d rows ts /\ csv_write (columns None n rows) d = Some ts.
Proof.
  intros d n rows G T. pose proof T as (Ne & Hn & F). destruct (rows_text_exists d n rows Hn F) as (ts & R). exists ts. split; [easy|now apply csv_write_plain].
Qed.
Lemma header_row_ok d n names : header_ok n names -> List.length (map Quoted names) = n /\ row_ok d (map Quoted names).
Proof.
  intros (L & H). split; [now rewrite map_length|]. clear L. induction H as [|s l Hs Hl IH]; [easy|]. cbn [map row_ok]. split; [destruct (map Quoted l); exact Hs|exact IH].
Qed.
Theorem C52_write_header : forall d n names rows, good_delim d -> table_ok d n rows -> header_ok n names -> exists ts,
  rows_text d (map Quoted names :: rows) ts /\ csv_write (columns (Some names) n rows) d = Some ts.
Proof.
  intros d n names rows G T H. pose proof T as (Ne & Hn & F). destruct (rows_text_exists d n (map Quoted names :: rows) Hn) as (ts & R); [constructor; [now apply header_row_ok|easy]|].
  exists ts. split; [easy|now apply csv_write_header].
Qed.
(** what is read from such a text, whatever follows its end *)
Theorem C52_parse : forall d n rows ts post, good_delim d -> table_ok d n rows -> rows_text d rows ts -> exists text root,
  csv_parse (ts ++ 0 :: post) false d = Some (CsvOk, text, root) /\ view text root = Some (csv_root false (columns None n rows)).
Proof. intros. now apply csv_parse_plain. Qed.
(** both ways *)
Theorem C52_round_trip : forall d n rows post, good_delim d -> table_ok d n rows -> exists ts text root,
  csv_write (columns None n rows) d = Some ts /\
  csv_parse (ts ++ 0 :: post) false d = Some (CsvOk, text, root) /\ view text root = Some (csv_root false (columns None n rows)).
Proof.
  intros d n rows post G T. destruct (C52_write d n rows G T) as (ts & R & W). destruct (csv_parse_plain d n rows ts post G T R) as (text & root & P & V).
  exists ts, text, root. auto.
Qed.
Theorem C52_round_trip_header : forall d n names rows post, good_delim d -> table_ok d n rows -> header_ok n names -> exists ts text root,
  csv_write (columns (Some names) n rows) d = Some ts /\
  csv_parse (ts ++ 0 :: post) true d = Some (CsvOk, text, root) /\ view text root = Some (csv_root true (columns (Some names) n rows)).
Proof.
  intros d n names rows post G T H. destruct (C52_write_header d n names rows G T H) as (ts & R & W). destruct (csv_parse_header d n names rows ts post G T H R) as (text & root & P & V).
  exists ts, text, root. auto.
Qed.

(** a table that meets the conditions *)
Definition sample : list (list cell) := [[Plain (asc "zpl"); Quoted (asc "a,b"); Int (-7)]; [Blank; Quoted [34]; Plain (asc "x y")]].
Example C52_sample_ok : good_delim 44 /\ table_ok 44 3 sample /\ header_ok 3 [asc "h"; asc "k l"; [34; 10]].
Proof.
  assert (Cs : forall s, forallb (fun c => (0 <? c) && (c <? 256)) s = true -> cstring s).
  { intros s H. apply Forall_forall. intros c I. rewrite forallb_forall in H. apply H in I. apply andb_true_iff in I. destruct I as (I1 & I2). apply Z.ltb_lt in I1, I2. lia. }
  assert (W : forall c, ~ In c [32; 9; 10; 11; 12; 13] -> ~ white c) by (unfold white; cbn [In]; lia).
  assert (N : forall c, c = 122 \/ c = 121 -> ~ cell_number_char c) by (unfold cell_number_char, number_char; change (asc ".+-") with [46; 43; 45]; cbn [In]; lia).
  assert (B : buffer = 65536) by reflexivity.
  refine (conj _ (conj _ _)).
  - refine (conj _ (conj _ (conj _ _))); [lia|apply W; cbn; lia|lia|]. unfold number_char. change (asc ".+-") with [46; 43; 45]. cbn [In]. lia.
  - refine (conj _ (conj _ _)); [discriminate|lia|]. constructor; [|constructor; [|constructor]].
    + refine (conj eq_refl (conj _ (conj _ (conj _ I)))).
      * refine (conj _ (conj _ (conj _ (conj _ (conj _ (conj _ _)))))); [now apply Cs|rewrite B; cbn; lia|cbn; lia|cbn; lia|exists 122; eexists; split; [reflexivity|]; split; [lia|apply W; cbn; lia]|exists [122; 112], 108; split; [reflexivity|apply W; cbn; lia]|exists 122; split; [cbn; lia|apply N; lia]].
      * refine (conj _ (conj _ _)); [discriminate|now apply Cs|rewrite B; cbn; lia].
      * cbn. lia.
    + refine (conj eq_refl (conj eq_refl (conj _ (conj _ I)))).
      * refine (conj _ (conj _ _)); [discriminate|now apply Cs|rewrite B; cbn; lia].
      * refine (conj _ (conj _ (conj _ (conj _ (conj _ (conj _ _)))))); [now apply Cs|rewrite B; cbn; lia|cbn; lia|cbn; lia|exists 120; eexists; split; [reflexivity|]; split; [lia|apply W; cbn; lia]|exists [120; 32], 121; split; [reflexivity|apply W; cbn; lia]|exists 121; split; [cbn; lia|apply N; lia]].
  - split; [reflexivity|]. repeat apply Forall_cons; try apply Forall_nil; (refine (conj _ (conj _ _)); [discriminate|now apply Cs|rewrite B; cbn; lia]).
Qed.
Example C52_sample_text : csv_write (columns (Some [asc "h"; asc "k l"; [34; 10]]) 3 sample) 44 =
  Some (asc """h"",""k l"",""""""" ++ [10] ++ asc """" ++ [10] ++ asc "zpl,""a,b"",-7" ++ [10] ++ asc ","""""""",x y" ++ [10]).
Proof. vm_compute. reflexivity. Qed.

(** ** where it does not hold *)
(** what is read: the values, column by column *)
Definition values (t : tree (list Z)) : list (value (list Z)) := match t_value t with VBranch _ l => map t_value l | _ => [] end.
Definition read (s : list Z) (d : Z) : option (csv_error * list (list (value (list Z)))) :=
  r <- csv_parse (s ++ [0]) false d ;; let '(e, t, r) := r in v <- view t r ;;
  match t_value v with VBranch _ l => Some (e, map values l) | _ => None end.
Notation str s := (VStr false (Some s)).
Notation num v := (VInt v zero_analysis).

(** an empty quoted cell: unescaping runs on into the next cell, which is cut in two *)
Theorem C52_empty_quoted_refuted : exists rows ts, csv_write (columns None 2 rows) 44 = Some ts /\
  rows = [[Quoted []; Quoted (asc "a""b")]; [Plain (asc "x"); Plain (asc "y")]] /\
  read ts 44 = Some (CsvOk, [[str []; str (asc "x")]; [str (asc "a"); str (asc "b"""); str (asc "y")]]).
Proof. exists [[Quoted []; Quoted (asc "a""b")]; [Plain (asc "x"); Plain (asc "y")]], (asc """"",""a""""b""" ++ [10] ++ asc "x,y" ++ [10]). refine (conj _ (conj eq_refl _)); vm_compute; reflexivity. Qed.
(** an empty cell at the end of a row is not read: the next row goes on in its place *)
Theorem C52_trailing_empty_refuted : exists rows ts, csv_write (columns None 2 rows) 44 = Some ts /\
  rows = [[Plain (asc "x"); Plain (asc "y")]; [Plain (asc "z"); Blank]; [Plain (asc "p"); Plain (asc "q")]] /\
  read ts 44 = Some (CsvOk, [[str (asc "x"); str (asc "z")]; [str (asc "y"); str (asc "p")]; [str (asc "q")]]).
Proof. exists [[Plain (asc "x"); Plain (asc "y")]; [Plain (asc "z"); Blank]; [Plain (asc "p"); Plain (asc "q")]], (asc "x,y" ++ [10] ++ asc "z," ++ [10] ++ asc "p,q" ++ [10]). refine (conj _ (conj eq_refl _)); vm_compute; reflexivity. Qed.
(** separated by tabs, all cells of a row are read into one column *)
Theorem C52_tab_refuted : exists rows ts, csv_write (columns None 2 rows) 9 = Some ts /\
  rows = [[Plain (asc "x"); Plain (asc "y")]] /\ read ts 9 = Some (CsvOk, [[str (asc "x"); str (asc "y")]]).
Proof. exists [[Plain (asc "x"); Plain (asc "y")]], (asc "x" ++ [9] ++ asc "y" ++ [10]). refine (conj _ (conj eq_refl _)); vm_compute; reflexivity. Qed.
(** texts of hexadecimal digits are read as numbers, and the number is zero *)
Theorem C52_hex_text_refuted : exists rows ts, csv_write (columns None 2 rows) 44 = Some ts /\
  rows = [[Plain (asc "dead"); Plain (asc "cafe")]] /\ read ts 44 = Some (CsvOk, [[num 0]; [num 0]]).
Proof. exists [[Plain (asc "dead"); Plain (asc "cafe")]], (asc "dead,cafe" ++ [10]). refine (conj _ (conj eq_refl _)); vm_compute; reflexivity. Qed.
(** a row longer than those before it is no error; a shorter one is *)
Theorem C52_ragged_refuted :
  read (asc "x,y" ++ [10] ++ asc "p,q,r" ++ [10]) 44 = Some (CsvOk, [[str (asc "x"); str (asc "p")]; [str (asc "y"); str (asc "q")]; [str (asc "r")]]) /\
  option_map fst (read (asc "x,y" ++ [10] ++ asc "p" ++ [10]) 44) = Some CsvMismatchedRows.
Proof. split; vm_compute; reflexivity. Qed.
(** what follows a closing quote is one more cell of the same column *)
Theorem C52_after_quote_refuted : read (asc """x""z,y" ++ [10]) 44 = Some (CsvOk, [[str (asc "x"); str (asc "z")]; [str (asc "y")]]).
Proof. vm_compute. reflexivity. Qed.
(** names of columns without rows are not written *)
Theorem C52_only_names_refuted : forall d names, csv_write (columns (Some names) (List.length names) []) d = Some [].
Proof. intros d [|a names]; reflexivity. Qed.

Print Assumptions C52_write. Print Assumptions C52_write_header. Print Assumptions C52_parse. Print Assumptions C52_round_trip. Print Assumptions C52_round_trip_header.
Print Assumptions C52_empty_quoted_refuted. Print Assumptions C52_trailing_empty_refuted. Print Assumptions C52_tab_refuted. Print Assumptions C52_hex_text_refuted.
Print Assumptions C52_ragged_refuted. Print Assumptions C52_after_quote_refuted. Print Assumptions C52_only_names_refuted.
