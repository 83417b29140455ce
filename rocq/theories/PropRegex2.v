(** Regular expressions: repetitions that do something, classes at the end, the empty pattern. *)
From Verif Require Import Base CStr Regex RegexSpec RegexProofs RegexProofs6 RegexProofs7 RegexProofs9.

(** ** C56, C57 (continued) *)
(** the empty pattern is found in every text, but without an offset *)
Theorem C56_empty : forall f p, (0 < f)%nat -> exists r, compile f p 0 = Some (r, ReNone, false) /\ capture_count r = 0 /\
  forall mem len caps max, re_match (buf r) mem len caps max = Some (caps, true, None).
Proof. intros [|f] p F; [lia|]. eexists. split; [reflexivity|]. split; reflexivity. Qed.
(** "\d", "\D" and "\a" as the last thing of a pattern are a digit, anything else and a letter *)
Definition of_class (h d : Z) : Prop := (h = 100 /\ 48 <= d <= 57) \/ (h = 68 /\ ~ 48 <= d <= 57) \/ (h = 97 /\ (65 <= d <= 90 \/ 97 <= d <= 122)).
Lemma of_class_ok h d : In h [100; 68; 97] -> if letter_class h d then of_class h d else ~ of_class h d.
Proof.
  intros H. unfold letter_class, of_class, between. destruct H as [<-|[<-|[<-|[]]]]; ops; cbn match;
    destruct (Z.leb_spec 48 d), (Z.leb_spec d 57), (Z.leb_spec 65 d), (Z.leb_spec d 90), (Z.leb_spec 97 d), (Z.leb_spec d 122); cbn [andb orb negb]; lia.
Qed.
Theorem C57_class_at_end : forall h f, In h [100; 68; 97] -> (2 < f)%nat -> exists r, compile f [92; h] 2 = Some (r, ReNone, false) /\
  forall s after caps max,
    (forall pre d post, s = pre ++ d :: post -> Forall (fun x => ~ of_class h x) pre -> of_class h d ->
       re_match (buf r) (s ++ after) (Z.of_nat (length s)) caps max = Some (caps, true, Some (Z.of_nat (length pre) + 1))) /\
    (Forall (fun x => ~ of_class h x) s -> re_match (buf r) (s ++ after) (Z.of_nat (length s)) caps max = Some (caps, false, None)).
Proof.
  intros h f H F. destruct (compile_class h f H F) as (r & E & B). exists r. split; [easy|]. intros s after caps max.
  destruct (class_search h caps max after H s (s ++ after) (Z.of_nat (length s)) [] eq_refl eq_refl (buf r) B) as (I1 & I2).
  assert (M : re_match (buf r) (s ++ after) (Z.of_nat (length s)) caps max = match_from (length s) (buf r) (s ++ after) (Z.of_nat (length s)) 0 caps max).
  { unfold re_match. rewrite B at 1. cbn match. change (META_MATCH =? BEGINNING_OF_LINE) with false. cbn match. now rewrite Nat2Z.id. }
  assert (C : forall x, ~ of_class h x -> letter_class h x = false) by (intros x Nx; pose proof (of_class_ok h x H) as Y; destruct (letter_class h x); easy).
  rewrite M. split.
  - intros pre d post Es Fp D. apply (I1 pre d post Es). { apply Forall_impl with (2 := Fp). exact C. } pose proof (of_class_ok h d H) as Y. destruct (letter_class h d); easy.
  - intros Fs. apply I2. apply Forall_impl with (2 := Fs). exact C.
Qed.
(** "c*." and "c+." take all the c's at the start of the text and one character more *)
Theorem C57_repetition_then_any : forall c q f post, special_free c -> In q [42; 43] -> (4 < f)%nat ->
  exists r, compile f (c :: q :: 46 :: post) 3 = Some (r, ReNone, false) /\
    forall n d s after caps max, (0 < n)%nat -> d <> c ->
      re_match (buf r) ((repeat c n ++ d :: s) ++ after) (Z.of_nat (length (repeat c n ++ d :: s))) caps max = Some (caps, true, Some (Z.of_nat n + 1)).
Proof.
  intros c q f post Sc Hq F. destruct (compile_quant c q [Dot] [46] f post Sc) as (r & E & B); [cbn in *; tauto|repeat constructor|cbn; lia|cbn; lia|]. cbn [app length Nat.add] in E. change (Z.of_nat 3) with 3 in E. exists r. split; [easy|]. intros n d s after caps max Hn N. rewrite B.
  apply (dot_greedy c (quantifier q) d n s after caps max Sc); [|easy|easy]. destruct Hq as [<-|[<-|[]]]; [now left|now right].
Qed.
(** "c*?." and "c+?." take one c and one character more: "*?" repeats at least once *)
Theorem C57_shortest_repetition : forall c q f post, special_free c -> In q [42; 43] -> (4 < f)%nat ->
  exists r, compile f ([c; q; 63; 46] ++ post) 4 = Some (r, ReNone, false) /\
    forall x s after caps max, re_match (buf r) ((c :: x :: s) ++ after) (Z.of_nat (length (c :: x :: s))) caps max = Some (caps, true, Some 2).
Proof. intros c q f post Sc Hq F. destruct (compile_lazy c q f post Sc Hq F) as (r & E & B). exists r. split; [easy|]. intros. rewrite B. apply dot_lazy; [easy|now left]. Qed.
(** a repetition behind a word repeats its last character only; where that does not follow, the program is
    read at index -1 *)
Theorem C57_repeated_last : forall w c q f post, plain w -> special_free c -> In q [42; 43] -> Z.of_nat (length w) < 127 -> (2 < f)%nat ->
  exists r, compile f (w ++ c :: q :: post) (Z.of_nat (length w + 2)) = Some (r, ReNone, false) /\
    forall s after caps max,
      re_match (buf r) ((w ++ c :: s) ++ after) (Z.of_nat (length (w ++ c :: s))) caps max = Some (caps, true, Some (Z.of_nat (length w) + 1)) /\
      ((forall s', s <> c :: s') -> re_match (buf r) ((w ++ s) ++ after) (Z.of_nat (length (w ++ s))) caps max = None).
Proof.
  intros w c q f post Pw Sc Hq L F. destruct (compile_tail w c q f post Pw Sc Hq L F) as (r & E & B). exists r. split; [easy|]. intros s after caps max. rewrite B.
  assert (Q : quantifier q = ZERO_OR_MORE \/ quantifier q = ONE_OR_MORE) by (destruct Hq as [<-|[<-|[]]]; [now left|now right]). split; [apply tail_match|intros N; apply tail_fault]; try easy; lia.
Qed.

(** "\d" in "ab1c"; "a*." and "a+?." in "aaab"; "ab+" in "abbc" and "ac" *)
Definition run (p : list Z) (s : list Z) : option (bool * option Z) :=
  ' (r, _, _) <- compile 20 p (Z.of_nat (length p)) ;; ' (_, ok, o) <- re_match (buf r) (s ++ [0]) (Z.of_nat (length s)) None 0 ;; Some (ok, o).
Example C57_runs : run [92; 100] [97; 98; 49; 99] = Some (true, Some 3) /\ run [92; 68] [49; 50] = Some (false, None) /\ run [92; 97] [49; 90] = Some (true, Some 2) /\
  run [97; 42; 46] [97; 97; 97; 98] = Some (true, Some 4) /\ run [97; 43; 63; 46] [97; 97; 97; 98] = Some (true, Some 2) /\
  run [97; 98; 43] [97; 98; 98; 99] = Some (true, Some 2) /\ run [97; 98; 43] [97; 99] = None /\ run [] [97] = Some (true, None).
Proof. vm_compute. repeat split. Qed.
Example C57_runs_hyp : special_free 97 /\ plain [97; 98] /\ of_class 100 49 /\ ~ of_class 100 97 /\ of_class 68 97 /\ of_class 97 90.
Proof.
  assert (M : forall c, (if found c metas then False else True) -> ~ In c metas) by (intros c H I; apply found_in in I; now rewrite I in H).
  split; [split; [lia|now apply M]|]. split; [split; [easy|repeat constructor; try lia; now apply M]|]. unfold of_class. lia.
Qed.
Print Assumptions C56_empty.
Print Assumptions C57_class_at_end.
Print Assumptions C57_repetition_then_any.
Print Assumptions C57_shortest_repetition.
Print Assumptions C57_repeated_last.
