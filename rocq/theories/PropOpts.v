(** C90: command-line options. *)
From Coq Require Import String.
From Verif Require Import Base CStrSpec CStr Num NumSpec Print Node Json AdtNumSpec QuerySpec Opts OptsSpec OptsProofs OptsProofs2 OptsProofs3.
Open Scope string_scope. Open Scope Z_scope. Open Scope list_scope.
Set Default Timeout 60. 

Lemma mono T st args st' : runs T st args st' -> exists x, wrong st' = wrong st ++ x.
Proof.
  assert (Mono : forall a b r q, step T a r b q -> exists x, wrong b = wrong a ++ x).
  { intros a b r0 q Sx. destruct Sx; try (eexists; cbn [complain wrong]; reflexivity); try (exists []; now rewrite app_nil_r);
      match goal with H : give _ _ _ _ _ |- _ => apply give_inv in H; exists []; rewrite app_nil_r; exact H end. }
  induction 1 as [a|a r0 b q c Sx _ (x & Ex)]; [exists []; now rewrite app_nil_r|]. destruct (Mono _ _ _ _ Sx) as (y & Ey). exists (y ++ x). now rewrite Ex, Ey, app_assoc.
Qed.
Lemma all3_fun l T v v' : all3 entry_holds l T v -> all3 entry_holds l T v' -> v = v'.
Proof.
  intros H. revert v'. induction H as [|e d v l T vs He H IH]; intros v' H'; inversion H' as [|? ? w ? ? ws He' Hs']; subst; [easy|]. f_equal; [|now apply IH].
  destruct He as (_ & _ & _ & _ & A), He' as (_ & _ & _ & _ & B). destruct v, w; [|destruct A; congruence|destruct B; congruence|easy]. destruct A, B. congruence.
Qed.
Lemma holds_fun o T a b : holds o T a -> holds o T b -> a = b.
Proof.
  intros (_ & A & _ & PA & EA) (_ & B & _ & PB & EB). destruct a as [ga qa wa], b as [gb qb wb]. cbn in *. f_equal; [now apply (all3_fun (entries o) T)| |congruence].
  rewrite PA in PB. apply (f_equal (@rev _)) in PB. rewrite !rev_involutive in PB. revert PB. clear. revert qb. induction qa as [|i q IH]; intros [|j r] E; try easy. cbn in E. injection E as <- E. f_equal. now apply IH.
Qed.

(** Whatever the arguments mean, the parser finds. *)
Theorem C90_compile : forall o T st prog args st', holds o T st -> Forall cstring args -> runs T st args st' ->
  exists ok o', opts_compile o (prog :: args) = Some (ok, o') /\ holds o' T st' /\ (ok = true <-> wrong st' = wrong st).
Proof.
  intros o T st prog args st' Ho C R. destruct (runs_ok T st args st' R o false Ho C) as (o' & E & H'). eexists _, o'. split; [exact E|]. split; [exact H'|].
  destruct (mono _ _ _ _ R) as (x & Ex). unfold more. rewrite Ex, app_length. cbn [orb]. destruct x; cbn [List.length].
  - rewrite app_nil_r, Nat.add_0_r, Nat.ltb_irrefl. easy.
  - rewrite (proj2 (Nat.ltb_lt _ _)) by lia. split; [easy|]. intros E1. apply (f_equal (@List.length _)) in E1. rewrite app_length in E1. cbn in E1. lia.
Qed.
(** Whatever the parser finds, the arguments mean; and they mean one thing only. *)
Theorem C90_meaning : forall o T st prog args ok o', holds o T st -> Forall cstring args -> opts_compile o (prog :: args) = Some (ok, o') ->
  exists st', runs T st args st' /\ holds o' T st' /\ (ok = true <-> wrong st' = wrong st) /\ forall st'', runs T st args st'' -> st'' = st'.
Proof.
  intros o T st prog args ok o' Ho C E. destruct (runs_total T (List.length args) args st o false _ ltac:(lia) Ho C E) as (st' & R).
  exists st'. destruct (C90_compile o T st prog args st' Ho C R) as (ok1 & o1 & E1 & H1 & K). rewrite E in E1. injection E1 as <- <-. split; [exact R|]. split; [exact H1|]. split; [exact K|].
  intros st'' R'. destruct (C90_compile o T st prog args st'' Ho C R') as (ok2 & o2 & E2 & H2 & _). rewrite E in E2. injection E2 as <- <-. now apply (holds_fun o' T).
Qed.
(** What the program then sees. *)
Theorem C90_lookup : forall o T st, holds o T st ->
  (forall i d, nth_error T i = Some d -> exists v, nth_error (given st) i = Some v /\ has_arg o (d_lname d) = Some (match v with Some _ => true | None => false end) /\
     forall fallback, opts_value o (d_lname d) fallback = Some (match v with Some y => y | None => fallback end)) /\
  (forall n, cstring n -> ~ In n (map d_lname T) -> has_arg o n = Some false /\ forall fallback, opts_value o n fallback = Some fallback) /\
  (positionals_filled o = true <-> queue st = []).
Proof.
  intros o T st Ho. split; [|split; [|exact (no_positions o T st Ho)]].
  - intros i d Ei. destruct (lookup_ok o T st i d Ho Ei) as (e & v & Ev & L & (_ & _ & _ & _ & M)). exists v. split; [exact Ev|]. unfold has_arg, opts_value. rewrite L. cbn [obind].
    destruct v as [y|]; [destruct M as (-> & ->)|rewrite M]; easy.
  - intros n C N. unfold has_arg, opts_value. rewrite (lookup_none o T st n Ho C N). easy.
Qed.
(** How a parser is made. *)
Theorem C90_setup : forall app, holds (opts_init app) [] (State [] [] []) /\
  (forall o T st n ln ds t, holds o T st -> cstring ln -> (forall x, n = Some x -> cstring x) -> ~ In ln (map d_lname T) -> (queue st = [] \/ List.length T < cap o)%nat ->
     holds (opts_add o n (Some ln) ds t) (T ++ [Decl n ln t]) (State (given st ++ [None]) (queue st) (wrong st))) /\
  (forall o T st i d, holds o T st -> nth_error T i = Some d ->
     exists o', opts_positional_add o (d_lname d) = Some o' /\ holds o' T (State (given st) (queue st ++ [i]) (wrong st))).
Proof.
  intros app. split; [|split].
  - repeat split; constructor.
  - apply add_ok.
  - intros o T st i d Ho Ei. apply positional_ok; [easy|easy|]. intros j d' L Ej E. destruct Ho as ((_ & Nd) & _).
    assert (E1 : nth_error (map d_lname T) j = Some (d_lname d')) by now apply map_nth_error. assert (E2 : nth_error (map d_lname T) i = Some (d_lname d)) by now apply map_nth_error.
    assert (j = i); [|lia]. eapply (proj1 (NoDup_nth_error _)); [exact Nd|apply nth_error_Some; congruence|congruence].
Qed.
Theorem C90_help : forall o, Forall printable (entries o) -> short (appname o) -> (List.length (entries o) < cap o)%nat -> print_help o = Some (help_text o).
Proof. exact help_ok. Qed.

(** An option that wants a value does not take one that begins with -. *)
Theorem C90_negative_refuted : forall o T st prog b long w i d x r ok o', holds o T st -> Forall cstring (option_text b long w [] :: (45 :: x) :: r) -> parts b long w [] -> option_of T long w i d -> d_ty d <> OFlag ->
  opts_compile o (prog :: option_text b long w [] :: (45 :: x) :: r) = Some (ok, o') -> ok = false /\ In (ErrMissing, w) (errors o').
Proof.
  intros o T st prog b long w i d x r ok o' Ho C Pa Of Fl E. unfold opts_compile in E. cbn [tl] in E.
  assert (S1 : step T st (option_text b long w [] :: (45 :: x) :: r) (complain ErrMissing w st) ((45 :: x) :: r)).
  { apply s_missing with i d; try easy. intros (s & r' & [= <- <-] & N). now apply (N x). }
  destruct (step_ok o T st _ _ _ false S1 Ho C) as (o1 & H1 & E1). rewrite E1, more_complain in E. cbn [orb] in E. inversion C as [|? ? _ Cr]; subst.
  destruct (runs_total T _ _ _ _ _ _ (Nat.le_refl _) H1 Cr E) as (st' & R). destruct (runs_ok T _ _ st' R o1 true H1 Cr) as (o2 & E2 & (_ & _ & _ & _ & Er)). rewrite E in E2. injection E2 as -> ->. split; [reflexivity|].
  rewrite Er. destruct (mono _ _ _ _ R) as (y & ->). cbn [complain wrong]. rewrite !in_app_iff. cbn. tauto.
Qed.
(** A value that ends with a backslash makes the parser read behind the argument, *)
Theorem C90_backslash_refuted : forall o T st prog b long w i d q r, holds o T st -> parts b long w [] -> option_of T long w i d -> d_ty d <> OFlag -> cstring (option_text b long w (61 :: q ++ [92])) ->
  opts_compile o (prog :: option_text b long w (61 :: q ++ [92]) :: r) = None.
Proof.
  intros o T st prog b long w i d q r Ho (B & W & _ & D) Of Fl C. unfold opts_compile. cbn [tl].
  assert (Pa : parts b long w (61 :: q ++ [92])). { repeat split; try easy. intros c t [= <- _]. unfold letter. lia. }
  rewrite (compile_option _ _ _ _ _ _ _ Pa C). destruct (parts_cstring _ _ _ _ C) as (_ & Cw & Cm). unfold option_case. rewrite (find_ok o T st long w _ i d Ho) by (first [exact Of|now apply Forall_app]). cbn [obind].
  pose proof Of as (Ei & _). destruct (all3_nth _ _ _ _ _ _ (proj1 (proj2 Ho)) Ei) as (e & v & -> & _ & (_ & _ & E3 & _)). cbn [obind Z.eqb Pos.eqb]. rewrite E3, (nonflag _ Fl).
  inversion Cm as [|? ? _ Cq]; subst. apply Forall_app in Cq. rewrite skip_none by easy. reflexivity.
Qed.
(** an empty one, given as an argument of its own, in front of it. *)
Theorem C90_empty_refuted : forall o T st prog b long w i d r, holds o T st -> parts b long w [] -> option_of T long w i d -> d_ty d <> OFlag -> cstring (option_text b long w []) ->
  opts_compile o (prog :: option_text b long w [] :: [] :: r) = None.
Proof.
  intros o T st prog b long w i d r Ho Pa Of Fl C. unfold opts_compile. cbn [tl].
  rewrite (compile_option _ _ _ _ _ _ _ Pa C). destruct (parts_cstring _ _ _ _ C) as (_ & Cw & Cm). unfold option_case. rewrite (find_ok o T st long w _ i d Ho) by (first [exact Of|now apply Forall_app]). cbn [obind].
  pose proof Of as (Ei & _). destruct (all3_nth _ _ _ _ _ _ (proj1 (proj2 Ho)) Ei) as (e & v & -> & _ & (_ & _ & E3 & _)). cbn [obind]. rewrite E3, (nonflag _ Fl). cbn. rewrite orb_true_r. reflexivity.
Qed.
(** A switch in front of a plain argument is not set, unless arguments by position are still wanted. *)
Theorem C90_switch_refuted : forall o T st prog b long w i d s r ok o', holds o T st -> Forall cstring (option_text b long w [] :: s :: r) -> parts b long w [] -> option_of T long w i d -> d_ty d = OFlag ->
  queue st = [] -> (forall q, s <> 45 :: q) -> opts_compile o (prog :: option_text b long w [] :: s :: r) = Some (ok, o') -> ok = false /\ In (ErrExtra, []) (errors o').
Proof.
  intros o T st prog b long w i d s r ok o' Ho C Pa Of Fl Q Nd E. unfold opts_compile in E. cbn [tl] in E.
  assert (S1 : step T st (option_text b long w [] :: s :: r) (complain ErrExtra [] st) (s :: r)).
  { apply s_extra_next with i d; try easy. now exists s, r. }
  destruct (step_ok o T st _ _ _ false S1 Ho C) as (o1 & H1 & E1). rewrite E1, more_complain in E. cbn [orb] in E. inversion C as [|? ? _ Cr]; subst.
  destruct (runs_total T _ _ _ _ _ _ (Nat.le_refl _) H1 Cr E) as (st' & R). destruct (runs_ok T _ _ st' R o1 true H1 Cr) as (o2 & E2 & (_ & _ & _ & _ & Er)). rewrite E in E2. injection E2 as -> ->. split; [reflexivity|].
  rewrite Er. destruct (mono _ _ _ _ R) as (y & ->). cbn [complain wrong]. rewrite !in_app_iff. cbn. tauto.
Qed.
(** A switch with something other than = stuck to it is set. *)
Theorem C90_stuck_refuted : forall o T st prog b long w c s i d, holds o T st -> parts b long w (c :: s) -> c <> 61 -> option_of T long w i d -> d_ty d = OFlag -> no_backslash (c :: s) -> cstring (option_text b long w (c :: s)) ->
  exists o', opts_compile o [prog; option_text b long w (c :: s)] = Some (true, o') /\ has_arg o' (d_lname d) = Some true.
Proof.
  intros o T st prog b long w c s i d Ho Pa N Of Fl Nb C. destruct (without_total i (queue st)) as (q & Wo).
  assert (S1 : step T st [option_text b long w (c :: s)] (State (set (given st) i NoVal) q (wrong st)) []).
  { apply s_stuck with i d; try easy. rewrite Fl. now exists NoVal, q. }
  destruct (C90_compile o T st prog [option_text b long w (c :: s)] _ Ho ltac:(now constructor) (r_step _ _ _ _ _ _ S1 (r_nil _ _))) as (ok & o' & E & H' & K). exists o'. rewrite (proj2 K eq_refl) in E. split; [exact E|].
  destruct (C90_lookup o' T _ H') as (L & _). destruct Of as (Ei & _). destruct (L i d Ei) as (v & Ev & Hv & _). rewrite Hv. cbn [given] in Ev.
  assert (Li : (i < List.length (given st))%nat) by (destruct Ho as (_ & A & _); apply all3_len in A; assert (i < List.length T)%nat by (apply nth_error_Some; congruence); lia).
  unfold set in Ev. rewrite nth_error_app2 in Ev by (rewrite firstn_length; lia). rewrite firstn_length, Nat.min_l, Nat.sub_diag in Ev by lia. cbn in Ev. injection Ev as <-. reflexivity.
Qed.
(** An option added when the table is full moves the table; the options wanted by position are then lost. *)
Theorem C90_moved_refuted : forall o T st n ln ds t prog b s r, holds o T st -> queue st <> [] -> cap o = List.length T ->
  blank b -> (forall c t, s = c :: t -> ~ white c /\ c <> 45) -> b ++ s <> [] -> cstring (b ++ s) ->
  opts_compile (opts_add o n ln ds t) (prog :: (b ++ s) :: r) = None.
Proof.
  intros o T st n ln ds t prog b s r (G & H & F & P & Er) Q Cp B S0 Ne C. unfold opts_compile. cbn [tl]. rewrite compile_word by easy. unfold word_case, opts_add. cbn [positioned].
  destruct (all3_len _ _ _ _ H) as (Le & _). rewrite P, rev_involutive. destruct (queue st) as [|i q]; [easy|]. cbn [map]. unfold deref. cbn [set_positioned era fst snd entries].
  rewrite (proj2 (Nat.ltb_lt _ _)) by lia. destruct (Nat.eqb_spec (era o) (S (era o))); [lia|]. reflexivity.
Qed.
(** The help text is undefined when the table is full, *)
Theorem C90_help_refuted : forall o, (cap o <= List.length (entries o))%nat -> print_help o = None.
Proof. exact help_bad. Qed.

(** ** examples *)
Definition demo0 : opts :=
  opts_add (opts_add (opts_add (opts_add (opts_init (asc "app")) (Some (asc "n")) (Some (asc "num")) (asc "a number") OInt) (Some (asc "v")) (Some (asc "verbose")) (asc "talk") OFlag)
    (Some (asc "i")) (Some (asc "in")) (asc "from") OString) (Some (asc "o")) (Some (asc "out")) (asc "to") OString.
Definition demo : opts := match (o <- opts_positional_add demo0 (asc "in") ;; opts_positional_add o (asc "out")) with Some o => o | None => demo0 end.
Definition demo_table : list decl :=
  [Decl (Some (asc "n")) (asc "num") OInt; Decl (Some (asc "v")) (asc "verbose") OFlag; Decl (Some (asc "i")) (asc "in") OString; Decl (Some (asc "o")) (asc "out") OString].
Definition demo_state : state := State [None; None; None; None] [2%nat; 3%nat] [].
Example C90_holds_example : holds demo demo_table demo_state.
Proof.
  split; [split|split; [|split; [|split]]].
  - unfold demo_table. repeat match goal with |- Forall _ (_ :: _) => constructor | |- Forall _ [] => constructor end; (split; [apply lit_cs; reflexivity|intros n [= <-]; apply lit_cs; reflexivity]).
  - repeat constructor; cbn; intuition discriminate.
  - repeat constructor; easy.
  - repeat constructor.
  - reflexivity.
  - reflexivity.
Qed.
Definition see (r : option (bool * opts)) : option (bool * list (bool * oval) * list (nat * nat) * list (err * list Z)) :=
  ' (b, o) <- r ;; Some (b, map (fun e => (met e, val e)) (entries o), positioned o, errors o).
Example C90_example : see (opts_compile demo [asc "app"; asc "-v"; asc "a.txt"; asc "--num=12"; asc "b.txt"]) =
  Some (true, [(true, Int 12); (true, NoVal); (true, Text (asc "a.txt")); (true, Text (asc "b.txt"))], [], []).
Proof. vm_compute. reflexivity. Qed.
(** one given by name is not wanted by position any more *)
Example C90_named_example : see (opts_compile demo [asc "app"; asc "--in"; asc "x"; asc "y"; asc "-v"]) =
  Some (true, [(false, NoVal); (true, NoVal); (true, Text (asc "x")); (true, Text (asc "y"))], [], []).
Proof. vm_compute. reflexivity. Qed.
Example C90_errors_example : see (opts_compile demo [asc "app"; asc "-q"; asc "--verbose=1"; asc "-n"; asc "-5"; asc "a"; asc "b"; asc "c"]) =
  Some (false, [(false, NoVal); (false, NoVal); (true, Text (asc "a")); (true, Text (asc "b"))], [], [(ErrOption, asc "q"); (ErrExtra, asc "verbose"); (ErrMissing, asc "n"); (ErrOption, asc "5"); (ErrValue, asc "c")]).
Proof. vm_compute. reflexivity. Qed.
Example C90_switch_example : see (opts_compile demo0 [asc "app"; asc "-v"; asc "a"]) =
  Some (false, [(false, NoVal); (false, NoVal); (false, NoVal); (false, NoVal)], [], [(ErrExtra, []); (ErrValue, asc "a")]).
Proof. vm_compute. reflexivity. Qed.
Example C90_stuck_example : see (opts_compile demo0 [asc "app"; asc "-v:no"]) = Some (true, [(false, NoVal); (true, NoVal); (false, NoVal); (false, NoVal)], [], []).
Proof. vm_compute. reflexivity. Qed.
Example C90_undefined_example : opts_compile demo [asc "app"; asc "--in=C:\"] = None /\ opts_compile demo [asc "app"; asc "--in"; []] = None /\ opts_compile demo [asc "app"; asc "--num=9223372036854775808"] = None.
Proof. vm_compute. repeat split. Qed.
Definition full := let a n o := opts_add o None (Some (asc n)) [] OInt in a "e" (a "f" (a "g" (a "h" demo))).
Example C90_full_example : cap full = List.length (entries full) /\ queue demo_state <> [] /\ print_help full = None /\
  opts_compile (opts_add full None (Some (asc "k")) [] OInt) [asc "app"; asc "a"] = None /\ see (opts_compile full [asc "app"; asc "a"]) <> None.
Proof. repeat split; vm_compute; easy. Qed.
(** and the options wanted by position are named from the last to the first *)
Theorem C90_order_refuted : exists t, print_help demo = Some (asc "USAGE: app [out] [in]" ++ t) /\
  exists o, opts_compile demo [asc "app"; asc "x"; asc "y"] = Some (true, o) /\ opts_value o (asc "in") NoVal = Some (Text (asc "x")) /\ opts_value o (asc "out") NoVal = Some (Text (asc "y")).
Proof. vm_compute. eexists. split; [reflexivity|]. eexists. repeat split. Qed.

Print Assumptions C90_compile.
Print Assumptions C90_meaning.
Print Assumptions C90_lookup.
Print Assumptions C90_setup.
Print Assumptions C90_help.
Print Assumptions C90_negative_refuted.
Print Assumptions C90_backslash_refuted.
Print Assumptions C90_empty_refuted.
Print Assumptions C90_switch_refuted.
Print Assumptions C90_stuck_refuted.
Print Assumptions C90_moved_refuted.
Print Assumptions C90_help_refuted.
Print Assumptions C90_order_refuted.
