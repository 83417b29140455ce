From Coq Require Import String.
From Verif Require Import Base CStrSpec CStr CStrProofs Node Json AdtNumSpec QuerySpec Opts OptsSpec OptsProofs.
Open Scope Z_scope. Open Scope list_scope.
Set Default Timeout 60. 

(** ** the pieces of an argument *)
Lemma name_char_spec c : name_char c = true <-> letter c.
Proof.
  unfold name_char, char_is_alphanumeric, char_is_alpha, char_is_digit, letter. rewrite !orb_true_iff, !andb_true_iff, !Z.leb_le, !Z.eqb_eq. lia.
Qed.
Lemma name_len_ok w m : word w -> (forall c r, m = c :: r -> ~ letter c) -> name_len (w ++ m ++ [0]) = Some (List.length w).
Proof.
  intros W M. induction W as [|c w Hc W IH]; cbn [app name_len List.length].
  - destruct m as [|c m]; cbn [app name_len]; [reflexivity|]. destruct (name_char c) eqn:E; [|reflexivity]. apply name_char_spec in E. exfalso. now apply (M c m).
  - rewrite (proj2 (name_char_spec c) Hc), IH. reflexivity.
Qed.
Lemma white_spec c : char_is_space c = true <-> white c.
Proof. unfold char_is_space, white. cbn [In]. rewrite !orb_true_iff, !Z.eqb_eq. lia. Qed.
Lemma trim_blank b s : blank b -> cstring b -> (forall c t, s = c :: t -> ~ white c) -> str_trim (b ++ s ++ [0]) false = Some (List.length b).
Proof.
  intros B C S0. induction B as [|c b Hc B IH]; cbn [app str_trim List.length].
  - destruct s as [|c s]; cbn [app str_trim]; [reflexivity|]. destruct (char_is_space c) eqn:E; [|now rewrite andb_false_r]. apply white_spec in E. exfalso. now apply (S0 c s).
  - inversion C; subst. destruct (Z.eqb_spec c 0); [lia|]. rewrite (proj2 (white_spec c) Hc). cbn [negb andb orb]. rewrite IH by easy. reflexivity.
Qed.
Lemma skip_some s : forall prev, cstring s -> no_backslash s -> (s = [] -> prev <> 92) -> exists n, control_skip (s ++ [0]) prev 0 = Some n.
Proof.
  induction s as [|c s IH]; intros prev C N P; cbn [app control_skip].
  - destruct (Z.eqb_spec prev 92) as [->|]; [now specialize (P eq_refl)|]. cbn. now exists O.
  - inversion C; subst. destruct (Z.eqb_spec c 0); [lia|]. cbn [negb andb orb]. destruct (IH c) as (n' & ->); [easy| | |now exists (S n')].
    + intros q ->. now apply (N (c :: q)).
    + intros -> ->. now apply (N []).
Qed.
Lemma skip_none q : forall prev, cstring q -> control_skip ((q ++ [92]) ++ [0]) prev 0 = None.
Proof.
  induction q as [|c q IH]; intros prev C.
  - cbn. reflexivity.
  - inversion C; subst. cbn [app control_skip]. destruct (Z.eqb_spec c 0); [lia|]. cbn [negb andb orb]. rewrite IH by easy. reflexivity.
Qed.
Lemma backslash_dec s : no_backslash s \/ exists q, s = q ++ [92].
Proof.
  destruct (rev s) as [|c r] eqn:E.
  - left. intros q ->. rewrite rev_app_distr in E. easy.
  - apply (f_equal (@rev Z)) in E. rewrite rev_involutive in E. cbn [rev] in E. destruct (Z.eq_dec c 92) as [->|N]; [right; eauto|]. left. intros q ->. apply app_inj_tail in E. destruct E. congruence.
Qed.

(** ** what is done with an option *)
Definition met_entry (e : entry) : entry := Entry (name e) (lname e) (desc e) (ty e) true (pos e) (val e).
Definition option_case (o : opts) (w m : list Z) (long : bool) (rest : list (list Z)) (had : bool) : option (bool * opts) :=
  let b := w ++ m ++ [0] in let n := List.length w in
  t <- opts_find o b n long ;;
  match t with
  | None => o <- push_error o ErrOption b ;; compile o rest true
  | Some i =>
    t <- nth_error (entries o) i ;;
    match m with
    | [] =>
      match rest with
      | sp :: rest' =>
        s <- rd (sp ++ [0]) 0 ;;
        if negb (s =? 45) && ((match positioned o with [] => true | _ => false end) || negb (is_flag (ty t))) then
          if is_flag (ty t) then o <- push_error o ErrExtra [0] ;; compile o rest true
          else
            _ <- (if s =? 0 then None else control_skip (sp ++ [0]) 0 0) ;;
            o <- set_value o i (sp ++ [0]) ;; compile o rest' had
        else if negb (is_flag (ty t)) then o <- push_error o ErrMissing b ;; compile o rest true
        else compile (set_entries o (upd (entries o) i met_entry)) rest had
      | [] =>
        if negb (is_flag (ty t)) then o <- push_error o ErrMissing b ;; compile o rest true
        else compile (set_entries o (upd (entries o) i met_entry)) rest had
      end
    | c :: m =>
      if c =? 61 then
        if is_flag (ty t) then o <- push_error o ErrExtra (w ++ [0]) ;; compile o rest true
        else
          _ <- control_skip (m ++ [0]) 61 0 ;;
          o <- set_value o i (m ++ [0]) ;; compile o rest had
      else
        _ <- control_skip ((c :: m) ++ [0]) 0 0 ;;
        o <- set_value o i ((c :: m) ++ [0]) ;; compile o rest had
    end
  end.
Lemma dashes_head b long w m : exists c r, option_text b long w m = c :: r.
Proof. unfold option_text. destruct b as [|c b]; [|cbn [app]; eauto]. destruct long; cbn [app]; eauto. Qed.
Lemma nth_len {A} (a : list A) x r : nth_error (a ++ x :: r) (List.length a) = Some x.
Proof. induction a; [easy|exact IHa]. Qed.
Lemma compile_option o b long w m rest had : parts b long w m -> cstring (option_text b long w m) ->
  compile o (option_text b long w m :: rest) had = option_case o w m long rest had.
Proof.
  intros (B & W & M & D) C. destruct (dashes_head b long w m) as (c0 & r0 & E0).
  assert (R0 : rd (option_text b long w m ++ [0]) 0 = Some c0) by (rewrite E0; reflexivity).
  assert (N0 : (c0 =? 0) = false) by (rewrite E0 in C; inversion C; subst; apply Z.eqb_neq; lia).
  assert (Cb : cstring b /\ cstring (w ++ m)).
  { unfold option_text in C. apply Forall_app in C. destruct C as (Cb & C). apply Forall_app in C. now split. }
  destruct Cb as (Cb & Cw).
  cbn [compile]. rewrite R0. cbn [obind]. rewrite N0. clear c0 r0 E0 R0 N0.
  set (x := (if long then [45; 45] else [45]) ++ w ++ m).
  assert (Tr : str_trim (option_text b long w m ++ [0]) false = Some (List.length b)).
  { unfold option_text. rewrite <- app_assoc. apply trim_blank; [easy|easy|]. intros c t E. destruct long; cbn [app] in E; injection E as <- _; unfold white; cbn; lia. }
  rewrite Tr. cbn [obind]. unfold option_text. rewrite <- app_assoc, skipn_len.
  replace (rd (((if long then [45; 45] else [45]) ++ w ++ m) ++ [0]) 0) with (Some 45) by (destruct long; reflexivity). cbn [obind]. cbn [Z.eqb Pos.eqb].
  assert (Dd : exists d, rd (((if long then [45; 45] else [45]) ++ w ++ m) ++ [0]) 1 = Some d /\ (d =? 45) = long).
  { destruct long; [now exists 45|]. cbn [app]. unfold rd. cbn [nth_error]. destruct w as [|a w].
    - destruct m as [|a m]; [now exists 0|]. exists a. split; [reflexivity|]. apply Z.eqb_neq. intros ->. apply (M 45 m); [easy|]. unfold letter. lia.
    - exists a. split; [reflexivity|]. apply Z.eqb_neq. intros ->. now apply (D eq_refl w). }
  destruct Dd as (d & -> & Ed). cbn [obind]. rewrite Ed.
  assert (Sk : skipn (if long then 2 else 1) (((if long then [45; 45] else [45]) ++ w ++ m) ++ [0]) = w ++ m ++ [0]) by (destruct long; cbn [app skipn]; now rewrite <- app_assoc).
  rewrite Sk. rewrite name_len_ok by easy. cbn [obind]. unfold option_case.
  destruct (opts_find o (w ++ m ++ [0]) (List.length w) long) as [[i|]|]; cbn [obind]; [|reflexivity|reflexivity].
  destruct (nth_error (entries o) i) as [t|]; cbn [obind]; [|reflexivity].
  assert (Fn : firstn (List.length w) (w ++ m ++ [0]) = w) by apply firstn_len. assert (Sn : skipn (List.length w) (w ++ m ++ [0]) = m ++ [0]) by apply skipn_len.
  rewrite Fn, Sn. destruct m as [|c m].
  - unfold rd at 1. cbn [app]. rewrite nth_len. cbn [obind Z.eqb]. reflexivity.
  - assert (S1 : skipn (S (List.length w)) (w ++ (c :: m) ++ [0]) = m ++ [0]).
    { clear. induction w; [reflexivity|exact IHw]. }
    rewrite S1. unfold rd at 1. cbn [app]. rewrite nth_len. cbn [obind].
    assert (Nc : (c =? 0) = false). { apply Forall_app in Cw. destruct Cw as (_ & Cm). inversion Cm; subst. apply Z.eqb_neq. lia. }
    rewrite Nc. reflexivity.
Qed.
Definition word_case (o : opts) (s : list Z) (rest : list (list Z)) (had : bool) : option (bool * opts) :=
  match rev (positioned o) with
  | l :: r => _ <- deref (set_positioned o (rev r)) l ;; o <- set_value (set_positioned o (rev r)) (snd l) (s ++ [0]) ;; compile o rest had
  | [] => o <- push_error o ErrValue (s ++ [0]) ;; compile o rest true
  end.
Lemma compile_word o b s rest had : blank b -> (forall c t, s = c :: t -> ~ white c /\ c <> 45) -> b ++ s <> [] -> cstring (b ++ s) ->
  compile o ((b ++ s) :: rest) had = word_case o s rest had.
Proof.
  intros B S0 Ne C. assert (E0 : exists c0, rd ((b ++ s) ++ [0]) 0 = Some c0 /\ (c0 =? 0) = false).
  { destruct (b ++ s) as [|c0 r]; [easy|]. exists c0. split; [reflexivity|]. inversion C; subst. apply Z.eqb_neq. lia. }
  destruct E0 as (c0 & R0 & N0). cbn [compile]. rewrite R0. cbn [obind]. rewrite N0. clear c0 R0 N0.
  apply Forall_app in C. destruct C as (Cb & Cs).
  rewrite <- app_assoc. rewrite trim_blank; [|easy|easy|intros; now apply (S0 c t)]. cbn [obind]. rewrite skipn_len.
  assert (E1 : exists c1, rd (s ++ [0]) 0 = Some c1 /\ (c1 =? 45) = false).
  { destruct s as [|c s]; [now exists 0|]. exists c. split; [reflexivity|]. apply Z.eqb_neq. now apply (S0 c s). }
  destruct E1 as (c1 & -> & E1). cbn [obind]. rewrite E1. reflexivity.
Qed.

(** ** one step *)
Lemma push_ok o T st k s x : holds o T st -> cstring s -> exists o', push_error o k (s ++ 0 :: x) = Some o' /\ holds o' T (complain k s st).
Proof.
  intros (G & H & F & P & Er) C. unfold push_error. rewrite until_ok by easy. cbn [obind]. eexists. split; [reflexivity|].
  split; [exact G|]. split; [exact H|]. split; [exact F|]. split; [exact P|]. cbn [errors complain wrong]. now rewrite Er.
Qed.
Definition more (st st1 : state) : bool := (List.length (wrong st) <? List.length (wrong st1))%nat.
Lemma more_complain k s st : more st (complain k s st) = true.
Proof. unfold more, complain. cbn [wrong]. rewrite app_length. cbn [List.length]. apply Nat.ltb_lt. lia. Qed.
Lemma more_same st st1 : wrong st1 = wrong st -> more st st1 = false.
Proof. unfold more. intros ->. apply Nat.ltb_irrefl. Qed.
Lemma plain_dec r : plain_next r \/ ~ plain_next r.
Proof.
  destruct r as [|s r]; [right; now intros (? & ? & ? & _)|]. destruct s as [|c s]; [left; now exists [], r|].
  destruct (Z.eq_dec c 45) as [->|N]; [right|left; exists (c :: s), r; split; [easy|congruence]]. intros (s' & r' & [= <- <-] & H). now apply (H s).
Qed.
Lemma flag_true t : is_flag t = true <-> t = OFlag.
Proof. destruct t; cbn; easy. Qed.
Lemma nonflag t : t <> OFlag -> is_flag t = false.
Proof. destruct t; easy. Qed.
Lemma no_positions o T st : holds o T st -> ((match positioned o with [] => true | _ => false end) = true <-> queue st = []).
Proof.
  intros (_ & _ & _ & P & _). rewrite P. split; intros H.
  - destruct (queue st) as [|i q]; [easy|]. cbn [map rev] in H. destruct (rev _) in H; easy.
  - now rewrite H.
Qed.
Lemma parts_cstring b long w m : cstring (option_text b long w m) -> cstring b /\ cstring w /\ cstring m.
Proof. unfold option_text, cstring. rewrite !Forall_app. tauto. Qed.
Lemma give_inv i t s st st' : give i t s st st' -> wrong st' = wrong st.
Proof. now intros (y & q & _ & _ & ->). Qed.
Lemma switch_ok o T st i d : holds o T st -> nth_error T i = Some d -> d_ty d = OFlag -> holds (set_entries o (upd (entries o) i met_entry)) T (State (set (given st) i NoVal) (queue st) (wrong st)).
Proof.
  intros (G & H & F & P & Er) Ei Fl. destruct (all3_nth _ _ _ _ _ _ H Ei) as (e & c & Ee & _ & (E1 & E2 & E3 & E4 & E5)).
  split; [exact G|]. split; [|split; [exact F|split; [exact P|exact Er]]]. apply (upd_ok _ _ _ _ d e); try easy. unfold met_entry, entry_holds. cbn. repeat (split; [easy|]). apply E4. congruence.
Qed.

Lemma step_ok o T st args st1 rest had : step T st args st1 rest -> holds o T st -> Forall cstring args ->
  exists o1, holds o1 T st1 /\ compile o args had = compile o1 rest (had || more st st1).
Proof.
  intros H Ho Ca. destruct H as [r|b long w i d r Pa Of Fl Q|b long w s i d r st' Pa Of Fl Nb Gv|b long w s i d r st' Pa Of Fl Ne Nd Nb Gv|b long w c s i d r st' Pa N61 Of Nb Gv
    |b s i q d r st' B S0 Ne Q Ei Gv|b long w m r Pa U|b long w s i d r Pa Of Fl|b long w i d r Pa Of Fl Q Pn|b long w i d r Pa Of Fl Pn|b s r B S0 Ne Q];
    inversion Ca as [|? ? C1 Cr]; subst;
    try (rewrite (compile_option _ _ _ _ _ _ _ Pa C1); destruct (parts_cstring _ _ _ _ C1) as (Cb & Cw & Cm); unfold option_case);
    try (rewrite (find_ok o T st long w _ i d Ho) by (first [exact Of|now apply Forall_app]); cbn [obind];
         pose proof Of as (Ei & _); destruct (all3_nth _ _ _ _ _ _ (proj1 (proj2 Ho)) Ei) as (e & v & Ee & _ & (E1 & E2 & E3 & E4 & E5)); rewrite Ee; cbn [obind]; rewrite E3).
  - exists o. split; [exact Ho|]. rewrite more_same, orb_false_r by easy. reflexivity.
  - exists (set_entries o (upd (entries o) i met_entry)). split; [now apply (switch_ok o T st i d)|]. rewrite more_same, orb_false_r by easy. rewrite Fl. cbn [is_flag negb].
    destruct r as [|sp r]; [reflexivity|]. rewrite orb_false_r.
    destruct sp as [|c sp]; cbn [app rd nth_error obind].
    + destruct (match positioned o with [] => true | _ => false end) eqn:Po; [|reflexivity]. apply (no_positions o T st Ho) in Po. exfalso. apply (Q Po). now exists [], r.
    + destruct (Z.eqb_spec c 45) as [->|N]; [reflexivity|]. cbn [negb andb]. destruct (match positioned o with [] => true | _ => false end) eqn:Po; [|reflexivity]. apply (no_positions o T st Ho) in Po. exfalso. apply (Q Po). exists (c :: sp), r. split; [easy|congruence].
  - inversion Cm as [|? ? _ Cs]; subst. destruct Gv as (y & q & Rd & Wo & ->). destruct (set_value_ok o T st i d s y q Ho Ei Cs Rd Wo) as (o1 & Es & H1). exists o1. split; [exact H1|].
    rewrite more_same, orb_false_r by easy. cbn [Z.eqb Pos.eqb]. rewrite (nonflag _ Fl). destruct (skip_some s 61 Cs Nb) as (n & ->); [lia|]. cbn [obind]. rewrite Es. reflexivity.
  - inversion Cr as [|? ? Cs Cr']; subst. destruct Gv as (y & q & Rd & Wo & ->). destruct (set_value_ok o T st i d s y q Ho Ei Cs Rd Wo) as (o1 & Es & H1). exists o1. split; [exact H1|].
    rewrite more_same, orb_false_r by easy. rewrite (nonflag _ Fl). cbn [negb]. destruct s as [|c s]; [easy|].
    destruct (skip_some (c :: s) 0 Cs Nb) as (n & Sk); [lia|]. cbn [app rd nth_error obind] in *. rewrite Sk, orb_true_r, andb_true_r. destruct (Z.eqb_spec c 45) as [->|_]; [now elim (Nd s)|]. cbn [negb].
    destruct (Z.eqb_spec c 0); [inversion Cs; lia|]. cbn [obind]. cbn [app] in Es. rewrite Es. reflexivity.
  - destruct Gv as (y & q & Rd & Wo & ->). destruct (set_value_ok o T st i d (c :: s) y q Ho Ei Cm Rd Wo) as (o1 & Es & H1). exists o1. split; [exact H1|].
    rewrite more_same, orb_false_r by easy. destruct (Z.eqb_spec c 61); [easy|]. destruct (skip_some (c :: s) 0 Cm Nb) as (n' & ->); [lia|]. cbn [obind]. rewrite Es. reflexivity.
  - rewrite compile_word by easy. pose proof Ho as (G & H & F & P & Er). rewrite Q in F. inversion F as [|? ? Li F']; subst. pose proof C1 as C1'. apply Forall_app in C1'. destruct C1' as (_ & Cs).
    assert (Hp : rev (positioned o) = (era o, i) :: map (fun j => (era o, j)) q) by (rewrite P, Q, rev_involutive; reflexivity).
    assert (H0 : holds (set_positioned o (rev (map (fun j => (era o, j)) q))) T (State (given st) q (wrong st))) by (split; [exact G|]; split; [exact H|]; split; [exact F'|]; split; [reflexivity|exact Er]).
    pose proof Gv as Gv0. destruct Gv as (y & q' & Rd & Wo & ->). destruct (set_value_ok _ T _ i d s y q' H0 Ei Cs Rd Wo) as (o1 & Es & H1). exists o1. split; [exact H1|].
    rewrite more_same, orb_false_r by easy. unfold word_case. rewrite Hp. destruct (all3_nth _ _ _ _ _ _ H Ei) as (e & v & Ee & _ & _).
    unfold deref. cbn [fst snd set_positioned era entries]. rewrite Nat.eqb_refl, Ee. cbn [obind]. cbn [set_positioned] in Es. rewrite Es. reflexivity.
  - rewrite (find_none o T st) by (first [exact Ho|exact U|now apply Forall_app]). cbn [obind]. rewrite app_assoc. destruct (push_ok o T st ErrOption (w ++ m) [] Ho) as (o1 & E & H1); [now apply Forall_app|].
    exists o1. split; [exact H1|]. rewrite E, more_complain, orb_true_r. reflexivity.
  - destruct (push_ok o T st ErrExtra w [] Ho Cw) as (o1 & E & H1). exists o1. split; [exact H1|]. cbn [Z.eqb Pos.eqb]. rewrite Fl. cbn [is_flag]. rewrite E, more_complain, orb_true_r. reflexivity.
  - destruct (push_ok o T st ErrExtra [] [] Ho) as (o1 & E & H1); [constructor|]. exists o1. split; [exact H1|]. rewrite Fl. cbn [is_flag negb]. destruct Pn as (s & r' & -> & Nd).
    rewrite (proj2 (no_positions o T st Ho) Q). cbn [orb].
    assert (Hd : exists c, rd (s ++ [0]) 0 = Some c /\ (c =? 45) = false). { destruct s as [|c s]; [now exists 0|]. exists c. split; [easy|]. apply Z.eqb_neq. intros ->. now apply (Nd s). }
    destruct Hd as (c & -> & Nc). cbn [obind]. rewrite Nc. cbn [negb andb]. cbn [app] in E. rewrite E, more_complain, orb_true_r. reflexivity.
  - destruct (push_ok o T st ErrMissing w [] Ho Cw) as (o1 & E & H1). exists o1. split; [exact H1|]. rewrite (nonflag _ Fl). cbn [negb app]. rewrite E, more_complain, (orb_true_r had).
    destruct r as [|s r]; [reflexivity|]. destruct s as [|c s]; [elim Pn; now exists [], r|]. cbn [app rd nth_error obind]. destruct (Z.eqb_spec c 45) as [->|N]; [reflexivity|]. elim Pn. exists (c :: s), r. split; [easy|congruence].
  - rewrite compile_word by easy. pose proof C1 as C1'. apply Forall_app in C1'. destruct C1' as (_ & Cs). destruct (push_ok o T st ErrValue s [] Ho Cs) as (o1 & E & H1). exists o1. split; [exact H1|].
    unfold word_case. destruct Ho as (G & H & F & P & Er). rewrite P, Q. cbn [map rev]. rewrite E, more_complain, orb_true_r. reflexivity.
Qed.
