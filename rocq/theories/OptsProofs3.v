From Coq Require Import String.
From Verif Require Import Base CStrSpec CStr CStrProofs Print PrintSpec PrintProofs2 Node NodeProofs Json AdtNumSpec QuerySpec Opts OptsSpec OptsProofs OptsProofs2.
Open Scope string_scope. Open Scope Z_scope. Open Scope list_scope.
Set Default Timeout 60. 

(** ** every argument is one of the kinds, or reading it is undefined *)
Lemma letter_dec c : letter c \/ ~ letter c.
Proof. destruct (name_char c) eqn:E; [left; now apply name_char_spec|right]. intros L. apply name_char_spec in L. congruence. Qed.
Lemma white_dec c : white c \/ ~ white c.
Proof. destruct (char_is_space c) eqn:E; [left; now apply white_spec|right]. intros L. apply white_spec in L. congruence. Qed.
Lemma span (P : Z -> Prop) : (forall c, P c \/ ~ P c) -> forall a, exists w m, a = w ++ m /\ Forall P w /\ forall c r, m = c :: r -> ~ P c.
Proof.
  intros D a. induction a as [|c a (w & m & -> & W & M)]; [exists [], []; repeat split; easy|].
  destruct (D c) as [Y|N]; [exists (c :: w), m; repeat split; [now constructor|exact M]|].
  exists [], (c :: w ++ m). repeat split; [constructor|]. now intros c' r [= <- _].
Qed.
Lemma split_arg a : (exists b long w m, parts b long w m /\ a = option_text b long w m) \/
  (exists b s, blank b /\ (forall c t, s = c :: t -> ~ white c /\ c <> 45) /\ a = b ++ s).
Proof.
  destruct (span white white_dec a) as (b & s & -> & B & S0). destruct s as [|c s]; [right; exists b, []; easy|].
  destruct (Z.eq_dec c 45) as [->|N]; [left|right; exists b, (c :: s); repeat split; try easy; [intros W; injection H as <- <-; now apply (S0 c s)|congruence]].
  assert (K : forall x long, (long = false -> forall r, x <> 45 :: r) -> exists w m, parts b long w m /\ x = w ++ m).
  { intros x long H. destruct (span letter letter_dec x) as (w & m & -> & W & M). exists w, m. split; [|easy]. split; [exact B|]. split; [exact W|]. split; [exact M|].
    intros E r ->. now apply (H E (r ++ m)). }
  destruct s as [|c s]; [|destruct (Z.eq_dec c 45) as [->|N]].
  - destruct (K [] false) as (w & m & Pa & E); [easy|]. exists b, false, w, m. split; [exact Pa|]. unfold option_text. cbn [app]. now rewrite <- E.
  - destruct (K s true) as (w & m & Pa & E); [easy|]. exists b, true, w, m. split; [exact Pa|]. unfold option_text. cbn [app]. now rewrite <- E.
  - destruct (K (c :: s) false) as (w & m & Pa & E); [congruence|]. exists b, false, w, m. split; [exact Pa|]. unfold option_text. cbn [app]. now rewrite <- E.
Qed.
Lemma flag_dec t : t = OFlag \/ t <> OFlag.
Proof. destruct t; (now left) || (now right). Qed.
Lemma step_or_none o T st a r had : holds o T st -> Forall cstring (a :: r) ->
  (exists st1 r1, step T st (a :: r) st1 r1 /\ (List.length r1 <= List.length r)%nat /\ Forall cstring r1) \/ compile o (a :: r) had = None.
Proof.
  intros Ho C. inversion C as [|? ? Ca Cr]; subst. destruct a as [|c0 a0]; [left; exists st, r; split; [constructor|split; [lia|easy]]|]. set (a := c0 :: a0) in *. assert (Na : a <> []) by easy. clearbody a. clear c0 a0.
  destruct (split_arg a) as [(b & long & w & m & Pa & ->)|(b & s & B & S0 & ->)].
  - destruct (parts_cstring _ _ _ _ Ca) as (Cb & Cw & Cm).
    destruct (option_or_unknown T long w (proj1 (proj1 Ho))) as [(i & d & Of)|U]; [|left; eexists _, r; split; [apply s_unknown; easy|split; [lia|easy]]].
    assert (Cwm : cstring (w ++ m)) by now apply Forall_app.
    assert (Fi : forall A (k : nat -> entry -> option A), exists e v, nth_error (entries o) i = Some e /\ entry_holds e d v /\ True).
    { intros A k. pose proof Of as (Ei & _). destruct (all3_nth _ _ _ _ _ _ (proj1 (proj2 Ho)) Ei) as (e & v & Ee & _ & He). now exists e, v. }
    destruct (Fi unit (fun _ _ => None)) as (e & v & Ee & (_ & _ & E3 & _) & _). clear Fi.
    pose proof (find_ok o T st long w m i d Ho Cwm Of) as Fd. pose proof Of as (Ei & _). destruct (without_total i (queue st)) as (q & Wo).
    destruct m as [|c m].
    + destruct (flag_dec (d_ty d)) as [Fl|Fl]; [|destruct (plain_dec r) as [Pn|Pn]].
      * assert (Q : queue st = [] \/ queue st <> []) by (destruct (queue st); [now left|now right]). destruct Q as [Q|Q]; [destruct (plain_dec r) as [Pn|Pn]|].
        -- left. eexists _, r. split; [now apply s_extra_next with i d|split; [lia|easy]].
        -- left. exists (State (set (given st) i NoVal) (queue st) (wrong st)), r. split; [apply s_switch with d; easy|split; [lia|easy]].
        -- left. exists (State (set (given st) i NoVal) (queue st) (wrong st)), r. split; [apply s_switch with d; easy|split; [lia|easy]].
      * destruct Pn as (s & r' & -> & Nd). inversion Cr as [|? ? Cs Cr']; subst.
        assert (Und : s = [] \/ (exists q, s = q ++ [92]) \/ (forall y, ~ reads (d_ty d) s y) \/ (s <> [] /\ no_backslash s /\ exists y, reads (d_ty d) s y)).
        { destruct s as [|c s]; [now left|]. destruct (backslash_dec (c :: s)) as [Nb|Bs]; [|now right; left]. destruct (reads_dec (d_ty d) (c :: s) Cs) as [Y|N]; [|now right; right; left]. right. right. right. easy. }
        destruct Und as [->|[(q0 & ->)|[Nr|(Ne & Nb & y & Y)]]].
        -- right. rewrite (compile_option _ _ _ _ _ _ _ Pa Ca). unfold option_case. rewrite Fd. cbn [obind]. rewrite Ee. cbn [obind]. rewrite E3, (nonflag _ Fl). cbn [app rd nth_error obind Z.eqb negb andb]. rewrite orb_true_r. reflexivity.
        -- right. rewrite (compile_option _ _ _ _ _ _ _ Pa Ca). unfold option_case. rewrite Fd. cbn [obind]. rewrite Ee. cbn [obind]. rewrite E3, (nonflag _ Fl).
           assert (Hd : exists c, rd ((q0 ++ [92]) ++ [0]) 0 = Some c /\ (c =? 45) = false). { destruct q0 as [|c q0]; [now exists 92|]. exists c. split; [easy|]. apply Z.eqb_neq. intros ->. now apply (Nd (q0 ++ [92])). }
           destruct Hd as (c & -> & Nc). cbn [obind]. rewrite Nc. cbn [negb andb]. rewrite orb_true_r. apply Forall_app in Cs. rewrite skip_none by easy. destruct (c =? 0); reflexivity.
        -- right. rewrite (compile_option _ _ _ _ _ _ _ Pa Ca). unfold option_case. rewrite Fd. cbn [obind]. rewrite Ee. cbn [obind]. rewrite E3, (nonflag _ Fl).
           assert (Hd : exists c, rd (s ++ [0]) 0 = Some c /\ (c =? 45) = false). { destruct s as [|c s]; [now exists 0|]. exists c. split; [easy|]. apply Z.eqb_neq. intros ->. now apply (Nd s). }
           destruct Hd as (c & -> & Nc). cbn [obind]. rewrite Nc. cbn [negb andb]. rewrite orb_true_r. rewrite (set_value_none o T st i d s Ho Ei Cs Nr). destruct (if c =? 0 then _ else _); reflexivity.
        -- left. eexists _, r'. split; [apply s_next with i d; try easy; now exists y, q|split; [cbn; lia|easy]].
      * left. eexists _, r. split; [now apply s_missing with i d|split; [lia|easy]].
    + inversion Cm as [|? ? Hc Cm']; subst.
      destruct (Z.eq_dec c 61) as [->|N61].
      * destruct (flag_dec (d_ty d)) as [Fl|Fl]; [left; eexists _, r; split; [now apply s_extra with i d|split; [lia|easy]]|].
        destruct (backslash_dec m) as [Nb|(q0 & ->)]; [destruct (reads_dec (d_ty d) m Cm') as [(y & Y)|Nr]|].
        -- left. eexists _, r. split; [apply s_equals with i d; try easy; now exists y, q|split; [lia|easy]].
        -- right. rewrite (compile_option _ _ _ _ _ _ _ Pa Ca). unfold option_case. rewrite Fd. cbn [obind]. rewrite Ee. cbn [obind Z.eqb Pos.eqb]. rewrite E3, (nonflag _ Fl). rewrite (set_value_none o T st i d m Ho Ei Cm' Nr). destruct (control_skip _ _ _); reflexivity.
        -- right. rewrite (compile_option _ _ _ _ _ _ _ Pa Ca). unfold option_case. rewrite Fd. cbn [obind]. rewrite Ee. cbn [obind Z.eqb Pos.eqb]. rewrite E3, (nonflag _ Fl). apply Forall_app in Cm'. rewrite skip_none by easy. reflexivity.
      * destruct (backslash_dec (c :: m)) as [Nb|(q0 & Eq)]; [destruct (reads_dec (d_ty d) (c :: m) Cm) as [(y & Y)|Nr]|].
        -- left. eexists _, r. split; [apply s_stuck with i d; try easy; now exists y, q|split; [lia|easy]].
        -- right. rewrite (compile_option _ _ _ _ _ _ _ Pa Ca). unfold option_case. rewrite Fd. cbn [obind]. rewrite Ee. cbn [obind]. destruct (Z.eqb_spec c 61); [easy|]. rewrite (set_value_none o T st i d (c :: m) Ho Ei Cm Nr). destruct (control_skip _ _ _); reflexivity.
        -- right. rewrite (compile_option _ _ _ _ _ _ _ Pa Ca). unfold option_case. rewrite Fd. cbn [obind]. rewrite Ee. cbn [obind]. destruct (Z.eqb_spec c 61); [easy|]. rewrite Eq in *. apply Forall_app in Cm. rewrite skip_none by easy. reflexivity.
  - destruct (queue st) as [|i q] eqn:Q.
    + left. eexists _, r. split; [now apply s_stray|split; [lia|easy]].
    + pose proof Ho as (G & H & F & P & Er). rewrite Q in F. inversion F as [|? ? Li F']; subst. pose proof Ca as Ca'. apply Forall_app in Ca'. destruct Ca' as (_ & Cs).
      destruct (nth_error T i) as [d|] eqn:Ei; [|apply nth_error_None in Ei; lia]. destruct (without_total i q) as (q' & Wo).
      destruct (reads_dec (d_ty d) s Cs) as [(y & Y)|Nr].
      * left. eexists _, r. split; [apply s_word with i q d; try easy; now exists y, q'|split; [lia|easy]].
      * right. rewrite compile_word by easy. unfold word_case.
        assert (Hp : rev (positioned o) = (era o, i) :: map (fun j => (era o, j)) q) by (rewrite P, Q, rev_involutive; reflexivity).
        assert (H0 : holds (set_positioned o (rev (map (fun j => (era o, j)) q))) T (State (given st) q (wrong st))) by (split; [exact G|]; split; [exact H|]; split; [exact F'|]; split; [reflexivity|exact Er]).
        rewrite Hp. cbn [snd]. rewrite (set_value_none _ T _ i d s H0 Ei Cs Nr). destruct (deref _ _); reflexivity.
Qed.
Lemma runs_ok T st args st' : runs T st args st' -> forall o had, holds o T st -> Forall cstring args ->
  exists o', compile o args had = Some (negb (had || more st st'), o') /\ holds o' T st'.
Proof.
  induction 1 as [st|st args st1 rest st' S1 R IH]; intros o had Ho C.
  - exists o. split; [|exact Ho]. rewrite more_same, orb_false_r by easy. reflexivity.
  - destruct (step_ok o T st args st1 rest had S1 Ho C) as (o1 & H1 & E).
    assert (Cr : Forall cstring rest). { clear - S1 C. destruct S1; inversion C; subst; try easy. match goal with H : Forall _ (_ :: _) |- _ => now inversion H end. }
    destruct (IH o1 (had || more st st1) H1 Cr) as (o' & E' & H'). exists o'. split; [|exact H']. rewrite E, E'. do 3 f_equal. rewrite <- orb_assoc. f_equal.
    assert (Mono : forall a b r q, step T a r b q -> exists x, wrong b = wrong a ++ x).
    { intros a b r0 q Sx. destruct Sx; try (eexists; cbn [complain wrong]; reflexivity); try (exists []; now rewrite app_nil_r);
        match goal with H : give _ _ _ _ _ |- _ => apply give_inv in H; exists []; rewrite app_nil_r; exact H end. }
    assert (Mr : forall a r b, runs T a r b -> exists x, wrong b = wrong a ++ x).
    { induction 1 as [a|a r0 b q c Sx _ (x & Ex)]; [exists []; now rewrite app_nil_r|]. destruct (Mono _ _ _ _ Sx) as (y & Ey). exists (y ++ x). now rewrite Ex, Ey, app_assoc. }
    destruct (Mono _ _ _ _ S1) as (x & Ex). destruct (Mr _ _ _ R) as (y & Ey). unfold more. rewrite Ey, Ex, !app_length.
    destruct x, y; cbn [List.length]; repeat match goal with |- context [(?a <? ?b)%nat] => destruct (Nat.ltb_spec a b) end; try reflexivity; lia.
Qed.
Lemma runs_total T : forall n args st o had r, (List.length args <= n)%nat -> holds o T st -> Forall cstring args -> compile o args had = Some r -> exists st', runs T st args st'.
Proof.
  induction n as [|n IH]; intros args st o had r L Ho C E.
  - destruct args; [|cbn in L; lia]. exists st. constructor.
  - destruct args as [|a args]; [exists st; constructor|]. destruct (step_or_none o T st a args had Ho C) as [(st1 & r1 & S1 & L1 & C1)|N]; [|congruence].
    destruct (step_ok o T st _ st1 r1 had S1 Ho C) as (o1 & H1 & E1). rewrite E1 in E. cbn [List.length] in L.
    destruct (IH r1 st1 o1 _ _ ltac:(lia) H1 C1 E) as (st' & R). exists st'. now apply r_step with st1 r1.
Qed.

(** ** setting up and looking up *)
Lemma all3_app {A B C} (P : A -> B -> C -> Prop) l m n a b c : all3 P l m n -> P a b c -> all3 P (l ++ [a]) (m ++ [b]) (n ++ [c]).
Proof. induction 1; intros; cbn [app]; repeat constructor; auto. Qed.
Lemma add_ok o T st n ln ds t : holds o T st -> cstring ln -> (forall x, n = Some x -> cstring x) -> ~ In ln (map d_lname T) -> (queue st = [] \/ List.length T < cap o)%nat ->
  holds (opts_add o n (Some ln) ds t) (T ++ [Decl n ln t]) (State (given st ++ [None]) (queue st) (wrong st)).
Proof.
  intros ((G & Nd) & H & F & P & Er) Cl Cn Nl Q. unfold opts_add. set (full := (cap o <? S (List.length (entries o)))%nat).
  assert (Ql : queue st = [] \/ full = false). { destruct Q as [Q|Q]; [now left|right]. apply Nat.ltb_ge. pose proof (all3_len _ _ _ _ H). lia. }
  split; [split; [apply Forall_app; split; [exact G|now constructor; [split|]]|]|].
  - rewrite map_app. cbn [map]. clear - Nd Nl. induction (map d_lname T) as [|x l IH]; cbn [app]; [repeat constructor; easy|]. inversion Nd; subst. constructor; [|apply IH; [easy|intros I; apply Nl; now right]].
    intros I. apply in_app_or in I. destruct I as [I|[<-|[]]]; [easy|]. apply Nl. now left.
  - cbn [entries given queue wrong positioned era errors]. split; [apply all3_app; [exact H|repeat split]|]. split; [|split; [|exact Er]].
    + eapply Forall_impl; [|exact F]. cbn. intros i. rewrite app_length. cbn [List.length]. lia.
    + rewrite P. destruct Ql as [->| ->]; reflexivity.
Qed.
Lemma positional_ok o T st i d : holds o T st -> nth_error T i = Some d -> (forall j d', (j < i)%nat -> nth_error T j = Some d' -> d_lname d' <> d_lname d) ->
  exists o', opts_positional_add o (d_lname d) = Some o' /\ holds o' T (State (given st) (queue st ++ [i]) (wrong st)).
Proof.
  intros Ho Ei Nj. pose proof Ho as ((G & Nd) & H & F & P & Er). unfold opts_positional_add.
  assert (Cd : cstring (d_lname d)) by (rewrite Forall_forall in G; now destruct (G d (nth_error_In _ _ Ei))).
  pose proof (find_ok o T st true (d_lname d) [] i d Ho) as Fd. rewrite app_nil_r in Fd. cbn [app] in Fd. rewrite Fd; [|easy|now repeat split]. cbn [obind]. eexists. split; [reflexivity|].
  split; [now split|]. cbn [set_positioned set_entries entries given queue wrong positioned era errors]. split; [|split; [|split; [|exact Er]]].
  - clear - H. revert i. induction H as [|a b c l m n Hab H IH]; intros [|i]; cbn [upd]; constructor; try easy.
  - apply Forall_app. split; [exact F|]. constructor; [|constructor]. apply nth_error_Some. congruence.
  - rewrite P. rewrite map_app, rev_app_distr. reflexivity.
Qed.
Lemma lookup_ok o T st i d : holds o T st -> nth_error T i = Some d -> exists e v, nth_error (given st) i = Some v /\ lookup o (d_lname d) = Some (Some e) /\ entry_holds e d v.
Proof.
  intros Ho Ei. pose proof Ho as ((G & Nd) & H & _).
  assert (Cd : cstring (d_lname d)) by (rewrite Forall_forall in G; now destruct (G d (nth_error_In _ _ Ei))).
  assert (Of : option_of T true (d_lname d) i d).
  { split; [exact Ei|]. split; [reflexivity|]. intros j d' L Ej Cj. cbn in Cj.
    assert (E1 : nth_error (map d_lname T) j = Some (d_lname d')) by now apply map_nth_error. assert (E2 : nth_error (map d_lname T) i = Some (d_lname d)) by now apply map_nth_error.
    assert (j = i); [|lia]. eapply (proj1 (NoDup_nth_error _)); [exact Nd|apply nth_error_Some; congruence|congruence]. }
  destruct (all3_nth _ _ _ _ _ _ H Ei) as (e & v & Ee & Ev & He). exists e, v. split; [exact Ev|]. split; [|exact He].
  unfold lookup. pose proof (find_ok o T st true (d_lname d) [] i d Ho) as Fd. rewrite app_nil_r in Fd. cbn [app] in Fd. rewrite Fd by easy. cbn [obind]. rewrite Ee. reflexivity.
Qed.
Lemma lookup_none o T st n : holds o T st -> cstring n -> ~ In n (map d_lname T) -> lookup o n = Some None.
Proof.
  intros Ho C N. unfold lookup. pose proof (find_none o T st true n [] Ho) as Fd. rewrite app_nil_r in Fd. cbn [app] in Fd. rewrite Fd; [easy|easy|]. intros d I E. apply N. cbn in E. subst n. now apply in_map.
Qed.

(** ** help *)
Lemma print1 a s z : cstring a -> ~ In 37 a -> cstring z -> ~ In 37 z -> short s -> Z.of_nat (List.length a) < 20 -> Z.of_nat (List.length z) < 20 ->
  fprintf (a ++ asc "%s" ++ z) [AS s] = Some (a ++ s ++ z).
Proof.
  intros Ca Na Cz Nz (Cs & Ls) La Lz. pose proof (fprintf_ok [Lit a; Dir false false Absent Absent (Str s []); Lit z] [a; s; z]) as F. cbn [concat] in F. rewrite !app_nil_r in F.
  cbn [text_of args_of map concat piece_text piece_args app] in F. rewrite !app_nil_r in F. apply F.
  - constructor; [now apply rd_lit|]. constructor; [now apply rd_str|]. constructor; [now apply rd_lit|constructor].
  - unfold PRINTF_MAXLEN. rewrite !app_length. lia.
Qed.
Lemma print2 a s z t y : cstring a -> ~ In 37 a -> cstring z -> ~ In 37 z -> cstring y -> ~ In 37 y -> short s -> short t ->
  Z.of_nat (List.length a) < 20 -> Z.of_nat (List.length z) < 20 -> Z.of_nat (List.length y) < 20 ->
  fprintf (a ++ asc "%s" ++ z ++ asc "%s" ++ y) [AS s; AS t] = Some (a ++ s ++ z ++ t ++ y).
Proof.
  intros Ca Na Cz Nz Cy Ny (Cs & Ls) (Ct & Lt) La Lz Ly.
  pose proof (fprintf_ok [Lit a; Dir false false Absent Absent (Str s []); Lit z; Dir false false Absent Absent (Str t []); Lit y] [a; s; z; t; y]) as F. cbn [concat] in F. rewrite !app_nil_r in F.
  cbn [text_of args_of map concat piece_text piece_args app] in F. rewrite !app_nil_r in F. apply F.
  - constructor; [now apply rd_lit|]. constructor; [now apply rd_str|]. constructor; [now apply rd_lit|]. constructor; [now apply rd_str|]. constructor; [now apply rd_lit|constructor].
  - unfold PRINTF_MAXLEN. rewrite !app_length. lia.
Qed.
Lemma print3 a s z t y u x : cstring a -> ~ In 37 a -> cstring z -> ~ In 37 z -> cstring y -> ~ In 37 y -> cstring x -> ~ In 37 x -> short s -> short t -> short u ->
  Z.of_nat (List.length a) < 20 -> Z.of_nat (List.length z) < 20 -> Z.of_nat (List.length y) < 20 -> Z.of_nat (List.length x) < 20 ->
  fprintf (a ++ asc "%s" ++ z ++ asc "%s" ++ y ++ asc "%s" ++ x) [AS s; AS t; AS u] = Some (a ++ s ++ z ++ t ++ y ++ u ++ x).
Proof.
  intros Ca Na Cz Nz Cy Ny Cx Nx (Cs & Ls) (Ct & Lt) (Cu & Lu) La Lz Ly Lx.
  pose proof (fprintf_ok [Lit a; Dir false false Absent Absent (Str s []); Lit z; Dir false false Absent Absent (Str t []); Lit y; Dir false false Absent Absent (Str u []); Lit x] [a; s; z; t; y; u; x]) as F. cbn [concat] in F. rewrite !app_nil_r in F.
  cbn [text_of args_of map concat piece_text piece_args app] in F. rewrite !app_nil_r in F. apply F.
  - constructor; [now apply rd_lit|]. constructor; [now apply rd_str|]. constructor; [now apply rd_lit|]. constructor; [now apply rd_str|]. constructor; [now apply rd_lit|]. constructor; [now apply rd_str|]. constructor; [now apply rd_lit|constructor].
  - unfold PRINTF_MAXLEN. rewrite !app_length. lia.
Qed.
Lemma lit_cs s : forallb (fun c => (0 <? c) && (c <? 256) && negb (c =? 37)) s = true -> cstring s /\ ~ In 37 s.
Proof.
  intros F. rewrite forallb_forall in F. split.
  - apply Forall_forall. intros c I. apply F in I. rewrite !andb_true_iff, !Z.ltb_lt in I. lia.
  - intros I. apply F in I. easy.
Qed.
Ltac lits := repeat match goal with |- cstring (asc _) => apply lit_cs; reflexivity | |- ~ In 37 (asc _) => apply lit_cs; reflexivity | |- cstring (_ :: _) => apply lit_cs; reflexivity | |- ~ In 37 (_ :: _) => apply lit_cs; reflexivity | |- cstring [] => constructor | |- ~ In 37 [] => intros [] | |- Z.of_nat (List.length _) < 20 => reflexivity end.
Lemma help_lines_ok l : Forall printable l -> help_lines l = Some (concat (map help_line l)).
Proof.
  induction 1 as [|e l (Sd & Sn & Sl & Ne & _) H IH]; [reflexivity|]. cbn [help_lines map concat]. rewrite IH. unfold help_line.
  destruct (name e) as [n|], (lname e) as [ln|].
  - pose proof (print3 (9 :: asc "-") n (asc ", --") ln (asc ": ") (desc e) [10]) as F. specialize (Sn n eq_refl). specialize (Sl ln eq_refl).
    change (9 :: asc "-%s, --%s: %s" ++ [10]) with ((9 :: asc "-") ++ asc "%s" ++ asc ", --" ++ asc "%s" ++ asc ": " ++ asc "%s" ++ [10]). rewrite F by (lits; easy). cbn [obind app]. now rewrite <- ?app_assoc.
  - pose proof (print2 (9 :: asc "-") n (asc ": ") (desc e) [10]) as F. specialize (Sn n eq_refl).
    change (9 :: asc "-%s: %s" ++ [10]) with ((9 :: asc "-") ++ asc "%s" ++ asc ": " ++ asc "%s" ++ [10]). rewrite F by (lits; easy). cbn [obind app]. now rewrite <- ?app_assoc.
  - pose proof (print2 (9 :: asc "--") ln (asc ": ") (desc e) [10]) as F. specialize (Sl ln eq_refl).
    change (9 :: asc "--%s: %s" ++ [10]) with ((9 :: asc "--") ++ asc "%s" ++ asc ": " ++ asc "%s" ++ [10]). change (AOpt (Some ln)) with (AS ln). rewrite F by (lits; easy). cbn [obind app]. now rewrite <- ?app_assoc.
  - now destruct Ne.
Qed.
Lemma bracket_ok e : printable e -> (if pos e then fprintf (asc " [%s]") [AOpt (lname e)] else Some []) = Some (concat (map bracket (filter pos [e]))).
Proof.
  intros (_ & _ & Sl & _ & Np). cbn [filter]. destruct (pos e); [|reflexivity]. unfold bracket. cbn [map concat]. destruct (lname e) as [ln|]; [|now elim Np]. change (AOpt (Some ln)) with (AS ln).
  pose proof (print1 (asc " [") ln (asc "]")) as F. specialize (Sl ln eq_refl). change (asc " [%s]") with (asc " [" ++ asc "%s" ++ asc "]"). rewrite F by (lits; easy). now rewrite app_nil_r.
Qed.
Lemma help_pos_ok o : forall i, (i < List.length (entries o))%nat -> Forall printable (entries o) -> help_pos o i = Some (concat (map bracket (rev (filter pos (firstn (S i) (entries o)))))).
Proof.
  induction i as [|i IH]; intros L P; cbn [help_pos]; unfold slot; destruct (Nat.ltb_spec (S i) (List.length (entries o))) as [_|?] || destruct (Nat.ltb_spec 0 (List.length (entries o))) as [_|?]; try lia.
  - destruct (entries o) as [|e l]; [cbn in L; lia|]. inversion P; subst. cbn [nth_error obind firstn]. rewrite bracket_ok by easy. cbn [obind]. rewrite app_nil_r. cbn [filter]. destruct (pos e); reflexivity.
  - destruct (nth_error (entries o) (S i)) as [e|] eqn:E; [|apply nth_error_None in E; lia]. cbn [obind]. rewrite bracket_ok by (rewrite Forall_forall in P; eapply P, nth_error_In, E). cbn [obind]. rewrite IH by (lia || easy). cbn [obind].
    rewrite <- concat_app, <- map_app. do 3 f_equal.
    assert (F : firstn (S (S i)) (entries o) = firstn (S i) (entries o) ++ [e]).
    { clear - E. revert E. generalize (S i) as k. induction (entries o) as [|a l IH]; intros [|k] E; try easy; [now injection E as ->|]. cbn [nth_error] in E. rewrite (firstn_cons (S k)), (firstn_cons k), (IH k E). reflexivity. }
    rewrite F, filter_app, rev_app_distr. cbn [filter]. destruct (pos e); reflexivity.
Qed.
Lemma help_ok o : Forall printable (entries o) -> short (appname o) -> (List.length (entries o) < cap o)%nat -> print_help o = Some (help_text o).
Proof.
  intros P Sa L. unfold print_help, help_text.
  assert (Ea : fprintf (asc "USAGE: %s") [AS (appname o)] = Some (asc "USAGE: " ++ appname o)).
  { pose proof (print1 (asc "USAGE: ") (appname o) []) as F. rewrite !app_nil_r in F. apply F; lits; easy. }
  rewrite Ea. cbn [obind].
  assert (Ep : help_pos o (List.length (entries o)) = Some (concat (map bracket (rev (filter pos (entries o)))))).
  { assert (Z : slot o (List.length (entries o)) = Some zero_entry) by (unfold slot; rewrite Nat.ltb_irrefl, (proj2 (Nat.ltb_lt _ _) L); reflexivity).
    destruct (List.length (entries o)) as [|n] eqn:El; cbn [help_pos]; rewrite Z; cbn [obind zero_entry pos].
    - destruct (entries o); [reflexivity|easy].
    - rewrite help_pos_ok by (easy || lia). cbn [obind app]. rewrite <- El, firstn_all. reflexivity. }
  rewrite Ep. cbn [obind]. change (fprintf (10 :: asc "OPTIONS:" ++ [10]) []) with (fprintf (10 :: asc "OPTIONS:" ++ [10]) []).
  rewrite fprintf_lit; [|apply lit_cs; reflexivity|apply lit_cs; reflexivity|unfold small, PRINTF_MAXLEN; cbn; lia]. cbn [obind]. rewrite help_lines_ok by easy. cbn [obind]. now rewrite <- ?app_assoc.
Qed.
Lemma help_bad o : (cap o <= List.length (entries o))%nat -> print_help o = None.
Proof.
  intros L. unfold print_help.
  assert (Z : slot o (List.length (entries o)) = None) by (unfold slot; rewrite Nat.ltb_irrefl; destruct (Nat.ltb_spec (List.length (entries o)) (cap o)); [lia|reflexivity]).
  destruct (fprintf (asc "USAGE: %s") _); [|reflexivity]. cbn [obind]. destruct (List.length (entries o)); cbn [help_pos]; rewrite Z; reflexivity.
Qed.
