(** Making directories. *)
From Verif Require Import Base CStr CStrSpec Path PathSpec.
Open Scope list_scope.

Lemma node_ind2 (P : node -> Prop) : P NFile -> (forall l, Forall (fun e => P (snd e)) l -> P (NDir l)) -> forall t, P t.
Proof.
  intros HF HD. fix IH 1. intros [|l]; [exact HF|]. apply HD. induction l as [|(n, x) r IHr]; constructor; [apply IH|exact IHr].
Qed.

Lemma get_in l n x : get l n = Some x -> In (n, x) l.
Proof. induction l as [|(m, y) r IH]; cbn; [easy|]. destruct (list_eq_dec Z.eq_dec m n) as [->|]; [intros [= ->]; now left|intros H; right; now apply IH]. Qed.
Lemma in_get l n x : NoDup (map fst l) -> In (n, x) l -> get l n = Some x.
Proof.
  induction l as [|(m, y) r IH]; cbn; [easy|]. intros D [E|I].
  - injection E as -> ->. now destruct (list_eq_dec Z.eq_dec n n).
  - inversion D as [|? ? N D']; subst. destruct (list_eq_dec Z.eq_dec m n) as [->|]; [|now apply IH].
    exfalso. apply N. now apply (in_map fst) in I.
Qed.
Lemma get_none l n : get l n = None -> ~ In n (map fst l).
Proof. induction l as [|(m, y) r IH]; cbn; [easy|]. destruct (list_eq_dec Z.eq_dec m n) as [->|N]; [easy|]. intros H [E|I]; [easy|now apply IH]. Qed.
Lemma put_names l n x : map fst (put l n x) = map fst l.
Proof. induction l as [|(m, y) r IH]; cbn; [easy|]. destruct (list_eq_dec Z.eq_dec m n); cbn; congruence. Qed.
Lemma put_in l n x y m z : NoDup (map fst l) -> In (n, y) l -> (In (m, z) (put l n x) <-> (m = n /\ z = x) \/ (m <> n /\ In (m, z) l)).
Proof.
  intros D I. induction l as [|(k, w) r IH]; cbn in *; [easy|]. inversion D as [|? ? N D']; subst.
  destruct (list_eq_dec Z.eq_dec k n) as [->|Hk]; cbn.
  - split.
    + intros [E|J]; [injection E as <- <-; now left|]. right. split; [|now right]. intros ->. apply N. now apply (in_map fst) in J.
    + intros [[-> ->]|[Hm [E|J]]]; [now left|congruence|now right].
  - destruct I as [E|I]; [congruence|]. rewrite (IH D' I). split.
    + intros [E|[[-> ->]|[Hm J]]]; [injection E as <- <-; right; split; [easy|now left]|now left|right; split; [easy|now right]].
    + intros [[-> ->]|[Hm [E|J]]]; [right; now left|now left|right; right; easy].
Qed.

Lemma at_fun t : distinct t -> forall cs a b, at_path t cs a -> at_path t cs b -> a = b.
Proof.
  induction t as [|l IH] using node_ind2; intros D cs a b A B.
  - inversion A; inversion B; congruence.
  - inversion D as [|? ND FD]; subst. inversion A as [| |? n x cs' ? I Ax]; subst; inversion B as [| |? n' x' cs'' ? I' Bx]; subst; try easy.
    assert (x' = x) by (apply (in_get _ _ _ ND) in I, I'; congruence). subst.
    rewrite Forall_forall in IH, FD. exact (IH (n, x) I (FD _ I) _ _ _ Ax Bx).
Qed.

Lemma at_down l n x cs b : NoDup (map fst l) -> In (n, x) l -> (at_path (NDir l) (n :: cs) b <-> at_path x cs b).
Proof.
  intros ND I. split; [|now apply at_below]. intros A. inversion A as [| |? ? x' ? ? I' Ax]; subst.
  assert (x' = x) by (apply (in_get _ _ _ ND) in I, I'; congruence). now subst.
Qed.

(** [make] adds a directory where there is room for it and changes nothing else *)
Lemma make_distinct cs : forall t, distinct t -> distinct (make cs t).
Proof.
  induction cs as [|c cs IH]; intros [|l] D; try easy; [now destruct cs|].
  inversion D as [|? ND FD]; subst.
  assert (G : distinct (match get l c with None => NDir l | Some x => NDir (put l c (make cs x)) end)).
  { destruct (get l c) as [x|] eqn:E; [|easy]. pose proof (get_in _ _ _ E) as I. constructor; [now rewrite put_names|].
    rewrite Forall_forall in FD. apply Forall_forall. intros (m, z) J. apply (put_in _ _ _ _ _ _ ND I) in J.
    destruct J as [[-> ->]|[_ J]]; [apply IH, (FD _ I)|exact (FD _ J)]. }
  destruct cs as [|c' cs]; cbn [make] in *; [|exact G].
  destruct (get l c) as [x|] eqn:E; [easy|]. constructor.
  - rewrite map_app. cbn. apply get_none in E. clear -ND E.
    induction (map fst l) as [|a r IHr]; cbn in *; [repeat constructor; easy|]. inversion ND; subst. constructor; [|apply IHr; tauto].
    rewrite in_app_iff. cbn. intuition congruence.
  - apply Forall_app. split; [easy|]. repeat constructor.
Qed.
Lemma make_at cs : forall t q b, distinct t ->
  (at_path (make cs t) q b <-> at_path t q b \/ (b = true /\ q = cs /\ (forall a, ~ at_path t cs a) /\ exists d c, cs = d ++ [c] /\ at_path t d true)).
Proof.
  induction cs as [|c cs IH]; intros t q b D.
  { replace (make [] t) with t by now destruct t. split; [tauto|]. intros [A|(_ & _ & _ & d & c & E & _)]; [easy|now destruct d]. }
  destruct t as [|l].
  { replace (make (c :: cs) NFile) with NFile by now destruct cs. split; [tauto|]. intros [A|(_ & _ & _ & d & c' & E & A)]; [easy|inversion A]. }
  inversion D as [|? ND FD]; subst.
  destruct (get l c) as [x|] eqn:E.
  - pose proof (get_in _ _ _ E) as I. rewrite Forall_forall in FD. pose proof (FD _ I) as Dx. cbn in Dx.
    destruct cs as [|c' cs].
    + cbn [make]. rewrite E. split; [tauto|]. intros [A|(_ & _ & N & _)]; [easy|]. exfalso.
      destruct x; [apply (N false)|apply (N true)]; eapply at_below; [exact I| |exact I|]; constructor.
    + remember (c' :: cs) as cs' eqn:Ecs. replace (make (c :: cs') (NDir l)) with (NDir (put l c (make cs' x))) by (subst cs'; cbn; now rewrite E).
      assert (ND' : NoDup (map fst (put l c (make cs' x)))) by now rewrite put_names.
      assert (Inew : In (c, make cs' x) (put l c (make cs' x))) by (apply (put_in _ _ _ _ _ _ ND I); now left).
      assert (Side : (exists d e, c :: cs' = d ++ [e] /\ at_path (NDir l) d true) <-> (exists d e, cs' = d ++ [e] /\ at_path x d true)).
      { split.
        - intros (d & e & Ed & A). destruct d as [|a d]; cbn in Ed; [injection Ed as _ Z; now rewrite Ecs in Z|]. injection Ed as <- Ed.
          exists d, e. split; [easy|]. now apply (at_down _ _ _ _ _ ND I) in A.
        - intros (d & e & Ed & A). exists (c :: d), e. split; [now rewrite Ed|]. now apply at_below with x. }
      rewrite Side. destruct q as [|n q].
      * split.
        -- intros A. inversion A; subst. left. constructor.
        -- intros [A|(_ & Z & _)]; [inversion A; subst; constructor|easy].
      * destruct (list_eq_dec Z.eq_dec n c) as [->|Hn].
        -- rewrite (at_down _ _ _ _ _ ND' Inew), (at_down _ _ _ _ _ ND I), (IH x q b Dx). split.
           ++ intros [A|(? & -> & N & S)]; [now left|]. right. split; [easy|]. split; [easy|]. split; [|easy].
              intros a A. now apply (at_down _ _ _ _ _ ND I), N in A.
           ++ intros [A|(? & Z & N & S)]; [now left|]. injection Z as ->. right. split; [easy|]. split; [easy|]. split; [|easy].
              intros a A. now apply (at_down _ _ _ _ _ ND I), N in A.
        -- split.
           ++ intros A. inversion A as [| |? ? z ? ? J Az]; subst. apply (put_in _ _ _ _ _ _ ND I) in J. destruct J as [[-> _]|[_ J]]; [easy|]. left. now apply at_below with z.
           ++ intros [A|(_ & Z & _)]; [|congruence]. inversion A as [| |? ? z ? ? J Az]; subst. apply at_below with z; [|easy]. apply (put_in _ _ _ _ _ _ ND I). now right.
  - pose proof (get_none _ _ E) as N.
    assert (Nothing : forall r a, ~ at_path (NDir l) (c :: r) a).
    { intros r a A. inversion A as [| |? ? z ? ? J Az]; subst. apply N. now apply (in_map fst) in J. }
    destruct cs as [|c' cs]; cbn [make]; rewrite E.
    + split.
      * intros A. inversion A as [| |? n z q' ? J Az]; subst; [left; constructor|]. apply in_app_iff in J. destruct J as [J|[J|[]]]; [left; now apply at_below with z|].
        injection J as <- <-. inversion Az as [|? |? ? ? ? ? J']; subst; [|easy]. right. split; [easy|]. split; [easy|]. split; [apply Nothing|].
        exists [], c. split; [easy|constructor].
      * intros [A|(-> & -> & _)].
        -- inversion A as [| |? n z q' ? J Az]; subst; [constructor|]. apply at_below with z; [|easy]. apply in_app_iff. now left.
        -- apply at_below with (NDir []); [apply in_app_iff; right; now left|constructor].
    + split; [tauto|]. intros [A|(_ & _ & _ & d & e & Ed & A)]; [easy|]. exfalso.
      destruct d as [|a d]; [easy|]. injection Ed as <- Ed. now apply Nothing in A.
Qed.

(** what a path spells *)
Lemma names_from_snoc n : forall p cur, ~ In 47 n -> names_from (n ++ p) cur = names_from p (cur ++ n).
Proof.
  induction n as [|c n IH]; intros p cur N; cbn; [now rewrite app_nil_r|]. destruct (Z.eqb_spec c 47) as [->|]; [exfalso; apply N; now left|].
  rewrite IH by (intros I; apply N; now right). now rewrite <- app_assoc.
Qed.
Lemma names_spells p cs : spells p cs -> names p = cs.
Proof.
  unfold names. induction 1 as [|p cs H IH|n Hn N|n p cs Hn N H IH]; [easy|exact IH| |].
  - rewrite <- (app_nil_r n) at 1. rewrite names_from_snoc by easy. cbn. now destruct n.
  - rewrite names_from_snoc by easy. cbn. rewrite IH. now destruct n.
Qed.
Lemma spells_from p : forall cur, ~ In 47 cur -> spells (cur ++ p) (names_from p cur).
Proof.
  induction p as [|c p IH]; intros cur N; cbn [names_from].
  - rewrite app_nil_r. destruct cur; [constructor|]. now constructor.
  - destruct (Z.eqb_spec c 47) as [->|Hc].
    + destruct cur as [|a cur]; [apply sp_slash, (IH []); easy|]. apply sp_name; [easy|easy|]. apply (IH []). easy.
    + replace (cur ++ c :: p) with ((cur ++ [c]) ++ p) by now rewrite <- app_assoc. apply IH. rewrite in_app_iff. cbn. intuition congruence.
Qed.
Lemma spells_names p : spells p (names p).
Proof. apply (spells_from p []). easy. Qed.

(** the tree after making the first [m] of the names [cs] one below the other *)
Definition blocked (t : node) (q : list (list Z)) : Prop := exists f, prefix f q /\ at_path t f false.
Definition after (t t' : node) (cs : list (list Z)) (m : nat) : Prop :=
  distinct t' /\ forall q b, at_path t' q b <-> at_path t q b \/ (b = true /\ (exists k, (k <= m)%nat /\ q = firstn k cs) /\ ~ blocked t q).

Lemma prefix_snoc {A} (f d : list A) c : prefix f (d ++ [c]) -> prefix f d \/ f = d ++ [c].
Proof.
  intros (r & E). 
  destruct r as [|a r _] using rev_ind; [right; now rewrite app_nil_r in E|]. left. exists r. rewrite app_assoc in E. apply app_inj_tail in E. easy.
Qed.
Lemma file_no_below t f : forall r b, distinct t -> at_path t f false -> r <> [] -> ~ at_path t (f ++ r) b.
Proof.
  revert t. induction f as [|n f IH]; intros t r b D A Hr B; inversion A as [| |? ? x ? ? I Ax]; subst; cbn in B.
  - inversion B; subst; easy.
  - inversion D as [|? ND FD]; subst. apply (at_down _ _ _ _ _ ND I) in B. rewrite Forall_forall in FD. now apply (IH x r b (FD _ I)).
Qed.
Lemma at_unblocked t q b : distinct t -> at_path t q b -> b = true -> ~ blocked t q.
Proof.
  intros D A -> (f & (r & ->) & F). destruct r as [|a r]; [rewrite app_nil_r in A; discriminate (at_fun t D _ _ _ A F)|].
  now apply (file_no_below t f (a :: r) true D F).
Qed.
(** existing or blocked is decided *)
Lemma at_dec t : forall q, distinct t -> (exists b, at_path t q b) \/ (forall b, ~ at_path t q b).
Proof.
  induction t as [|l IH] using node_ind2; intros [|n q] D.
  - left. exists false. constructor.
  - right. intros b A. inversion A.
  - left. exists true. constructor.
  - inversion D as [|? ND FD]; subst. destruct (get l n) as [x|] eqn:E.
    + pose proof (get_in _ _ _ E) as I. rewrite Forall_forall in IH, FD. destruct (IH _ I q (FD _ I)) as [(b & A)|N]; [left; exists b|right; intros b A].
      * now apply at_below with x.
      * apply (at_down _ _ _ _ _ ND I) in A. now apply (N b).
    + right. intros b A. inversion A as [| |? ? z ? ? J Az]; subst. apply (get_none _ _ E). now apply (in_map fst) in J.
Qed.

Lemma after_init t cs : distinct t -> after t t cs 0.
Proof.
  intros D. split; [easy|]. intros q b. split; [tauto|]. intros [A|(-> & (k & Hk & ->) & N)]; [easy|]. replace k with O in * by lia. cbn in *.
  destruct t; [|constructor]. exfalso. apply N. exists []. split; [now exists []|constructor].
Qed.
Lemma after_mono t t' cs m : (length cs <= m)%nat -> after t t' cs m -> after t t' cs (length cs).
Proof.
  intros L (D & A). split; [easy|]. intros q b. rewrite A. split; intros [H|(E & (k & Hk & Eq) & N)]; auto; right; (split; [easy|]); (split; [|easy]).
  - destruct (Nat.leb_spec k (length cs)); [now exists k|]. exists (length cs). split; [lia|]. now rewrite firstn_all, Eq, firstn_all2 by lia.
  - exists k. split; [lia|easy].
Qed.
Lemma after_step t t' cs m : distinct t -> (m < length cs)%nat -> after t t' cs m -> after t (make (firstn (S m) cs) t') cs (S m).
Proof.
  intros D L (D' & A). split; [now apply make_distinct|]. intros q b.
  assert (E : exists c, firstn (S m) cs = firstn m cs ++ [c]).
  { clear -L. revert m L. induction cs as [|a cs IH]; intros m L; cbn in L; [lia|]. destruct m; [now exists a|]. destruct (IH m) as (c & E); [lia|].
    exists c. cbn [firstn] in *. now rewrite E. }
  destruct E as (c & E). rewrite make_at by easy. rewrite A. split.
  - intros [[H|(-> & (k & Hk & ->) & N)]|(-> & -> & N & d & c' & Ed & Ad)].
    + now left.
    + right. split; [easy|]. split; [|easy]. exists k. split; [lia|easy].
    + right. split; [easy|]. split; [now exists (S m)|]. rewrite E in Ed. apply app_inj_tail in Ed. destruct Ed as (<- & <-).
      assert (Nd : ~ blocked t (firstn m cs)).
      { apply A in Ad. destruct Ad as [Ad|(_ & _ & Nd)]; [now apply at_unblocked with true|easy]. }
      intros (f & Pf & F). rewrite E in Pf. apply prefix_snoc in Pf. destruct Pf as [Pf| ->]; [apply Nd; now exists f|].
      apply (N false). apply A. left. now rewrite E.
  - intros [H|(-> & (k & Hk & ->) & N)]; [left; now left|].
    destruct (Nat.eq_dec k (S m)) as [->|Hne].
    + destruct (at_dec t (firstn (S m) cs) D) as [(b & Hb)|Hno].
      * destruct b; [left; now left|]. exfalso. apply N. exists (firstn (S m) cs). split; [exists []; now rewrite app_nil_r|easy].
      * right. split; [easy|]. split; [easy|]. split.
        -- intros a Ha. apply A in Ha. destruct Ha as [Ha|(_ & (k & Hk' & Ek) & _)]; [now apply (Hno a)|].
           apply (f_equal (@length _)) in Ek. rewrite !firstn_length in Ek. lia.
        -- exists (firstn m cs), c. split; [easy|]. apply A. right. split; [easy|]. split; [now exists m|].
           intros (f & (r & Ef) & F). apply N. exists f. split; [|easy]. exists (r ++ [c]). rewrite E, Ef, app_assoc. easy.
    + left. right. split; [easy|]. split; [|easy]. exists k. split; [lia|easy].
Qed.
Lemma after_again t t' cs m : distinct t -> (m <= length cs)%nat -> after t t' cs m -> after t (make (firstn m cs) t') cs m.
Proof.
  intros D L (D' & A). split; [now apply make_distinct|]. intros q b. rewrite make_at by easy. rewrite A. split; [|tauto].
  intros [H|(-> & -> & N & d & c & Ed & Ad)]; [easy|]. right. split; [easy|]. split; [now exists m|].
  assert (Nd : ~ blocked t d). { apply A in Ad. destruct Ad as [Ad|(_ & _ & Nd)]; [now apply at_unblocked with true|easy]. }
  intros (f & Pf & F). rewrite Ed in Pf. apply prefix_snoc in Pf. destruct Pf as [Pf| ->]; [apply Nd; now exists f|].
  apply (N false). apply A. left. now rewrite Ed.
Qed.

Lemma loop_ok t cs : distinct t -> forall rest t' pre done cur, ~ In 47 cur -> spells (cur ++ rest) (names_from rest cur) ->
  cs = done ++ names_from rest cur -> names pre = done ++ match cur with [] => [] | _ => [cur] end ->
  (forall s, names (pre ++ s) = done ++ names_from s cur) ->
  after t t' cs (length done) -> after t (mkdir_loop t' pre rest) cs (length cs).
Proof.
  intros D rest. induction rest as [|c rest IH]; intros t' pre done cur N Sp E Ep Es A; cbn [mkdir_loop].
  - unfold path_mkdir. rewrite Ep. cbn [names_from] in E. rewrite <- E. destruct cur as [|a cur].
    + rewrite app_nil_r in E. subst done. rewrite <- (firstn_all cs) at 1. now apply after_again.
    + assert (L : length cs = S (length done)) by (rewrite E, app_length; cbn; lia).
      rewrite <- (firstn_all cs) at 1. rewrite L. apply after_step; [easy|lia|easy].
  - assert (Es' : forall s, names ((pre ++ [c]) ++ s) = done ++ names_from (c :: s) cur) by (intros s; rewrite <- app_assoc; apply Es).
    cbn [names_from] in E, Es'. change SEP with 47. destruct (Z.eqb_spec c 47) as [->|Hc].
    + unfold path_mkdir. rewrite Ep. destruct cur as [|a cur].
      * apply (IH _ _ done []); try easy; [apply spells_names|rewrite <- (app_nil_r (pre ++ [47])); apply Es'|].
        rewrite app_nil_r. replace done with (firstn (length done) cs) at 1 by (rewrite E, firstn_app, Nat.sub_diag, firstn_all; cbn; apply app_nil_r).
        apply after_again; [easy|rewrite E, app_length; lia|easy].
      * assert (Es2 : forall s, names ((pre ++ [47]) ++ s) = (done ++ [a :: cur]) ++ names_from s []) by (intros s; now rewrite Es', <- app_assoc).
        apply (IH _ _ (done ++ [a :: cur]) []); [easy|apply spells_names|now rewrite E, <- app_assoc| |easy|].
        { rewrite <- (app_nil_r (pre ++ [47])). rewrite Es2. easy. }
        rewrite app_length. cbn [length]. rewrite Nat.add_1_r.
        assert (F : done ++ [a :: cur] = firstn (S (length done)) cs).
        { rewrite E. replace (S (length done)) with (length (done ++ [a :: cur])) by (rewrite app_length; cbn; lia).
          change ((a :: cur) :: names_from rest []) with ([a :: cur] ++ names_from rest []). rewrite app_assoc, firstn_app, Nat.sub_diag, firstn_all. cbn. now rewrite app_nil_r. }
        rewrite F. apply after_step; [easy|rewrite E, app_length; cbn; lia|easy].
    + assert (Nc : ~ In 47 (cur ++ [c])) by (rewrite in_app_iff; cbn; intuition congruence).
      apply (IH _ _ done (cur ++ [c])); [easy|now apply spells_from|easy| |easy|easy].
      rewrite <- (app_nil_r (pre ++ [c])), Es'. cbn [names_from]. now destruct cur.
Qed.
Lemma mkdir_recursive_after t p : distinct t -> Z.of_nat (length p) <= 4095 ->
  exists t', path_mkdir_recursive t p = (0, t') /\ after t t' (names p) (length (names p)).
Proof.
  intros D L. unfold path_mkdir_recursive. unfold MAX_PATH. destruct (Z.ltb_spec (4096 - 1) (Z.of_nat (length p))); [lia|].
  eexists. split; [reflexivity|]. destruct p as [|c r].
  - cbn. replace (path_mkdir t []) with t by now destruct t. now apply after_init.
  - destruct (Z.eqb_spec c 47) as [->|Hc].
    + apply (loop_ok t _ D r t [47] [] []); try easy; [apply spells_names|now apply after_init].
    + assert (E : forall s, names (c :: s) = names_from s [c]) by (intros s; unfold names; cbn; destruct (Z.eqb_spec c 47); easy).
      apply (loop_ok t _ D r t [c] [] [c]); try easy.
      * cbn. intuition congruence.
      * apply (spells_from r [c]). cbn. intuition congruence.
      * cbn [app]. apply E.
      * rewrite E. easy.
      * now apply after_init.
Qed.
