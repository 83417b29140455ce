From Verif Require Import Base CStr CStrSpec Path PathSpec PathProofs PathProofs2 Rmdir RmdirSpec.
Open Scope list_scope.

Lemma below_at t cs x : below t cs x -> at_path t cs (match x with NDir _ => true | NFile => false end).
Proof. induction 1 as [[|l]|l n x cs t I B IH]; [constructor|constructor|]. econstructor; eassumption. Qed.
Lemma at_below' t cs b : at_path t cs b -> exists x, below t cs x /\ b = match x with NDir _ => true | NFile => false end.
Proof. induction 1 as [|l|l n x cs b I A (y & B & ->)]; [exists NFile; split; [constructor|reflexivity]|exists (NDir l); split; [constructor|reflexivity]|]. exists y. split; [econstructor; eassumption|reflexivity]. Qed.
Lemma below_fun t : forall cs x y, distinct t -> below t cs x -> below t cs y -> x = y.
Proof. intros cs x y D A B. apply (find_below _ _ _ D) in A. apply (find_below _ _ _ D) in B. congruence. Qed.
Lemma below_app t d x e y : below t d x -> below x e y -> below t (d ++ e) y.
Proof. induction 1 as [|l n x cs t I B IH]; intros H; [exact H|]. econstructor; [exact I|apply IH, H]. Qed.
Lemma below_split t d : forall e y, below t (d ++ e) y -> exists x, below t d x /\ below x e y.
Proof.
  revert t. induction d as [|n d IH]; intros t e y H; [exists t; split; [constructor|exact H]|].
  cbn in H. inversion H as [|l ? x ? ? I B]; subst. destruct (IH _ _ _ B) as (z & A1 & A2). exists z. split; [econstructor; eassumption|exact A2].
Qed.

(** where the kernel gets to *)
Lemma walk_spec cs : forall t, distinct t -> Forall (fun c => Z.of_nat (length c) <= 255) cs ->
  match walk cs t with
  | inr x => below t cs x
  | inl e => (forall x, ~ below t cs x) /\ (e = ENOTDIR /\ file_before t cs \/ e = ENOENT /\ ~ file_before t cs)
  end.
Proof.
  induction cs as [|c cs IH]; intros t D F; [destruct t; constructor|]. destruct t as [|l].
  - split; [intros x B; inversion B|]. left. split; [reflexivity|]. exists [], (c :: cs). split; [reflexivity|]. split; [discriminate|constructor].
  - cbn [walk]. inversion F as [|? ? Fc Fcs]; subst. unfold long_name. rewrite (proj2 (Z.ltb_ge 255 _) Fc). inversion D as [|? ND FD]; subst.
    destruct (get l c) as [x|] eqn:E.
    + pose proof (get_in _ _ _ E) as I. rewrite Forall_forall in FD. pose proof (FD _ I) as Dx. cbn in Dx. specialize (IH x Dx Fcs).
      destruct (walk cs x) as [e|y]; [|econstructor; eassumption].
      assert (K : file_before (NDir l) (c :: cs) <-> file_before x cs).
      { split.
        - intros (d & r & Ed & Nr & A). destruct d as [|n d]; [inversion A|]. injection Ed as <- Ed. exists d, r. split; [exact Ed|]. split; [exact Nr|]. now apply (at_down _ _ _ _ _ ND I) in A.
        - intros (d & r & -> & Nr & A). exists (c :: d), r. split; [reflexivity|]. split; [exact Nr|]. econstructor; eassumption. }
      rewrite K. destruct IH as [N R]. split; [|exact R]. intros y B. inversion B as [|? ? x' ? ? I' B']; subst. apply (N y). assert (x' = x) by (apply (in_get _ _ _ ND) in I, I'; congruence). now subst.
    + pose proof (get_none _ _ E) as N. split.
      * intros y B. inversion B as [|? ? x' ? ? I' B']; subst. apply N. now apply (in_map fst) in I'.
      * right. split; [reflexivity|]. intros (d & r & Ed & Nr & A). destruct d as [|n d]; [inversion A|]. injection Ed as <- Ed. inversion A as [| |? ? x' ? ? I' A']; subst. apply N. now apply (in_map fst) in I'.
Qed.

(** entries taken out and trees put in *)
Lemma del_in l c m x : NoDup (map fst l) -> (In (m, x) (del l c) <-> In (m, x) l /\ m <> c).
Proof.
  induction l as [|(k, y) r IH]; intros ND; cbn; [tauto|]. inversion ND as [|? ? N ND']; subst. destruct (list_eq_dec Z.eq_dec k c) as [->|Nk].
  - split; [intros I; split; [now right|]; intros ->; apply N; now apply (in_map fst) in I|]. intros [[E|I] D]; [congruence|exact I].
  - cbn. rewrite (IH ND'). split; [intros [E|[I D]]; [split; [now left|congruence]|split; [now right|exact D]]|]. intros [[E|I] D]; [now left|right; now split].
Qed.
Lemma del_nodup l c : NoDup (map fst l) -> NoDup (map fst (del l c)).
Proof.
  induction l as [|(k, y) r IH]; intros ND; cbn; [constructor|]. inversion ND as [|? ? N ND']; subst. destruct (list_eq_dec Z.eq_dec k c); [exact ND'|]. cbn. constructor; [|now apply IH].
  intros I. apply N. apply in_map_iff in I. destruct I as ((m, x) & <- & I). apply (del_in _ _ _ _ ND') in I. apply (in_map fst r (m, x)), I.
Qed.
Lemma replace_distinct d : forall t x y, distinct t -> below t d x -> distinct y -> distinct (replace d t y).
Proof.
  induction d as [|c d IH]; intros t x y D B Dy; [destruct t; exact Dy|]. inversion B as [|l ? z ? ? I B']; subst. inversion D as [|? ND FD]; subst. cbn. rewrite (in_get _ _ _ ND I).
  constructor; [now rewrite put_names|]. apply Forall_forall. intros (m, w) J. rewrite Forall_forall in FD. apply (put_in _ _ _ _ _ _ ND I) in J. destruct J as [[-> ->]|[_ J]]; [|exact (FD _ J)]. cbn. exact (IH _ _ _ (FD _ I) B' Dy).
Qed.
Lemma replace_at d : forall t l l', distinct t -> below t d (NDir l) -> forall q b,
  at_path (replace d t (NDir l')) q b <-> (exists r, q = d ++ r /\ at_path (NDir l') r b) \/ ((forall r, q <> d ++ r) /\ at_path t q b).
Proof.
  induction d as [|c d IH]; intros t l l' D B q b.
  - replace (replace [] t (NDir l')) with (NDir l') by now destruct t. cbn. split; [intros A; left; now exists q|]. intros [(r & -> & A)|[N _]]; [exact A|]. now destruct (N q).
  - inversion B as [|k ? z ? ? I B']; subst. inversion D as [|? ND FD]; subst. cbn [replace]. rewrite (in_get _ _ _ ND I). rewrite Forall_forall in FD. pose proof (FD _ I) as Dz. cbn in Dz.
    specialize (IH z l l' Dz B'). assert (ND' : NoDup (map fst (put k c (replace d z (NDir l'))))) by now rewrite put_names.
    assert (I' : In (c, replace d z (NDir l')) (put k c (replace d z (NDir l')))) by (apply (put_in _ _ _ _ _ _ ND I); now left).
    destruct q as [|n q].
    + split; [intros A; inversion A; subst; right; split; [discriminate|constructor]|]. intros [(r & E & _)|[_ A]]; [discriminate|inversion A; subst; constructor].
    + destruct (list_eq_dec Z.eq_dec n c) as [->|Nn].
      * rewrite (at_down _ _ _ _ _ ND' I'), (at_down _ _ _ _ _ ND I), IH. split; (intros [(r & E & A)|[N A]]; [left|right]).
        -- exists r. split; [cbn; congruence|exact A].
        -- split; [intros r E; apply (N r); cbn in E; congruence|exact A].
        -- exists r. split; [cbn in E; congruence|exact A].
        -- split; [intros r E; apply (N r); cbn; congruence|exact A].
      * split.
        -- intros A. inversion A as [| |? ? w ? ? J Aw]; subst. apply (put_in _ _ _ _ _ _ ND I) in J. destruct J as [[-> _]|[_ J]]; [easy|]. right. split; [intros r E; cbn in E; congruence|]. econstructor; eassumption.
        -- intros [(r & E & _)|[_ A]]; [cbn in E; congruence|]. inversion A as [| |? ? w ? ? J Aw]; subst. econstructor; [|exact Aw]. apply (put_in _ _ _ _ _ _ ND I). now right.
Qed.

(** the directory of the last name *)
Lemma parent_spec t p cs root : distinct t -> spells p cs -> p <> [] -> fits p cs ->
  match resolve_parent t p root with
  | inr (d, l, c) => cs = d ++ [c] /\ below t d (NDir l)
  | inl e => cs = [] /\ e = root \/ (exists d c, cs = d ++ [c] /\ ~ at_path t d true) /\ (e = ENOTDIR /\ file_before t cs \/ e = ENOENT /\ ~ file_before t cs)
  end.
Proof.
  intros D Sp Np (Lp & F). unfold resolve_parent, parent. rewrite (names_spells _ _ Sp), (proj2 (Z.ltb_ge 4095 _) Lp). destruct p as [|a p]; [easy|]. clear Np Lp Sp.
  destruct (rev cs) as [|c d] eqn:E; [left; split; [|reflexivity]; now apply (f_equal (@rev _)) in E; rewrite rev_involutive in E|].
  assert (Ec : cs = rev d ++ [c]) by (apply (f_equal (@rev _)) in E; rewrite rev_involutive in E; exact E). subst cs. clear E. set (e := rev d) in *. clearbody e. clear d.
  apply Forall_app in F. destruct F as [Fe Fc]. inversion Fc as [|? ? Fc' _]; subst. pose proof (walk_spec e t D Fe) as W.
  assert (Down : forall b, file_before t e -> ~ at_path t e b).
  { intros b (d & r & Ed & Nr & A) B. subst e. exact (file_no_below t d r b D A Nr B). }
  destruct (walk e t) as [z|x].
  - destruct W as [N W]. right. split; [exists e, c; split; [reflexivity|]; intros A; apply at_below' in A; destruct A as (y & B & _); exact (N y B)|].
    assert (K : file_before t (e ++ [c]) <-> file_before t e).
    { split.
      - intros (d & r & Ed & Nr & A). destruct r as [|y r] using rev_ind; [easy|]. clear IHr. rewrite app_assoc in Ed. apply app_inj_tail in Ed. destruct Ed as [Ed ->].
        destruct r as [|y' r]; [rewrite app_nil_r in Ed; subst e; apply at_below' in A; destruct A as (y' & B & _); destruct (N y' B)|]. exists d, (y' :: r). split; [exact Ed|]. split; [discriminate|exact A].
      - intros (d & r & -> & Nr & A). exists d, (r ++ [c]). split; [now rewrite app_assoc|]. split; [now destruct r|exact A]. }
    now rewrite K.
  - destruct x as [|l].
    + right. pose proof (below_at _ _ _ W) as A. cbn in A. split; [exists e, c; split; [reflexivity|]; intros A'; pose proof (at_fun t D _ _ _ A A'); discriminate|]. left. split; [reflexivity|]. exists e, [c]. split; [reflexivity|]. split; [discriminate|exact A].
    + unfold long_name. rewrite (proj2 (Z.ltb_ge 255 _) Fc'). split; [reflexivity|exact W].
Qed.
