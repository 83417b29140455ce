From Verif Require Import Base Array Hashtable HashtableSpec HashtableProofs HashtableProofs2.

Section P.
  Context {V : Type} (vz : V) (full : Z -> Z -> bool).
  Implicit Types (es : list (entry V)) (h : table V).

  Lemma split_nth {A} (l : list A) i x : nth_error l i = Some x -> l = firstn i l ++ x :: skipn (S i) l.
  Proof.
    revert i. induction l as [|y l IH]; intros [|i] H; try discriminate; cbn in *.
    - now injection H as ->.
    - f_equal. now apply IH.
  Qed.

  Lemma remove_at_kv es i e es' : nth_error es i = Some e -> list_remove_at es (Z.of_nat i) = Some es' ->
    NoDup (keys es) ->
    kv es' = firstn i (kv es) ++ skipn (S i) (kv es) /\
    NoDup (keys es') /\ (forall x, fget (kv es') x = fremove (fget (kv es)) (key e) x) /\ (es = [] -> es' = []).
  Proof.
    intros N E D. unfold list_remove_at in E. rewrite Nat2Z.id in E. destruct (_ && _); [|easy].
    assert (E' : es' = firstn i es ++ skipn (S i) es) by congruence. clear E. subst es'.
    assert (K : kv (firstn i es ++ skipn (S i) es) = firstn i (kv es) ++ skipn (S i) (kv es)).
    { unfold kv. now rewrite map_app, firstn_map, skipn_map. }
    split; [exact K|].
    assert (Sp : kv es = firstn i (kv es) ++ (key e, value e) :: skipn (S i) (kv es)).
    { apply split_nth. now rewrite kv_nth, N. }
    rewrite keys_kv in D. rewrite Sp, map_app in D. cbn [map fst] in D.
    set (a := firstn i (kv es)) in *. set (b := skipn (S i) (kv es)) in *.
    split. { rewrite keys_kv, K, map_app. now apply NoDup_remove_1 in D. }
    split.
    - intros x. rewrite K, Sp. unfold fremove. rewrite !fget_app. cbn [fget].
      apply NoDup_remove_2 in D. rewrite in_app_iff in D.
      destruct (Z.eqb_spec x (key e)) as [->|Hx].
      + rewrite !fget_none by tauto. easy.
      + destruct (Z.eqb_spec (key e) x); [congruence|]. easy.
    - intros ->. now destruct i.
  Qed.

  Lemma remove_at_some {A} (l : list A) i x : nth_error l i = Some x -> exists l', list_remove_at l (Z.of_nat i) = Some l'.
  Proof.
    intros N. assert (i < length l)%nat by (apply nth_error_Some; congruence).
    unfold list_remove_at. replace (_ && _) with true; [eauto|]. symmetry. rewrite andb_true_iff, Z.leb_le, Z.ltb_lt. lia.
  Qed.

  Lemma remove_ok h k : wf h ->
    exists h', remove h k = Some h' /\ wf h' /\ forall x, fget (kv (entries h')) x = fremove (fget (kv (entries h))) k x.
  Proof.
    intros W. unfold remove. destruct (keys_dec h k) as [K|(i & e & N & K)].
    - destruct (find_out vz h k W K) as (hi & p & F). rewrite F. cbn. exists h. split; [easy|]. split; [easy|].
      intros x. unfold fremove. destruct (Z.eqb_spec x k) as [->|]; [|easy]. rewrite fget_none; [easy|]. now rewrite <- keys_kv.
    - destruct (find_in h k i e W N K) as (hi & p & F). rewrite F. cbn [obind].
      destruct (Z.leb_spec 0 (Z.of_nat i)); [|lia].
      destruct (remove_at_some _ _ _ N) as (es & R). rewrite R. cbn [obind].
      destruct (remove_at_kv _ _ _ _ N R) as (_ & D & G & Z0); [apply W|].
      destruct (rehash_fast_ok (mkTable (hashes h) es)) as (h' & RF & W' & KV & _).
      + cbn. intros Z. apply Z0. now apply (proj1 W).
      + exact D.
      + exists h'. split; [exact RF|]. split; [exact W'|]. intros x. rewrite KV. cbn [entries]. rewrite G, K. easy.
  Qed.

  Lemma clear_ok h : wf (table_clear h).
  Proof.
    split; [easy|]. split; [|constructor]. apply chained0. cbn. intros s Hs.
    apply in_map_iff in Hs. destruct Hs as (_ & <- & _). easy.
  Qed.

  Lemma fget_map_kv (f : Z -> V -> V) es x :
    fget (kv (map (fun e => set_value (f (key e) (value e)) e) es)) x = option_map (f x) (fget (kv es) x).
  Proof.
    induction es as [|e es IH]; [easy|]. cbn. destruct (Z.eqb_spec (key e) x) as [->|]; [easy|]. exact IH.
  Qed.
  Lemma map_mut_ok h f : wf h -> wf (table_map_mut h f).
  Proof.
    intros (H0 & C & D). unfold table_map_mut. split; [cbn; intros Z; now rewrite (H0 Z)|]. split.
    - cbn [entries]. rewrite map_length. apply (chained_ext h); [easy| |easy|easy].
      intros i e _ N. cbn [entries]. rewrite nth_error_map, N. cbn. eexists. split; [reflexivity|]. easy.
    - cbn [entries]. unfold keys. rewrite map_map. exact D.
  Qed.

  Lemma hexec_ok h o : wf h -> hvalid o ->
    exists h', hexec vz full h o = Some h' /\ wf h' /\ forall x, fget (kv (entries h')) x = mstep (fget (kv (entries h))) o x.
  Proof.
    intros W Hv. destruct o; cbn [hexec mstep hvalid] in *.
    - destruct (set_ok vz full h k v W) as (h' & ? & ? & ? & _). eauto.
    - now apply remove_ok.
    - destruct (rehash_ok vz h n) as (h' & ? & ? & E & _); [apply W|easy|]. exists h'. rewrite E. easy.
    - destruct (grow_ok vz h) as (h' & ? & ? & E & _); [apply W|]. exists h'. rewrite E. easy.
    - destruct (rehash_fast_ok h) as (h' & ? & ? & E & _); [apply W|apply W|]. exists h'. rewrite E. easy.
    - eexists. split; [reflexivity|]. split; [apply clear_ok|easy].
    - eexists. split; [reflexivity|]. split; [now apply map_mut_ok|]. intros x. apply fget_map_kv.
  Qed.

  Lemma mstep_ext m m' (o : hop V) : (forall x, m x = m' x) -> forall x, mstep m o x = mstep m' o x.
  Proof. intros H x. destruct o; cbn; unfold fset, fremove; try easy; rewrite ?H; easy. Qed.
  Lemma mrun_ext : forall ops m m', (forall x, m x = m' x) -> forall x, @mrun V m ops x = mrun m' ops x.
  Proof.
    unfold mrun. induction ops as [|o ops IH]; intros m m' H x; cbn [fold_left]; [easy|].
    apply IH. now apply mstep_ext.
  Qed.

  Lemma hrun_ok : forall ops h, wf h -> Forall hvalid ops ->
    exists h', hrun vz full h ops = Some h' /\ wf h' /\ forall x, fget (kv (entries h')) x = mrun (fget (kv (entries h))) ops x.
  Proof.
    induction ops as [|o ops IH]; intros h W Hv; cbn [hrun].
    - exists h. easy.
    - inversion Hv; subst. destruct (hexec_ok h o W) as (h1 & X & W1 & E1); [easy|]. rewrite X. cbn [obind].
      destruct (IH h1 W1) as (h2 & X2 & W2 & E2); [easy|]. exists h2. split; [easy|]. split; [easy|].
      intros x. rewrite E2. cbn [mrun fold_left]. apply mrun_ext. exact E1.
  Qed.

  Lemma init_ok : wf (@table_init V).
  Proof. split; [easy|]. split; [|constructor]. apply chained0. easy. Qed.

  Lemma slot_from_ok es k : forall i, (slot_from es i k = -1 /\ ~ In k (keys es)) \/
    (exists j e, slot_from es i k = i + Z.of_nat j /\ nth_error es j = Some e /\ key e = k).
  Proof.
    induction es as [|e es IH]; intros i; cbn; [now left|].
    destruct (Z.eqb_spec (key e) k) as [E|E].
    - right. exists 0%nat, e. repeat split; [lia|easy].
    - destruct (IH (i + 1)) as [(H1 & H2)|(j & f & H1 & H2 & H3)].
      + left. split; [easy|]. intros [?|?]; [congruence|auto].
      + right. exists (S j), f. repeat split; [lia|easy|easy].
  Qed.

  (** any number of remove_entry calls at valid positions *)
  Inductive removed_entries : table V -> table V -> list Z -> Prop :=
  | RE_nil h : removed_entries h h []
  | RE_cons h i e h1 h2 ks : nth_error (entries h) i = Some e -> remove_entry h (Z.of_nat i) = Some h1 ->
      removed_entries h1 h2 ks -> removed_entries h h2 (key e :: ks).

  Lemma removed_ok h h' ks : removed_entries h h' ks -> (hashes h = [] -> entries h = []) -> NoDup (keys (entries h)) ->
    (hashes h' = [] -> entries h' = []) /\ NoDup (keys (entries h')) /\
    forall x, fget (kv (entries h')) x = fold_left (@fremove V) ks (fget (kv (entries h))) x.
  Proof.
    induction 1 as [h|h i e h1 h2 ks N R _ IH]; intros H0 D; [easy|].
    unfold remove_entry in R. destruct (remove_at_some _ _ _ N) as (es & E). rewrite E in R. injection R as <-.
    destruct (remove_at_kv _ _ _ _ N E D) as (_ & D' & G & Z0). cbn [hashes entries] in *.
    destruct IH as (I1 & I2 & I3); [intros Z; apply Z0, H0, Z|easy|]. split; [easy|]. split; [easy|].
    intros x. rewrite I3. cbn [fold_left].
    assert (Ext : forall ks m m' , (forall x, m x = m' x) -> forall x, fold_left (@fremove V) ks m x = fold_left (@fremove V) ks m' x).
    { clear. induction ks as [|k ks IH]; intros m m' H x; cbn; [easy|]. apply IH. intros y. unfold fremove. now rewrite H. }
    now apply Ext.
  Qed.
End P.
