(** C20, C21, C22: hash tables. *)
From Verif Require Import Base Array Hashtable HashtableSpec HashtableProofs HashtableProofs2 HashtableProofs3.

(** C20. Every history of set/remove/rehash/grow/rehash_fast/clear/map_mut, for every
    fullness test: no access out of bounds and no endless chain (the run and every get
    are not [None]), and get answers as the mathematical map does. *)
Theorem C20_table_refines_map (V : Type) (vz : V) (full : Z -> Z -> bool) (ops : list (hop V)) :
  Forall hvalid ops ->
  exists h, hrun vz full table_init ops = Some h /\ forall k, get h k = Some (mrun fempty ops k).
Proof.
  intros Hv. destruct (hrun_ok vz full ops table_init init_ok Hv) as (h & X & W & E).
  exists h. split; [easy|]. intros k. rewrite (get_ok vz h k W), E. easy.
Qed.

(** In words: the last set of k not followed by a removal or clear. *)
Theorem C20_get_after_set (V : Type) (vz : V) (full : Z -> Z -> bool) (ops : list (hop V)) (k : Z) (v : V) :
  Forall hvalid ops ->
  exists h, hrun vz full table_init (ops ++ [HSet k v]) = Some h /\ get h k = Some (Some v) /\
    forall x, x <> k -> exists h0, hrun vz full table_init ops = Some h0 /\ get h x = get h0 x.
Proof.
  intros Hv. destruct (C20_table_refines_map V vz full (ops ++ [HSet k v])) as (h & X & G).
  { apply Forall_app. split; [easy|]. now repeat constructor. }
  destruct (C20_table_refines_map V vz full ops Hv) as (h0 & X0 & G0).
  exists h. split; [easy|]. unfold mrun in *. split.
  - rewrite G, fold_left_app. cbn. unfold fset. now rewrite Z.eqb_refl.
  - intros x Hx. exists h0. split; [easy|]. rewrite G, G0, fold_left_app. cbn. unfold fset.
    destruct (Z.eqb_spec x k); easy.
Qed.
Theorem C20_get_after_remove (V : Type) (vz : V) (full : Z -> Z -> bool) (ops : list (hop V)) (k : Z) :
  Forall hvalid ops ->
  exists h, hrun vz full table_init (ops ++ [HRemove k]) = Some h /\ get h k = Some None /\
    forall x, x <> k -> exists h0, hrun vz full table_init ops = Some h0 /\ get h x = get h0 x.
Proof.
  intros Hv. destruct (C20_table_refines_map V vz full (ops ++ [HRemove k])) as (h & X & G).
  { apply Forall_app. split; [easy|]. now repeat constructor. }
  destruct (C20_table_refines_map V vz full ops Hv) as (h0 & X0 & G0).
  exists h. split; [easy|]. unfold mrun in *. split.
  - rewrite G, fold_left_app. cbn. unfold fremove. now rewrite Z.eqb_refl.
  - intros x Hx. exists h0. split; [easy|]. rewrite G, G0, fold_left_app. cbn. unfold fremove.
    destruct (Z.eqb_spec x k); easy.
Qed.

(** slot finds the position of a stored key, -1 otherwise. *)
Theorem C20_slot (V : Type) (vz : V) (full : Z -> Z -> bool) (ops : list (hop V)) (h : table V) (k : Z) :
  Forall hvalid ops -> hrun vz full table_init ops = Some h ->
  (slot h k = -1 /\ get h k = Some None) \/
  (exists e, at_ (entries h) (slot h k) = Some e /\ key e = k /\ get h k = Some (Some (value e))).
Proof.
  intros Hv X. destruct (hrun_ok vz full ops table_init init_ok Hv) as (h' & X' & W & E).
  rewrite X in X'. injection X' as <-. unfold slot. rewrite (get_ok vz h k W).
  destruct (slot_from_ok (entries h) k 0) as [(-> & K)|(j & e & -> & N & K)].
  - left. rewrite fget_none; [easy|]. now rewrite <- keys_kv.
  - right. exists e. rewrite Z.add_0_l, at_nat. split; [easy|]. split; [easy|].
    rewrite (fget_nth _ k (value e) j); [easy|rewrite <- keys_kv; apply W|]. rewrite kv_nth, N. cbn. now rewrite K.
Qed.

(** With the exact 3/4 test the load after a set is at most 3/4. *)
Theorem C20_load_factor (V : Type) (vz : V) (ops : list (hop V)) (k : Z) (v : V) (h : table V) :
  Forall hvalid ops -> hrun vz full75 table_init (ops ++ [HSet k v]) = Some h ->
  4 * Z.of_nat (length (entries h)) <= 3 * Z.of_nat (length (hashes h)).
Proof.
  intros Hv X. destruct (hrun_ok vz full75 ops table_init init_ok Hv) as (h0 & X0 & W & _).
  assert (Y : forall a b t, hrun vz full75 t (a ++ b) = (t' <- hrun vz full75 t a ;; hrun vz full75 t' b)).
  { clear. induction a as [|o a IH]; intros b t; cbn; [easy|]. destruct (hexec vz full75 t o); cbn; [apply IH|easy]. }
  rewrite Y, X0 in X. cbn [obind hrun hexec] in X.
  destruct (set_ok vz full75 h0 k v W) as (h1 & S & _ & _ & _ & F). rewrite S in X. cbn [obind] in X. injection X as <-.
  destruct (full75 _ _) eqn:E; [now destruct (F eq_refl)|]. unfold full75 in E. apply Z.ltb_ge in E. lia.
Qed.

(** C21. remove_entry alone: a key that is still stored is no longer found. *)
Definition three : list (hop Z) := [HSet 0 10; HSet 1 11; HSet 2 12].
Theorem C21_remove_entry_refuted : exists h h',
  hrun 0 full75 table_init three = Some h /\ remove_entry h 0 = Some h' /\
  In (1, 11) (table_map h') /\ get h' 1 = Some None.
Proof. do 2 eexists. repeat split; try reflexivity. cbn. now left. Qed.
(** and get of a stored key can read past the entries *)
Theorem C21_remove_entry_out_of_bounds_refuted : exists h h',
  hrun 0 full75 table_init three = Some h /\ remove_entry h 0 = Some h' /\
  In (2, 12) (table_map h') /\ get h' 2 = None.
Proof. do 2 eexists. repeat split; try reflexivity. cbn. right. now left. Qed.

(** After any history, any number of remove_entry calls and then rehash_fast (or
    rehash), the table answers as the map with those keys removed. *)
Theorem C21_rehash_fast_repairs (V : Type) (vz : V) (full : Z -> Z -> bool) (ops : list (hop V)) (h h1 : table V) (ks : list Z) :
  Forall hvalid ops -> hrun vz full table_init ops = Some h -> removed_entries h h1 ks ->
  exists h2, rehash_fast h1 = Some h2 /\
    forall k, get h2 k = Some (fold_left fremove ks (mrun fempty ops) k).
Proof.
  intros Hv X R. destruct (hrun_ok vz full ops table_init init_ok Hv) as (h' & X' & W & E).
  rewrite X in X'. injection X' as <-.
  destruct (removed_ok h h1 ks R) as (I1 & I2 & I3); [apply W|apply W|].
  destruct (rehash_fast_ok h1 I1 I2) as (h2 & RF & W2 & KV & _).
  exists h2. split; [easy|]. intros k. rewrite (get_ok vz h2 k W2), KV, I3. f_equal.
  assert (Ext : forall ks m m' , (forall x, m x = m' x) -> forall x, fold_left (@fremove V) ks m x = fold_left (@fremove V) ks m' x).
  { clear. induction ks as [|k ks IH]; intros m m' H x; cbn; [easy|]. apply IH. intros y. unfold fremove. now rewrite H. }
  now apply Ext.
Qed.

(** ... and the repaired table is a fully consistent one: any further history
    behaves. *)
Theorem C21_repaired_history (V : Type) (vz : V) (full : Z -> Z -> bool) (ops ops2 : list (hop V)) (h h1 : table V) (ks : list Z) :
  Forall hvalid ops -> hrun vz full table_init ops = Some h -> removed_entries h h1 ks -> Forall hvalid ops2 ->
  exists h2 h3, rehash_fast h1 = Some h2 /\ hrun vz full h2 ops2 = Some h3 /\
    forall k, get h3 k = Some (mrun (fold_left fremove ks (mrun fempty ops)) ops2 k).
Proof.
  intros Hv X R Hv2. destruct (C21_rehash_fast_repairs V vz full ops h h1 ks Hv X R) as (h2 & RF & G).
  destruct (hrun_ok vz full ops table_init init_ok Hv) as (h' & X' & W & E).
  rewrite X in X'. injection X' as <-.
  destruct (removed_ok h h1 ks R) as (I1 & I2 & I3); [apply W|apply W|].
  destruct (rehash_fast_ok h1 I1 I2) as (h2' & RF' & W2 & KV & _). rewrite RF in RF'. injection RF' as <-.
  destruct (hrun_ok vz full ops2 h2 W2 Hv2) as (h3 & X3 & W3 & E3).
  exists h2, h3. split; [easy|]. split; [easy|]. intros k. rewrite (get_ok vz h3 k W3), E3. f_equal.
  apply mrun_ext. intros x. specialize (G x). rewrite (get_ok vz h2 x W2) in G. congruence.
Qed.

(** C22. map calls back once per stored key, with its current value. *)
Theorem C22_map_visits_once (V : Type) (vz : V) (full : Z -> Z -> bool) (ops : list (hop V)) (h : table V) :
  Forall hvalid ops -> hrun vz full table_init ops = Some h ->
  NoDup (map fst (table_map h)) /\
  forall k v, In (k, v) (table_map h) <-> mrun fempty ops k = Some v.
Proof.
  intros Hv X. destruct (hrun_ok vz full ops table_init init_ok Hv) as (h' & X' & W & E).
  rewrite X in X'. injection X' as <-. change (table_map h) with (kv (entries h)).
  assert (D : NoDup (map fst (kv (entries h)))) by (rewrite <- keys_kv; apply W). split; [exact D|].
  intros k v. change (@fempty V) with (fget (@nil (Z * V))). rewrite <- E. split.
  - intros I. apply In_nth_error in I. destruct I as (i & N). now apply fget_nth with i.
  - clear. induction (kv (entries h)) as [|[x w] l IH]; cbn; [easy|].
    destruct (Z.eqb_spec x k) as [->|]; [intros [= ->]; now left|]. right. auto.
Qed.
(** map_mut calls back once per stored key and later gets see the callback's values. *)
Theorem C22_map_mut (V : Type) (vz : V) (full : Z -> Z -> bool) (ops : list (hop V)) (h : table V) (f : Z -> V -> V) :
  Forall hvalid ops -> hrun vz full table_init ops = Some h ->
  table_map (table_map_mut h f) = map (fun '(k, v) => (k, f k v)) (table_map h) /\
  forall k, get (table_map_mut h f) k = Some (option_map (f k) (mrun fempty ops k)).
Proof.
  intros Hv X. destruct (hrun_ok vz full ops table_init init_ok Hv) as (h' & X' & W & E).
  rewrite X in X'. injection X' as <-. split.
  - unfold table_map, table_map_mut. cbn. now rewrite !map_map.
  - intros k. rewrite (get_ok vz _ k (map_mut_ok h f W)). f_equal. unfold table_map_mut. cbn [entries].
    rewrite fget_map_kv, E. easy.
Qed.

(** Concrete cases: colliding keys (3 mod 8 all), enough for a growth, and a removal. *)
Definition demo : list (hop Z) :=
  [HSet 3 1; HSet 11 2; HSet 19 3; HSet 27 4; HSet 35 5; HSet 43 6; HSet 51 7; HRemove 19; HSet 3 30; HRehash 1].
Example C20_ex : Forall hvalid demo /\ exists h, hrun 0 full75 table_init demo = Some h /\
  map (get h) [3; 11; 19; 27; 51; 4] = [Some (Some 30); Some (Some 2); Some None; Some (Some 4); Some (Some 7); Some None].
Proof. split; [repeat constructor; cbn; lia|].
  destruct (hrun 0 full75 table_init demo) as [h|] eqn:E; [|vm_compute in E; discriminate].
  exists h. split; [easy|]. vm_compute in E. injection E as <-. vm_compute. reflexivity.
Qed.
Example C21_ex : exists h h1, hrun 0 full75 table_init three = Some h /\ removed_entries h h1 [1; 0] /\ length (entries h1) = 1%nat.
Proof.
  destruct (hrun 0 full75 table_init three) as [h|] eqn:E; [|vm_compute in E; discriminate].
  exists h. eexists. split; [easy|]. vm_compute in E. injection E as <-. split.
  - eapply (RE_cons _ 1 (mkEntry 1 (-1) 11) _ _ [0]); [reflexivity|vm_compute; reflexivity|].
    eapply (RE_cons _ 0 (mkEntry 0 (-1) 10) _ _ []); [reflexivity|vm_compute; reflexivity|]. apply RE_nil.
  - reflexivity.
Qed.

Print Assumptions C20_table_refines_map.
Print Assumptions C20_get_after_set.
Print Assumptions C20_get_after_remove.
Print Assumptions C20_slot.
Print Assumptions C20_load_factor.
Print Assumptions C21_remove_entry_refuted.
Print Assumptions C21_remove_entry_out_of_bounds_refuted.
Print Assumptions C21_rehash_fast_repairs.
Print Assumptions C21_repaired_history.
Print Assumptions C22_map_visits_once.
Print Assumptions C22_map_mut.
