From Verif Require Import Base Array Hashtable HashtableSpec.

Section P.
  Context {V : Type} (vz : V) (full : Z -> Z -> bool).
  Implicit Types (es : list (entry V)) (h : table V) (l : list nat).

  (** * lists *)
  Lemma upd_nat_ok {A} (f : A -> A) : forall (l : list A) i x, nth_error l i = Some x ->
    exists l' : list A, upd_nat l i f = Some l' /\ length l' = length l /\
      (forall j, nth_error l' j = if Nat.eqb j i then Some (f x) else nth_error l j).
  Proof.
    induction l as [|y l IH]; intros [|i] x H; try discriminate; cbn [upd_nat nth_error] in *.
    - injection H as ->. eexists. split; [reflexivity|]. split; [easy|]. intros [|j]; easy.
    - destruct (IH i x H) as (l' & E & L & N). rewrite E. cbn [obind].
      eexists. split; [reflexivity|]. split; [cbn; lia|]. intros [|j]; [easy|]. cbn. apply N.
  Qed.
  Lemma at_nat {A} (l : list A) (i : nat) : at_ l (Z.of_nat i) = nth_error l i.
  Proof. unfold at_. destruct (Z.leb_spec 0 (Z.of_nat i)); [|lia]. now rewrite Nat2Z.id. Qed.
  Lemma upd_ok {A} (f : A -> A) (l : list A) (i : nat) x : nth_error l i = Some x ->
    exists l' : list A, upd l (Z.of_nat i) f = Some l' /\ length l' = length l /\
      (forall j, nth_error l' j = if Nat.eqb j i then Some (f x) else nth_error l j).
  Proof. intros H. unfold upd. destruct (Z.leb_spec 0 (Z.of_nat i)); [|lia]. rewrite Nat2Z.id. now apply upd_nat_ok. Qed.

  Lemma nth_error_ext {A} (p q : list A) : (forall i, nth_error p i = nth_error q i) -> p = q.
  Proof.
    revert q. induction p as [|x p IH]; intros q N.
    - destruct q; [easy|]. discriminate (N 0%nat).
    - destruct q; [discriminate (N 0%nat)|]. injection (N 0%nat) as ->. f_equal. apply IH. intros i. exact (N (S i)).
  Qed.

  (** * chains *)
  Fixpoint path es (s : Z) l : Prop :=
    match l with
    | [] => s = -1
    | i :: r => s = Z.of_nat i /\ exists e, nth_error es i = Some e /\ path es (next e) r
    end.

  Definition ikey es (i : nat) : option Z := option_map key (nth_error es i).

  Lemma path_ext es es' s l :
    (forall i e, In i l -> nth_error es i = Some e -> exists e', nth_error es' i = Some e' /\ next e' = next e) ->
    path es s l -> path es' s l.
  Proof.
    revert s. induction l as [|i l IH]; intros s H P; [easy|]. cbn [path] in *.
    destruct P as (-> & e & N & P). split; [easy|].
    destruct (H i e (or_introl eq_refl) N) as (e' & N' & E). exists e'. split; [easy|]. rewrite E.
    apply IH; [|easy]. intros j f Hj. apply H. now right.
  Qed.

  Lemma path_snoc es es' s l p m : path es s (l ++ [p]) ->
    (forall i e, In i l -> nth_error es i = Some e -> exists e', nth_error es' i = Some e' /\ next e' = next e) ->
    (exists e', nth_error es' p = Some e' /\ next e' = Z.of_nat m) ->
    (exists e', nth_error es' m = Some e' /\ next e' = -1) ->
    path es' s (l ++ [p; m]).
  Proof.
    revert s. induction l as [|i l IH]; intros s P H (ep & Np & Ep) (em & Nm & Em).
    - cbn [app path] in *. destruct P as (-> & e & _ & _). split; [easy|]. exists ep. split; [easy|]. split; [easy|].
      exists em. split; [easy|]. easy.
    - cbn [app path] in *. destruct P as (-> & e & N & P). split; [easy|].
      destruct (H i e (or_introl eq_refl) N) as (e' & N' & E). exists e'. split; [easy|]. rewrite E.
      apply IH; [easy| |eauto..]. intros j f Hj. apply H. now right.
  Qed.

  Lemma last_indep (l : list Z) a b : l <> [] -> last l a = last l b.
  Proof. induction l as [|x [|y l] IH]; intros H; [easy|easy|]. cbn [last] in *. now apply IH. Qed.

  Lemma find_loop_miss es k : forall l fuel s prev, path es s l -> (length l < fuel)%nat ->
    (forall i, In i l -> ikey es i <> Some k) ->
    find_loop fuel es k prev s = Some (last (map Z.of_nat l) prev, -1).
  Proof.
    induction l as [|i l IH]; intros [|fuel] s prev P F H; cbn [length] in F; try lia; cbn [path find_loop] in *.
    - subst s. easy.
    - destruct P as (-> & e & N & P). destruct (Z.leb_spec 0 (Z.of_nat i)); [|lia].
      rewrite at_nat, N. cbn [obind].
      destruct (Z.eqb_spec (key e) k) as [E|E].
      { exfalso. apply (H i (or_introl eq_refl)). unfold ikey. rewrite N. cbn. now rewrite E. }
      rewrite (IH fuel (next e) (Z.of_nat i) P) by (try lia; intros; apply H; now right).
      f_equal. f_equal. cbn [map last]. destruct l; [easy|]. cbn [map]. apply last_indep. easy.
  Qed.

  Lemma find_loop_hit es k : forall l1 i l2 fuel s prev, path es s (l1 ++ i :: l2) -> (length l1 < fuel)%nat ->
    (forall j, In j l1 -> ikey es j <> Some k) -> ikey es i = Some k ->
    find_loop fuel es k prev s = Some (last (map Z.of_nat l1) prev, Z.of_nat i).
  Proof.
    induction l1 as [|j l1 IH]; intros i l2 [|fuel] s prev P F H K; cbn [length] in F; try lia;
      cbn [app path find_loop] in *.
    - destruct P as (-> & e & N & P). destruct (Z.leb_spec 0 (Z.of_nat i)); [|lia].
      rewrite at_nat, N. cbn [obind]. unfold ikey in K. rewrite N in K. injection K as ->. now rewrite Z.eqb_refl.
    - destruct P as (-> & e & N & P). destruct (Z.leb_spec 0 (Z.of_nat j)); [|lia].
      rewrite at_nat, N. cbn [obind].
      destruct (Z.eqb_spec (key e) k) as [E|E].
      { exfalso. apply (H j (or_introl eq_refl)). unfold ikey. rewrite N. cbn. now rewrite E. }
      rewrite (IH i l2 fuel (next e) (Z.of_nat j) P) by (try easy; try lia; intros; apply H; now right).
      f_equal. f_equal. cbn [map last]. destruct l1; [easy|]. cbn [map]. apply last_indep. easy.
  Qed.

  (** * buckets *)
  Definition in_bucket (n b : Z) es (i : nat) : bool :=
    match nth_error es i with Some e => key e mod n =? b | None => false end.
  Definition bucket (n b : Z) es (m : nat) : list nat := filter (in_bucket n b es) (seq 0 m).

  Lemma bucket_In n b es m i : In i (bucket n b es m) <-> (i < m)%nat /\ exists e, nth_error es i = Some e /\ key e mod n = b.
  Proof.
    unfold bucket. rewrite filter_In, in_seq. unfold in_bucket. split.
    - intros (H & E). split; [lia|]. destruct (nth_error es i) as [e|]; [|easy]. exists e. split; [easy|]. now apply Z.eqb_eq.
    - intros (H & e & N & E). rewrite N. split; [lia|]. now apply Z.eqb_eq.
  Qed.
  Lemma bucket_S n b es m : bucket n b es (S m) = bucket n b es m ++ (if in_bucket n b es m then [m] else []).
  Proof. unfold bucket. rewrite seq_S, filter_app. cbn. destruct (in_bucket n b es m); easy. Qed.
  Lemma bucket_length n b es m : (length (bucket n b es m) <= m)%nat.
  Proof.
    unfold bucket. rewrite <- (seq_length m 0) at 2. generalize (seq 0 m). induction l; cbn; [lia|].
    destruct (in_bucket n b es a); cbn; lia.
  Qed.
  Lemma bucket_NoDup n b es m : NoDup (bucket n b es m).
  Proof. apply NoDup_filter, seq_NoDup. Qed.
  Lemma bucket_ext n b es es' m : (forall i, (i < m)%nat -> ikey es' i = ikey es i) -> bucket n b es' m = bucket n b es m.
  Proof.
    intros H. unfold bucket. apply filter_ext_in. intros i Hi. apply in_seq in Hi. specialize (H i ltac:(lia)).
    unfold in_bucket, ikey in *. destruct (nth_error es' i), (nth_error es i); cbn in *; try easy. congruence.
  Qed.

  (** chains for the first [m] entries *)
  Definition chained h (m : nat) : Prop :=
    forall b s, nth_error (hashes h) b = Some s ->
      path (entries h) s (bucket (Z.of_nat (length (hashes h))) (Z.of_nat b) (entries h) m).
  Definition distinct_to es (m : nat) : Prop :=
    forall i j e f, (i < m)%nat -> (j < m)%nat -> nth_error es i = Some e -> nth_error es j = Some f -> key e = key f -> i = j.

  Lemma hash_index h k : hashes h <> [] -> let c := Z.of_nat (length (hashes h)) in
    0 < c /\ exists s, at_ (hashes h) (k mod c) = Some s /\ nth_error (hashes h) (Z.to_nat (k mod c)) = Some s /\
      Z.of_nat (Z.to_nat (k mod c)) = k mod c.
  Proof.
    intros H c. assert (0 < c) by (unfold c; destruct (hashes h); [easy|]; cbn; lia). split; [easy|].
    assert (0 <= k mod c < c) by (apply Z.mod_pos_bound; easy).
    destruct (nth_error (hashes h) (Z.to_nat (k mod c))) as [s|] eqn:N.
    - exists s. unfold at_. destruct (Z.leb_spec 0 (k mod c)); [|lia]. repeat split; [easy..|lia].
    - apply nth_error_None in N. unfold c in *. lia.
  Qed.

  (** _find when the key is not among the chained entries *)
  Lemma find_miss h m k : hashes h <> [] -> chained h m -> (m <= length (entries h))%nat ->
    (forall i, (i < m)%nat -> ikey (entries h) i <> Some k) ->
    let c := Z.of_nat (length (hashes h)) in
    find h k = Some (k mod c, last (map Z.of_nat (bucket c (k mod c) (entries h) m)) (-1), -1).
  Proof.
    intros Hh C Hm K c. unfold find. fold c.
    destruct (hash_index h k Hh) as (Hc & s & A & N & E). fold c in Hc, A, N, E.
    destruct (Z.ltb_spec 0 c); [|lia]. rewrite A. cbn [obind].
    specialize (C _ _ N). fold c in C. rewrite E in C.
    pose proof (bucket_length c (k mod c) (entries h) m).
    rewrite (find_loop_miss _ _ _ (S (length (entries h))) s (-1) C).
    - easy.
    - lia.
    - intros i Hi. apply bucket_In in Hi. apply K. easy.
  Qed.

  (** _find when the key is there *)
  Lemma find_hit h m k i : hashes h <> [] -> chained h m -> (m <= length (entries h))%nat ->
    distinct_to (entries h) m -> (i < m)%nat -> ikey (entries h) i = Some k ->
    let c := Z.of_nat (length (hashes h)) in
    exists p, find h k = Some (k mod c, p, Z.of_nat i).
  Proof.
    intros Hh C Hm D Hi K c. unfold find. fold c.
    destruct (hash_index h k Hh) as (Hc & s & A & N & E). fold c in Hc, A, N, E.
    destruct (Z.ltb_spec 0 c); [|lia]. rewrite A. cbn [obind].
    specialize (C _ _ N). fold c in C. rewrite E in C.
    pose proof (bucket_length c (k mod c) (entries h) m) as BL.
    pose proof (bucket_NoDup c (k mod c) (entries h) m) as BN.
    unfold ikey in K. destruct (nth_error (entries h) i) as [e|] eqn:Ne; [|easy]. injection K as Ke.
    assert (I : In i (bucket c (k mod c) (entries h) m)).
    { apply bucket_In. split; [easy|]. exists e. split; [easy|]. now rewrite Ke. }
    apply in_split in I. destruct I as (l1 & l2 & EB). rewrite EB in *.
    rewrite (find_loop_hit _ k l1 i l2 (S (length (entries h))) s (-1) C).
    - eexists. reflexivity.
    - rewrite app_length in BL. cbn in BL. lia.
    - intros j Hj Kj. assert (Hj' : In j (bucket c (k mod c) (entries h) m)) by (rewrite EB; apply in_or_app; now left).
      apply bucket_In in Hj'. destruct Hj' as (Lj & f & Nf & _). unfold ikey in Kj. rewrite Nf in Kj. injection Kj as Kf.
      assert (j = i) as ->. { apply (D j i f e); try easy. congruence. }
      apply NoDup_remove_2 in BN. apply BN. apply in_or_app. now left.
    - unfold ikey. rewrite Ne. cbn. now rewrite Ke.
  Qed.

  (** linking entry [m] at the end of its chain *)
  Lemma link_ok h m e : hashes h <> [] -> chained h m -> nth_error (entries h) m = Some e -> next e = -1 ->
    let c := Z.of_nat (length (hashes h)) in
    let p := last (map Z.of_nat (bucket c (key e mod c) (entries h) m)) (-1) in
    exists h', link h (key e mod c) p (Z.of_nat m) = Some h' /\ length (hashes h') = length (hashes h) /\
      length (entries h') = length (entries h) /\
      (forall i, option_map (fun e => (key e, value e)) (nth_error (entries h') i) =
                 option_map (fun e => (key e, value e)) (nth_error (entries h) i)) /\
      (forall i f, (m <= i)%nat -> nth_error (entries h) i = Some f -> nth_error (entries h') i = Some f) /\
      chained h' (S m).
  Proof.
    intros Hh C Nm Em c p. unfold link.
    destruct (hash_index h (key e) Hh) as (Hc & s & A & N & E). fold c in Hc, A, N, E.
    pose proof (C _ _ N) as Ck. fold c in Ck. rewrite E in Ck.
    set (B := bucket c (key e mod c) (entries h) m) in *.
    assert (BI : forall i, In i B -> (i < m)%nat) by (intros i Hi; apply bucket_In in Hi; easy).
    assert (BN : NoDup B) by apply bucket_NoDup.
    assert (B = [] \/ exists l q, B = l ++ [q]) as [EB|(l & q & EQ)].
    { clear. destruct B using rev_ind; eauto. }
    - (* empty bucket *)
      assert (p = -1) as -> by (unfold p; rewrite EB; easy). cbn [Z.ltb Z.compare].
      rewrite <- E. destruct (upd_ok (fun _ => Z.of_nat m) (hashes h) (Z.to_nat (key e mod c)) s N) as (hs & U & L & Nh).
      rewrite U. cbn [obind]. eexists. split; [reflexivity|]. cbn [hashes entries].
      split; [easy|]. split; [easy|]. split; [easy|]. split; [easy|].
      intros b s'. cbn [hashes entries]. rewrite Nh, L. fold c. rewrite bucket_S. unfold in_bucket. rewrite Nm.
      destruct (Nat.eqb_spec b (Z.to_nat (key e mod c))) as [->|Hb].
      + intros [= <-]. rewrite E, Z.eqb_refl. fold B. rewrite EB. cbn. split; [easy|]. exists e. easy.
      + intros Hs. destruct (Z.eqb_spec (key e mod c) (Z.of_nat b)); [lia|]. rewrite app_nil_r. now apply C.
    - (* non-empty *)
      assert (p = Z.of_nat q) as Hp.
      { unfold p. rewrite EQ, map_app. cbn [map]. apply last_last. }
      rewrite Hp. destruct (Z.ltb_spec (Z.of_nat q) 0); [lia|].
      assert (Iq : In q B) by (rewrite EQ; apply in_or_app; right; now left).
      assert (exists eq, nth_error (entries h) q = Some eq /\ key eq mod c = key e mod c) as (eq & Nq & Kq).
      { apply bucket_In in Iq. destruct Iq as (_ & f & ? & ?). eauto. }
      destruct (upd_ok (set_next (Z.of_nat m)) (entries h) q eq Nq) as (es & U & L & Ne).
      rewrite U. cbn [obind]. eexists. split; [reflexivity|]. cbn [hashes entries].
      split; [easy|]. split; [easy|].
      assert (KV : forall i, option_map (fun e => (key e, value e)) (nth_error es i) =
                 option_map (fun e => (key e, value e)) (nth_error (entries h) i)).
      { intros i. rewrite Ne. destruct (Nat.eqb_spec i q) as [->|]; [|easy]. rewrite Nq. easy. }
      split; [exact KV|].
      split. { intros i f Hi Hf. rewrite Ne. destruct (Nat.eqb_spec i q) as [->|]; [|easy]. specialize (BI q Iq). lia. }
      intros b s' Hs. cbn [hashes entries] in *. fold c.
      assert (KE : forall i, ikey es i = ikey (entries h) i).
      { intros i. unfold ikey. specialize (KV i). destruct (nth_error es i), (nth_error (entries h) i); cbn in *; try easy. congruence. }
      rewrite (bucket_ext _ _ (entries h) es) by (intros; apply KE).
      rewrite bucket_S. unfold in_bucket at 1. rewrite Nm.
      destruct (Z.eqb_spec (key e mod c) (Z.of_nat b)) as [Eb|Eb].
      + rewrite <- Eb. fold B. rewrite EQ, <- app_assoc. cbn [app].
        assert (s' = s) as ->. { assert (b = Z.to_nat (key e mod c)) as -> by lia. congruence. }
        rewrite EQ in Ck, BN. apply (path_snoc (entries h)); [exact Ck|..].
        * intros i f Hi Hf. rewrite Ne. destruct (Nat.eqb_spec i q) as [->|]; [|eauto].
          exfalso. apply NoDup_remove_2 in BN. apply BN. rewrite app_nil_r. exact Hi.
        * rewrite Ne, Nat.eqb_refl. eexists. split; [reflexivity|]. easy.
        * rewrite Ne. specialize (BI q Iq). destruct (Nat.eqb_spec m q); [lia|]. eauto.
      + rewrite app_nil_r. apply (path_ext (entries h)); [|now apply C].
        intros i f Hi Hf. rewrite Ne. destruct (Nat.eqb_spec i q) as [->|]; [|eauto].
        exfalso. apply bucket_In in Hi. destruct Hi as (_ & g & Ng & Kg). rewrite Nq in Ng. injection Ng as <-. lia.
  Qed.
End P.
