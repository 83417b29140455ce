From Verif Require Import Base Array Hashtable HashtableSpec HashtableProofs.

Section P.
  Context {V : Type} (vz : V) (full : Z -> Z -> bool).
  Implicit Types (es : list (entry V)) (h : table V).

  Lemma nth_error_nil {A} i : nth_error (@nil A) i = None.
  Proof. now destruct i. Qed.
  Lemma NoDup_app_comm_one {A} (l : list A) x : NoDup l /\ ~ In x l -> NoDup (l ++ [x]).
  Proof.
    intros (D & H). induction D as [|y l Hy D IH]; cbn; [now repeat constructor|].
    constructor; [|apply IH; intros I; apply H; now right].
    rewrite in_app_iff. cbn. intros [I|[->|[]]]; [easy|]. apply H. now left.
  Qed.

  Definition kv es : list (Z * V) := map (fun e => (key e, value e)) es.
  Definition keys es : list Z := map key es.
  Definition wf h : Prop :=
    (hashes h = [] -> entries h = []) /\ chained h (length (entries h)) /\ NoDup (keys (entries h)).

  Fixpoint fget (l : list (Z * V)) (k : Z) : option V :=
    match l with [] => None | (x, v) :: r => if x =? k then Some v else fget r k end.

  Lemma keys_kv es : keys es = map fst (kv es).
  Proof. unfold keys, kv. now rewrite map_map. Qed.
  Lemma kv_length es : length (kv es) = length es.
  Proof. apply map_length. Qed.
  Lemma kv_nth es i : nth_error (kv es) i = option_map (fun e => (key e, value e)) (nth_error es i).
  Proof. apply nth_error_map. Qed.

  Lemma fget_app l r k : fget (l ++ r) k = match fget l k with Some v => Some v | None => fget r k end.
  Proof. induction l as [|[x v] l IH]; cbn; [easy|]. destruct (x =? k); easy. Qed.
  Lemma fget_none l k : ~ In k (map fst l) -> fget l k = None.
  Proof.
    induction l as [|[x v] l IH]; cbn; [easy|]. intros H. destruct (Z.eqb_spec x k) as [->|]; [exfalso; auto|]. auto.
  Qed.
  Lemma fget_nth l k v i : NoDup (map fst l) -> nth_error l i = Some (k, v) -> fget l k = Some v.
  Proof.
    revert i. induction l as [|[x w] l IH]; intros [|i] D N; try discriminate; cbn in *.
    - injection N as -> ->. now rewrite Z.eqb_refl.
    - inversion D; subst. destruct (Z.eqb_spec x k) as [->|]; [|now apply IH with i].
      exfalso. apply H1. apply nth_error_In in N. now apply (in_map fst) in N.
  Qed.

  Lemma distinct_of_NoDup es : NoDup (keys es) -> forall m, distinct_to es m.
  Proof.
    intros D m i j e f _ _ Ne Nf E.
    rewrite NoDup_nth_error in D. apply D.
    - apply nth_error_Some. unfold keys. rewrite nth_error_map, Ne. easy.
    - unfold keys. rewrite !nth_error_map, Ne, Nf. cbn. now rewrite E.
  Qed.

  Lemma chained_ext h h' m : hashes h' = hashes h ->
    (forall i e, (i < m)%nat -> nth_error (entries h) i = Some e ->
       exists e', nth_error (entries h') i = Some e' /\ next e' = next e /\ key e' = key e) ->
    (m <= length (entries h))%nat -> chained h m -> chained h' m.
  Proof.
    intros Hh He Hm C b s. rewrite Hh. intros N.
    rewrite (bucket_ext _ _ (entries h) (entries h')).
    - apply (path_ext (entries h)); [|now apply C]. intros i e Hi Ni. apply bucket_In in Hi.
      destruct (He i e (proj1 Hi) Ni) as (e' & ? & ? & _). eauto.
    - intros i Hi. unfold ikey. destruct (nth_error (entries h) i) as [e|] eqn:Ne.
      + destruct (He i e Hi Ne) as (e' & -> & _ & K). cbn. now rewrite K.
      + apply nth_error_None in Ne. lia.
  Qed.

  Lemma insert_ok h k : hashes h <> [] -> chained h (length (entries h)) -> ~ In k (keys (entries h)) ->
    exists p h2, let c := Z.of_nat (length (hashes h)) in
      find h k = Some (k mod c, p, -1) /\
      link (snd (add_entry vz h k)) (k mod c) p (fst (add_entry vz h k)) = Some h2 /\
      length (hashes h2) = length (hashes h) /\ kv (entries h2) = kv (entries h) ++ [(k, vz)] /\
      chained h2 (length (entries h2)) /\
      nth_error (entries h2) (length (entries h)) = Some (mkEntry k (-1) vz).
  Proof.
    intros Hh C K. set (m := length (entries h)). set (c := Z.of_nat (length (hashes h))).
    assert (KN : forall i, ikey (entries h) i <> Some k).
    { intros i E. apply K. unfold keys. unfold ikey in E. rewrite <- nth_error_map in E. now apply nth_error_In in E. }
    pose proof (find_miss h m k Hh C (le_n _) (fun i _ => KN i)) as F. fold c in F.
    cbv zeta in F. set (p := last _ _) in F.
    exists p. unfold add_entry. cbn [fst snd].
    set (h1 := mkTable (hashes h) (entries h ++ [mkEntry k (-1) vz])).
    assert (C1 : chained h1 m).
    { apply (chained_ext h); [easy| |easy|easy]. intros i e Hi Ne. exists e. cbn [h1 entries].
      rewrite nth_error_app1 by easy. easy. }
    assert (Nm : nth_error (entries h1) m = Some (mkEntry k (-1) vz)).
    { cbn [h1 entries]. rewrite nth_error_app2 by easy. unfold m. rewrite Nat.sub_diag. easy. }
    destruct (link_ok h1 m (mkEntry k (-1) vz) Hh C1 Nm eq_refl) as (h2 & L & L1 & L2 & KV & Keep & C2).
    cbn [key] in L. cbn [h1 hashes] in L, L1.
    assert (P : last (map Z.of_nat (bucket c (k mod c) (entries h1) m)) (-1) = p).
    { unfold p. do 2 f_equal. apply bucket_ext. intros i Hi. unfold ikey. cbn [h1 entries]. rewrite nth_error_app1 by easy. easy. }
    fold c in L. rewrite P in L.
    exists h2. split; [exact F|]. split; [exact L|]. split; [exact L1|].
    split. { apply nth_error_ext. intros i. rewrite kv_nth, KV, <- kv_nth. unfold h1, kv. cbn [entries]. rewrite map_app. easy. }
    rewrite L2. cbn [h1 entries]. rewrite app_length. cbn [length]. fold m. rewrite Nat.add_1_r. split; [exact C2|].
    now apply Keep.
  Qed.

  (** overwriting a value in place *)
  Lemma set_value_ok h i e v : chained h (length (entries h)) -> nth_error (entries h) i = Some e ->
    exists es, upd (entries h) (Z.of_nat i) (set_value v) = Some es /\ length es = length (entries h) /\
      chained (mkTable (hashes h) es) (length es) /\
      (forall j, nth_error (kv es) j = if Nat.eqb j i then Some (key e, v) else nth_error (kv (entries h)) j).
  Proof.
    intros C N. destruct (upd_ok (set_value v) _ _ _ N) as (es & U & L & Ne).
    exists es. split; [easy|]. split; [easy|]. split.
    - rewrite L. apply (chained_ext h); [easy| |easy|easy]. intros j f Hj Nf. cbn [entries]. rewrite Ne.
      destruct (Nat.eqb_spec j i) as [->|]; [|eauto]. rewrite N in Nf. injection Nf as <-. eexists. split; [reflexivity|]. easy.
    - intros j. rewrite !kv_nth, Ne. destruct (Nat.eqb_spec j i) as [->|]; easy.
  Qed.

  Lemma NoDup_app_mid {A} (l : list A) x r : NoDup (l ++ x :: r) -> ~ In x l.
  Proof. intros D I. apply NoDup_remove_2 in D. apply D. apply in_or_app. now left. Qed.

  Lemma rehash_loop_ok : forall rest nh, (hashes nh = [] -> entries nh = []) ->
    chained nh (length (entries nh)) -> NoDup (keys (entries nh) ++ keys rest) ->
    exists h', rehash_loop vz nh rest = Some h' /\ wf h' /\ kv (entries h') = kv (entries nh) ++ kv rest /\
      (hashes nh <> [] -> length (hashes h') = length (hashes nh)).
  Proof.
    induction rest as [|e rest IH]; intros nh H0 C D; cbn [rehash_loop].
    - exists nh. unfold keys in D at 2. cbn [map] in D. rewrite app_nil_r in D. unfold kv at 3. cbn [map]. rewrite app_nil_r. easy.
    - set (g := match hashes nh with [] => _ | _ => _ end).
      assert (exists n1, g = Some n1 /\ hashes n1 <> [] /\ entries n1 = entries nh /\ chained n1 (length (entries n1)) /\
              (hashes nh <> [] -> n1 = nh)) as (n1 & G & Hn1 & En1 & C1 & S1).
      { unfold g. destruct (hashes nh) eqn:Eh.
        - rewrite (H0 eq_refl). eexists. split; [reflexivity|]. split; [easy|]. split; [easy|]. split; [|easy].
          intros b s N. cbn [entries length]. cbn [hashes] in N. apply nth_error_In, repeat_spec in N. subst s. easy.
        - exists nh. rewrite Eh. easy. }
      clearbody g. subst g. cbn [obind].
      assert (K : ~ In (key e) (keys (entries n1))).
      { rewrite En1. unfold keys in D at 2. cbn [map] in D. now apply NoDup_app_mid in D. }
      destruct (insert_ok n1 (key e) Hn1 C1 K) as (p & h2 & F & L & L1 & KV & C2 & Nm). cbv zeta in F, L.
      rewrite F. cbn [obind]. unfold add_entry in *. cbn [fst snd] in L. rewrite L. cbn [obind].
      destruct (upd_ok (set_next (-1)) _ _ _ Nm) as (es1 & U1 & Le1 & N1). rewrite U1. cbn [obind].
      assert (es1 = entries h2) as ->.
      { apply nth_error_ext. intros i. rewrite N1. destruct (Nat.eqb_spec i (length (entries n1))) as [->|]; [|easy].
        rewrite Nm. easy. }
      destruct (set_value_ok h2 _ _ (value e) C2 Nm) as (es2 & U2 & Le2 & C3 & KV2). rewrite U2. cbn [obind].
      assert (KV3 : kv es2 = kv (entries n1) ++ [(key e, value e)]).
      { apply nth_error_ext. intros i. rewrite KV2, KV.
        destruct (Nat.eqb_spec i (length (entries n1))) as [->|Hi].
        - rewrite nth_error_app2 by (rewrite kv_length; lia). rewrite kv_length, Nat.sub_diag. easy.
        - destruct (Nat.lt_ge_cases i (length (entries n1))).
          + rewrite !nth_error_app1 by (rewrite kv_length; lia). easy.
          + rewrite !nth_error_app2 by (rewrite kv_length; lia). rewrite kv_length.
            destruct (i - length (entries n1))%nat eqn:E; [lia|]. cbn. now rewrite nth_error_nil. }
      destruct (IH (mkTable (hashes h2) es2)) as (h' & R & W & KV' & HL).
      + cbn [hashes]. intros Z. destruct (hashes n1); [easy|]. rewrite Z in L1. easy.
      + cbn [entries]. exact C3.
      + cbn [entries]. rewrite (keys_kv es2), KV3, map_app, <- keys_kv, <- app_assoc, En1. exact D.
      + exists h'. split; [exact R|]. split; [exact W|]. cbn [entries] in KV'. rewrite KV', KV3, <- app_assoc, En1. split; [easy|].
        intros Z. rewrite HL by (cbn [hashes]; destruct (hashes h2); [destruct (hashes n1); easy|easy]).
        cbn [hashes]. rewrite L1, S1 by easy. easy.
  Qed.

  Lemma chained0 h : (forall s, In s (hashes h) -> s = -1) -> chained h 0.
  Proof. intros H b s N. apply nth_error_In in N. cbn. auto. Qed.

  (** rehash needs only distinct keys; it rebuilds everything *)
  Lemma rehash_ok h n : NoDup (keys (entries h)) -> 0 <= n ->
    exists h', rehash vz h n = Some h' /\ wf h' /\ kv (entries h') = kv (entries h) /\
      (0 < n -> Z.of_nat (length (hashes h')) = n).
  Proof.
    intros D Hn. unfold rehash. destruct (Z.ltb_spec n 0); [lia|].
    destruct (rehash_loop_ok (entries h) (mkTable (repeat (-1) (Z.to_nat n)) [])) as (h' & R & W & KV & L).
    - easy.
    - apply chained0. cbn [hashes]. intros s Hs. now apply repeat_spec in Hs.
    - exact D.
    - exists h'. split; [exact R|]. split; [exact W|]. split; [exact KV|].
      intros Hn'. cbn [hashes] in L. rewrite L, repeat_length; [lia|].
      destruct (Z.to_nat n) eqn:E; [lia|]. easy.
  Qed.

  Lemma grow_ok h : NoDup (keys (entries h)) ->
    exists h', table_grow vz h = Some h' /\ wf h' /\ kv (entries h') = kv (entries h) /\
      Z.of_nat (length (hashes h')) = 2 * Z.of_nat (length (entries h)) + 8.
  Proof.
    intros D. unfold table_grow, grow_formula.
    destruct (rehash_ok h (2 * Z.of_nat (length (entries h)) + 8) D) as (h' & R & W & KV & L); [lia|].
    exists h'. repeat (split; [assumption|]). apply L. lia.
  Qed.

  Lemma rehash_fast_loop_ok : forall n i h, hashes h <> [] -> (i + n = length (entries h))%nat ->
    chained h i -> NoDup (keys (entries h)) ->
    (forall j e, (i <= j)%nat -> nth_error (entries h) j = Some e -> next e = -1) ->
    exists h', rehash_fast_loop h (Z.of_nat i) n = Some h' /\ chained h' (length (entries h')) /\
      kv (entries h') = kv (entries h) /\ length (hashes h') = length (hashes h).
  Proof.
    induction n as [|n IH]; intros i h Hh Hi C D Hn; cbn [rehash_fast_loop].
    - exists h. rewrite Nat.add_0_r in Hi. subst i. easy.
    - rewrite at_nat. destruct (nth_error (entries h) i) as [e|] eqn:Ne; [|apply nth_error_None in Ne; lia].
      cbn [obind].
      assert (KN : forall j, (j < i)%nat -> ikey (entries h) j <> Some (key e)).
      { intros j Hj E. unfold ikey in E. destruct (nth_error (entries h) j) as [f|] eqn:Nf; [|easy].
        injection E as E. assert (j = i); [|lia].
        apply (distinct_of_NoDup _ D (S i) j i f e); try easy; lia. }
      pose proof (find_miss h i (key e) Hh C ltac:(lia) KN) as F. cbv zeta in F. rewrite F. cbn [obind].
      destruct (link_ok h i e Hh C Ne (Hn i e (le_n _) Ne)) as (h2 & L & L1 & L2 & KV & Keep & C2). cbv zeta in L. rewrite L.
      cbn [obind]. replace (Z.of_nat i + 1) with (Z.of_nat (S i)) by lia.
      assert (KV2 : kv (entries h2) = kv (entries h)) by (apply nth_error_ext; intros j; rewrite !kv_nth; apply KV).
      destruct (IH (S i) h2) as (h' & R & C' & KV' & L').
      + destruct (hashes h2); [destruct (hashes h); easy|easy].
      + lia.
      + exact C2.
      + rewrite keys_kv, KV2, <- keys_kv. exact D.
      + intros j f Hj Nf. destruct (nth_error (entries h) j) as [g|] eqn:Ng.
        * pose proof (Keep j g ltac:(lia) Ng) as E. rewrite E in Nf. injection Nf as <-. apply (Hn j g); [lia|easy].
        * apply nth_error_None in Ng. assert (j < length (entries h2))%nat by (apply nth_error_Some; congruence). lia.
      + exists h'. split; [exact R|]. split; [exact C'|]. split; congruence.
  Qed.

  Lemma rehash_fast_ok h : (hashes h = [] -> entries h = []) -> NoDup (keys (entries h)) ->
    exists h', rehash_fast h = Some h' /\ wf h' /\ kv (entries h') = kv (entries h) /\ length (hashes h') = length (hashes h).
  Proof.
    intros H0 D. unfold rehash_fast.
    destruct (hashes h) eqn:Eh.
    - rewrite (H0 eq_refl). cbn. eexists. split; [reflexivity|]. split; [|easy]. split; [easy|]. split; [|constructor].
      intros b s N. cbn [hashes] in N. now rewrite nth_error_nil in N.
    - rewrite <- Eh in *.
      set (h0 := mkTable (map (fun _ => -1) (hashes h)) (map (set_next (-1)) (entries h))).
      assert (KV0 : kv (entries h0) = kv (entries h)) by (unfold kv; cbn [h0 entries]; rewrite map_map; easy).
      assert (LE : length (entries h0) = length (entries h)) by (cbn; apply map_length).
      assert (LH : length (hashes h0) = length (hashes h)) by (cbn; apply map_length).
      destruct (rehash_fast_loop_ok (length (entries h)) 0 h0) as (h' & R & C & KV & L).
      + cbn. rewrite Eh. easy.
      + lia.
      + apply chained0. cbn. intros s Hs. apply in_map_iff in Hs. destruct Hs as (_ & <- & _). easy.
      + rewrite keys_kv, KV0, <- keys_kv. exact D.
      + intros j e _ N. cbn [h0 entries] in N. rewrite nth_error_map in N.
        destruct (nth_error (entries h) j); [|easy]. injection N as <-. easy.
      + exists h'. split; [exact R|]. split; [|split; congruence].
        split; [|split; [exact C|rewrite keys_kv, KV, KV0, <- keys_kv; exact D]].
        intros Z. rewrite Z, LH in L. destruct (hashes h); easy.
  Qed.

  Lemma find_in h k i e : wf h -> nth_error (entries h) i = Some e -> key e = k ->
    exists hi p, find h k = Some (hi, p, Z.of_nat i).
  Proof.
    intros (H0 & C & D) N K.
    assert (hashes h <> []). { intros E. rewrite (H0 E) in N. now rewrite nth_error_nil in N. }
    destruct (find_hit h (length (entries h)) k i) as (p & F); try easy.
    - now apply distinct_of_NoDup.
    - apply nth_error_Some. congruence.
    - unfold ikey. rewrite N. cbn. now rewrite K.
    - eauto.
  Qed.
  Lemma find_out h k : wf h -> ~ In k (keys (entries h)) -> exists hi p, find h k = Some (hi, p, -1).
  Proof.
    intros (H0 & C & D) K. destruct (hashes h) eqn:Eh.
    - unfold find. rewrite Eh. cbn. eauto.
    - destruct (insert_ok h k) as (p & h2 & F & _); [congruence|easy|easy|]. cbv zeta in F. eauto.
  Qed.
  Lemma keys_dec h k : ~ In k (keys (entries h)) \/ exists i e, nth_error (entries h) i = Some e /\ key e = k.
  Proof.
    destruct (in_dec Z.eq_dec k (keys (entries h))) as [I|I]; [right|now left].
    unfold keys in I. apply in_map_iff in I. destruct I as (e & E & I). apply In_nth_error in I. destruct I as (i & N). eauto.
  Qed.

  Lemma get_ok h k : wf h -> get h k = Some (fget (kv (entries h)) k).
  Proof.
    intros W. unfold get. destruct (keys_dec h k) as [K|(i & e & N & K)].
    - destruct (find_out h k W K) as (hi & p & F). rewrite F. cbn.
      rewrite fget_none; [easy|]. now rewrite <- keys_kv.
    - destruct (find_in h k i e W N K) as (hi & p & F). rewrite F. cbn [obind].
      destruct (Z.leb_spec 0 (Z.of_nat i)); [|lia]. rewrite at_nat, N. cbn [obind].
      rewrite (fget_nth _ k (value e) i); [easy|rewrite <- keys_kv; apply W|]. rewrite kv_nth, N. cbn. now rewrite K.
  Qed.

  Lemma fget_upd l l' k v i w : NoDup (map fst l) -> nth_error l i = Some (k, w) ->
    (forall j, nth_error l' j = if Nat.eqb j i then Some (k, v) else nth_error l j) ->
    map fst l' = map fst l /\ forall x, fget l' x = fset (fget l) k v x.
  Proof.
    intros D N H.
    assert (E : map fst l' = map fst l).
    { apply nth_error_ext. intros j. rewrite !nth_error_map, H. destruct (Nat.eqb_spec j i) as [->|]; [|easy]. now rewrite N. }
    split; [easy|]. intros x. unfold fset. destruct (Z.eqb_spec x k) as [->|Hx].
    - apply (fget_nth _ _ _ i); [now rewrite E|]. now rewrite H, Nat.eqb_refl.
    - destruct (in_dec Z.eq_dec x (map fst l)) as [I|I].
      + apply in_map_iff in I. destruct I as ([y u] & Ey & I). cbn in Ey. subst y. apply In_nth_error in I. destruct I as (j & Nj).
        rewrite (fget_nth l x u j D Nj). apply (fget_nth _ _ _ j); [now rewrite E|]. rewrite H.
        destruct (Nat.eqb_spec j i) as [->|]; [|easy]. congruence.
      + rewrite !fget_none; [easy|easy|now rewrite E].
  Qed.

  Lemma set_ok h k v : wf h ->
    exists h', set vz full h k v = Some h' /\ wf h' /\ (forall x, fget (kv (entries h')) x = fset (fget (kv (entries h))) k v x) /\
      hashes h' <> [] /\
      (full75 (Z.of_nat (length (hashes h'))) (Z.of_nat (length (entries h'))) = true -> full <> full75).
  Proof.
    intros W. unfold set.
    set (g := match hashes h with [] => _ | _ => _ end).
    assert (exists h1, g = Some h1 /\ wf h1 /\ kv (entries h1) = kv (entries h) /\ hashes h1 <> []) as (h1 & G & W1 & KV1 & Hh1).
    { unfold g. destruct (hashes h) eqn:Eh.
      - destruct (grow_ok h) as (h1 & G & W1 & KV & L); [apply W|]. exists h1. repeat (split; [assumption|]).
        intros Z. rewrite Z in L. cbn [length] in L. lia.
      - exists h. rewrite Eh. easy. }
    clearbody g. subst g. cbn [obind].
    assert (exists h2 es i e hi p, find h1 k = Some (hi, p, i) /\
      (if 0 <=? i then Some (i, h1) else
                  let '(j, h) := add_entry vz h1 k in
                  h <- (if 0 <=? p
                        then (es <- upd (entries h) p (set_next j) ;; Some (mkTable (hashes h) es))
                        else (hs <- upd (hashes h) hi (fun _ => j) ;; Some (mkTable hs (entries h)))) ;;
                  Some (j, h)) = Some (Z.of_nat e, h2) /\
      upd (entries h2) (Z.of_nat e) (set_value v) = Some es /\ wf (mkTable (hashes h2) es) /\ hashes h2 <> [] /\
      forall x, fget (kv es) x = fset (fget (kv (entries h1))) k v x) as (h2 & es & i & e & hi & p & F & S & U & W2 & Hh2 & KV2).
    { destruct (keys_dec h1 k) as [K|(i & e & N & K)].
      - destruct (insert_ok h1 k Hh1 (proj1 (proj2 W1)) K) as (p & h2 & F & L & L1 & KV & C2 & Nm). cbv zeta in F, L.
        destruct (set_value_ok h2 _ _ v C2 Nm) as (es & U & Le & C3 & KVe). cbn [key] in KVe.
        do 6 eexists. split; [exact F|]. cbn [Z.leb Z.compare].
        unfold add_entry in *. cbn [fst snd] in L.
        split. { unfold link in L. destruct (Z.ltb_spec p 0), (Z.leb_spec 0 p); try lia; rewrite L; reflexivity. }
        split; [exact U|].
        assert (Nk : nth_error (kv (entries h2)) (length (entries h1)) = Some (k, vz)) by (rewrite kv_nth, Nm; easy).
        assert (D2 : NoDup (map fst (kv (entries h2)))).
        { rewrite KV, map_app. cbn. apply NoDup_app_comm_one. split; [|rewrite <- keys_kv; exact K]. rewrite <- keys_kv. apply W1. }
        destruct (fget_upd _ _ k v _ vz D2 Nk KVe) as (E1 & E2).
        assert (HH : hashes h2 <> []) by (destruct (hashes h2); [destruct (hashes h1); easy|easy]).
        split. { split; [easy|]. split; [exact C3|]. cbn [entries]. rewrite keys_kv, E1. exact D2. }
        split; [exact HH|]. intros x. rewrite E2. unfold fset. destruct (x =? k) eqn:Ex; [easy|].
        rewrite KV, fget_app. destruct (fget (kv (entries h1)) x); [easy|]. cbn. rewrite Z.eqb_sym, Ex. easy.
      - destruct (find_in h1 k i e W1 N K) as (hi & p & F).
        destruct (set_value_ok h1 _ _ v (proj1 (proj2 W1)) N) as (es & U & Le & C3 & KVe).
        exists h1, es, (Z.of_nat i), i, hi, p. split; [exact F|].
        destruct (Z.leb_spec 0 (Z.of_nat i)); [|lia]. split; [easy|]. split; [exact U|].
        assert (Nk : nth_error (kv (entries h1)) i = Some (k, value e)) by (rewrite kv_nth, N; cbn; now rewrite K).
        rewrite K in KVe.
        destruct (fget_upd (kv (entries h1)) (kv es) k v i (value e)) as (E1 & E2); [rewrite <- keys_kv; apply W1|easy|easy|].
        split. { split; [easy|]. split; [exact C3|]. cbn [entries]. rewrite keys_kv, E1, <- keys_kv. apply W1. }
        split; [easy|]. intros x. now rewrite E2. }
    rewrite F. cbn [obind]. rewrite S. cbn [obind]. rewrite U. cbn [obind hashes entries].
    destruct (full _ _) eqn:Ef.
    - destruct (grow_ok (mkTable (hashes h2) es)) as (h3 & G3 & W3 & KV3 & L3); [apply W2|].
      exists h3. split; [exact G3|]. split; [exact W3|]. cbn [entries] in KV3, L3. split; [intros x; rewrite KV3, KV2, KV1; easy|].
      split; [intros Z; rewrite Z in L3; cbn [length] in L3; lia|].
      assert (E : length (entries h3) = length es) by (rewrite <- (kv_length (entries h3)), KV3; apply kv_length).
      unfold full75. rewrite L3, E, Z.ltb_lt. lia.
    - eexists. split; [reflexivity|]. split; [exact W2|]. cbn [entries hashes]. split; [intros x; rewrite KV2, KV1; easy|].
      split; [easy|]. intros H ->. congruence.
  Qed.
End P.
