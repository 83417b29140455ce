(** Destruction, search, and operations on the children of the root. *)
From Verif Require Import Base CStr CStrSpec CStrProofs Array ArraySpec ArrayProofs ArrayProofs2 Adt AdtSpec AdtProofs AdtProofs2 AdtProofs3 AdtProofs4 AdtProofs5 AdtProofs6 AdtProofs7.
Local Notation rep := (@ArrayProofs.rep node).

Lemma rep_contents a l : rep a l -> firstn (Z.to_nat (count a)) (cells a) = l.
Proof. intros (r & E & C & P). now rewrite E, C, Nat2Z.id, firstn_app, Nat.sub_diag, firstn_all, firstn_O, app_nil_r. Qed.
Definition each_of (d : mem -> node -> option mem) := fix each (m : mem) (l : list node) {struct l} : option mem := match l with [] => Some m | x :: r => m <- d m x ;; each m r end.
Lemma destroy_S f m n : destroy (S f) m n = match val n with Branch _ (Some b) => a <- blocks m b ;; m <- each_of (destroy f) m (firstn (Z.to_nat (count a)) (cells a)) ;; _ <- blocks m b ;; Some (set_block m b None) | _ => Some m end.
Proof. reflexivity. Qed.
Definition depths (ts : list tree) : nat := (fix each l := match l with [] => 0%nat | x :: r => Nat.max (depth x) (each r) end) ts.
Definition freed (m m' : mem) (l : list nat) : Prop := forall b, blocks m' b = if in_dec Nat.eq_dec b l then None else blocks m b.

Lemma destroy_ok t : forall f m n, R m n t -> NoDup (ids t) -> (depth (erase t) <= f)%nat -> exists m', destroy f m n = Some m' /\ freed m m' (ids t).
Proof.
  induction t as [nm l|nm k|nm k b ts IH] using pt_ind'; intros f m n H ND L; (destruct f as [|f]; [cbn in L; lia|]); rewrite destroy_S; inversion H as [| |nm' par k' b' a ns ts' B Rp Pl F]; subst; cbn [val].
  1,2: exists m; split; [easy|intros b; now destruct (in_dec Nat.eq_dec b [])].
  rewrite B. cbn [obind]. rewrite (rep_contents a ns Rp). cbn [ids] in ND. inversion ND as [|? ? Nb NDs]; subst. cbn [depth erase] in L. change (S (depths (map erase ts)) <= S f)%nat in L. apply le_S_n in L.
  assert (Each : exists m1, each_of (destroy f) m ns = Some m1 /\ freed m m1 (flat_map ids ts)).
  { clear - IH F NDs L. revert m ns F. induction IH as [|t ts Ht IHt IH2]; intros m ns F; inversion F as [|n ? ns' ? Hn F']; subst; cbn [each_of].
    - exists m. split; [easy|]. intros b. now destruct (in_dec Nat.eq_dec b _).
    - cbn [flat_map] in *. cbn [map] in L. change (Nat.max (depth (erase t)) (depths (map erase ts)) <= f)%nat in L.
      destruct (Ht f m n Hn) as (m1 & D1 & Fr1); [now apply NoDup_app_l in NDs|lia|]. rewrite D1. cbn [obind].
      destruct (IH2 ltac:(lia) (NoDup_app_r _ _ NDs) m1 ns') as (m2 & D2 & Fr2).
      { apply (siblings m); [easy|]. intros y ny Iy Hy. apply (R_frame m); [easy|]. intros b I. rewrite Fr1. destruct (in_dec Nat.eq_dec b (ids t)) as [J|]; [|easy]. exfalso. eapply NoDup_app_disj; [exact NDs|exact J|]. apply in_flat_map. eauto. }
      exists m2. split; [exact D2|]. intros b. rewrite Fr2, Fr1. destruct (in_dec Nat.eq_dec b (flat_map ids ts)), (in_dec Nat.eq_dec b (ids t)), (in_dec Nat.eq_dec b (ids t ++ flat_map ids ts)) as [I|I]; try easy; exfalso; try (apply I; apply in_or_app; tauto). apply in_app_or in I. tauto. }
  destruct Each as (m1 & E1 & Fr1). rewrite E1. cbn [obind]. rewrite Fr1. destruct (in_dec Nat.eq_dec b (flat_map ids ts)) as [|_]; [easy|]. rewrite B. cbn [obind]. eexists. split; [reflexivity|].
  intros c. cbn [blocks set_block ids]. rewrite Fr1. destruct (in_dec Nat.eq_dec c (b :: flat_map ids ts)) as [J|J].
  - destruct (Nat.eqb_spec c b) as [Ec|Ec]; [easy|]. destruct (in_dec Nat.eq_dec c (flat_map ids ts)) as [I|I]; [easy|]. destruct J as [J|J]; [now elim Ec|easy].
  - destruct (Nat.eqb_spec c b) as [Ec|Ec]; [elim J; now left|]. destruct (in_dec Nat.eq_dec c (flat_map ids ts)) as [I|I]; [elim J; now right|easy].
Qed.

(** * What memory shows *)
Lemma R_shows t : forall m n, R m n t -> shows m n (erase t).
Proof.
  induction t as [nm l|nm k|nm k b ts IH] using pt_ind'; intros m n H; inversion H as [| |nm' par k' b' a ns ts' B Rp Pl F]; subst; cbn [erase]; [constructor|constructor|].
  pose proof Rp as (r & _ & C & _). apply sh_branch with (a := a); [easy|rewrite map_length; now rewrite C, (F2_len _ _ _ F)|]. intros i c N. rewrite nth_error_map in N. destruct (nth_error ts i) as [t|] eqn:Nt; [|easy]. injection N as <-.
  destruct (F2_nth _ _ _ _ _ F Nt) as (x & Nx & Hx). exists x. split; [now apply (rep_get a ns i x Rp)|]. rewrite Forall_forall in IH. apply IH; [eapply nth_error_In; eauto|easy].
Qed.
Lemma holds_shows m t : holds m t -> root_shows m (erase t).
Proof. intros H. destruct (shown m t [] root t H eq_refl eq_refl) as (n & D & Hn & _). exists n. split; [easy|now apply R_shows]. Qed.

(** * Search *)
Lemma find_in_ok s : cstring s -> forall ts ns m b i, Forall2 (R m) ns ts -> Forall (fun t => exists s', cstring s' /\ tname (erase t) = Some (s' ++ [0])) ts ->
  find_in (s ++ [0]) ns b (Z.of_nat i) = Some (option_map (fun k => (b, Z.of_nat k)) (index_of (named s) (map erase ts) i)).
Proof.
  intros Hs. induction ts as [|t ts IH]; intros ns m b i F Nm; inversion F as [|n ? ns' ? Hn F']; subst; [easy|]. inversion Nm as [|? ? (s' & Hs' & Et) Nm']; subst. cbn [find_in map index_of].
  assert (En : name n = tname (erase t)) by (inversion Hn; subst; easy). rewrite En, Et. cbn [obind]. destruct (strcmp_ok s' s [] [] Hs' Hs) as (r & Er & E0 & _). rewrite Er. cbn [obind]. unfold named at 1. rewrite Et.
  destruct (Z.eqb_spec r 0) as [Z0|Z0], (list_eq_dec Z.eq_dec (s' ++ [0]) (s ++ [0])) as [Eq|Eq].
  - easy.
  - elim Eq. now rewrite (proj1 E0 Z0).
  - elim Z0. apply E0. now apply app_inj_tail in Eq.
  - replace (Z.of_nat i + 1) with (Z.of_nat (S i)) by lia. now apply (IH ns' m b (S i)).
Qed.
Definition find_each (g : ptr -> option (option ptr)) (b : nat) := fix each (l : list node) (i : Z) {struct l} : option (option ptr) :=
  match l with [] => Some None | _ :: l => r <- g (b, i) ;; match r with Some q => Some (Some q) | None => each l (i + 1) end end.
Lemma find_S f m p nm deep : find (S f) m p nm deep =
  (n <- deref m p ;;
   match val n with
   | Branch false (Some b) =>
     a <- blocks m b ;; let l := firstn (Z.to_nat (count a)) (cells a) in
     r <- find_in nm l b 0 ;; match r with Some q => Some (Some q) | None => if deep then find_each (fun p => find f m p nm deep) b l 0 else Some None end
   | Branch false None => None
   | _ => Some None
   end).
Proof. reflexivity. Qed.
Definition tfind_each (s : list Z) (deep : bool) := fix each (l : list tree) (i : nat) {struct l} := match l with [] => None | x :: r => match tfind s deep x with Some p => Some (i :: p) | None => each r (S i) end end.
Definition named_each := fix each (l : list tree) := match l with [] => True | x :: r => (exists s, cstring s /\ tname x = Some (s ++ [0])) /\ all_named x /\ each r end.
Lemma named_each_forall l : named_each l -> Forall (fun x => exists s, cstring s /\ tname x = Some (s ++ [0])) l /\ Forall all_named l.
Proof. induction l as [|x l IH]; cbn; [split; constructor|]. intros (A & B & C). destruct (IH C). split; constructor; easy. Qed.
Lemma index_of_lt {A} (f : A -> bool) l : forall i k, index_of f l i = Some k -> (i <= k < i + length l)%nat.
Proof. induction l as [|x l IH]; intros i k H; [easy|]. cbn [index_of] in H. destruct (f x); [injection H as <-; cbn; lia|]. apply IH in H. cbn. lia. Qed.

Lemma find_ok s deep : cstring s -> forall t f m p n, R m n t -> deref m p = Some n -> all_named (erase t) -> (depth (erase t) <= f)%nat ->
  find f m p (s ++ [0]) deep = Some (match tfind s deep (erase t) with Some path => ptr_at m p path | None => None end) /\
  (forall path, tfind s deep (erase t) = Some path -> exists q, ptr_at m p path = Some q).
Proof.
  intros Hs. induction t as [nm l|nm k|nm k b ts IH] using pt_ind'; intros f m p n H D Nm L; (destruct f as [|f]; [cbn in L; lia|]); rewrite find_S, D; cbn [obind]; inversion H as [| |nm' par k' b' a ns ts' B Rp Pl F]; subst; cbn [val].
  - easy.
  - destruct k; [easy|]. now cbn in Nm.
  - destruct k; [easy|]. rewrite B. cbn [obind]. rewrite (rep_contents a ns Rp). cbn [erase tfind]. change (named_each (map erase ts)) in Nm. destruct (named_each_forall _ Nm) as (N1 & N2). clear Nm.
    cbn [depth erase] in L. change (S (depths (map erase ts)) <= S f)%nat in L. apply le_S_n in L.
    assert (N1' : Forall (fun t => exists s', cstring s' /\ tname (erase t) = Some (s' ++ [0])) ts) by (now rewrite Forall_map in N1).
    cbn zeta. pose proof (find_in_ok s Hs ts ns m b 0 F N1') as Fi. change (Z.of_nat 0) with 0 in Fi. rewrite Fi. cbn [obind]. pose proof Rp as (r & _ & C & _).
    assert (Pt : forall i, (i < length ts)%nat -> forall path, ptr_at m p (i :: path) = ptr_at m (b, Z.of_nat i) path).
    { intros i Hi path. cbn [ptr_at]. rewrite D. cbn [obind val]. rewrite B. cbn [obind]. rewrite C, (F2_len _ _ _ F). destruct (Z.ltb_spec (Z.of_nat i) (Z.of_nat (length ts))); [easy|lia]. }
    destruct (index_of (named s) (map erase ts) 0) as [i|] eqn:Ix; cbn [option_map].
    + pose proof (index_of_lt _ _ _ _ Ix) as Li. rewrite map_length in Li. split; [rewrite Pt by lia; easy|]. intros path E. injection E as <-. exists (b, Z.of_nat i). rewrite Pt by lia. easy.
    + destruct deep; [|easy]. change ((fix each (l : list tree) (i : nat) {struct l} := match l with [] => None | x :: r => match tfind s true x with Some p => Some (i :: p) | None => each r (S i) end end) (map erase ts) 0%nat) with (tfind_each s true (map erase ts) 0%nat).
      assert (G : forall ns2 ts2 i, Forall2 (R m) ns2 ts2 -> Forall all_named (map erase ts2) -> (depths (map erase ts2) <= f)%nat -> (forall j nj, nth_error ns2 j = Some nj -> deref m (b, Z.of_nat (i + j)) = Some nj) -> (i + length ts2 = length ts)%nat -> (forall x, In x ts2 -> In x ts) ->
        find_each (fun p => find f m p (s ++ [0]) true) b ns2 (Z.of_nat i) = Some (match tfind_each s true (map erase ts2) i with Some path => ptr_at m p path | None => None end) /\
        (forall path, tfind_each s true (map erase ts2) i = Some path -> exists q, ptr_at m p path = Some q)).
      { intros ns2 ts2. revert ns2. induction ts2 as [|t ts2 IHt]; intros ns2 i F2 Na Ld Dr Len Sub; inversion F2 as [|n ? ns' ? Hn F2']; subst; [easy|]. cbn [find_each map tfind_each] in *. change (Nat.max (depth (erase t)) (depths (map erase ts2)) <= f)%nat in Ld. inversion Na as [|? ? Na1 Na2]; subst.
        rewrite Forall_forall in IH. assert (Dt : deref m (b, Z.of_nat i) = Some n) by (pose proof (Dr 0%nat n eq_refl) as E; now rewrite Nat.add_0_r in E).
        destruct (IH t (Sub t (or_introl eq_refl)) f m (b, Z.of_nat i) n Hn Dt Na1 ltac:(lia)) as (E1 & E2). rewrite E1. cbn [obind length] in *.
        destruct (tfind s true (erase t)) as [path|] eqn:Tf.
        - destruct (E2 path eq_refl) as (q & Eq). rewrite Eq. split; [rewrite Pt by lia; now rewrite Eq|]. intros path' E. injection E as <-. exists q. rewrite Pt by lia. easy.
        - replace (Z.of_nat i + 1) with (Z.of_nat (S i)) by lia. apply (IHt ns' (S i)); [easy|easy|lia| |lia|intros; apply Sub; now right]. intros j nj Nj. replace (S i + j)%nat with (i + S j)%nat by lia. now apply Dr. }
      apply (G ns ts 0%nat F N2 L); [|easy|easy]. intros j nj Nj. unfold deref. cbn [fst snd]. rewrite B. cbn [obind]. now apply (rep_get a ns j nj Rp).
Qed.
