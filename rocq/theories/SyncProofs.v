From Verif Require Import Base Sync SyncSpec.

(** counting threads *)
Definition b2n (b : bool) : nat := if b then 1 else 0.
Fixpoint cnt (f : pc -> bool) (l : list pc) : nat :=
  match l with [] => 0 | p :: l => b2n (f p) + cnt f l end.
Lemma cnt_set f l t p q : nth_error l t = Some p ->
  (cnt f (set_nth l t q) + b2n (f p) = cnt f l + b2n (f q))%nat.
Proof.
  revert t. induction l as [|x l IH]; intros [|t] H; cbn in H |- *; try easy.
  - injection H as ->. lia.
  - specialize (IH t H). lia.
Qed.
Lemma cnt_le f g l : (forall p, f p = true -> g p = true) -> (cnt f l <= cnt g l)%nat.
Proof.
  intros H. induction l as [|x l IH]; cbn; [lia|]. specialize (H x).
  destruct (f x); [rewrite H by easy|]; unfold b2n; destruct (g x); lia.
Qed.
Lemma cnt_pos f l t p : nth_error l t = Some p -> f p = true -> (0 < cnt f l)%nat.
Proof.
  revert t. induction l as [|x l IH]; intros [|t] H E; cbn in H |- *; try easy.
  - injection H as ->. rewrite E. cbn. lia.
  - specialize (IH t H E). lia.
Qed.
Lemma cnt_ex f l : (0 < cnt f l)%nat -> exists t p, nth_error l t = Some p /\ f p = true.
Proof.
  induction l as [|x l IH]; cbn; [lia|]. destruct (f x) eqn:E.
  - intros _. now exists 0%nat, x.
  - cbn. intros H. destruct (IH H) as (t & p & A & B). now exists (S t), p.
Qed.
Lemma cnt_uniq f l t u p q : (cnt f l <= 1)%nat -> nth_error l t = Some p -> nth_error l u = Some q ->
  f p = true -> f q = true -> t = u.
Proof.
  revert t u. induction l as [|x l IH]; intros [|t] [|u] H Hp Hq Fp Fq; cbn in *; try easy.
  - injection Hp as ->. rewrite Fp in H. pose proof (cnt_pos f l u q Hq Fq). cbn in H. lia.
  - injection Hq as ->. rewrite Fq in H. pose proof (cnt_pos f l t p Hp Fp). cbn in H. lia.
  - f_equal. apply (IH t u); try easy. lia.
Qed.
Lemma nth_set_eq {A} (l : list A) t p q : nth_error l t = Some p -> nth_error (set_nth l t q) t = Some q.
Proof. revert t. induction l as [|x l IH]; intros [|t]; cbn; try easy. apply IH. Qed.
Lemma nth_set_ne {A} (l : list A) t u q : t <> u -> nth_error (set_nth l t q) u = nth_error l u.
Proof. revert t u. induction l as [|x l IH]; intros [|t] [|u]; cbn; try easy. intros H. apply IH. lia. Qed.

(** the counted classes of program points *)
Definition inside p := match p with T3 _ | T4 | A2 _ | A3 _ | W1 | W2 | W5 | L1 _ | L2 _ | L3 _ | L4 _ | U _ => true | _ => false end.
Definition cW p := match p with W2 | W3 | W4 | W5 => true | _ => false end.
Definition cT p := match p with W4 | W5 | L1 _ | L2 _ | L3 _ => true | _ => false end.
Definition cA3 p := match p with A3 _ => true | _ => false end.
Definition cL2 p := match p with L2 _ => true | _ => false end.
Definition cL3 p := match p with L3 _ => true | _ => false end.
Definition cW1 p := match p with W1 => true | _ => false end.
Definition cS p := match p with T2 _ | T3 _ | L4 _ => true | _ => false end.

(** what is known about the thread [t] standing at [p] *)
Definition knows (s : st) (t : nat) (p : pc) : Prop :=
  let in_head := match rounds (hist s) with r :: _ => In t (snd r) | [] => False end in
  match p with
  | A3 KWait | W1 | W2 | W3 | W4 | W5 => in_head
  | L1 KWait | L2 KWait | L3 KWait | L4 KWait | U KWait | F KWait =>
      exists r, last_round t (hist s) = Some r /\ complete r
  | A3 (KReach n) | L1 (KReach n) | L2 (KReach n) | L3 (KReach n) | L4 (KReach n) | U (KReach n) | F (KReach n) =>
      arrived_nth t n (hist s)
  | _ => True
  end.
Record inv (s : st) : Prop := {
  i_in : cnt inside (thr s) = match mutex s with Some _ => 1%nat | None => 0%nat end;
  i_own : forall t, mutex s = Some t -> exists p, nth_error (thr s) t = Some p /\ inside p = true;
  i_wait : waiting s = Z.of_nat (cnt cW (thr s));
  i_full : target s <> 0 -> current s = target s -> (cnt cT (thr s) + sem s + cnt cA3 (thr s) = 1)%nat;
  i_notfull : target s = 0 \/ current s <> target s -> (cnt cT (thr s) + sem s = 0)%nat;
  i_sem : (0 < sem s)%nat -> (0 < cnt cW (thr s))%nat;
  i_zero : target s = 0 -> cnt cW (thr s) = 0%nat;
  i_a3 : (0 < cnt cA3 (thr s))%nat -> 0 < target s;
  i_l2 : (0 < cnt cL2 (thr s))%nat -> 0 < waiting s;
  i_l3 : (0 < cnt cL3 (thr s))%nat -> waiting s = 0;
  i_w1 : (0 < cnt cW1 (thr s))%nat -> current s < target s;
  i_cur : 0 <= current s /\ (0 < target s -> current s <= target s) /\ (target s < 0 -> current s = 0);
  i_start : (cnt cS (thr s) <= b2n (start_locked s))%nat;
  i_start2 : target s <> 0 -> (cnt cS (thr s) + 1 <= b2n (start_locked s))%nat;
  i_round : target s <> 0 -> exists ts r, rounds (hist s) = (target s, ts) :: r /\ Z.of_nat (length ts) = current s;
  i_know : forall t p, nth_error (thr s) t = Some p -> knows s t p }.

Lemma init_inv n : inv (init n).
Proof.
  assert (C : forall f, f Idle = false -> cnt f (repeat Idle n) = 0%nat).
  { intros f Hf. induction n; cbn; [easy|]. rewrite Hf. cbn. easy. }
  unfold init. constructor; cbn [thr target current waiting start_locked mutex sem hist]; rewrite ?C by easy; cbn; try easy; try lia.
  intros t p H. apply nth_error_In, repeat_spec in H. now subst p.
Qed.

(** stability of what is known *)
Definition same_head (s s' : st) : Prop := hist s' = hist s.
Lemma knows_hist s s' t p : hist s' = hist s -> knows s t p -> knows s' t p.
Proof. intros E. unfold knows. rewrite E. easy. Qed.
Lemma existsb_In t l : existsb (Nat.eqb t) l = true <-> In t l.
Proof.
  rewrite existsb_exists. split.
  - intros (x & A & B). apply Nat.eqb_eq in B. now subst.
  - intros H. exists t. now rewrite Nat.eqb_refl.
Qed.

Definition cO p := match p with T3 _ | T4 | A2 _ | W2 | W5 | L1 _ | L4 _ | U _ => true | _ => false end.
Lemma cnt_split l : (cnt cA3 l + cnt cL2 l + cnt cL3 l + cnt cW1 l + cnt cO l = cnt inside l)%nat.
Proof. induction l as [|p l IH]; cbn [cnt]; [easy|]. destruct p; cbn; lia. Qed.
Lemma cnt_cT l : (cnt cL2 l + cnt cL3 l <= cnt cT l)%nat.
Proof. induction l as [|p l IH]; cbn [cnt]; [easy|]. destruct p; cbn; lia. Qed.

Lemma knows_target s s' c t p : hist s' = Target c :: hist s ->
  match p with A3 _ | W1 | W2 | W3 | W4 | W5 => False | _ => True end ->
  knows s t p -> knows s' t p.
Proof. intros E. unfold knows, last_round. rewrite E. cbn [rounds find snd existsb arrived_nth]. destruct p; try easy; destruct k; easy. Qed.
Lemma knows_return s s' t u n k p : hist s' = match k with KWait => Return u | KReach _ => Reached u n end :: hist s -> t <> u ->
  knows s t p -> knows s' t p.
Proof.
  intros E N. apply Nat.eqb_neq in N. unfold knows, last_round. rewrite E.
  destruct k; cbn [rounds arrived_nth]; rewrite N; easy.
Qed.
Lemma knows_arrive s s' t u p ts r : hist s' = Arrive u :: hist s -> t <> u ->
  rounds (hist s) = (target s, ts) :: r -> Z.of_nat (length ts) < target s ->
  knows s t p -> knows s' t p.
Proof.
  intros E N R L. pose proof N as N'. apply Nat.eqb_neq in N.
  assert (LR : (exists r, last_round t (hist s) = Some r /\ complete r) -> exists r, last_round t (hist s') = Some r /\ complete r).
  { unfold last_round. rewrite E. cbn [rounds]. rewrite R. cbn [find snd existsb]. rewrite N. cbn [orb].
    intros (x & A & B). destruct (existsb (Nat.eqb t) ts); [|now exists x].
    injection A as <-. unfold complete in B. cbn [fst snd] in B. lia. }
  unfold knows. destruct p; try easy; try destruct k; try exact LR; rewrite E; cbn [rounds arrived_nth]; rewrite ?R, ?N; cbn [snd]; try easy; intros; now right.
Qed.

Lemma cnt_here f l t p : nth_error l t = Some p -> (b2n (f p) <= cnt f l)%nat.
Proof. intros H. destruct (f p) eqn:E; cbn; [|lia]. now apply (cnt_pos f l t p). Qed.
Ltac counts Hp q :=
  match type of Hp with nth_error ?l ?t = Some ?p =>
    pose proof (cnt_set inside l t p q Hp); pose proof (cnt_set cW l t p q Hp);
    pose proof (cnt_set cT l t p q Hp); pose proof (cnt_set cA3 l t p q Hp);
    pose proof (cnt_set cL2 l t p q Hp); pose proof (cnt_set cL3 l t p q Hp);
    pose proof (cnt_here cT l t p Hp); pose proof (cnt_here cS l t p Hp);
    pose proof (cnt_set cW1 l t p q Hp); pose proof (cnt_set cS l t p q Hp)
  end.

Lemma step_inv s t a s' : inv s -> step s (t, a) = Ok s' -> inv s'.
Proof.
  intros [Iin Iown Iwait Ifull Inot Isem Izero Ia3 Il2 Il3 Iw1 Icur Istart Istart2 Iround Iknow] E.
  unfold step in E. cbn [fst snd] in E. destruct (nth_error (thr s) t) as [p|] eqn:Hp; [|easy].
  pose proof (Iknow t p Hp) as Kp.
  destruct s as [tg cu wa sl mu se l h]. cbn [target current waiting start_locked mutex sem thr hist] in *.
  assert (Own : inside p = true -> mu = Some t).
  { intros Hi. pose proof (cnt_pos inside l t p Hp Hi). destruct mu as [o|]; [|lia].
    destruct (Iown o eq_refl) as (q & Hq & Hqi). f_equal. apply (cnt_uniq inside l o t q p); try easy. lia. }
  assert (KO : forall q h', (forall u pu, u <> t -> nth_error l u = Some pu -> knows (mkSt tg cu wa sl mu se l h) u pu ->
        forall tg' cu' wa' sl' mu' se' l', knows (mkSt tg' cu' wa' sl' mu' se' l' h') u pu) ->
      (forall tg' cu' wa' sl' mu' se' l', knows (mkSt tg' cu' wa' sl' mu' se' l' h') t q) ->
      forall tg' cu' wa' sl' mu' se' u pu, nth_error (set_nth l t q) u = Some pu ->
        knows (mkSt tg' cu' wa' sl' mu' se' (set_nth l t q) h') u pu).
  { intros q h' A B tg' cu' wa' sl' mu' se' u pu Hu. destruct (Nat.eq_dec u t) as [Eu|Nu].
    - subst u. rewrite (nth_set_eq _ _ _ _ Hp) in Hu. injection Hu as <-. apply B.
    - rewrite nth_set_ne in Hu by congruence. apply A; try easy. apply Iknow. exact Hu. }
  assert (Same : forall u pu, u <> t -> nth_error l u = Some pu -> knows (mkSt tg cu wa sl mu se l h) u pu ->
        forall tg' cu' wa' sl' mu' se' l', knows (mkSt tg' cu' wa' sl' mu' se' l' h) u pu) by easy.
  assert (OW : forall q, inside q = true -> forall o, Some t = Some o -> exists p, nth_error (set_nth l t q) o = Some p /\ inside p = true).
  { intros q Hq o [= <-]. exists q. split; [|easy]. now apply nth_set_eq with p. }
  assert (ON : forall q, inside p = false -> forall o, mu = Some o -> exists p, nth_error (set_nth l t q) o = Some p /\ inside p = true).
  { intros q Hpi o Ho. destruct (Iown o Ho) as (po & A & B). exists po. split; [|easy].
    rewrite nth_set_ne; [easy|]. intros ->. rewrite Hp in A. injection A as <-. congruence. }
  assert (Sub : inside p = true -> cnt cA3 l = b2n (cA3 p) /\ cnt cL2 l = b2n (cL2 p) /\ cnt cL3 l = b2n (cL3 p) /\ cnt cW1 l = b2n (cW1 p)).
  { intros Hi. specialize (Own Hi). subst mu. pose proof (cnt_split l) as C.
    pose proof (cnt_set cA3 l t p Idle Hp). pose proof (cnt_set cL2 l t p Idle Hp). pose proof (cnt_set cL3 l t p Idle Hp).
    pose proof (cnt_set cW1 l t p Idle Hp). pose proof (cnt_set cO l t p Idle Hp). clear - Iin C H H0 H1 H2 H3 Hi.
    destruct p; cbn in *; try easy; lia. }
  assert (C4 : (cnt cL2 l + cnt cL3 l <= cnt cT l)%nat) by apply cnt_cT.
  assert (Fu : (tg <> 0 /\ cu = tg /\ (cnt cT l + se + cnt cA3 l = 1)%nat) \/ ((tg = 0 \/ cu <> tg) /\ (cnt cT l + se = 0)%nat)).
  { destruct (Z.eq_dec tg 0); [right; tauto|]. destruct (Z.eq_dec cu tg); [left|right]; tauto. }
  assert (Bs : (b2n sl <= 1)%nat) by (destruct sl; cbn; lia).
  destruct p; destruct a; cbn [step_pc] in E; try discriminate E.
  all: repeat match type of E with
       | (if ?b then _ else _) = _ => destruct b eqn:?
       | match ?m with Some _ => _ | None => _ end = _ => destruct m eqn:?
       | match ?m with O => _ | S _ => _ end = _ => destruct m eqn:?
       | match ?m with KWait => _ | KReach _ => _ end = _ => destruct m eqn:?
       end; try discriminate E.
  all: injection E as <-.
  all: try (match goal with |- inv (mkSt _ _ _ _ _ _ (set_nth ?ll ?tt ?q) _) => counts Hp q end).
  all: cbn [inside cW cT cA3 cL2 cL3 cW1 cS cO b2n] in *.
  all: rewrite ?Nat.add_0_r in *.
  all: repeat match goal with
       | H : (_ + 1)%nat = (_ + 1)%nat |- _ => apply Nat.add_cancel_r in H
       end.
  all: repeat match goal with
       | H : (_ =? _) = true |- _ => apply Z.eqb_eq in H
       | H : (_ =? _) = false |- _ => apply Z.eqb_neq in H
       | H : negb _ = true |- _ => apply negb_true_iff in H
       | H : negb _ = false |- _ => apply negb_false_iff in H
       | H : (_ <? _) = true |- _ => apply Z.ltb_lt in H
       end.
  all: try (specialize (Own eq_refl); subst mu).
  all: try (specialize (Sub eq_refl); destruct Sub as (Sub1 & Sub2 & Sub3 & Sub4);
         rewrite ?Sub1, ?Sub2, ?Sub3, ?Sub4 in * ;
         try specialize (Ia3 Nat.lt_0_1); try specialize (Il2 Nat.lt_0_1); try specialize (Il3 Nat.lt_0_1); try specialize (Iw1 Nat.lt_0_1)).
  all: try (match type of Own with true = true -> _ => fail 1 | _ => clear Own end).
  all: try (match type of Sub with _ -> _ => clear Sub end).
  all: try (match type of Ia3 with (0 < 0)%nat -> _ => clear Ia3 end).
  all: try (match type of Il2 with (0 < 0)%nat -> _ => clear Il2 end).
  all: try (match type of Il3 with (0 < 0)%nat -> _ => clear Il3 end).
  all: try (match type of Iw1 with (0 < 0)%nat -> _ => clear Iw1 end).
  all: try (destruct w; cbn [inside cW cT cA3 cL2 cL3 cW1 cS cO b2n] in * ).
  all: constructor; cbn [target current waiting start_locked mutex sem thr hist] in *.
  all: lazymatch goal with
       | |- _ -> exists _ _, _ => try exact Iround
       | |- forall _ _, _ -> knows _ _ _ =>
            try (apply KO; [exact Same|]; intros; first [exact Kp | exact I])
       | |- forall _, _ -> exists _, _ => try discriminate; first [apply OW; easy | apply ON; easy]
       | |- cnt inside _ = _ => try (destruct mu); lia
       | |- _ =>
           repeat match goal with H : cnt ?f (set_nth _ _ _) = cnt ?f _ |- context [cnt ?f (set_nth _ _ _)] => rewrite H; clear H end;
           first [assumption | clear Iround Iknow KO Same OW ON Kp Iown Hp Ifull Inot; cbn [b2n]; intros;
             first [ repeat match goal with H : ?A -> ?B |- _ => match type of A with Prop => clear H end end; lia
                   | destruct Fu as [(? & ? & ?)|[? ?]]; lia]]
       end.
  (* Target *)
  - intros _. cbn [rounds]. now exists [], (rounds h).
  - apply KO; [|easy]. intros u pu Nu Hu K tg' cu' wa' sl' mu' se' l'.
    apply (knows_target (mkSt tg cu wa sl (Some t) se l h) _ count); [easy| |exact K].
    specialize (Izero ltac:(easy)).
    destruct pu; try exact I.
    + pose proof (cnt_pos cA3 l u _ Hu eq_refl). lia.
    + pose proof (cnt_pos cW1 l u _ Hu eq_refl). lia.
    + pose proof (cnt_pos cW l u _ Hu eq_refl). lia.
    + pose proof (cnt_pos cW l u _ Hu eq_refl). lia.
    + pose proof (cnt_pos cW l u _ Hu eq_refl). lia.
    + pose proof (cnt_pos cW l u _ Hu eq_refl). lia.
  (* Arrive *)
  - intros Hn. destruct (Iround Hn) as (ts & r & R & L). cbn [rounds]. rewrite R. exists (t :: ts), r. split; [easy|]. cbn [length]. lia.
  - assert (Hn : tg <> 0) by lia. destruct (Iround Hn) as (ts & r & R & L). apply KO.
    + intros u pu Nu Hu K tg' cu' wa' sl' mu' se' l'.
      apply (knows_arrive (mkSt tg cu wa sl (Some t) se l h) _ u t pu ts r); try easy. cbn [target]. lia.
    + intros. cbn [knows hist rounds]. rewrite R. now left.
  - intros Hn. destruct (Iround Hn) as (ts & r & R & L). cbn [rounds]. rewrite R. exists (t :: ts), r. split; [easy|]. cbn [length]. lia.
  - assert (Hn : tg <> 0) by lia. destruct (Iround Hn) as (ts & r & R & L). apply KO.
    + intros u pu Nu Hu K tg' cu' wa' sl' mu' se' l'.
      apply (knows_arrive (mkSt tg cu wa sl (Some t) se l h) _ u t pu ts r); try easy. cbn [target]. lia.
    + intros. cbn [knows hist arrived_nth rounds]. rewrite R, Nat.eqb_refl. cbn [length]. lia.
  (* A3 to L1 *)
  - apply KO; [exact Same|]. intros. destruct k; [|exact Kp]. cbn [knows hist] in *.
    assert (Hn : tg <> 0) by lia. destruct (Iround Hn) as (ts & r & R & L). rewrite R in Kp. cbn [snd] in Kp.
    exists (tg, ts). unfold last_round. rewrite R. cbn [find snd]. apply existsb_In in Kp. rewrite Kp.
    split; [easy|]. unfold complete. cbn [fst snd]. lia.
  (* W5 to L1 *)
  - apply KO; [exact Same|]. intros. cbn [knows hist] in *.
    assert (Hn : tg <> 0 /\ cu = tg) by (destruct Fu as [(? & ? & ?)|[? ?]]; [easy|lia]).
    destruct (Iround (proj1 Hn)) as (ts & r & R & L). rewrite R in Kp. cbn [snd] in Kp.
    exists (tg, ts). unfold last_round. rewrite R. cbn [find snd]. apply existsb_In in Kp. rewrite Kp.
    split; [easy|]. unfold complete. cbn [fst snd]. lia.
  - easy.
  (* return *)
  - intros Hn. destruct k; apply Iround; exact Hn.
  - apply KO; [|easy]. intros u pu Nu Hu K tg' cu' wa' sl' mu' se' l'.
    apply (knows_return (mkSt tg cu wa sl mu se l h) _ u t (match k with KReach n => n | _ => 0 end) k pu); try easy. now destruct k.
Qed.

Lemma run_inv sch : forall s s', inv s -> run s sch = Ok s' -> inv s'.
Proof.
  induction sch as [|[t a] sch IH]; intros s s' I; cbn [run]; [now intros [= <-]|].
  destruct (step s (t, a)) as [s1| |] eqn:E; try easy. apply IH. now apply (step_inv s t a).
Qed.
