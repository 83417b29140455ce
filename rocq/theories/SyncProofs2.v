From Verif Require Import Base Sync SyncSpec SyncProofs.

Definition ret_ok (h : list event) (e : event) : Prop :=
  match e with
  | Return t => exists r, last_round t h = Some r /\ complete r
  | Reached t n => arrived_nth t n h
  | _ => True
  end.
Definition hist_ok (h : list event) : Prop := forall h1 e h2, h = h1 ++ e :: h2 -> ret_ok h2 e.
Lemma hist_ok_cons e h : hist_ok h -> ret_ok h e -> hist_ok (e :: h).
Proof. intros A B [|x h1] e' h2 E; injection E as -> E; [now subst|]. now apply (A h1). Qed.

Lemma step_hist s t a s' : inv s -> hist_ok (hist s) -> step s (t, a) = Ok s' -> hist_ok (hist s').
Proof.
  intros Iv Hh E. unfold step in E. cbn [fst snd] in E. destruct (nth_error (thr s) t) as [p|] eqn:Hp; [|easy].
  pose proof (i_know s Iv t p Hp) as K. destruct s as [tg cu wa sl mu se l h]. cbn [hist] in *.
  destruct p; destruct a; cbn [step_pc] in E; try discriminate E;
  repeat match type of E with
       | (if ?b then _ else _) = _ => destruct b eqn:?
       | match ?m with Some _ => _ | None => _ end = _ => destruct m eqn:?
       | match ?m with O => _ | S _ => _ end = _ => destruct m eqn:?
       | match ?m with KWait => _ | KReach _ => _ end = _ => destruct m eqn:?
       end; try discriminate E; injection E as <-; cbn [hist]; try exact Hh;
  apply hist_ok_cons; try exact Hh; try exact I. destruct k; exact K.
Qed.
Lemma run_hist sch : forall s s', inv s -> hist_ok (hist s) -> run s sch = Ok s' -> hist_ok (hist s').
Proof.
  induction sch as [|[t a] sch IH]; intros s s' Iv H; cbn [run]; [now intros [= <-]|].
  destruct (step s (t, a)) as [s1| |] eqn:E; try easy.
  apply IH; [now apply (step_inv s t a)|now apply (step_hist s t a)].
Qed.

(** ** Everybody who has arrived can leave once the round is complete *)
Definition weight (p : pc) : nat :=
  match p with
  | Idle | T1 _ | T2 _ | T3 _ | A1 _ | A2 _ => 0
  | T4 | F _ => 1 | U _ => 2 | L4 _ => 3 | L3 _ => 4 | L2 _ => 4 | L1 _ => 5
  | W5 => 6 | W4 => 7 | W3 => 8 | W2 => 9 | W1 => 10 | A3 _ => 11
  end.
Fixpoint total (l : list pc) : nat := match l with [] => 0 | p :: l => weight p + total l end.
Lemma total_set l t p q : nth_error l t = Some p -> (total (set_nth l t q) + weight p = total l + weight q)%nat.
Proof.
  revert t. induction l as [|x l IH]; intros [|t] H; cbn [nth_error set_nth total] in *; try easy.
  - injection H as ->. lia.
  - specialize (IH t H). lia.
Qed.
Definition isA2 p := match p with A2 _ => true | _ => false end.
Definition isL4 p := match p with L4 _ => true | _ => false end.
Definition isF p := match p with F _ => true | _ => false end.
Definition leaving (s : st) : Prop :=
  (target s <> 0 /\ current s = target s) \/
  (target s = 0 /\ (start_locked s = false \/ (0 < cnt isL4 (thr s))%nat)).
(** between the states, thread by thread: either it was left alone or it finished *)
Definition onward (s s' : st) : Prop :=
  length (thr s') = length (thr s) /\
  forall t p, nth_error (thr s) t = Some p ->
    exists q, nth_error (thr s') t = Some q /\
      (q = p \/ q = Idle \/ (arrived p = true /\ arrived q = true)) /\ (arrived q = true -> arrived p = true).
Lemma onward_refl s : onward s s.
Proof. split; [easy|]. intros t p H. exists p. tauto. Qed.
Lemma onward_trans a b c : onward a b -> onward b c -> onward a c.
Proof.
  intros [L1 A] [L2 B]. split; [congruence|]. intros t p H. destruct (A t p H) as (q & Hq & C & D).
  destruct (B t q Hq) as (r & Hr & C' & D'). exists r. split; [easy|]. split; [|tauto].
  destruct C as [->|[->|[C1 C2]]]; destruct C' as [->|[->|[C1' C2']]]; try tauto; try easy.
Qed.
Lemma len_set {A} (l : list A) t q : length (set_nth l t q) = length l.
Proof. revert t. induction l as [|x l IH]; intros [|t]; cbn; try easy. now rewrite IH. Qed.

Lemma progress s : inv s -> leaving s -> cnt isA2 (thr s) = 0%nat -> (0 < cnt arrived (thr s))%nat ->
  exists t s', step s (t, Go) = Ok s' /\ (total (thr s') < total (thr s))%nat /\ leaving s' /\
    cnt isA2 (thr s') = 0%nat /\ onward s s'.
Proof.
  intros Iv HL HA Hact.
  (* any thread at a point from which it can go on *)
  assert (GO : forall t p q s', nth_error (thr s) t = Some p -> step s (t, Go) = Ok s' ->
     thr s' = set_nth (thr s) t q -> (weight q < weight p)%nat -> isA2 q = false ->
     (q = Idle \/ (arrived p = true /\ arrived q = true)) -> leaving s' ->
     exists t s', step s (t, Go) = Ok s' /\ (total (thr s') < total (thr s))%nat /\ leaving s' /\
       cnt isA2 (thr s') = 0%nat /\ onward s s').
  { intros t p q s' Hp E Et W N2 Ar Lv. exists t, s'. split; [easy|].
    pose proof (total_set _ t p q Hp). pose proof (cnt_set isA2 _ t p q Hp) as C2. rewrite <- Et in C2, H.
    split; [lia|]. split; [easy|]. rewrite N2 in C2. cbn [b2n] in C2. split; [lia|].
    split; [rewrite Et; apply len_set|]. intros u pu Hu. rewrite Et. destruct (Nat.eq_dec u t) as [Eu|Nu].
    - subst u. rewrite Hp in Hu. injection Hu as <-. exists q. rewrite (nth_set_eq _ _ p) by easy. split; [easy|].
      destruct Ar as [->|[A1 A2]]; [split; [tauto|discriminate]|]. tauto.
    - exists pu. rewrite nth_set_ne by congruence. tauto. }
  destruct (Nat.eq_dec (cnt isF (thr s)) 0) as [F0|F1].
  2:{ destruct (cnt_ex isF (thr s) ltac:(lia)) as (t & p & Hp & Pf). destruct p; try easy.
      destruct s as [tg cu wa sl mu se l h]. cbn [thr] in Hp.
      eapply (GO t (F k) Idle); try exact Hp.
      - unfold step. cbn [fst snd thr]. rewrite Hp. cbn [step_pc]. reflexivity.
      - easy.
      - cbn; lia.
      - easy.
      - now left.
      - unfold leaving in *. cbn [target current start_locked thr] in *.
        pose proof (cnt_set isL4 l t _ Idle Hp) as C. cbn [isL4 b2n] in C. rewrite !Nat.add_0_r in C. rewrite C. exact HL. }
  destruct (mutex s) as [o|] eqn:Em.
  - destruct (i_own s Iv o Em) as (p & Hp & Pi).
    pose proof (i_in s Iv) as Iin. rewrite Em in Iin.
    assert (Oth : forall f, (forall p, f p = true -> inside p = true) -> f p = false -> cnt f (thr s) = 0%nat).
    { intros f Hf Hfp. destruct (Nat.eq_dec (cnt f (thr s)) 0); [easy|].
      destruct (cnt_ex f (thr s) ltac:(lia)) as (u & pu & Hu & Fu).
      assert (u = o) by (apply (cnt_uniq inside (thr s) u o pu p); try easy; [lia|now apply Hf]). subst u.
      rewrite Hp in Hu. injection Hu as <-. congruence. }
    assert (St : step s (o, Go) = step_pc s o p Go) by (unfold step; cbn [fst snd]; now rewrite Hp).
    pose proof (i_full s Iv) as Ifull. pose proof (i_notfull s Iv) as Inot. pose proof (i_zero s Iv) as Izero.
    pose proof (i_a3 s Iv) as Ia3. pose proof (i_w1 s Iv) as Iw1. pose proof (i_start2 s Iv) as Is2. pose proof (i_wait s Iv) as Iw.
    pose proof (i_l2 s Iv) as Il2. pose proof (i_l3 s Iv) as Il3.
    assert (L4o : isL4 p = false -> cnt isL4 (thr s) = 0%nat) by (apply Oth; now intros []).
    assert (L4s : forall q, isL4 q = isL4 p -> cnt isL4 (set_nth (thr s) o q) = cnt isL4 (thr s)).
    { intros q Hq. pose proof (cnt_set isL4 (thr s) o p q Hp) as C. rewrite Hq in C. lia. }
    pose proof (cnt_here cS (thr s) o p Hp) as HcS.
    assert (Bs : (b2n (start_locked s) <= 1)%nat) by (destruct (start_locked s); cbn; lia).
    assert (Hin : forall f, f p = true -> (0 < cnt f (thr s))%nat) by (intros f; apply (cnt_pos f _ o p Hp)).
    destruct s as [tg cu wa sl mu se l h]. unfold leaving in *. cbn [target current waiting start_locked mutex sem thr hist] in *.
    destruct p; try discriminate Pi; cbn [step_pc] in St; cbn [b2n cS isL4] in *.
    + (* T3: then nobody has arrived *)
      assert (tg = 0) by (destruct (Z.eq_dec tg 0); [easy|]; specialize (Is2 n); lia). subst tg.
      exfalso. specialize (Izero eq_refl). destruct (cnt_ex arrived l Hact) as (u & pu & Hu & Au).
      assert (C : inside pu = false -> cW pu = false -> isF pu = false -> False) by (destruct pu; easy).
      apply C.
      * destruct (inside pu) eqn:Q; [|easy]. assert (u = o) by (apply (cnt_uniq inside l u o pu (T3 count)); try easy; lia). subst u.
        rewrite Hp in Hu. now injection Hu as <-.
      * destruct (cW pu) eqn:Q; [|easy]. pose proof (cnt_pos cW l u pu Hu Q). lia.
      * destruct (isF pu) eqn:Q; [|easy]. pose proof (cnt_pos isF l u pu Hu Q). lia.
    + apply (GO o T4 Idle _ Hp St eq_refl); try (cbn; lia); try easy; try (now left); cbn [target current start_locked thr]; rewrite L4s by easy; exact HL.
    + pose proof (cnt_pos isA2 l o _ Hp eq_refl). lia.
    + (* A3 *) assert (0 < tg) by (apply Ia3, (Hin cA3); easy).
      assert (Ec : cu = tg) by lia. apply Z.eqb_eq in Ec. rewrite Ec in St.
      apply (GO o (A3 k) (L1 k) _ Hp St eq_refl); try (cbn; lia); try easy; try (now right); cbn [target current start_locked thr]; rewrite L4s by easy; exact HL.
    + (* W1 *) assert (cu < tg) by (apply Iw1, (Hin cW1); easy). specialize (L4o eq_refl).
      apply (GO o W1 W2 _ Hp St eq_refl); try (cbn; lia); try easy; try (now right); cbn [target current start_locked thr]; rewrite L4s by easy; exact HL.
    + apply (GO o W2 W3 _ Hp St eq_refl); try (cbn; lia); try easy; try (now right); cbn [target current start_locked thr]; rewrite L4s by easy; exact HL.
    + apply (GO o W5 (L1 KWait) _ Hp St eq_refl); try (cbn; lia); try easy; try (now right); cbn [target current start_locked thr]; rewrite L4s by easy; exact HL.
    + destruct (negb (wa =? 0)).
      * apply (GO o (L1 k) (L2 k) _ Hp St eq_refl); try (cbn; lia); try easy; try (now right); cbn [target current start_locked thr]; rewrite L4s by easy; exact HL.
      * apply (GO o (L1 k) (L3 k) _ Hp St eq_refl); try (cbn; lia); try easy; try (now right); cbn [target current start_locked thr]; rewrite L4s by easy; exact HL.
    + apply (GO o (L2 k) (U k) _ Hp St eq_refl); try (cbn; lia); try easy; try (now right); cbn [target current start_locked thr]; rewrite L4s by easy; exact HL.
    + apply (GO o (L3 k) (L4 k) _ Hp St eq_refl); try (cbn; lia); try easy; try (now right); cbn [target current start_locked thr].
      right. split; [easy|]. right. apply (cnt_pos isL4 _ o (L4 k)); [|easy]. now apply nth_set_eq with (L3 k).
    + apply (GO o (L4 k) (U k) _ Hp St eq_refl); try (cbn; lia); try easy; try (now right); idtac.
      all: assert (tg = 0) by (destruct (Z.eq_dec tg 0); [easy|]; specialize (Is2 n); lia); right; split; [easy|]; now left.
    + apply (GO o (U k) (F k) _ Hp St eq_refl); try (cbn; lia); try easy; try (now right); cbn [target current start_locked thr]; rewrite L4s by easy; exact HL.
  - (* nobody holds the mutex *)
    pose proof (i_in s Iv) as Iin. rewrite Em in Iin.
    assert (Oth : forall f, (forall p, f p = true -> inside p = true) -> cnt f (thr s) = 0%nat).
    { intros f Hf. pose proof (cnt_le f inside (thr s) Hf). lia. }
    assert (WW : (0 < cnt cW (thr s))%nat).
    { destruct (cnt_ex arrived (thr s) Hact) as (u & pu & Hu & Au).
      assert (C : inside pu = true \/ cW pu = true \/ isF pu = true) by (destruct pu; tauto).
      destruct C as [C|[C|C]].
      - pose proof (cnt_pos inside _ u pu Hu C). lia.
      - exact (cnt_pos cW _ u pu Hu C).
      - pose proof (cnt_pos isF _ u pu Hu C). lia. }
    assert (Fu : target s <> 0 /\ current s = target s).
    { destruct HL as [HL|[HL _]]; [easy|]. apply (i_zero s Iv) in HL. lia. }
    pose proof (i_full s Iv (proj1 Fu) (proj2 Fu)) as Tk.
    rewrite (Oth cA3) in Tk by now intros [].
    assert (L4s : cnt isL4 (thr s) = 0%nat) by (apply Oth; now intros []).
    destruct (sem s) as [|se'] eqn:Es.
    + destruct (cnt_ex cT (thr s) ltac:(lia)) as (u & pu & Hu & Cu).
      assert (pu = W4). { destruct pu; try easy; pose proof (cnt_pos inside _ u _ Hu eq_refl); lia. } subst pu.
      destruct s as [tg cu wa sl mu se l h]. unfold leaving in *. cbn [target current waiting start_locked mutex sem thr hist] in *. subst mu.
      eapply (GO u W4 W5); try exact Hu.
      * unfold step. cbn [fst snd thr]. rewrite Hu. cbn [step_pc]. reflexivity.
      * easy.
      * cbn; lia.
      * easy.
      * now right.
      * cbn [target current start_locked thr]. now left.
    + destruct (cnt_ex cW (thr s) WW) as (u & pu & Hu & Cu).
      assert (pu = W3).
      { destruct pu; try easy.
        - pose proof (cnt_pos inside _ u _ Hu eq_refl); lia.
        - pose proof (cnt_pos cT _ u _ Hu eq_refl); lia.
        - pose proof (cnt_pos cT _ u _ Hu eq_refl); lia. } subst pu.
      destruct s as [tg cu wa sl mu se l h]. unfold leaving in *. cbn [target current waiting start_locked mutex sem thr hist] in *. subst mu se.
      eapply (GO u W3 W4); try exact Hu.
      * unfold step. cbn [fst snd thr]. rewrite Hu. cbn [step_pc]. reflexivity.
      * easy.
      * cbn; lia.
      * easy.
      * now right.
      * cbn [target current start_locked thr]. now left.
Qed.

Lemma all_leave : forall n s, (total (thr s) <= n)%nat -> inv s -> leaving s -> cnt isA2 (thr s) = 0%nat ->
  exists who s', run s (map (fun t => (t, Go)) who) = Ok s' /\ inv s' /\ leaving s' /\ cnt arrived (thr s') = 0%nat /\ onward s s'.
Proof.
  induction n as [|n IH]; intros s Hn Iv HL HA.
  - exists [], s. split; [easy|]. split; [easy|]. split; [easy|]. split; [|apply onward_refl].
    destruct (Nat.eq_dec (cnt arrived (thr s)) 0); [easy|].
    destruct (progress s Iv HL HA ltac:(lia)) as (t & s' & _ & W & _). lia.
  - destruct (Nat.eq_dec (cnt arrived (thr s)) 0) as [A0|A1].
    + exists [], s. split; [easy|]. split; [easy|]. split; [easy|]. split; [easy|apply onward_refl].
    + destruct (progress s Iv HL HA ltac:(lia)) as (t & s1 & E & W & L1 & A2' & O1).
      destruct (IH s1) as (who & s2 & R & I2 & LL & A & O2); try easy; [lia|now apply (step_inv s t Go)|].
      exists (t :: who), s2. split; [cbn [map run]; now rewrite E|]. split; [easy|]. split; [easy|]. split; [easy|].
      now apply onward_trans with s1.
Qed.
