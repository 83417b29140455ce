From Verif Require Import Base CStr Array ArraySpec ArrayProofs ArrayProofs2 Adt AdtSpec AdtProofs.
Local Notation rep := (@ArrayProofs.rep node).

Lemma append_at_rep ok a l x i r a' : rep a l -> 0 <= i <= count a -> append_at zero_node ok a x i = Some (r, a') ->
  (r = true /\ rep a' (insert_nth l (Z.to_nat i) x)) \/ (r = false /\ ok = false /\ rep a' l).
Proof.
  intros Rp Hi E. assert (V : valid l (OAppendAt x i)) by (destruct Rp as (r0 & _ & C & _); cbn; lia). destruct ok.
  - destruct (exec_ok zero_node a l (OAppendAt x i) Rp V) as (a1 & l1 & E1 & R1 & M). cbn [exec] in E1. rewrite E in E1. injection E1 as -> ->. left. split; [easy|]. cbn [means] in M. now subst l1.
  - destruct (exec_fail zero_node a l (OAppendAt x i) Rp V) as (b1 & a1 & l1 & E1 & R1 & M). cbn [exec] in E1. rewrite E in E1. injection E1 as -> ->. destruct b1; cbn [means means_failed] in M; subst l1; [left|right]; easy.
Qed.
Lemma remove_at_rep a l i a' : rep a l -> 0 <= i -> remove_at a i = Some a' -> rep a' (delete_nth l (Z.to_nat i)) /\ i < count a.
Proof.
  intros Rp Hi E. assert (i < count a) by (unfold remove_at in E; destruct (Z.ltb_spec i (count a)); [easy|discriminate]). split; [|easy].
  assert (V : valid l (ORemoveAt i)) by (destruct Rp as (r0 & _ & C & _); cbn; lia).
  destruct (exec_ok zero_node a l (ORemoveAt i) Rp V) as (a1 & l1 & E1 & R1 & M). cbn [exec lift] in E1. rewrite E in E1. cbn in E1. injection E1 as ->. cbn [means] in M. now subst l1.
Qed.
Lemma store_cell m q n0 n m' : cell m q n0 -> store m q n = Some m' ->
  (forall a l1 l2, blocks m (fst q) = Some a -> rep a (l1 ++ n0 :: l2) -> snd q = Z.of_nat (length l1) -> exists a', blocks m' (fst q) = Some a' /\ rep a' (l1 ++ n :: l2)) /\
  (forall b, b <> fst q -> blocks m' b = blocks m b) /\ next m' = next m.
Proof.
  intros _ E. unfold store in E. split; [|split].
  - intros a l1 l2 B (r & Ec & C & P) Eq. rewrite B in E. cbn [obind] in E. rewrite Ec, Eq, <- app_assoc in E. change ((n0 :: l2) ++ r) with ([n0] ++ (l2 ++ r)) in E. rewrite write_app in E by easy. cbn [obind] in E. injection E as <-. cbn [blocks set_block]. rewrite Nat.eqb_refl.
    eexists. split; [reflexivity|]. exists r. cbn [cells count capacity]. rewrite app_length in *. cbn [length] in *. split; [now rewrite <- app_assoc|]. split; lia.
  - intros b Hb. destruct (blocks m (fst q)) as [a|]; [|easy]. cbn [obind] in E. destruct (write_cells _ _ _) as [l|]; [|easy]. cbn [obind] in E. injection E as <-. cbn [blocks set_block]. destruct (Nat.eqb_spec b (fst q)); easy.
  - destruct (blocks m (fst q)) as [a|]; [|easy]. cbn [obind] in E. destruct (write_cells _ _ _) as [l|]; [|easy]. cbn [obind] in E. now injection E as <-.
Qed.

Lemma NoDup_swap {A} (a b c b' : list A) : NoDup (a ++ b ++ c) -> NoDup b' -> (forall x, In x b' -> In x (a ++ c) -> In x b) -> NoDup (a ++ b' ++ c).
Proof.
  intros H Hb D. assert (Dj : forall x, In x b' -> In x (a ++ c) -> False).
  { intros x I J. pose proof (D x I J) as K. apply in_app_or in J. destruct J as [J|J]; [eapply NoDup_app_disj; [exact H|exact J|apply in_or_app; now left]|]. apply NoDup_app_r in H. eapply NoDup_app_disj; eauto. }
  clear D. induction a as [|x a IH].
  - cbn [app] in *. apply NoDup_app_r in H. clear b. induction b' as [|y b' IHb]; [easy|]. cbn [app]. inversion Hb; subst. constructor.
    + intros I. apply in_app_or in I. destruct I as [I|I]; [easy|]. apply (Dj y); [now left|easy].
    + apply IHb; [easy|]. intros z I J. apply (Dj z); [now right|easy].
  - cbn [app] in *. inversion H; subst. constructor.
    + intros I. apply H2. apply in_app_or in I. destruct I as [I|I]; [apply in_or_app; now left|]. apply in_app_or in I. destruct I as [I|I]; [elim (Dj x I); now left|]. apply in_or_app. right. apply in_or_app. now right.
    + apply IH; [easy|]. intros z I J. apply (Dj z I). now right.
Qed.

(** * The state *)
Definition V (t : pt) : pt := PBranch None true 0 [t].
Definition vnode : node := Node None None (Branch true (Some 0%nat)).
Definition holds (m : mem) (t : pt) : Prop := R m vnode (V t) /\ NoDup (ids (V t)) /\ Forall (fun b => (b < next m)%nat) (ids (V t)).

Lemma ptr_at_ok : forall path i m n t p, R m n t -> deref m p = Some n -> ptr_at m p (i :: path) = pptr t i path.
Proof.
  induction path as [|j r IH]; intros i m n t p H D.
  - cbn [ptr_at]. rewrite D. cbn [obind]. inversion H as [| |nm par k b a ns ts B Rp Pl F]; subst; try easy. cbn [val pptr]. rewrite B. cbn [obind].
    pose proof Rp as (r & _ & C & _). rewrite C, (F2_len _ _ _ F). destruct (Z.ltb_spec (Z.of_nat i) (Z.of_nat (length ts))), (Nat.ltb_spec i (length ts)); try lia; easy.
  - remember (j :: r) as jr. cbn [ptr_at]. rewrite D. cbn [obind]. inversion H as [| |nm par k b a ns ts B Rp Pl F]; subst; try easy. cbn [val pptr]. rewrite B. cbn [obind].
    pose proof Rp as (r0 & _ & C & _). rewrite C, (F2_len _ _ _ F). destruct (nth_error ts i) as [c|] eqn:N.
    + assert (i < length ts)%nat by (apply nth_error_Some; congruence). destruct (Z.ltb_spec (Z.of_nat i) (Z.of_nat (length ts))); [|lia]. cbn [obind].
      destruct (F2_nth _ _ _ _ _ F N) as (nc & Nc & Hc). apply (IH j m nc c); [easy|]. unfold deref. cbn [fst snd]. rewrite B. cbn [obind]. now apply (rep_get a ns i nc Rp).
    + apply nth_error_None in N. destruct (Z.ltb_spec (Z.of_nat i) (Z.of_nat (length ts))); [lia|]. easy.
Qed.
Lemma pptr_get : forall path t i, (exists q, pptr t i path = Some q) <-> (exists x, pget t (i :: path) = Some x).
Proof.
  induction path as [|j r IH]; intros t i.
  - destruct t as [| |nm k b ts]; cbn [pptr pget]; try (split; intros (? & ?); easy). destruct (Nat.ltb_spec i (length ts)) as [L|L].
    + destruct (nth_error ts i) eqn:N; [|apply nth_error_None in N; lia]. cbn [obind]. split; eauto.
    + destruct (nth_error ts i) eqn:N; [assert (i < length ts)%nat by (apply nth_error_Some; congruence); lia|]. split; intros (? & ?); easy.
  - destruct t as [| |nm k b ts]; cbn [pptr]; try (split; intros (? & ?); easy). remember (j :: r) as jr. cbn [pget]. destruct (nth_error ts i) as [c|]; cbn [obind]; [subst jr; apply IH|]. split; intros (? & ?); easy.
Qed.
Lemma root_ptr m t path : holds m t -> ptr_at m root path = pptr (V t) 0 path.
Proof.
  intros (H & _). inversion H as [| |nm par k b a ns ts B Rp Pl F]; subst. inversion F as [|n x ns' ts' Hn F']; subst. inversion F'; subst.
  assert (D : deref m root = Some n) by (unfold deref, root; cbn [fst snd]; rewrite B; cbn [obind]; now apply (rep_get a [n] 0 n Rp)).
  destruct path as [|i r]; [easy|]. rewrite (ptr_at_ok r i m n t root Hn D). reflexivity.
Qed.
Lemma root_get t path : pget (V t) (0%nat :: path) = pget t path.
Proof. reflexivity. Qed.
Lemma root_set t path x : pset (V t) (0%nat :: path) x = option_map V (pset t path x).
Proof. cbn [pset V nth_error obind]. destruct (pset t path x); easy. Qed.

(** replacing the node at a path *)
Lemma repl m t path q x : holds m t -> ptr_at m root path = Some q -> pget t path = Some x ->
  exists a l1 nx l2, blocks m (fst q) = Some a /\ rep a (l1 ++ nx :: l2) /\ snd q = Z.of_nat (length l1) /\ R m nx x /\ ~ In (fst q) (ids x) /\ In (fst q) (ids (V t)) /\ placed (fst q) nx /\
    forall m' nx' x' a', R m' nx' x' -> placed (fst q) nx' -> blocks m' (fst q) = Some a' -> rep a' (l1 ++ nx' :: l2) ->
      (forall b, In b (ids (V t)) -> ~ In b (ids x) -> b <> fst q -> blocks m' b = blocks m b) ->
      NoDup (ids x') -> (forall b, In b (ids x') -> In b (ids (V t)) -> In b (ids x)) -> Forall (fun b => (b < next m')%nat) (ids x') -> (next m <= next m')%nat ->
      exists t', pset t path x' = Some t' /\ holds m' t'.
Proof.
  intros (H & ND & BD) Q G. pose proof (root_ptr m t path (conj H (conj ND BD))) as E. rewrite E in Q.
  destruct (focus path 0 m vnode (V t) q x H ND Q G) as (a & l1 & nx & l2 & B & Rp & Sq & Hx & Iq & Nq & Pq & K).
  exists a, l1, nx, l2. split; [easy|]. split; [easy|]. split; [easy|]. split; [easy|]. split; [easy|]. split; [easy|]. split; [easy|].
  intros m' nx' x' a' Hx' Px' B' Rp' Fr NDx Dx Bx Nx. destruct (K m' nx' x' a' Hx' Px' B' Rp' Fr) as (t1 & Et & Ht). rewrite root_set in Et.
  destruct (pset t path x') as [t'|] eqn:P; [|easy]. cbn [option_map] in Et. injection Et as <-. exists t'. split; [easy|].
  destruct (ids_focus (0%nat :: path) (V t) x G) as (A & C & E1 & E2). assert (E3 : ids (V t') = A ++ ids x' ++ C) by (apply (E2 x'); now rewrite root_set, P).
  split; [easy|]. rewrite E3. rewrite E1 in ND, BD. split.
  - apply NoDup_swap with (ids x); [easy|easy|]. intros b I J. rewrite E1 in Dx. apply Dx; [easy|]. apply in_app_or in J. destruct J as [J|J]; apply in_or_app; [now left|right; apply in_or_app; now right].
  - apply Forall_app in BD. destruct BD as (B1 & B2). apply Forall_app in B2. destruct B2 as (_ & B2). apply Forall_app. split; [eapply Forall_impl; [|exact B1]; cbn; intros; lia|]. apply Forall_app. split; [easy|eapply Forall_impl; [|exact B2]; cbn; intros; lia].
Qed.
