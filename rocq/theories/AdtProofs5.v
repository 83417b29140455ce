(** Swapping and moving nodes. *)
From Verif Require Import Base CStr Array ArraySpec ArrayProofs ArrayProofs2 Adt AdtSpec AdtProofs AdtProofs2 AdtProofs3 AdtProofs4.
Local Notation rep := (@ArrayProofs.rep node).

Lemma nth_error_ext {A} (p q : list A) : (forall i, nth_error p i = nth_error q i) -> p = q.
Proof.
  revert q. induction p as [|x p IH]; intros [|y q] H; [easy|specialize (H 0%nat); easy|specialize (H 0%nat); easy|]. pose proof (H 0%nat) as H0. cbn in H0. injection H0 as ->. f_equal. apply IH. intros i. apply (H (S i)).
Qed.
Lemma replace_comm {A} (l : list A) i j x y a b : nth_error l i = Some a -> nth_error l j = Some b -> i <> j -> replace_nth (replace_nth l i x) j y = replace_nth (replace_nth l j y) i x.
Proof.
  intros Hi Hj N. assert (Hj' : nth_error (replace_nth l i x) j = Some b) by (rewrite (nth_replace_ne l i j x a); easy). assert (Hi' : nth_error (replace_nth l j y) i = Some a) by (rewrite (nth_replace_ne l j i y b); auto).
  apply nth_error_ext. intros k. destruct (Nat.eq_dec k j) as [->|Nj].
  - rewrite (nth_replace _ j y b Hj'). rewrite (nth_replace_ne _ i j x a Hi') by auto. now rewrite (nth_replace l j y b).
  - rewrite (nth_replace_ne _ j k y b Hj') by auto. destruct (Nat.eq_dec k i) as [->|Ni].
    + now rewrite (nth_replace l i x a), (nth_replace _ i x a Hi').
    + rewrite (nth_replace_ne l i k x a), (nth_replace_ne _ i k x a Hi'), (nth_replace_ne l j k y b); auto.
Qed.
Lemma pget_other : forall p q t x t', ~ prefix p q -> ~ prefix q p -> pset t p x = Some t' -> pget t' q = pget t q.
Proof.
  induction p as [|i p IH]; intros q t x t' N1 N2 H; [elim N1; exact I|]. destruct q as [|j q]; [elim N2; exact I|]. destruct t as [| |nm k b ts]; try easy. cbn [pset] in H. destruct (nth_error ts i) as [c|] eqn:Ni; [|easy]. cbn [obind] in H.
  destruct (pset c p x) as [c'|] eqn:P; [|easy]. cbn [obind] in H. injection H as <-. cbn [pget]. destruct (Nat.eq_dec i j) as [<-|Nij].
  - rewrite (nth_replace ts i c' c Ni), Ni. cbn [obind]. apply (IH q c x c'); [intros F; apply N1; now split|intros F; apply N2; now split|easy].
  - rewrite (nth_replace_ne ts i j c' c Ni Nij). easy.
Qed.
Lemma pset_comm : forall p q t x y t1 t2, ~ prefix p q -> ~ prefix q p -> pset t p x = Some t1 -> pset t1 q y = Some t2 -> exists t3, pset t q y = Some t3 /\ pset t3 p x = Some t2.
Proof.
  induction p as [|i p IH]; intros q t x y t1 t2 N1 N2 H K; [elim N1; exact I|]. destruct q as [|j q]; [elim N2; exact I|]. destruct t as [| |nm k b ts]; try easy. cbn [pset] in *. destruct (nth_error ts i) as [c|] eqn:Ni; [|easy]. cbn [obind] in H.
  destruct (pset c p x) as [c'|] eqn:P; [|easy]. cbn [obind] in H. injection H as <-. destruct (Nat.eq_dec i j) as [<-|Nij].
  - rewrite (nth_replace ts i c' c Ni) in K. cbn [obind] in K. destruct (pset c' q y) as [c2|] eqn:P2; [|easy]. cbn [obind] in K. rewrite (replace_replace ts i c' c2 c Ni) in K. injection K as <-. rewrite Ni. cbn [obind].
    destruct (IH q c x y c' c2) as (c3 & P3 & P4); [intros F; apply N1; now split|intros F; apply N2; now split|easy|easy|]. rewrite P3. cbn [obind]. eexists. split; [reflexivity|]. cbn [pset]. rewrite (nth_replace ts i c3 c Ni). cbn [obind]. rewrite P4. cbn [obind]. now rewrite (replace_replace ts i c3 c2 c Ni).
  - rewrite (nth_replace_ne ts i j c' c Ni Nij) in K. destruct (nth_error ts j) as [d|] eqn:Nj; [|easy]. cbn [obind] in *. destruct (pset d q y) as [d'|] eqn:P2; [|easy]. cbn [obind] in *. injection K as <-. eexists. split; [reflexivity|]. cbn [pset].
    rewrite (nth_replace_ne ts j i d' d Nj), Ni by auto. cbn [obind]. rewrite P. cbn [obind]. now rewrite (replace_comm ts i j c' d' c d).
Qed.
Lemma pptr_other : forall p q t i j x t', ~ (prefix (i :: p) (j :: q)) -> pset t (i :: p) x = Some t' -> pptr t' j q = pptr t j q.
Proof.
  induction p as [|i' p IH]; intros q t i j x t' N H; destruct t as [| |nm k b ts]; try easy.
  - cbn [pset] in H. destruct (nth_error ts i) as [c|] eqn:Ni; [|easy]. cbn [obind] in H. injection H as <-. assert (i <> j) by (intros ->; apply N; now split). destruct q as [|j' q]; cbn [pptr]; [now rewrite (len_replace ts i x c Ni)|]. now rewrite (nth_replace_ne ts i j x c Ni).
  - remember (i' :: p) as ip. cbn [pset] in H. destruct (nth_error ts i) as [c|] eqn:Ni; [|easy]. cbn [obind] in H. destruct (pset c ip x) as [c'|] eqn:P; [|easy]. cbn [obind] in H. injection H as <-. subst ip. destruct q as [|j' q]; cbn [pptr]; [now rewrite (len_replace ts i c' c Ni)|].
    destruct (Nat.eq_dec i j) as [<-|Nij]; [|now rewrite (nth_replace_ne ts i j c' c Ni Nij)]. rewrite (nth_replace ts i c' c Ni), Ni. cbn [obind]. apply (IH q c i' j' x c'); [intros F; apply N; now split|easy].
Qed.
Lemma rptr_other m m' t t' p q x : holds m t -> holds m' t' -> ~ prefix p q -> pset t p x = Some t' -> ptr_at m' root q = ptr_at m root q.
Proof. intros H H' N E. rewrite (root_ptr m t), (root_ptr m' t') by easy. apply (pptr_other p q (V t) 0 0 x); [intros (_ & F); easy|]. now rewrite root_set, E. Qed.

(** different places have different pointers *)
Lemma pptr_inj m t p q o : holds m t -> ptr_at m root p = Some o -> ptr_at m root q = Some o -> p = q.
Proof.
  intros H P Q.
  assert (Gen : forall p t i q j o, NoDup (ids t) -> pptr t i p = Some o -> pptr t j q = Some o -> i :: p = j :: q).
  { clear. induction p as [|i' p IH]; intros t i q j o ND P Q; destruct t as [| |nm k b ts]; try easy.
    - cbn [pptr] in P. destruct (i <? length ts)%nat eqn:L; [|easy]. injection P as <-. destruct q as [|j' q].
      + cbn [pptr] in Q. destruct (j <? length ts)%nat; [|easy]. injection Q as Q. f_equal. lia.
      + exfalso. cbn [pptr] in Q. destruct (nth_error ts j) as [c|] eqn:N; [|easy]. cbn [obind] in Q. cbn [ids] in ND. inversion ND; subst. apply H1. apply in_flat_map. exists c. split; [eapply nth_error_In; eauto|].
        clear - Q. revert c j' Q. induction q as [|j q IH]; intros c j' Q; destruct c as [| |nm k b' ts]; try easy.
        * cbn [pptr] in Q. destruct (j' <? length ts)%nat; [|easy]. injection Q as -> _. now left.
        * cbn [pptr] in Q. destruct (nth_error ts j') as [c|] eqn:N; [|easy]. cbn [obind] in Q. right. apply in_flat_map. exists c. split; [eapply nth_error_In; eauto|eauto].
    - cbn [pptr] in P. destruct (nth_error ts i) as [c|] eqn:N; [|easy]. cbn [obind] in P.
      assert (Sub : forall q c j', pptr c j' q = Some o -> In (fst o) (ids c)).
      { clear. induction q as [|j q IH]; intros c j' Q; destruct c as [| |nm k b' ts]; try easy.
        - cbn [pptr] in Q. destruct (j' <? length ts)%nat; [|easy]. injection Q as <-. now left.
        - cbn [pptr] in Q. destruct (nth_error ts j') as [c|] eqn:N; [|easy]. cbn [obind] in Q. right. apply in_flat_map. exists c. split; [eapply nth_error_In; eauto|eauto]. }
      cbn [ids] in ND. inversion ND as [|? ? N0 N1]; subst. destruct q as [|j' q].
      + exfalso. cbn [pptr] in Q. destruct (j <? length ts)%nat eqn:L; [|easy]. injection Q as <-. apply N0. apply in_flat_map. exists c. split; [eapply nth_error_In; eauto|]. exact (Sub p c i' P).
      + cbn [pptr] in Q. destruct (nth_error ts j) as [d|] eqn:Nj; [|easy]. cbn [obind] in Q. pose proof (Sub _ _ _ P) as I1. pose proof (Sub _ _ _ Q) as I2.
        destruct (Nat.eq_dec i j) as [<-|Nij].
        * assert (d = c) by congruence. subst d. f_equal. apply (IH c i' q j' o); [|easy|easy]. destruct (nth_split ts i c N) as (E & _). rewrite E, flat_map_app in N1. cbn [flat_map] in N1. apply NoDup_app_r in N1. now apply NoDup_app_l in N1.
        * exfalso. clear - N1 N Nj I1 I2 Nij. revert i j N Nj Nij N1. induction ts as [|y ts IH]; intros [|i] [|j] N Nj Nij N1; cbn in *; try easy.
          -- injection N as ->. eapply NoDup_app_disj; [exact N1|exact I1|]. apply in_flat_map. exists d. split; [eapply nth_error_In; eauto|easy].
          -- injection Nj as ->. eapply NoDup_app_disj; [exact N1|exact I2|]. apply in_flat_map. exists c. split; [eapply nth_error_In; eauto|easy].
          -- apply (IH i j); auto. now apply NoDup_app_r in N1. }
  rewrite (root_ptr m t) in P, Q by easy. destruct H as (_ & ND & _). pose proof (Gen p (V t) 0%nat q 0%nat o ND P Q) as E. now injection E.
Qed.

(** stores, cell by cell *)
Lemma store_nth m p n m' : store m p n = Some m' -> 0 <= snd p -> next m' = next m /\ forall b,
  match blocks m b, blocks m' b with
  | Some a, Some a' => count a' = count a /\ capacity a' = capacity a /\ forall k, nth_error (cells a') k = if (b =? fst p)%nat && (k =? Z.to_nat (snd p))%nat then Some n else nth_error (cells a) k
  | None, None => True
  | _, _ => False
  end.
Proof.
  unfold store. intros E Hp. destruct (blocks m (fst p)) as [a|] eqn:B; [|easy]. cbn [obind] in E. destruct (write_cells (cells a) (snd p) [n]) as [l|] eqn:W; [|easy]. cbn [obind] in E. injection E as <-. split; [easy|]. intros b. cbn [blocks set_block].
  destruct (Nat.eqb_spec b (fst p)) as [->|Nb]; [|destruct (blocks m b); easy]. rewrite B. cbn [count capacity cells]. split; [easy|]. split; [easy|]. intros k. cbn [andb].
  unfold write_cells in W. destruct (_ && _) eqn:Rg in W; [|easy]. injection W as <-. rewrite andb_true_iff, !Z.leb_le in Rg. cbn [length] in *.
  assert (Li : (Z.to_nat (snd p) < length (cells a))%nat) by lia. destruct (nth_error (cells a) (Z.to_nat (snd p))) as [y|] eqn:Ny; [|apply nth_error_None in Ny; lia].
  change ([n] ++ ?x) with (n :: x). replace (Z.to_nat (snd p) + 1)%nat with (S (Z.to_nat (snd p))) by lia. change (nth_error (replace_nth (cells a) (Z.to_nat (snd p)) n) k = if (k =? Z.to_nat (snd p))%nat then Some n else nth_error (cells a) k).
  destruct (Nat.eqb_spec k (Z.to_nat (snd p))) as [->|Nk]; [now rewrite (nth_replace _ _ _ y)|]. now rewrite (nth_replace_ne _ _ _ _ y) by auto.
Qed.
Lemma arr_ext (a a' : arr node) : count a = count a' -> capacity a = capacity a' -> (forall k, nth_error (cells a) k = nth_error (cells a') k) -> a = a'.
Proof. destruct a, a'. cbn. intros -> -> E. f_equal. now apply nth_error_ext. Qed.
Lemma store_some m t path q n : holds m t -> ptr_at m root path = Some q -> exists m', store m q n = Some m'.
Proof.
  intros H Q. destruct (rptr_get m t path q H Q) as (x & G). destruct (repl m t path q x H Q G) as (a & l1 & nx & l2 & B & (r & Ec & _) & Sq & _). unfold store. rewrite B. cbn [obind]. rewrite Ec, Sq, <- app_assoc. change ((nx :: l2) ++ r) with ([nx] ++ (l2 ++ r)). rewrite write_app by easy. cbn [obind]. eauto.
Qed.
Lemma ptr_pos m t path q : holds m t -> ptr_at m root path = Some q -> 0 <= snd q.
Proof. intros H Q. destruct (rptr_get m t path q H Q) as (x & G). destruct (repl m t path q x H Q G) as (a & l1 & nx & l2 & _ & _ & -> & _). lia. Qed.
