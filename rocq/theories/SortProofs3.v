(** Radix sorts. *)
From Verif Require Import Base Sort SortSpec SortProofs.
From Coq Require Import Sorted.

Lemma rd_nat {T} (l : list T) i x : nth_error l i = Some x -> rd l (Z.of_nat i) = Ok x.
Proof. intros E. unfold rd. destruct (Z.leb_spec 0 (Z.of_nat i)); [|lia]. now rewrite Nat2Z.id, E. Qed.

Section Pass.
  Context (b : Z) (Hb : 0 <= b).
  Definition dg (x : Z) : nat := Z.to_nat (piece x b).
  Lemma piece_range x : 0 <= piece x b < 256.
  Proof. unfold piece. change 255 with (Z.ones 8). rewrite Z.land_ones by lia. apply Z.mod_pos_bound. lia. Qed.
  Lemma dg_lt x : (dg x < 256)%nat.
  Proof. unfold dg. pose proof (piece_range x). lia. Qed.
  Lemma dg_piece x : Z.of_nat (dg x) = piece x b.
  Proof. unfold dg. pose proof (piece_range x). lia. Qed.

  Definition grp (src : list Z) (v : nat) : list Z := filter (fun x => Nat.eqb (dg x) v) src.
  Definition cnt src v := length (grp src v).
  Definition target (src : list Z) (n : nat) : list Z := flat_map (grp src) (seq 0 n).
  Definition start src n := length (target src n).

  Lemma target_S src n : target src (S n) = target src n ++ grp src n.
  Proof. unfold target. rewrite seq_S, flat_map_app. cbn. now rewrite app_nil_r. Qed.
  Lemma start_S src n : start src (S n) = (start src n + cnt src n)%nat.
  Proof. unfold start. now rewrite target_S, app_length. Qed.
  Lemma start_le src n m : (n <= m)%nat -> (start src n <= start src m)%nat.
  Proof. induction 1; [lia|]. rewrite start_S. lia. Qed.
  Lemma cnt_cons x r v : cnt (x :: r) v = ((if Nat.eqb (dg x) v then 1 else 0) + cnt r v)%nat.
  Proof. unfold cnt, grp. cbn [filter]. destruct (Nat.eqb (dg x) v); easy. Qed.
  Lemma grp_app s r v : grp (s ++ r) v = grp s v ++ grp r v.
  Proof. apply filter_app. Qed.

  Lemma target_perm src n : Permutation (filter (fun x => Nat.ltb (dg x) n) src) (target src n).
  Proof.
    induction n as [|n IH].
    - cbn. replace (filter _ src) with (@nil Z); [easy|]. induction src; cbn; congruence.
    - rewrite target_S. transitivity (filter (fun x => Nat.ltb (dg x) n) src ++ grp src n); [|now apply Permutation_app_tail].
      clear. induction src as [|x r IH]; [easy|]. cbn [filter grp].
      destruct (Nat.ltb_spec (dg x) (S n)), (Nat.ltb_spec (dg x) n), (Nat.eqb_spec (dg x) n); try lia.
      + cbn. now constructor.
      + rewrite IH. apply Permutation_middle.
      + exact IH.
  Qed.
  Lemma target_all src : Permutation src (target src 256).
  Proof.
    transitivity (filter (fun x => Nat.ltb (dg x) 256) src); [|apply target_perm].
    replace (filter _ src) with src; [easy|].
    induction src as [|x r IH]; [easy|]. cbn [filter]. destruct (Nat.ltb_spec (dg x) 256) as [_|H]; [now rewrite <- IH|].
    pose proof (dg_lt x). lia.
  Qed.
  Lemma start_all src : start src 256 = length src.
  Proof. unfold start. symmetry. apply Permutation_length, target_all. Qed.

  (** the counting pass *)
  Lemma count_pass_ok : forall src offs, length offs = 256%nat ->
    exists offs', count_pass src b offs = Ok offs' /\ length offs' = 256%nat /\
      forall v c, nth_error offs v = Some c -> nth_error offs' v = Some (c + Z.of_nat (cnt src v)).
  Proof.
    induction src as [|x r IH]; intros offs Hl.
    - exists offs. split; [easy|]. split; [easy|]. intros v c E. cbn. now rewrite Z.add_0_r.
    - cbn [count_pass]. rewrite <- dg_piece. pose proof (dg_lt x) as Hd.
      destruct (nth_error offs (dg x)) as [c|] eqn:E; [|apply nth_error_None in E; lia].
      rewrite (rd_nat _ _ _ E). cbn [rbind]. rewrite Nat2Z.id.
      destruct (IH (put offs (dg x) (c + 1))) as (o & X & L & N); [now rewrite put_length|].
      exists o. split; [easy|]. split; [easy|]. intros v c' E'. rewrite cnt_cons.
      destruct (Nat.eqb_spec (dg x) v) as [<-|Hne].
      + rewrite E in E'. injection E' as <-. rewrite (N (dg x) (c + 1)); [f_equal; lia|].
        rewrite put_nth, Nat.eqb_refl. destruct (Nat.ltb_spec (dg x) (length offs)); [easy|lia].
      + rewrite (N v c'); [f_equal; lia|]. rewrite put_nth. destruct (Nat.eqb_spec v (dg x)); [lia|easy].
  Qed.
  Lemma to_offsets_ok : forall counts total f,
    (forall v c, nth_error counts v = Some c -> f (S v) = f v + c) -> f 0%nat = total ->
    length (to_offsets counts total) = length counts /\
    forall v, (v < length counts)%nat -> nth_error (to_offsets counts total) v = Some (f v).
  Proof.
    induction counts as [|c r IH]; intros total f Hf H0; [split; [easy|cbn; lia]|]. cbn [to_offsets].
    destruct (IH (total + c) (fun v => f (S v))) as (L & N).
    { intros v c' E. exact (Hf (S v) c' E). }
    { rewrite (Hf 0%nat c eq_refl). lia. }
    split; [cbn [length]; lia|]. intros [|v] Hv; [cbn; congruence|]. cbn [nth_error]. apply N. cbn [length] in Hv. lia.
  Qed.

  (** the placing pass, having placed the elements [done] *)
  Definition placed src (done dest offs : list Z) : Prop :=
    length dest = length src /\ length offs = 256%nat /\
    (forall v, (v < 256)%nat -> nth_error offs v = Some (Z.of_nat (start src v + cnt done v))) /\
    (forall v t x, (v < 256)%nat -> nth_error (grp done v) t = Some x -> nth_error dest (start src v + t) = Some x).

  Lemma place_ok src : forall todo done dest offs, done ++ todo = src -> placed src done dest offs ->
    exists dest', place_pass todo b offs dest = Ok dest' /\ exists offs', placed src src dest' offs'.
  Proof.
    induction todo as [|x r IH]; intros done dest offs E P.
    - rewrite app_nil_r in E. subst. exists dest. split; [easy|]. eauto.
    - cbn [place_pass]. rewrite <- dg_piece. pose proof (dg_lt x) as Hd. destruct P as (Ld & Lo & No & Nd).
      rewrite (rd_nat _ _ _ (No _ Hd)). cbn [rbind]. rewrite !Nat2Z.id.
      set (o := (start src (dg x) + cnt done (dg x))%nat) in *.
      assert (Hcnt : forall v, (cnt done v + (if Nat.eqb (dg x) v then 1 else 0) <= cnt src v)%nat).
      { intros v. rewrite <- E. unfold cnt. rewrite grp_app, app_length. fold (cnt (x :: r) v). rewrite cnt_cons. lia. }
      assert (Hgrp : forall v t y, nth_error (grp done v) t = Some y -> (t < cnt src v)%nat).
      { intros v t y Ey. assert (t < length (grp done v))%nat by (apply nth_error_Some; congruence). specialize (Hcnt v). unfold cnt in *. lia. }
      assert (Hb1 : (o < length dest)%nat).
      { rewrite Ld, <- (start_all src). specialize (Hcnt (dg x)). rewrite Nat.eqb_refl in Hcnt.
        pose proof (start_S src (dg x)). pose proof (start_le src (S (dg x)) 256 ltac:(lia)). unfold o. lia. }
      destruct (nth_error dest o) as [old|] eqn:Eo; [|apply nth_error_None in Eo; lia].
      rewrite (rd_nat _ _ _ Eo). cbn [rbind].
      apply (IH (done ++ [x])); [now rewrite <- app_assoc|].
      assert (G : forall v, grp (done ++ [x]) v = grp done v ++ (if Nat.eqb (dg x) v then [x] else [])).
      { intros v. rewrite grp_app. unfold grp at 2. cbn [filter]. now destruct (Nat.eqb (dg x) v). }
      split; [now rewrite put_length|]. split; [now rewrite put_length|]. split.
      + intros v Hv. rewrite put_nth, Lo. unfold cnt. rewrite G, app_length. fold (cnt done v).
        destruct (Nat.eqb_spec v (dg x)) as [->|Hne].
        * rewrite Nat.eqb_refl. destruct (Nat.ltb_spec (dg x) 256); [|lia]. cbn [andb length]. f_equal. unfold o. lia.
        * destruct (Nat.eqb_spec (dg x) v); [lia|]. cbn [andb length]. rewrite Nat.add_0_r. now apply No.
      + intros v t y Hv Ey. rewrite put_nth. rewrite G in Ey.
        destruct (Nat.lt_ge_cases t (cnt done v)) as [Ht|Ht].
        * rewrite nth_error_app1 in Ey by exact Ht.
          destruct (Nat.eqb_spec (start src v + t) o) as [e|e]; [exfalso|now apply Nd].
          unfold o in e. pose proof (Hcnt (dg x)) as C1. rewrite Nat.eqb_refl in C1. pose proof (Hgrp v t y Ey) as C2.
          destruct (Nat.lt_trichotomy v (dg x)) as [C|[C|C]].
          -- pose proof (start_le src (S v) (dg x) C). rewrite start_S in *. lia.
          -- subst v. lia.
          -- pose proof (start_le src (S (dg x)) v C). rewrite start_S in *. lia.
        * rewrite nth_error_app2 in Ey by exact Ht. fold (cnt done v) in Ey.
          destruct (Nat.eqb_spec (dg x) v) as [<-|]; [|destruct (t - cnt done v)%nat; easy].
          destruct (t - cnt done (dg x))%nat as [|q] eqn:Eq; [|destruct q; easy]. cbn in Ey. injection Ey as <-.
          assert (t = cnt done (dg x)) by lia. subst t. fold o. rewrite Nat.eqb_refl.
          destruct (Nat.ltb_spec o (length dest)); [easy|lia].
  Qed.

  Lemma target_nth src : forall n v t x, (v < n)%nat -> nth_error (grp src v) t = Some x ->
    nth_error (target src n) (start src v + t) = Some x.
  Proof.
    induction n as [|n IH]; intros v t x Hv E; [lia|]. rewrite target_S.
    destruct (Nat.eq_dec v n) as [->|].
    - rewrite nth_error_app2 by (unfold start; lia). unfold start. replace (_ + t - _)%nat with t by lia. exact E.
    - specialize (IH v t x ltac:(lia) E). rewrite nth_error_app1; [easy|]. apply nth_error_Some. congruence.
  Qed.
  Lemma target_split src : forall n k, (k < start src n)%nat ->
    exists v t x, (v < n)%nat /\ k = (start src v + t)%nat /\ nth_error (grp src v) t = Some x.
  Proof.
    induction n as [|n IH]; intros k Hk; [unfold start in Hk; cbn in Hk; lia|].
    destruct (Nat.lt_ge_cases k (start src n)) as [H|H].
    - destruct (IH k H) as (v & t & x & ? & ? & ?). exists v, t, x. split; [lia|easy].
    - rewrite start_S in Hk. destruct (nth_error (grp src n) (k - start src n)) as [x|] eqn:E.
      + exists n, (k - start src n)%nat, x. split; [lia|]. split; [lia|easy].
      + apply nth_error_None in E. unfold cnt in Hk. lia.
  Qed.

  Lemma radix_pass_ok src dest : length dest = length src -> radix_pass src dest b = Ok (target src 256).
  Proof.
    intros L. unfold radix_pass.
    destruct (count_pass_ok src (repeat 0 256)) as (counts & X & Lc & N); [apply repeat_length|].
    rewrite X. cbn [rbind].
    assert (NC : forall v c, nth_error counts v = Some c -> Z.of_nat (start src (S v)) = Z.of_nat (start src v) + c).
    { intros v c E. assert (Hv : (v < 256)%nat) by (rewrite <- Lc; apply nth_error_Some; congruence).
      assert (R : nth_error (repeat 0 256) v = Some 0).
      { apply nth_error_repeat. exact Hv. }
      rewrite (N v 0 R) in E. injection E as <-. rewrite start_S. lia. }
    destruct (to_offsets_ok counts 0 (fun v => Z.of_nat (start src v)) NC) as (Lo & No); [easy|].
    destruct (place_ok src src [] dest (to_offsets counts 0)) as (dest' & Y & offs' & (Ld & _ & _ & Nd)); [easy| |].
    { split; [easy|]. split; [lia|]. split.
      - intros v Hv. rewrite No by lia. cbn. f_equal. lia.
      - intros v t x Hv E. destruct t; easy. }
    rewrite Y. f_equal.
    assert (Lt : length (target src 256) = length src) by (rewrite <- (start_all src); easy).
    apply nth_ext with 0 0; [lia|]. intros k Hk.
    destruct (target_split src 256 k) as (v & t & x & Hv & -> & E); [unfold start; lia|].
    rewrite (nth_error_nth _ _ _ (Nd v t x Hv E)).
    now rewrite (nth_error_nth _ _ _ (target_nth src 256 v t x Hv E)).
  Qed.

  (** sortedness: a stable pass *)
  Lemma ss_app {A} (R : A -> A -> Prop) (u v : list A) : StronglySorted R u -> StronglySorted R v ->
    (forall x y, In x u -> In y v -> R x y) -> StronglySorted R (u ++ v).
  Proof.
    induction u as [|a u IH]; intros Su Sv H; [easy|]. inversion Su; subst. cbn. constructor.
    - apply IH; try easy. intros; apply H; [now right|easy].
    - apply Forall_app. split; [easy|]. apply Forall_forall. intros y Hy. apply H; [now left|easy].
  Qed.
  Lemma ss_filter {A} (R R' : A -> A -> Prop) f (u : list A) : StronglySorted R u ->
    (forall x y, f x = true -> f y = true -> R x y -> R' x y) -> StronglySorted R' (filter f u).
  Proof.
    induction u as [|a u IH]; intros Su H; [constructor|]. inversion Su; subst. cbn. destruct (f a) eqn:Ea; [|now apply IH].
    constructor; [now apply IH|]. apply Forall_forall. intros y Hy. apply filter_In in Hy as (I & Fy).
    apply H; try easy. rewrite Forall_forall in *. auto.
  Qed.
  Lemma mod_step x : x mod 2 ^ (b + 8) = x mod 2 ^ b + 2 ^ b * Z.of_nat (dg x).
  Proof.
    rewrite dg_piece. unfold piece. change 255 with (Z.ones 8). rewrite Z.land_ones by lia.
    rewrite Z.shiftr_div_pow2 by lia. rewrite Z.pow_add_r by lia. apply Z.rem_mul_r; lia.
  Qed.
  Lemma target_sorted src : StronglySorted (fun x y => x mod 2 ^ b <= y mod 2 ^ b) src ->
    forall n, StronglySorted (fun x y => x mod 2 ^ (b + 8) <= y mod 2 ^ (b + 8)) (target src n) /\
      forall x, In x (target src n) -> (dg x < n)%nat.
  Proof.
    intros S. induction n as [|n (IH & B)]; [split; [constructor|easy]|]. rewrite target_S. split.
    - apply ss_app; [easy|..].
      + apply ss_filter with (1 := S). intros x y Hx Hy H. apply Nat.eqb_eq in Hx, Hy. rewrite !mod_step, Hx, Hy. lia.
      + intros x y Hx Hy. apply B in Hx. apply filter_In in Hy as (_ & Hy). apply Nat.eqb_eq in Hy. rewrite !mod_step, Hy.
        pose proof (Z.mod_pos_bound x (2 ^ b) ltac:(lia)). pose proof (Z.mod_pos_bound y (2 ^ b) ltac:(lia)). nia.
    - intros x Hx. apply in_app_or in Hx as [Hx|Hx]; [apply B in Hx; lia|].
      apply filter_In in Hx as (_ & Hx). apply Nat.eqb_eq in Hx. lia.
  Qed.
End Pass.

Lemma radix_loop_ok : forall n b src dest, 0 <= b -> length dest = length src ->
  StronglySorted (fun x y => x mod 2 ^ b <= y mod 2 ^ b) src ->
  exists s d, radix_loop n b src dest = Ok (s, d) /\ Permutation src s /\ length d = length s /\
    StronglySorted (fun x y => x mod 2 ^ (b + 8 * Z.of_nat n) <= y mod 2 ^ (b + 8 * Z.of_nat n)) s.
Proof.
  induction n as [|n IH]; intros b src dest Hb L S.
  - exists src, dest. rewrite Z.add_0_r. easy.
  - cbn [radix_loop]. rewrite (radix_pass_ok b src dest L). cbn [rbind].
    pose proof (target_all b src) as P. pose proof (Permutation_length P) as PL.
    destruct (IH (b + 8) (target b src 256) src) as (s & d & X & P2 & L2 & S2); [lia|lia|now apply (target_sorted b Hb src S 256)|].
    exists s, d. split; [easy|]. split; [now transitivity (target b src 256)|]. split; [easy|].
    replace (b + 8 * Z.of_nat (Datatypes.S n)) with (b + 8 + 8 * Z.of_nat n) by lia. exact S2.
Qed.
Lemma ss_trivial l : StronglySorted (fun x y => x mod 2 ^ 0 <= y mod 2 ^ 0) l.
Proof.
  induction l as [|x l IH]; constructor; [easy|]. apply Forall_forall. intros y _. change (2 ^ 0) with 1. rewrite !Z.mod_1_r. lia.
Qed.
Lemma ss_sorted n l : Forall (fun x => 0 <= x < 2 ^ n) l ->
  StronglySorted (fun x y => x mod 2 ^ n <= y mod 2 ^ n) l -> sorted num_cmp l.
Proof.
  intros F S. induction S as [|x l S IH H]; intros i j p q Hij Ep Eq; [now destruct i|].
  inversion F as [|? ? Fx Fl]; subst. destruct j as [|j]; [lia|]. destruct i as [|i].
  - cbn in Ep, Eq. injection Ep as <-. apply nth_error_In in Eq. rewrite Forall_forall in H, Fl.
    specialize (H q Eq). rewrite !Z.mod_small in H by auto. unfold num_cmp.
    destruct (Z.ltb_spec x q); [lia|]. destruct (Z.ltb_spec q x); lia.
  - apply (IH Fl i j); [lia|easy|easy].
Qed.
