(** C18, C19: ring buffers. *)
From Verif Require Import Base Array ArraySpec ArrayProofs ArrayProofs2 Ring RingSpec RingProofs.

(** C18. Any history of append / append_array / get / get_array on a ring made with
    size n >= 1: never out of bounds; everything returned and the final readable
    contents are those of the bounded queue that keeps the newest n elements. *)
Theorem C18_ring_is_bounded_queue (T : Type) (z : T) (n : Z) (h : list (rop T)) :
  1 <= n < 2^64 - 1 -> Forall rvalid h ->
  exists r, rrun z (ring_init z n) h = Some (fst (qrun (Z.to_nat n) [] h), r) /\
    readable r (snd (qrun (Z.to_nat n) [] h)).
Proof.
  intros Hn V. destruct (rrun_ok z h (ring_init z n) []) as (r & X & C & R).
  - now apply init_ok.
  - cbn. lia.
  - exact V.
  - cbn [ring_init rcap] in *. replace (n + 1 - 1) with n in * by lia. eauto.
Qed.

(** full and empty are reported exactly, in every reachable state. *)
Theorem C18_full_empty_exact (T : Type) (z : T) (n : Z) (h : list (rop T)) (outs : list (rout T)) (r : ring T) :
  1 <= n < 2^64 - 1 -> Forall rvalid h -> rrun z (ring_init z n) h = Some (outs, r) ->
  let q := snd (qrun (Z.to_nat n) [] h) in
  (ring_empty r = true <-> q = []) /\
  (ring_full r = Some true <-> Z.of_nat (length q) = n) /\ (ring_full r <> None) /\ Z.of_nat (length q) <= n.
Proof.
  intros Hn V X q. destruct (rrun_ok z h (ring_init z n) []) as (r' & X' & C & R).
  - now apply init_ok.
  - cbn. lia.
  - exact V.
  - rewrite X in X'. injection X' as _ <-. cbn [ring_init rcap] in *.
    replace (n + 1 - 1) with n in * by lia. fold q in R.
    rewrite (empty_ok r q R), (full_ok r q R) by lia. rewrite C. replace (n + 1 - 1) with n by lia.
    destruct R as (_ & _ & L & _).
    repeat split.
    + now destruct q.
    + now intros ->.
    + intros [= E]. now apply Z.eqb_eq.
    + intros ->. now rewrite Z.eqb_refl.
    + discriminate.
    + lia.
Qed.

(** Appends alone: the contents are the last n elements appended. *)
Theorem C18_appends_keep_newest (T : Type) (z : T) (n : Z) (xs : list T) :
  1 <= n < 2^64 - 1 ->
  exists r, ring_append_array (ring_init z n) xs = Some r /\ readable r (skipn (length xs - Z.to_nat n) xs).
Proof.
  intros Hn. destruct (append_array_ok xs (ring_init z n) []) as (r & X & C & R).
  - now apply init_ok.
  - cbn. lia.
  - cbn [ring_init rcap app] in *. replace (n + 1 - 1) with n in * by lia. exists r. split; [easy|exact R].
Qed.

(** The readable contents are determined by the ring. *)
Theorem C18_readable_unique (T : Type) (r : ring T) (p q : list T) : readable r p -> readable r q -> p = q.
Proof.
  intros (T1 & H1 & L1 & _ & N1) (T2 & H2 & L2 & _ & N2).
  assert (E : Z.of_nat (length p) = Z.of_nat (length q)).
  { apply (mod_inj (rcap r) (tail r)); lia. }
  apply Nat2Z.inj in E. clear - E N1 N2.
  assert (N : forall i, nth_error p i = nth_error q i).
  { intros i. destruct (Nat.lt_ge_cases i (length p)).
    - rewrite <- N1, <- N2 by lia. easy.
    - rewrite !(proj2 (nth_error_None _ _)) by lia. easy. }
  clear - N. revert q N. induction p as [|x p IH]; intros q N.
  - destruct q; [easy|]. discriminate (N 0%nat).
  - destruct q; [discriminate (N 0%nat)|]. injection (N 0%nat) as ->. f_equal. apply IH. intros i. exact (N (S i)).
Qed.

(** C19. get_array(max) with max >= 1 takes a prefix of min(max - 1, available) elements. *)
Theorem C19_get_array_short_by_one (T : Type) (z : T) (r : ring T) (q : list T) (max : Z) :
  readable r q -> rcap r < 2^64 -> 1 <= max < 2^64 ->
  exists a r', ring_get_array z r max = Some (a, r') /\
    contents a = firstn (Z.to_nat (max - 1)) q /\ Z.of_nat (length (contents a)) <= max - 1 /\
    readable r' (skipn (Z.to_nat (max - 1)) q).
Proof.
  intros R Hc Hm. destruct (get_array_ok z r q max R) as (a & r' & X & C & Ca & R').
  - destruct R as (? & _). lia.
  - lia.
  - destruct (Z.eqb_spec max 0); [lia|].
    assert (E : firstn (Nat.min (length q) (Z.to_nat (max - 1))) q = firstn (Z.to_nat (max - 1)) q).
    { destruct (Nat.le_gt_cases (length q) (Z.to_nat (max - 1))).
      - rewrite Nat.min_l, !firstn_all2 by lia. easy.
      - rewrite Nat.min_r by lia. easy. }
    assert (E' : skipn (Nat.min (length q) (Z.to_nat (max - 1))) q = skipn (Z.to_nat (max - 1)) q).
    { destruct (Nat.le_gt_cases (length q) (Z.to_nat (max - 1))).
      - rewrite Nat.min_l, !skipn_all2 by lia. easy.
      - rewrite Nat.min_r by lia. easy. }
    rewrite E in Ca. rewrite E' in R'. exists a, r'. split; [exact X|]. split; [exact Ca|]. split; [|exact R'].
    rewrite Ca, firstn_length. lia.
Qed.
(** So a caller asking for exactly what is there does not get it. *)
Theorem C19_get_array_exact_refuted (T : Type) (z : T) (r : ring T) (q : list T) :
  readable r q -> rcap r < 2^64 -> q <> [] ->
  exists a r', ring_get_array z r (Z.of_nat (length q)) = Some (a, r') /\ contents a <> q.
Proof.
  intros R Hc Hq. destruct (C19_get_array_short_by_one T z r q (Z.of_nat (length q)) R Hc) as (a & r' & X & Ca & L & _).
  - destruct R as (? & ? & ? & _). destruct q; [easy|]. cbn [length] in *. lia.
  - exists a, r'. split; [easy|]. intros E. rewrite E in L. lia.
Qed.
(** max = 0 wraps around and drains everything. *)
Theorem C19_get_array_zero_drains (T : Type) (z : T) (r : ring T) (q : list T) :
  readable r q -> rcap r < 2^64 ->
  exists a r', ring_get_array z r 0 = Some (a, r') /\ contents a = q /\ readable r' [].
Proof.
  intros R Hc. destruct (get_array_ok z r q 0 R) as (a & r' & X & C & Ca & R').
  - destruct R as (? & _). lia.
  - lia.
  - cbn [Z.eqb] in *. rewrite firstn_all in Ca. rewrite skipn_all in R'. eauto.
Qed.

Example C18_ex : exists r, rrun 0 (ring_init 0 3) [RAppendArray [1; 2; 3; 4; 5]; RGet; RAppend 6; RAppend 7; RGetArray 3; RGet; RGet]
  = Some ([Unit; Got (Some 3); Unit; Unit; GotMany [5; 6]; Got (Some 7); Got None], r).
Proof. vm_compute. eexists. reflexivity. Qed.
Example C19_ex : readable (mkRing [5; 6; 9; 4] 2 3 4) [4; 5; 6].
Proof. unfold readable; cbn. repeat split; try lia. intros [|[|[|]]] H; try reflexivity; lia. Qed.

Print Assumptions C18_ring_is_bounded_queue.
Print Assumptions C18_full_empty_exact.
Print Assumptions C18_appends_keep_newest.
Print Assumptions C18_readable_unique.
Print Assumptions C19_get_array_short_by_one.
Print Assumptions C19_get_array_exact_refuted.
Print Assumptions C19_get_array_zero_drains.
