(** Polynomials with rational coefficients: a checker for bounds on an interval, and the Taylor polynomials of
    sine and cosine. *)
From Coq Require Import Reals QArith Qround Qreals Lra Lia List.
From Coquelicot Require Import Coquelicot.
From Verif Require Import Base SoftMath.
Import ListNotations.
Local Open Scope R_scope.

(** ** Arithmetic *)
Fixpoint padd (p q : list Q) : list Q :=
  match p, q with
  | [], q => q
  | p, [] => p
  | a :: p, b :: q => Qred (a + b) :: padd p q
  end.
Definition pscale (c : Q) (p : list Q) : list Q := map (fun a => Qred (c * a)) p.
Definition popp (p : list Q) : list Q := map Qopp p.
Fixpoint pmul (p q : list Q) : list Q :=
  match p with
  | [] => []
  | a :: p => padd (pscale a q) (0%Q :: pmul p q)
  end.
(** p (t * t) *)
Fixpoint psquare (p : list Q) : list Q :=
  match p with
  | [] => []
  | a :: p => a :: 0%Q :: psquare p
  end.

Lemma Q2R_red q : Q2R (Qred q) = Q2R q.
Proof. apply Qeq_eqR, Qred_correct. Qed.
Lemma horner_add p q t : horner (padd p q) t = horner p t + horner q t.
Proof.
  revert q. induction p as [|a p IH]; intros [|b q]; cbn [padd horner]; try ring.
  rewrite Q2R_red, Q2R_plus, IH. ring.
Qed.
Lemma horner_scale c p t : horner (pscale c p) t = Q2R c * horner p t.
Proof. induction p as [|a p IH]; cbn [pscale map horner]; [ring|]. unfold pscale in IH. rewrite IH, Q2R_red, Q2R_mult. ring. Qed.
Lemma horner_opp p t : horner (popp p) t = - horner p t.
Proof. induction p as [|a p IH]; cbn [popp map horner]; [ring|]. unfold popp in IH. rewrite IH, Q2R_opp. ring. Qed.
Lemma Q2R_0 : Q2R 0 = 0.
Proof. unfold Q2R. cbn. lra. Qed.
Lemma horner_mul p q t : horner (pmul p q) t = horner p t * horner q t.
Proof.
  induction p as [|a p IH]; cbn [pmul horner]; [ring|]. rewrite horner_add, horner_scale. cbn [horner]. rewrite IH, Q2R_0. ring.
Qed.
Lemma horner_square p t : horner (psquare p) t = horner p (t * t).
Proof. induction p as [|a p IH]; cbn [psquare horner]; [ring|]. rewrite IH, Q2R_0. ring. Qed.

(** ** Bounds *)
(** s p (y / d) as a polynomial in y *)
Fixpoint zeval (p : list Z) (y : R) : R :=
  match p with
  | [] => 0
  | a :: p => IZR a + y * zeval p y
  end.
Fixpoint whole (p : list Q) (s : Q) (d : positive) : option (list Z) :=
  match p with
  | [] => Some []
  | a :: p =>
      let r := Qred (a * s) in
      if (Qden r =? 1)%positive then option_map (cons (Qnum r)) (whole p (Qred (s * (1 # d))) d) else None
  end.
Lemma whole_ok p : forall s d b y, whole p s d = Some b -> zeval b y = Q2R s * horner p (y / IZR (Zpos d)).
Proof.
  induction p as [|a p IH]; intros s d b y E; cbn [whole] in E.
  - injection E as <-. cbn [zeval horner]. ring.
  - destruct (Qden (Qred (a * s)) =? 1)%positive eqn:D; [|discriminate E].
    destruct (whole p (Qred (s * (1 # d))) d) as [b'|] eqn:W; [|discriminate E]. cbn [option_map] in E.
    assert (Eb : b = Qnum (Qred (a * s)) :: b') by congruence. rewrite Eb. cbn [zeval horner].
    rewrite (IH _ _ _ y W), Q2R_red, Q2R_mult. apply Pos.eqb_eq in D.
    assert (Ea : IZR (Qnum (Qred (a * s))) = Q2R a * Q2R s).
    { rewrite <- Q2R_mult, <- Q2R_red. unfold Q2R. rewrite D. lra. }
    rewrite Ea. replace (Q2R (1 # d)) with (/ IZR (Zpos d)) by (unfold Q2R; cbn [Qnum Qden]; ring). unfold Rdiv. ring.
Qed.
Fixpoint zadd (p q : list Z) : list Z :=
  match p, q with
  | [], q => q
  | p, [] => p
  | a :: p, b :: q => (a + b)%Z :: zadd p q
  end.
(** p (1 + y) *)
Fixpoint zshift (p : list Z) : list Z :=
  match p with
  | [] => []
  | a :: p => let s := zshift p in zadd s (a :: s)
  end.
Fixpoint zsize (p : list Z) : Z :=
  match p with
  | [] => 0
  | a :: p => Z.abs a + zsize p
  end.
Lemma zeval_add p q y : zeval (zadd p q) y = zeval p y + zeval q y.
Proof. revert q. induction p as [|a p IH]; intros [|b q]; cbn [zadd zeval]; try ring. rewrite plus_IZR, IH. ring. Qed.
Lemma zeval_shift p y : zeval (zshift p) y = zeval p (1 + y).
Proof. induction p as [|a p IH]; cbn [zshift zeval]; [ring|]. rewrite zeval_add. cbn [zeval]. rewrite IH. ring. Qed.
Lemma zsize_ok p y : Rabs y <= 1 -> Rabs (zeval p y) <= IZR (zsize p).
Proof.
  intros H. induction p as [|a p IH]; cbn [zsize zeval].
  - rewrite Rabs_R0. lra.
  - rewrite plus_IZR, abs_IZR. eapply Rle_trans; [apply Rabs_triang|]. apply Rplus_le_compat_l. rewrite Rabs_mult.
    rewrite <- (Rmult_1_l (IZR (zsize p))). apply Rmult_le_compat; auto using Rabs_pos.
Qed.
(** |p| <= e on [0, 2 n] *)
Fixpoint zcheck (n : nat) (p : list Z) (e : Z) : bool :=
  match n with
  | O => true
  | S n => let q := zshift p in (zsize q <=? e)%Z && zcheck n (zshift q) e
  end.
Lemma zcheck_ok n : forall p e y, zcheck n p e = true -> (0 < n)%nat -> 0 <= y <= 2 * INR n -> Rabs (zeval p y) <= IZR e.
Proof.
  induction n as [|n IH]; intros p e y C N T; [lia|]. cbn [zcheck] in C. apply andb_prop in C. destruct C as [C1 C2].
  rewrite S_INR in T. destruct (Rle_dec y 2) as [L|L].
  - apply Z.leb_le, IZR_le in C1. eapply Rle_trans; [|exact C1].
    replace y with (1 + (y - 1)) by ring. rewrite <- zeval_shift. apply zsize_ok. apply Rabs_le. lra.
  - destruct n as [|n]; [cbn [INR] in T; lra|].
    replace y with (1 + (1 + (y - 2))) by ring. rewrite <- !zeval_shift.
    refine (IH _ e (y - 2) C2 _ _); [lia|lra].
Qed.
(** |p| <= e on [0, 2 n / d]; s is a common denominator *)
Definition check (n : nat) (p : list Q) (s d : positive) (e : Q) : bool :=
  match whole p (Zpos s # 1) d with
  | Some b => zcheck n b (Qfloor (e * (Zpos s # 1)))
  | None => false
  end.
Lemma check_ok n p s d e x : check n p s d e = true -> (0 < n)%nat -> 0 <= x <= 2 * INR n / IZR (Zpos d) -> Rabs (horner p x) <= Q2R e.
Proof.
  intros C N X. unfold check in C. destruct (whole p (Zpos s # 1) d) as [b|] eqn:W; [|discriminate C].
  assert (D : 0 < IZR (Zpos d)) by (apply IZR_lt; lia). assert (S : 0 < IZR (Zpos s)) by (apply IZR_lt; lia).
  assert (Es : Q2R (Zpos s # 1) = IZR (Zpos s)) by (unfold Q2R; cbn; lra).
  apply (zcheck_ok n b _ (x * IZR (Zpos d))) in C; [|exact N|].
  - rewrite (whole_ok _ _ _ _ _ W), Es in C. replace (x * IZR (Zpos d) / IZR (Zpos d)) with x in C by (field; lra).
    rewrite Rabs_mult, (Rabs_pos_eq (IZR (Zpos s))) in C by lra.
    pose proof (Qle_Rle _ _ (Qfloor_le (e * (Zpos s # 1)))) as F. rewrite Q2R_mult, Es in F.
    replace (Q2R (inject_Z (Qfloor (e * (Zpos s # 1))))) with (IZR (Qfloor (e * (Zpos s # 1)))) in F by (unfold Q2R, inject_Z; cbn [Qnum Qden]; lra).
    apply (Rmult_le_reg_l (IZR (Zpos s))); [exact S|]. lra.
  - destruct X as [X0 X1]. split; [apply Rmult_le_pos; lra|]. apply (Rmult_le_compat_r (IZR (Zpos d))) in X1; [|lra].
    replace (2 * INR n / IZR (Zpos d) * IZR (Zpos d)) with (2 * INR n) in X1 by (field; lra). exact X1.
Qed.

(** ** Taylor polynomials *)
(** sin (x + j PI / 2) *)
Definition wave (j : nat) (x : R) : R := sin (x + INR j * (PI / 2)).
Lemma wave_0 x : wave 0 x = sin x.
Proof. unfold wave. cbn [INR]. f_equal. ring. Qed.
Lemma wave_1 x : wave 1 x = cos x.
Proof. unfold wave. cbn [INR]. rewrite cos_sin. f_equal. ring. Qed.
Lemma wave_4 j x : wave (S (S (S (S j)))) x = wave j x.
Proof.
  unfold wave. rewrite !S_INR. replace (x + (INR j + 1 + 1 + 1 + 1) * (PI / 2)) with (x + INR j * (PI / 2) + 2 * PI) by field.
  rewrite sin_plus, sin_2PI, cos_2PI. ring.
Qed.
Lemma wave_derive j x : is_derive (wave j) x (wave (S j) x).
Proof.
  unfold wave. rewrite S_INR. replace (x + (INR j + 1) * (PI / 2)) with (PI / 2 + (x + INR j * (PI / 2))) by field.
  rewrite <- cos_sin. auto_derive; [exact I|]. ring.
Qed.
Lemma wave_derive_n j k : forall x, is_derive_n (wave j) k x (wave (k + j) x).
Proof.
  induction k as [|k IH]; intros x; [reflexivity|]. cbn [is_derive_n plus].
  apply (is_derive_ext (wave (k + j))); [|apply wave_derive]. intros t. symmetry. apply is_derive_n_unique, IH.
Qed.
(** the value at 0 *)
Fixpoint sign_at (j : nat) : Q :=
  match j with
  | O => 0
  | S O => 1
  | S (S j) => - sign_at j
  end.
Lemma sign_at_ok j : wave j 0 = Q2R (sign_at j) /\ wave (S j) 0 = Q2R (sign_at (S j)).
Proof.
  assert (Q1 : Q2R 1 = 1) by (unfold Q2R; cbn; lra).
  induction j as [|j [H1 H2]].
  - split; [rewrite wave_0, sin_0; symmetry; apply Q2R_0|rewrite wave_1, cos_0; symmetry; exact Q1].
  - split; [exact H2|]. change (sign_at (S (S j))) with (- sign_at j)%Q. rewrite Q2R_opp, <- H1.
    unfold wave. rewrite !S_INR. replace (0 + (INR j + 1 + 1) * (PI / 2)) with (0 + INR j * (PI / 2) + PI) by field.
    apply neg_sin.
Qed.
(** the coefficients: [f] is k! *)
Fixpoint coefs (n : nat) (j : nat) (k : positive) (f : positive) : list Q :=
  match n with
  | O => []
  | S n => Qred (sign_at j * (1 # f)) :: coefs n (S j) (Pos.succ k) (f * k)
  end.
Definition taylor (n j : nat) : list Q := coefs n j 1 1.
Lemma coefs_ok n : forall j k x,
  horner (coefs n j (Pos.of_succ_nat k) (Pos.of_nat (fact k))) x * x ^ k = sum_f_R0 (fun m => x ^ (m + k) / INR (fact (m + k)) * wave (m + j) 0) n - x ^ (n + k) / INR (fact (n + k)) * wave (n + j) 0.
Proof.
  induction n as [|n IH]; intros j k x; cbn [coefs horner].
  - cbn [plus sum_f_R0]. ring.
  - rewrite Rmult_plus_distr_r. replace (x * horner (coefs n (S j) (Pos.succ (Pos.of_succ_nat k)) (Pos.of_nat (fact k) * Pos.of_succ_nat k)) x * x ^ k)
      with (horner (coefs n (S j) (Pos.of_succ_nat (S k)) (Pos.of_nat (fact (S k)))) x * x ^ (S k)).
    2: { replace (Pos.of_nat (fact (S k))) with (Pos.of_nat (fact k) * Pos.of_succ_nat k)%positive; [cbn [Pos.of_succ_nat pow]; ring|].
         rewrite Pos.of_nat_succ, <- Nat2Pos.inj_mul by (try apply fact_neq_0; lia). f_equal. cbn [fact]. lia. }
    rewrite IH. replace (n + S k)%nat with (S n + k)%nat by lia. replace (n + S j)%nat with (S n + j)%nat by lia.
    rewrite (decomp_sum (fun m => x ^ (m + k) / INR (fact (m + k)) * wave (m + j) 0) (S n)) by lia. cbn [pred].
    assert (Es : sum_f_R0 (fun m => x ^ (m + S k) / INR (fact (m + S k)) * wave (m + S j) 0) n
               = sum_f_R0 (fun i => x ^ (S i + k) / INR (fact (S i + k)) * wave (S i + j) 0) n).
    { apply sum_eq. intros i _. rewrite !Nat.add_succ_r. reflexivity. }
    rewrite Es. generalize (sum_f_R0 (fun i => x ^ (S i + k) / INR (fact (S i + k)) * wave (S i + j) 0) n). intros s. change (0 + k)%nat with k. change (0 + j)%nat with j. rewrite Q2R_red, Q2R_mult, <- (proj1 (sign_at_ok j)).
    replace (Q2R (1 # Pos.of_nat (fact k))) with (/ INR (fact k)); [unfold Rdiv; ring|].
    unfold Q2R. cbn [Qnum Qden]. rewrite Rmult_1_l. f_equal. rewrite INR_IZR_INZ. f_equal.
    pose proof (fact_neq_0 k). rewrite <- positive_nat_Z, Nat2Pos.id by assumption. reflexivity.
Qed.
Theorem taylor_ok n j x : 0 <= x -> Rabs (wave j x - horner (taylor (S n) j) x) <= x ^ (S n) / INR (fact (S n)).
Proof.
  intros X. pose proof (coefs_ok (S n) j 0 x) as E. cbn [pow] in E. rewrite Rmult_1_r in E.
  change (horner (coefs (S n) j (Pos.of_succ_nat 0) (Pos.of_nat (fact 0))) x) with (horner (taylor (S n) j) x) in E.
  rewrite Nat.add_0_r in E. cbn [sum_f_R0] in E. rewrite Nat.add_0_r in E.
  assert (E' : horner (taylor (S n) j) x = sum_f_R0 (fun m => x ^ (m + 0) / INR (fact (m + 0)) * wave (m + j) 0) n) by (rewrite E; ring).
  clear E. rewrite E'. destruct (Req_dec x 0) as [->|N].
  - replace (sum_f_R0 _ n) with (wave j 0).
    + unfold Rminus. rewrite Rplus_opp_r, Rabs_R0, pow_ne_zero by lia. unfold Rdiv. lra.
    + clear. induction n as [|n IH]; [change (wave j 0 = 1 / 1 * wave j 0); field|]. cbn [sum_f_R0]. rewrite <- IH, (pow_ne_zero (S n + 0)) by lia. unfold Rdiv. ring.
  - destruct (Taylor_Lagrange (wave j) n 0 x) as (z & _ & Hz); [lra| |].
    + intros t _ k _. destruct k; [exact I|]. exists (wave (S k + j) t). exact (wave_derive_n j (S k) t).
    + rewrite Hz. replace (x - 0) with x by ring.
      replace (sum_f_R0 (fun m => x ^ m / INR (fact m) * Derive_n (wave j) m 0) n) with (sum_f_R0 (fun m => x ^ (m + 0) / INR (fact (m + 0)) * wave (m + j) 0) n).
      * rewrite (is_derive_n_unique _ _ _ _ (wave_derive_n j (S n) z)). unfold Rminus. rewrite (Rplus_comm (sum_f_R0 _ _)), Rplus_assoc, Rplus_opp_r, Rplus_0_r, Rabs_mult.
        assert (P : 0 <= x ^ S n / INR (fact (S n))). { apply Rmult_le_pos; [apply pow_le; lra|]. left. apply Rinv_0_lt_compat, INR_fact_lt_0. }
        rewrite (Rabs_pos_eq _ P). rewrite <- (Rmult_1_r (x ^ S n / INR (fact (S n)))) at 2. apply Rmult_le_compat_l; [exact P|].
        apply Rabs_le. unfold wave. destruct (SIN_bound (z + INR (S n + j) * (PI / 2))); split; lra.
      * apply sum_eq. intros i _. rewrite Nat.add_0_r, (is_derive_n_unique _ _ _ _ (wave_derive_n j i 0)). reflexivity.
Qed.
