(** Polynomial identities behind the matrix and quaternion theorems. *)
From Coq Require Import Field QArith Qcanon.
From Verif Require Import Base Vec VecSpec.

#[global] Instance Ops_Qc : Ops Qc := {| f0 := 0%Qc; f1 := 1%Qc; fadd := Qcplus; fmul := Qcmult; fsub := Qcminus;
  fopp := Qcopp; fdiv := Qcdiv; finv := Qcinv |}.
#[global] Instance Fld_Qc : Fld Qc := {| fth := Qcft |}.

Section Proofs.
Context {R : Type} {F : Fld R}.
Local Open Scope fld_scope.
Add Field Rfld : (@fth R F).

Lemma inverse_of_scale n (A B : nat -> nat -> R) (d : R) : d <> 0 ->
  (forall i j, (i < n)%nat -> (j < n)%nat -> sumn n (fun k => A i k * B k j) = d * mid i j) ->
  (forall i j, (i < n)%nat -> (j < n)%nat -> sumn n (fun k => B i k * A k j) = d * mid i j) ->
  inverse_of n A (fun i j => B i j * (1 / d)).
Proof.
  intros D H1 H2.
  assert (L : forall m (f : nat -> R), sumn m (fun k => f k * (1 / d)) = sumn m f * (1 / d)).
  { intros m f; induction m as [|m IH]; cbn; [ring|]. rewrite IH. ring. }
  assert (X : forall m (f g : nat -> R), (forall k, f k = g k) -> sumn m f = sumn m g).
  { intros m f g E; induction m as [|m IH]; cbn; [reflexivity|]. now rewrite IH, E. }
  split; intros i j Hi Hj; unfold mprod.
  - rewrite (X n _ (fun k => (A i k * B k j) * (1 / d))) by (intros; ring).
    rewrite L, H1 by easy. field. exact D.
  - rewrite (X n _ (fun k => (B i k * A k j) * (1 / d))) by (intros; ring).
    rewrite L, H2 by easy. field. exact D.
Qed.

Lemma below2 (P : nat -> Prop) : P 0%nat -> P 1%nat -> forall i, (i < 2)%nat -> P i.
Proof. intros; destruct i as [|[|]]; auto; lia. Qed.
Lemma below3 (P : nat -> Prop) : P 0%nat -> P 1%nat -> P 2%nat -> forall i, (i < 3)%nat -> P i.
Proof. intros; destruct i as [|[|[|]]]; auto; lia. Qed.
Lemma below4 (P : nat -> Prop) : P 0%nat -> P 1%nat -> P 2%nat -> P 3%nat -> forall i, (i < 4)%nat -> P i.
Proof. intros; destruct i as [|[|[|[|]]]]; auto; lia. Qed.

Lemma inverse_of_meq n (A B C : nat -> nat -> R) : meq n B C -> inverse_of n A B -> inverse_of n A C.
Proof.
  intros E [H1 H2].
  assert (X : forall m (f g : nat -> R), (forall k, (k < m)%nat -> f k = g k) -> sumn m f = sumn m g).
  { intros m f g; induction m as [|m IH]; intros G; cbn; [reflexivity|].
    now rewrite IH, G by (intros; try apply G; lia). }
  split; intros i j Hi Hj.
  - rewrite <- (H1 i j Hi Hj). unfold mprod. apply X. intros k Hk. now rewrite (E k j).
  - rewrite <- (H2 i j Hi Hj). unfold mprod. apply X. intros k Hk. now rewrite (E i k).
Qed.

(** the determinant the 4x4 inverse divides by *)
Definition mat4_det_of (m : mat4 R) : R :=
  let o := mat4_cofactors m in
  el4 m 0 0 * el4 o 0 0 + el4 m 0 1 * el4 o 1 0 + el4 m 0 2 * el4 o 2 0 + el4 m 0 3 * el4 o 3 0.

Lemma det2 (m : mat2 R) : mat2_determinate m = det 2 (of2 m).
Proof. destruct m as [[m_00 m_01] [m_10 m_11]]; cbv [mat2_determinate of2 el2 ev2 det sumn minor Nat.even Nat.ltb Nat.leb a2 b2 x2 y2]; ring. Qed.
Lemma det3 (m : mat3 R) : mat3_determinate m = det 3 (of3 m).
Proof. destruct m as [[m_00 m_01 m_02] [m_10 m_11 m_12] [m_20 m_21 m_22]]; cbv [mat3_determinate of3 el3 ev3 det sumn minor Nat.even Nat.ltb Nat.leb a3 b3 c3 x3 y3 z3]; ring. Qed.
Lemma det4 (m : mat4 R) : mat4_det_of m = det 4 (of4 m).
Proof.
  destruct m as [[m_00 m_01 m_02 m_03] [m_10 m_11 m_12 m_13] [m_20 m_21 m_22 m_23] [m_30 m_31 m_32 m_33]];
  cbv [mat4_det_of mat4_cofactors of4 el4 ev4 det sumn minor Nat.even Nat.ltb Nat.leb a4 b4 c4 d4 x4 y4 z4 w4]; ring.
Qed.

Lemma inv2 (m : mat2 R) : mat2_determinate m <> 0 -> inverse_of 2 (of2 m) (of2 (mat2_inverse m)).
Proof.
  intros D. pose (o := M2 (V2 (el2 m 1 1) (- el2 m 0 1)) (V2 (- el2 m 1 0) (el2 m 0 0))).
  apply (inverse_of_meq 2 _ (fun i j => of2 o i j * (1 / mat2_determinate m))).
  { intros i j; revert i; refine (below2 _ _ _); revert j; apply below2; reflexivity. }
  apply (inverse_of_scale 2 (of2 m) (of2 o) _ D); clear D; destruct m as [[m_00 m_01] [m_10 m_11]];
  intros i j; revert i; refine (below2 _ _ _); revert j; apply below2;
  cbv [o of2 el2 ev2 sumn mid Nat.eqb mat2_determinate a2 b2 x2 y2]; ring.
Qed.

Lemma inv3 (m : mat3 R) : mat3_determinate m <> 0 -> inverse_of 3 (of3 m) (mtrans (of3 (mat3_inverse m))).
Proof.
  intros D.
  pose (c := fun (j i : nat) => match j with
    | O => match i with O => el3 m 1 1 * el3 m 2 2 - el3 m 2 1 * el3 m 1 2 | S O => - (el3 m 1 0 * el3 m 2 2 - el3 m 2 0 * el3 m 1 2) | _ => el3 m 1 0 * el3 m 2 1 - el3 m 2 0 * el3 m 1 1 end
    | S O => match i with O => - (el3 m 0 1 * el3 m 2 2 - el3 m 2 1 * el3 m 0 2) | S O => el3 m 0 0 * el3 m 2 2 - el3 m 2 0 * el3 m 0 2 | _ => - (el3 m 0 0 * el3 m 2 1 - el3 m 2 0 * el3 m 0 1) end
    | _ => match i with O => el3 m 0 1 * el3 m 1 2 - el3 m 1 1 * el3 m 0 2 | S O => - (el3 m 0 0 * el3 m 1 2 - el3 m 1 0 * el3 m 0 2) | _ => el3 m 0 0 * el3 m 1 1 - el3 m 1 0 * el3 m 0 1 end
    end).
  apply (inverse_of_meq 3 _ (fun i j => c i j * (1 / mat3_determinate m))).
  { intros i j; revert i; refine (below3 _ _ _ _); revert j; apply below3; reflexivity. }
  apply (inverse_of_scale 3 (of3 m) c _ D); clear D; subst c; destruct m as [[m_00 m_01 m_02] [m_10 m_11 m_12] [m_20 m_21 m_22]];
  intros i j; revert i; refine (below3 _ _ _ _); revert j; apply below3;
  cbv [of3 el3 ev3 sumn mid Nat.eqb mat3_determinate a3 b3 c3 x3 y3 z3]; ring.
Qed.

Lemma inv4 (m : mat4 R) : mat4_det_of m <> 0 -> inverse_of 4 (of4 m) (of4 (mat4_inverse m)).
Proof.
  intros D. apply (inverse_of_meq 4 _ (fun i j => of4 (mat4_cofactors m) i j * (1 / mat4_det_of m))).
  { intros i j; revert i; refine (below4 _ _ _ _ _); revert j; apply below4; reflexivity. }
  apply (inverse_of_scale 4 (of4 m) (of4 (mat4_cofactors m)) _ D); clear D; destruct m as [[m_00 m_01 m_02 m_03] [m_10 m_11 m_12 m_13] [m_20 m_21 m_22 m_23] [m_30 m_31 m_32 m_33]];
  intros i j; revert i; refine (below4 _ _ _ _ _); revert j; apply below4;
  cbv [mat4_cofactors mat4_det_of of4 el4 ev4 sumn mid Nat.eqb a4 b4 c4 d4 x4 y4 z4 w4]; ring.
Qed.

Lemma mul4_entries (a b : mat4 R) : meq 4 (of4 (mat4_mul a b)) (mprod 4 (of4 a) (of4 b)).
Proof.
  intros i j; revert i; refine (below4 _ _ _ _ _); revert j; apply below4;
  cbv [mat4_mul tab4 mprod of4 sumn]; destruct a as [[a_00 a_01 a_02 a_03] [a_10 a_11 a_12 a_13] [a_20 a_21 a_22 a_23] [a_30 a_31 a_32 a_33]], b as [[b_00 b_01 b_02 b_03] [b_10 b_11 b_12 b_13] [b_20 b_21 b_22 b_23] [b_30 b_31 b_32 b_33]];
  cbv [el4 ev4 a4 b4 c4 d4 x4 y4 z4 w4]; ring.
Qed.
Lemma mul3_entries (a b : mat3 R) : meq 3 (of3 (mat3_mul a b)) (mprod 3 (of3 a) (of3 b)).
Proof.
  intros i j; revert i; refine (below3 _ _ _ _); revert j; apply below3;
  cbv [mat3_mul tab3 mprod of3 sumn]; destruct a as [[a_00 a_01 a_02] [a_10 a_11 a_12] [a_20 a_21 a_22]], b as [[b_00 b_01 b_02] [b_10 b_11 b_12] [b_20 b_21 b_22]];
  cbv [el3 ev3 a3 b3 c3 x3 y3 z3]; ring.
Qed.
Lemma mul2_entries (a b : mat2 R) : meq 2 (of2 (mat2_mul a b)) (mprod 2 (of2 a) (of2 b)).
Proof.
  intros i j; revert i; refine (below2 _ _ _); revert j; apply below2;
  cbv [mat2_mul tab2 mprod of2 sumn]; destruct a as [[a_00 a_01] [a_10 a_11]], b as [[b_00 b_01] [b_10 b_11]];
  cbv [el2 ev2 a2 b2 x2 y2]; ring.
Qed.

Lemma quat_dot_mul (p q : vec4 R) : quat_dot (quat_mul p q) (quat_mul p q) = quat_dot p p * quat_dot q q.
Proof. destruct p as [px py pz pw], q as [qx qy qz qw]; cbv [quat_dot quat_mul vec3_dot qv x3 y3 z3 x4 y4 z4 w4]; ring. Qed.

Lemma quat_inverse_ok (q : vec4 R) : quat_dot q q <> 0 ->
  quat_mul q (quat_inverse q) = quat_identity /\ quat_mul (quat_inverse q) q = quat_identity.
Proof.
  destruct q as [x y z w];
  cbv [quat_dot quat_mul quat_inverse quat_conj quat_identity vec4_div vec3_dot qv x3 y3 z3 x4 y4 z4 w4].
  intros D; split; f_equal; field; exact D.
Qed.
End Proofs.
