(** Textbook matrices (row i, column j), determinants and quaternion algebra. *)
From Verif Require Import Base Vec.

Section Spec.
Context {R : Type} {F : Ops R}.
Local Open Scope fld_scope.

Fixpoint sumn (n : nat) (f : nat -> R) : R := match n with O => 0 | S n => sumn n f + f n end.
Definition matrix := nat -> nat -> R.
Definition mprod (n : nat) (A B : matrix) : matrix := fun i j => sumn n (fun k => A i k * B k j).
Definition mapply (n : nat) (A : matrix) (v : nat -> R) : nat -> R := fun i => sumn n (fun k => A i k * v k).
Definition mid : matrix := fun i j => if Nat.eqb i j then 1 else 0.
Definition mtrans (A : matrix) : matrix := fun i j => A j i.
(** equal up to n rows and columns *)
Definition meq (n : nat) (A B : matrix) : Prop := forall i j, (i < n)%nat -> (j < n)%nat -> A i j = B i j.
Definition veq (n : nat) (u v : nat -> R) : Prop := forall i, (i < n)%nat -> u i = v i.
(** expansion along the first row *)
Definition minor (A : matrix) (j : nat) : matrix := fun r c => A (S r) (if (c <? j)%nat then c else S c).
Fixpoint det (n : nat) (A : matrix) : R :=
  match n with
  | O => 1
  | S m => sumn (S m) (fun j => (if Nat.even j then 1 else - (1)) * A 0%nat j * det m (minor A j))
  end.
Definition inverse_of (n : nat) (A B : matrix) : Prop := meq n (mprod n A B) mid /\ meq n (mprod n B A) mid.

(** the matrix a zpl_mat stands for: columns are stored *)
Definition of2 (m : mat2 R) : matrix := fun i j => el2 m j i.
Definition of3 (m : mat3 R) : matrix := fun i j => el3 m j i.
Definition of4 (m : mat4 R) : matrix := fun i j => el4 m j i.

(** 3-vectors as points of homogeneous coordinates *)
Definition point (v : vec3 R) : vec4 R := V4 (x3 v) (y3 v) (z3 v) 1.
(** a vector as a quaternion without real part *)
Definition pure (v : vec3 R) : vec4 R := V4 (x3 v) (y3 v) (z3 v) 0.
End Spec.
