(** Common definitions: the option monad (None = undefined behaviour or an
    explicitly reported model error), machine words and byte lists. *)
From Coq Require Export ZArith List Lia Bool.
Export ListNotations.
Global Open Scope Z_scope.

(** Sequencing in the option monad. *)
Definition obind {A B} (x : option A) (f : A -> option B) : option B :=
  match x with Some a => f a | None => None end.

Declare Scope monad_scope.
Notation "x <- e ;; k" := (obind e (fun x => k))
  (at level 61, e at next level, right associativity) : monad_scope.
Notation "e ;;; k" := (obind e (fun _ => k))
  (at level 61, right associativity) : monad_scope.
Notation "' p <- e ;; k" := (obind e (fun x => match x with p => k end))
  (at level 61, p pattern, e at next level, right associativity) : monad_scope.
Open Scope monad_scope.

(** Machine words: /repo/code/header/essentials/types.h (zpl_u8 ... zpl_i64);
    the modelled target is LP64 (zpl_usize = 64 bits, zpl_isize = 64 bits). *)
Definition u8  (x : Z) : Z := x mod 2^8.
Definition u16 (x : Z) : Z := x mod 2^16.
Definition u32 (x : Z) : Z := x mod 2^32.
Definition u64 (x : Z) : Z := x mod 2^64.

(** Two's complement reinterpretation of the low [w] bits. *)
Definition sx (w : Z) (x : Z) : Z :=
  let y := x mod 2^w in if y <? 2^(w-1) then y else y - 2^w.
Definition i8  (x : Z) : Z := sx 8 x.
Definition i32 (x : Z) : Z := sx 32 x.
Definition i64 (x : Z) : Z := sx 64 x.

Definition in_i32 (x : Z) : Prop := - 2^31 <= x < 2^31.
Definition in_i64 (x : Z) : Prop := - 2^63 <= x < 2^63.
Definition in_u32 (x : Z) : Prop := 0 <= x < 2^32.
Definition in_u64 (x : Z) : Prop := 0 <= x < 2^64.

Definition byte (b : Z) : Prop := 0 <= b < 256.
Definition bytes (l : list Z) : Prop := Forall byte l.

(** C's truncating division and remainder are Z.quot and Z.rem. *)

(** Finite sweeps over [0, n), lifted to a universally quantified statement. *)
Definition sweep (n : nat) (P : Z -> bool) : bool := forallb (fun i => P (Z.of_nat i)) (seq 0 n).
Lemma sweep_ok n P : sweep n P = true -> forall z, 0 <= z < Z.of_nat n -> P z = true.
Proof.
  unfold sweep. intros H z Hz. rewrite forallb_forall in H.
  rewrite <- (Z2Nat.id z) by lia. apply H. apply in_seq. lia.
Qed.
