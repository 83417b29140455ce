(** Helpers for concrete witnesses: the memory component of a result stays symbolic
    (normalising a memory, which is a function, is expensive), everything else is
    computed. *)
From Verif Require Import Base Mem.

Definition mem1 {B C} (x : option (mem * B * C)) : mem :=
  match x with Some (m, _, _) => m | None => fun _ => None end.
Definition mem2 {B} (x : option (mem * B)) : mem :=
  match x with Some (m, _) => m | None => fun _ => None end.

Lemma known3 {B C} (x : option (mem * B * C)) b c :
  option_map (fun r => (snd (fst r), snd r)) x = Some (b, c) -> x = Some (mem1 x, b, c).
Proof. destruct x as [[[m b'] c']|]; [|discriminate]. cbn. intros H. injection H as -> ->. reflexivity. Qed.
Lemma known2 {B} (x : option (mem * B)) b : option_map snd x = Some b -> x = Some (mem2 x, b).
Proof. destruct x as [[m b']|]; [|discriminate]. cbn. intros H. injection H as ->. reflexivity. Qed.

Ltac known := first [ apply known3; vm_compute; reflexivity | apply known2; vm_compute; reflexivity ].
