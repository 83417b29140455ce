(** C62: the spin lock does not exclude; with the arguments exchanged it does (on the
    platforms whose compare-exchange returns the original value). *)
From Verif Require Import Base SpinLock.

(** how many threads believe they own the lock *)
Definition inside (s : sys) : nat := length (filter (fun p => match p with In => true | _ => false end) (snd s)).

(** Any number of threads can be inside at once, whatever time-outs they use, on every
    platform. *)
Definition all_enter (n : nat) (t : Z) : list (nat * act) :=
  concat (map (fun i => [(i, Lock t); (i, Go)]) (seq 0 n)).
Theorem C62_exclusion_refuted (cas : cas_t) (n : nat) (t : Z) :
  cas = cas_x86 \/ cas = cas_generic ->
  exists s, code_run cas (fresh n) (all_enter n t) = Some s /\ inside s = n.
Proof.
  intros Hc.
  assert (SN : forall m x q (y : pc), set_nth (repeat In m ++ x :: q) m y = repeat In m ++ y :: q).
  { intros m x q y. induction m as [|m IH]; cbn; [easy|now rewrite IH]. }
  assert (NN : forall m (x : pc) q, nth_error (repeat In m ++ x :: q) m = Some x).
  { intros m x q. induction m as [|m IH]; cbn; easy. }
  assert (Ec : cas 0 1 0 = (0, 0)) by (destruct Hc as [-> | ->]; easy).
  enough (G : forall k m, sys_run cas 1 0 (0, repeat In m ++ repeat Out k)
                (concat (map (fun i => [(i, Lock t); (i, Go)]) (seq m k))) = Some (0, repeat In (m + k))).
  { exists (0, repeat In n). split; [exact (G n 0%nat)|]. unfold inside. cbn [snd].
    clear. induction n; cbn; [easy|]. now rewrite IHn. }
  induction k as [|k IH]; intros m.
  - cbn. now rewrite app_nil_r, Nat.add_0_r.
  - cbn [seq map concat repeat]. cbn [app sys_run].
    unfold sys_step at 1. cbn [fst snd]. rewrite NN. cbn [obind thread_step]. rewrite SN. cbn [obind sys_run].
    unfold sys_step at 1. cbn [fst snd]. rewrite NN. cbn [obind thread_step].
    rewrite Ec. cbn [Z.eqb negb obind]. rewrite SN.
    replace (m + S k)%nat with (S m + k)%nat by lia. rewrite <- IH. f_equal. f_equal.
    replace (S m) with (m + 1)%nat by lia. now rewrite repeat_app, <- app_assoc.
Qed.

(** In fact the lock never keeps anyone out: from the fresh lock its value stays 0 and
    every compare-exchange by anyone lets them in. *)
Theorem C62_never_refuses (cas : cas_t) (n : nat) (sch : list (nat * act)) (s : sys) :
  cas = cas_x86 \/ cas = cas_generic ->
  code_run cas (fresh n) sch = Some s ->
  fst s = 0 /\
  forall t p, nth_error (snd s) t = Some p -> (exists o c, p = Spin o c) \/ p = Try ->
    exists s', sys_step cas 1 0 s (t, Go) = Some s' /\ nth_error (snd s') t = Some In.
Proof.
  intros Hc. assert (Ec : cas 0 1 0 = (0, 0)) by (destruct Hc as [-> | ->]; easy).
  assert (SN : forall (l : list pc) t p q, nth_error l t = Some p -> nth_error (set_nth l t q) t = Some q).
  { induction l as [|x l IH]; intros [|t] p q; cbn; try easy. apply IH. }
  assert (V : forall sch s0, fst s0 = 0 -> sys_run cas 1 0 s0 sch = Some s -> fst s = 0).
  { clear sch. induction sch as [|[t a] sch IH]; intros [v l] Hv; cbn [fst] in Hv; subst v; cbn [sys_run].
    - now intros [= <-].
    - unfold sys_step. cbn [fst snd]. destruct (nth_error l t) as [p|]; cbn [obind]; [|easy].
      destruct (thread_step cas 1 0 0 p a) as [[v p']|] eqn:E; cbn [obind]; [|easy].
      apply IH. cbn [fst]. destruct p, a; cbn [thread_step] in E; try rewrite Ec in E; cbn in E;
        try easy; now injection E as <- <-. }
  intros E. assert (F : fst s = 0) by (exact (V sch (fresh n) eq_refl E)). split; [exact F|].
  destruct s as [v l]. cbn [fst] in F. subst v. cbn [snd]. intros t p Hp K.
  unfold sys_step. cbn [fst snd]. rewrite Hp. cbn [obind].
  destruct K as [(o & c & ->)| ->]; cbn [thread_step]; rewrite Ec; cbn [Z.eqb negb obind]; eexists;
    (split; [reflexivity|]); cbn [snd]; now apply (SN l t _ In Hp).
Qed.

(** A lock that somebody really holds (value 1, set some other way) is broken open: the
    first attempt clears it and the second one succeeds. *)
Theorem C62_steals_refuted (t : Z) : t <> 0 ->
  code_run cas_x86 (1, [Out; In]) [(0%nat, Lock t); (0%nat, Go); (0%nat, Go)] = Some (0, [In; In]).
Proof.
  intros Ht. unfold code_run. cbn [sys_run sys_step nth_error fst snd obind thread_step set_nth cas_x86].
  cbn [Z.eqb Pos.eqb negb]. destruct (Z.ltb_spec t 0); cbn [obind sys_run sys_step nth_error fst snd thread_step cas_x86 set_nth Z.eqb negb]; [easy|].
  change (0 =? 2^31 - 1) with false. cbv iota. destruct (Z.ltb_spec 0 t); [|lia].
  easy.
Qed.

(** With the constants exchanged: mutual exclusion for every number of threads and every
    schedule, and a free lock can be taken at the first attempt. *)
Theorem C62_swapped_excludes (n : nat) (sch : list (nat * act)) (s : sys) :
  swapped_run cas_x86 (fresh n) sch = Some s ->
  (inside s <= 1)%nat /\ (fst s = 0 <-> inside s = 0%nat) /\ (fst s = 1 <-> inside s = 1%nat).
Proof.
  set (inv := fun s : sys => (fst s = 0 /\ inside s = 0%nat) \/ (fst s = 1 /\ inside s = 1%nat)).
  set (isin := fun p => match p with In => 1%nat | _ => 0%nat end).
  assert (C : forall (l : list pc) v t p q, nth_error l t = Some p ->
    (inside (v, set_nth l t q) + isin p = inside (v, l) + isin q)%nat).
  { unfold inside. cbn [snd]. induction l as [|x l IH]; intros v [|t] p q H; cbn in H |- *; try easy.
    - injection H as ->. destruct p, q; cbn; lia.
    - specialize (IH v t p q H). destruct x; cbn; lia. }
  assert (V : forall sch s0, inv s0 -> sys_run cas_x86 0 1 s0 sch = Some s -> inv s).
  { clear sch. induction sch as [|[t a] sch IH]; intros [v l] Hv; cbn [sys_run].
    - now intros [= <-].
    - unfold sys_step. cbn [fst snd]. destruct (nth_error l t) as [p|] eqn:Ep; cbn [obind]; [|easy].
      destruct (thread_step cas_x86 0 1 v p a) as [[v' p']|] eqn:E; cbn [obind]; [|easy].
      apply IH. pose proof (C l v' t p p' Ep) as Hc. unfold inv in *. cbn [fst] in *.
      assert (Hi : inside (v', l) = inside (v, l)) by easy. rewrite Hi in Hc.
      destruct Hv as [[-> Hn]|[-> Hn]]; rewrite Hn in Hc; destruct p as [|o c| |], a; cbn [thread_step] in E; try easy;
        cbn [cas_x86 Z.eqb negb] in E; cbn in E;
        repeat match type of E with context [if ?b then _ else _] => destruct b end;
        try easy; injection E as <- <-; cbn [isin] in Hc; lia. }
  intros E. destruct (V sch (fresh n)) as [[A B]|[A B]]; [|easy|rewrite A, B; lia|rewrite A, B; lia].
  left. split; [easy|]. unfold inside, fresh. cbn [snd]. clear. induction n; cbn; easy.
Qed.
Theorem C62_swapped_can_enter (s : sys) (t : nat) (o c : Z) :
  fst s = 0 -> nth_error (snd s) t = Some (Spin o c) ->
  sys_step cas_x86 0 1 s (t, Go) = Some (1, set_nth (snd s) t In).
Proof. intros F H. unfold sys_step. cbn [fst snd]. rewrite F, H. reflexivity. Qed.

(** On the platforms with the generic compare-exchange exchanging the constants is not
    enough: a failed exchange returns 0, which is taken for success. *)
Theorem C62_swapped_generic_refuted :
  exists sch s, swapped_run cas_generic (fresh 3) sch = Some s /\ inside s = 2%nat.
Proof.
  exists [(0%nat, Lock (-1)); (0%nat, Go); (1%nat, Lock (-1)); (1%nat, Go); (2%nat, TryLock); (2%nat, Go)].
  eexists. split; reflexivity.
Qed.

(** three threads, one inside, another released in between *)
Example C62_ex : swapped_run cas_x86 (fresh 3)
  [(1%nat, Lock 5); (1%nat, Go); (0%nat, Lock 1); (0%nat, Go); (2%nat, TryLock); (2%nat, Go); (1%nat, Unlock); (0%nat, Go)]
  = Some (1, [In; Out; Out]).
Proof. reflexivity. Qed.
Example C62_ex2 : code_run cas_x86 (fresh 2) [(0%nat, Lock 5); (0%nat, Go); (1%nat, TryLock); (1%nat, Go)] = Some (0, [In; In]).
Proof. reflexivity. Qed.
Print Assumptions C62_exclusion_refuted.
Print Assumptions C62_never_refuses.
Print Assumptions C62_steals_refuted.
Print Assumptions C62_swapped_excludes.
Print Assumptions C62_swapped_can_enter.
Print Assumptions C62_swapped_generic_refuted.
