(** Starvation (C60), progress (C80) and shutting down (C79) of the job system. *)
From Verif Require Import Base Ring RingSpec RingProofs Jobs JobsSpec JobsProofs JobsProofs2.

Lemma jrun_app p a b : jrun p (a ++ b) = (q <- jrun p a ;; jrun q b).
Proof. revert p. induction a as [|m a IH]; intros p; cbn [app jrun obind]; [easy|]. destruct (jstep p m); cbn [obind]; [apply IH|easy]. Qed.

(** ** Starvation *)
Definition only_two (p : pool) : Prop := map ring_empty (queues p) = [false; false; true; true; true].

Lemma holds_empties cap rs Q : 0 < cap -> holds cap rs Q ->
  map ring_empty rs = map (fun q => match q with [] => true | _ => false end) Q.
Proof.
  intros Hc H. induction H as [|r0 q0 rs Q [A B] H IH]; cbn [map]; [easy|].
  now rewrite (empty_ok r0 q0 A), IH by lia.
Qed.
Lemma two_shape cap rs Q : 0 < cap -> holds cap rs Q -> map ring_empty rs = [false; false; true; true; true] ->
  exists x a y b, Q = [x :: a; y :: b; []; []; []].
Proof.
  intros Hc H E. rewrite (holds_empties cap rs Q Hc H) in E.
  destruct Q as [|[|x a] [|[|y b] [|[|] [|[|] [|[|] [|]]]]]]; try discriminate E. now exists x, a, y, b.
Qed.
Lemma odd_mod2 c : Z.odd c = true -> c mod 2 =? 0 = false.
Proof. intros H. rewrite Zmod_odd, H. easy. Qed.
Lemma odd_u32_2 c : Z.odd c = true -> Z.odd (u32 (u32 (c + 1) + 1)) = true.
Proof.
  assert (G : forall x, Z.odd (u32 x) = Z.odd x).
  { intros x. unfold u32. rewrite <- !Z.bit0_odd. now rewrite Z.mod_pow2_bits_low. }
  intros H. rewrite !G. replace (u32 (c + 1) + 1) with (u32 (c + 1) + 1) by easy.
  rewrite Z.odd_add, G, Z.odd_add, H. reflexivity.
Qed.
Lemma apick_two x a y b c : Z.odd c = true -> apick 0 [x :: a; y :: b; []; []; []] chances c =
  (u32 (u32 (c + 1) + 1), if u32 (c + 1) mod 3 =? 0 then Some 1%nat else None).
Proof. intros H. unfold chances. cbn [apick]. rewrite (odd_mod2 c H). now destruct (u32 (c + 1) mod 3 =? 0). Qed.

Lemma starve_step cap Q p m p' : 0 < cap < 2^64 -> jinv cap Q p -> only_two p -> Z.odd (counter p) = true ->
  jstep p m = Some p' -> Z.odd (counter p') = true /\ taken_from 0 (hist p') = taken_from 0 (hist p).
Proof.
  intros Hc J T O E. destruct m as [id0 j| | | | |i].
  6:{ cbn [jstep] in E. destruct (nth_error (workers p) i) as [w|]; cbn [obind] in E; [|easy].
      unfold worker_step in E. destruct (wat w); cbn [obind] in E; try discriminate E; injection E as <-; easy. }
  all: cbn [jstep] in E; destruct p as [cnt qs ws at_ h]; unfold main_step in E; cbn [counter hist] in *; destruct at_; try discriminate E.
  - destruct (nth_error qs j); cbn [obind] in E; [|easy]. destruct (ring_full r) as [[|]|]; cbn [obind] in E; [| |easy].
    + now injection E as <-.
    + destruct (ring_append r id0); cbn [obind] in E; [|easy]. now injection E as <-.
  - destruct (empty_all qs); now injection E as <-.
  - now injection E as <-.
  - now injection E as <-.
  - destruct (nth_error ws i) as [w|]; [destruct (wst w)|]; now injection E as <-.
  - pose proof (j_hold _ _ _ J) as Jh. unfold only_two in T. cbn [queues] in *.
    destruct (two_shape cap qs Q ltac:(lia) Jh T) as (x & a & y & b & ->).
    destruct (pick_ok cap Hc qs _ chances 0 cnt Jh eq_refl eq_refl) as (rs' & r & E1 & E2).
    rewrite (apick_two x a y b cnt O) in E1, E2. cbn [fst snd] in E1, E2. rewrite E1 in E. cbn [obind] in E.
    destruct (u32 (cnt + 1) mod 3 =? 0).
    + destruct E2 as (k & z & q & r0' & Hk & _ & -> & _). cbn [Nat.add] in Hk. injection E as <-. cbn [counter hist taken_from].
      split; [now apply odd_u32_2|]. cbn. apply app_nil_r.
    + destruct E2 as [-> ->]. injection E as <-. cbn [counter hist]. split; [now apply odd_u32_2|easy].
  - destruct (nth_error ws i); cbn [obind] in E; [|easy]. now injection E as <-.
  - destruct (nth_error ws i); cbn [obind] in E; [|easy]. now injection E as <-.
  - destruct (nth_error ws i) as [w|]; [destruct (wst w)|]; now injection E as <-.
  - destruct (nth_error ws i) as [w|]; now injection E as <-.
  - destruct (nth_error ws i) as [w|]; cbn [obind] in E; [|easy]. destruct (wat w); try discriminate E. now injection E as <-.
Qed.

(** a schedule which keeps serving only the second queue *)
Definition all_two (p : pool) (sch : list move) : Prop := forall k q, jrun p (firstn k sch) = Some q -> only_two q.
Lemma all_two_nil p : only_two p -> all_two p [].
Proof. intros H k q. rewrite firstn_nil. cbn. now intros [= <-]. Qed.
Lemma all_two_cons p m p1 sch : only_two p -> jstep p m = Some p1 -> all_two p1 sch -> all_two p (m :: sch).
Proof.
  intros H E A [|k] q; cbn [firstn jrun]; [now intros [= <-]|]. rewrite E. cbn [obind]. apply A.
Qed.
Lemma all_two_app p a p1 b : all_two p a -> jrun p a = Some p1 -> all_two p1 b -> all_two p (a ++ b).
Proof.
  revert p. induction a as [|m a IH]; intros p A E B; cbn [app jrun] in *; [now injection E as ->|].
  destruct (jstep p m) as [p2|] eqn:Em; cbn [obind] in E; [|easy].
  apply (all_two_cons p m p2); [exact (A 0%nat p eq_refl)|exact Em|].
  apply IH; [|exact E|exact B]. intros k q Hq. apply (A (S k)). cbn [firstn jrun]. now rewrite Em.
Qed.

(** the state between rounds: the worker waits, both queues are in use *)
Definition waiting2 (cap : Z) (p : pool) : Prop :=
  exists c r0 r1 r2 r3 r4 jb h x a y b, p = mkP c [r0; r1; r2; r3; r4] [mkW WAITING jb WLoad] MIdle h /\
    Z.odd c = true /\ holds cap [r0; r1; r2; r3; r4] [x :: a; y :: b; []; []; []].

Definition served : list move := [MGo; MGo; MGo; W 0; W 0; W 0; W 0; W 0].
Definition round_ (b : bool) : list move := [MEnqueue 1 1; MProcess; MGo; MGo] ++ (if b then served else [MGo]).

Definition processed_true := count_ev (fun e => match e with Processed true => true | _ => false end).

Lemma two_of cap qs x a y b : 0 < cap -> holds cap qs [x :: a; y :: b; []; []; []] -> map ring_empty qs = [false; false; true; true; true].
Proof. intros Hc H. now rewrite (holds_empties cap qs _ Hc H). Qed.

Lemma round_ok cap p : 2 < cap < 2^64 -> waiting2 cap p ->
  let b := u32 (counter p + 1) mod 3 =? 0 in
  exists p', jrun p (round_ b) = Some p' /\ waiting2 cap p' /\ counter p' = u32 (u32 (counter p + 1) + 1) /\
  all_two p (round_ b) /\ processed_true (hist p') = S (processed_true (hist p)).
Proof.
  intros Hc (c & r0 & r1 & r2 & r3 & r4 & jb & h & x & a & y & b & -> & O & H). cbn zeta. cbn [counter].
  assert (T0 : map ring_empty [r0; r1; r2; r3; r4] = [false; false; true; true; true]) by (apply (two_of cap _ x a y b); [lia|assumption]).
  assert (S1 : exists q h1 y' z b', jstep (mkP c [r0; r1; r2; r3; r4] [mkW WAITING jb WLoad] MIdle h) (MEnqueue 1 1) =
    Some (mkP c [r0; q; r2; r3; r4] [mkW WAITING jb WLoad] MIdle h1) /\ processed_true h1 = processed_true h /\
    holds cap [r0; q; r2; r3; r4] [x :: a; y' :: z :: b'; []; []; []]).
  { destruct (holds_nth _ _ _ 1 r1 H eq_refl) as (q1 & E & R & Cp). injection E as <-.
    cbn [jstep main_step nth_error obind]. rewrite (full_ok1 r1 _ R) by lia. cbn [obind].
    destruct (Z.eqb_spec (Z.of_nat (length (y :: b))) (rcap r1 - 1)) as [F|F].
    - destruct b as [|z b]; [cbn in F; lia|]. exists r1, (Enq 1 1 false :: h), y, z, b. easy.
    - destruct (append_ok r1 (y :: b) 1%nat R) as (r' & A & C' & R'). { destruct R as (_ & _ & L & _). lia. }
      rewrite A. cbn [obind set_nth]. destruct (b ++ [1%nat]) as [|z b'] eqn:Eb; [now destruct b|].
      exists r', (Enq 1 1 true :: h), y, z, b'. split; [easy|]. split; [easy|].
      rewrite newest_short in R' by (rewrite app_length; destruct R as (_ & _ & L & _); cbn [length] in *; lia).
      replace (y :: z :: b') with ((y :: b) ++ [1%nat]) by (cbn; now rewrite Eb).
      apply (holds_set cap [r0; r1; r2; r3; r4] [x :: a; y :: b; []; []; []] 1); [exact H|exact R'|congruence]. }
  destruct S1 as (q & h1 & y' & z & b' & E1 & P1 & H1).
  assert (T1 : map ring_empty [r0; q; r2; r3; r4] = [false; false; true; true; true]) by (apply (two_of cap _ x a y' (z :: b')); [lia|assumption]).
  set (qs1 := [r0; q; r2; r3; r4]) in *.
  assert (E2 : jstep (mkP c qs1 [mkW WAITING jb WLoad] MIdle h1) MProcess = Some (mkP c qs1 [mkW WAITING jb WLoad] (PLoad 0) h1)).
  { cbn [jstep main_step]. now rewrite (holds_empty cap qs1 _ ltac:(lia) H1). }
  assert (E3 : jstep (mkP c qs1 [mkW WAITING jb WLoad] (PLoad 0) h1) MGo = Some (mkP c qs1 [mkW WAITING jb WLoad] (PPick 0) h1)) by reflexivity.
  destruct (pick_ok cap ltac:(lia) qs1 _ chances 0 c H1 eq_refl eq_refl) as (rs' & r & G1 & G2).
  rewrite (apick_two x a y' (z :: b') c O) in G1, G2. cbn [fst snd] in G1, G2. set (c' := u32 (u32 (c + 1) + 1)) in *.
  assert (O' : Z.odd c' = true) by now apply odd_u32_2.
  destruct (u32 (c + 1) mod 3 =? 0).
  - destruct G2 as (k & w & q1 & r0' & Hk & Hq & Hr & Hrs & Rd & Cp). cbn [Nat.add] in Hk. subst k r rs'.
    cbn [nth_error] in Hq. injection Hq as <- <-.
    assert (H2 : holds cap [r0; r0'; r2; r3; r4] [x :: a; z :: b'; []; []; []]).
    { now apply (holds_set cap qs1 [x :: a; y' :: z :: b'; []; []; []] 1). }
    cbn [set_nth qs1] in G1. fold qs1 in G1.
    assert (T2 : map ring_empty [r0; r0'; r2; r3; r4] = [false; false; true; true; true]) by (apply (two_of cap _ x a z b'); [lia|assumption]).
    set (qs2 := [r0; r0'; r2; r3; r4]) in *.
    assert (E4 : jstep (mkP c qs1 [mkW WAITING jb WLoad] (PPick 0) h1) MGo =
      Some (mkP c' qs2 [mkW WAITING jb WLoad] (PStore 0 y') (Disp 0 1 y' :: h1))).
    { cbn [jstep main_step]. rewrite G1. reflexivity. }
    set (pe := mkP c' qs2 [mkW WAITING y' WLoad] MIdle (Finish 0 y' :: Start 0 y' :: Processed true :: Disp 0 1 y' :: h1)).
    assert (E5 : jrun (mkP c' qs2 [mkW WAITING jb WLoad] (PStore 0 y') (Disp 0 1 y' :: h1)) served = Some pe).
    { reflexivity. }
    exists pe. refine (conj _ (conj _ (conj eq_refl (conj _ _)))).
    + unfold round_. cbn [app]. cbn [jrun]. rewrite E1. cbn [obind]. rewrite E2. cbn [obind]. rewrite E3. cbn [obind]. rewrite E4. cbn [obind]. exact E5.
    + exists c', r0, r0', r2, r3, r4, y', (Finish 0 y' :: Start 0 y' :: Processed true :: Disp 0 1 y' :: h1), x, a, z, b'. easy.
    + unfold round_. cbn [app].
      eapply all_two_cons; [exact T0|exact E1|]. eapply all_two_cons; [exact T1|exact E2|]. eapply all_two_cons; [exact T1|exact E3|]. eapply all_two_cons; [exact T1|exact E4|].
      unfold served. repeat (eapply all_two_cons; [exact T2|reflexivity|]). apply all_two_nil. exact T2.
    + subst pe. cbn [hist]. unfold processed_true in *. cbn [count_ev]. rewrite P1. reflexivity.
  - destruct G2 as [-> ->].
    assert (E4 : jstep (mkP c qs1 [mkW WAITING jb WLoad] (PPick 0) h1) MGo = Some (mkP c' qs1 [mkW WAITING jb WLoad] (PLoad 1) h1)).
    { cbn [jstep main_step]. rewrite G1. reflexivity. }
    assert (E5 : jstep (mkP c' qs1 [mkW WAITING jb WLoad] (PLoad 1) h1) MGo = Some (mkP c' qs1 [mkW WAITING jb WLoad] MIdle (Processed true :: h1))) by reflexivity.
    eexists. refine (conj _ (conj _ (conj _ (conj _ _)))).
    + unfold round_. cbn [app]. cbn [jrun]. rewrite E1. cbn [obind]. rewrite E2. cbn [obind]. rewrite E3. cbn [obind]. rewrite E4. cbn [obind]. rewrite E5. reflexivity.
    + exists c', r0, q, r2, r3, r4, jb, (Processed true :: h1), x, a, y', (z :: b'). easy.
    + reflexivity.
    + unfold round_. cbn [app].
      eapply all_two_cons; [exact T0|exact E1|]. eapply all_two_cons; [exact T1|exact E2|]. eapply all_two_cons; [exact T1|exact E3|]. eapply all_two_cons; [exact T1|exact E4|]. eapply all_two_cons; [exact T1|exact E5|].
      apply all_two_nil. exact T1.
    + cbn [hist]. unfold processed_true in *. cbn [count_ev]. now rewrite P1.
Qed.

(** the rounds one after another *)
Fixpoint cnt_at (c : Z) (k : nat) : Z := match k with O => c | S k => u32 (u32 (cnt_at c k + 1) + 1) end.
Definition seg (c : Z) (k : nat) : list move := round_ (u32 (cnt_at c k + 1) mod 3 =? 0).
Lemma rounds_ok cap p : 2 < cap < 2^64 -> waiting2 cap p -> forall k, exists p',
  jrun p (concat (map (seg (counter p)) (seq 0 k))) = Some p' /\ waiting2 cap p' /\ counter p' = cnt_at (counter p) k /\
  all_two p (concat (map (seg (counter p)) (seq 0 k))) /\ processed_true (hist p') = (k + processed_true (hist p))%nat.
Proof.
  intros Hc H. assert (T : only_two p).
  { destruct H as (c & r0 & r1 & r2 & r3 & r4 & jb & h & x & a & y & b & -> & O & H). apply (two_of cap _ x a y b); [lia|exact H]. }
  induction k as [|k (p1 & E & W1 & C1 & A1 & P1)].
  - exists p. refine (conj eq_refl (conj H (conj eq_refl (conj _ eq_refl)))). now apply all_two_nil.
  - destruct (round_ok cap p1 Hc W1) as (p2 & E2 & W2 & C2 & A2 & P2). rewrite C1 in E2, A2, C2. fold (seg (counter p) k) in E2, A2.
    exists p2. rewrite seq_S, map_app, concat_app. cbn [map concat Nat.add]. rewrite app_nil_r, jrun_app, E. cbn [obind].
    refine (conj E2 (conj W2 (conj C2 (conj _ _)))); [now apply (all_two_app _ _ p1)|]. rewrite P2, P1. lia.
Qed.
