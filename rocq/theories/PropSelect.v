(** C121: waiting for sockets. *)
From Coq Require Import Reals SpecFloat Psatz Lra.
From Flocq Require Import Core BinarySingleNaN.
From Verif Require Import Base Float FloatSpec FloatProofs FloatProofs4 Clock ClockProofs FloatFun FloatFunProofs Select SelectProofs.
Local Open Scope R_scope.

(** ** The time handed to select(2): whole seconds and microseconds, cut off, up to a billionth of a microsecond *)
Theorem C121_time : forall x r, is_real x r -> 0 <= r < IZR (2 ^ 63) -> exists s u, timeval x = Some (s, u) /\ (0 <= s /\ 0 <= u < 1000000)%Z /\ IZR s <= r < IZR s + 1 /\
  IZR u - / 1000000000 <= (r - IZR s) * 1000000 < IZR u + 1.
Proof.
  intros x r X B. pose proof (IZR_lt 0 (2 ^ 63) eq_refl) as P63. rewrite (timeval_real x r X ltac:(lra)). do 2 eexists. split; [reflexivity|]. pose proof (fraction_fmt r (real_fmt _ _ X)) as F.
  rewrite Ztrunc_floor in F |- * by lra. pose proof (Zfloor_lb r) as L. pose proof (Zfloor_ub r) as U. set (s := Zfloor r) in *. assert (S0 : (0 <= s)%Z) by (apply Zfloor_lub; lra).
  pose proof (micro_lt _ F ltac:(lra)) as M. rewrite Ztrunc_floor by lra. pose proof (Zfloor_lb (rnd ((r - IZR s) * 1000000))) as L'. pose proof (Zfloor_ub (rnd ((r - IZR s) * 1000000))) as U'. set (u := Zfloor (rnd _)) in *.
  assert (U0 : (0 <= u)%Z) by (apply Zfloor_lub; lra). assert (U1 : (u < 1000000)%Z) by (apply lt_IZR; lra). split; [lia|]. split; [lra|]. split.
  - assert (N := rnd_near ((r - IZR s) * 1000000)). assert (IZR (2 ^ 53) = 9007199254740992) as K by reflexivity. rewrite K in N. specialize (N ltac:(lra)). apply Rabs_le_inv in N. lra.
  - destruct (Rlt_or_le ((r - IZR s) * 1000000) (IZR u + 1)) as [H|H]; [exact H|exfalso]. rewrite <- plus_IZR in H. apply rnd_ge_int in H; [|lia]. rewrite plus_IZR in H. lra.
Qed.
(** times of a microsecond and more below zero are an error; shorter ones do not wait *)
Theorem C121_negative : forall x r state nfds fds, is_real x r -> - IZR (2 ^ 63) <= r < 0 -> (0 <= nfds)%Z -> exists tv, timeval x = Some tv /\
  (r <= - / 1000000 -> sys_select state nfds fds tv = (-1)%Z) /\ (- / 1000000 < r -> rnd (r * 1000000) <> -1 -> tv = (0, 0)%Z).
Proof.
  intros x r state nfds fds X B Nf. pose proof (IZR_lt 0 (2 ^ 63) eq_refl) as P63. rewrite (timeval_real x r X ltac:(lra)). eexists. split; [reflexivity|]. split.
  - intros H. unfold sys_select. cbn [fst snd]. destruct (Rle_or_lt r (-1)) as [R1|R1].
    + assert (Ztrunc r <? 0 = true)%Z as ->; [|now rewrite orb_true_r]. rewrite Ztrunc_ceil by lra. apply Z.ltb_lt. apply Z.le_lt_trans with (-1)%Z; [|lia]. apply Zceil_glb. exact R1.
    + assert (Ztrunc r = 0%Z) as ->. { rewrite Ztrunc_ceil by lra. apply Zceil_imp. cbn. lra. } rewrite Rminus_0_r.
      assert (V : rnd (r * 1000000) <= -1). { rewrite <- (rnd_fmt (-1)) by (apply (fmt_int (-1)); lia). apply rnd_mono. lra. }
      assert (Ztrunc (rnd (r * 1000000)) <? 0 = true)%Z as ->; [|now rewrite !orb_true_r]. rewrite Ztrunc_ceil by lra. apply Z.ltb_lt. apply Z.le_lt_trans with (-1)%Z; [|lia]. apply Zceil_glb. exact V.
  - intros H N. assert (Ztrunc r = 0%Z) as ->. { rewrite Ztrunc_ceil by lra. apply Zceil_imp. cbn. lra. } rewrite Rminus_0_r. f_equal.
    assert (V : -1 <= rnd (r * 1000000)). { rewrite <- (rnd_fmt (-1)) by (apply (fmt_int (-1)); lia). apply rnd_mono. lra. } assert (W : rnd (r * 1000000) <= 0). { rewrite <- rnd_0. apply rnd_mono. lra. }
    rewrite Ztrunc_ceil by exact W. apply Zceil_imp. cbn. lra.
Qed.
Local Open Scope Z_scope.
(** times that do not fit into a long, infinities and NaN are undefined behaviour *)
Theorem C121_undefined : forall x state fd l n, (is_finite_SF x = false \/ exists r, is_real x r /\ (IZR (2 ^ 63) <= r)%R) -> socket_select state fd x = None /\ socket_multi_select state l n x = None.
Proof.
  intros x state fd l n H. assert (T : timeval x = None).
  { unfold timeval, f_to_i64. destruct H as [H|(r & X & H)]; [destruct x; try discriminate H; reflexivity|]. rewrite (trunc_real x r X). cbn [obind]. assert (2 ^ 63 <= Ztrunc r). { rewrite Ztrunc_floor by (eapply Rle_trans; [|exact H]; apply IZR_le; lia). apply Zfloor_lub. exact H. }
    destruct (Z.ltb_spec (Ztrunc r) (2 ^ 63)); [lia|]. rewrite andb_false_r. reflexivity. }
  split.
  - unfold socket_select. rewrite T. destruct (if -1 <? fd then fd_set [] fd else Some []); reflexivity.
  - unfold socket_multi_select. rewrite T. destruct (multi_loop _ _ _) as [[? ?]|]; reflexivity.
Qed.
(** ** zpl_socket_select: 1 if the socket can be read within the time, 0 if not, -1 if it is not open; a socket of -1 waits for nothing *)
Theorem C121_select : forall state fd x tv, timeval x = Some tv -> 0 <= fst tv -> 0 <= snd tv ->
  (0 <= fd < 1024 -> socket_select state fd x = Some (match state fd with Some true => 1 | Some false => 0 | None => -1 end)) /\
  (fd = -1 -> socket_select state fd x = Some 0) /\ (fd < -1 -> socket_select state fd x = Some (-1)) /\ (1024 <= fd -> socket_select state fd x = None).
Proof.
  intros state fd x tv T A B. unfold socket_select. rewrite T. apply Z.ltb_ge in A, B. repeat split; intros H.
  - rewrite (proj2 (Z.ltb_lt (-1) fd)) by lia. unfold fd_set, FD_SETSIZE. rewrite (proj2 (Z.leb_le 0 fd)), (proj2 (Z.ltb_lt fd 1024)) by lia. cbn [andb obind in_dec]. unfold sys_select. rewrite A, B, (proj2 (Z.ltb_ge (fd + 1) 0)) by lia. cbn [orb in_dec list_rec list_rect filter]. cbn [filter]. rewrite (proj2 (Z.ltb_lt fd (fd + 1))) by lia. cbn [existsb filter]. destruct (state fd) as [[|]|]; reflexivity.
  - subst fd. cbn [Z.ltb Z.compare obind]. unfold sys_select. rewrite A, B. reflexivity.
  - rewrite (proj2 (Z.ltb_ge (-1) fd)) by lia. cbn [obind]. unfold sys_select. rewrite (proj2 (Z.ltb_lt (fd + 1) 0)) by lia. reflexivity.
  - rewrite (proj2 (Z.ltb_lt (-1) fd)) by lia. unfold fd_set, FD_SETSIZE. rewrite (proj2 (Z.ltb_ge fd 1024)) by lia. rewrite andb_false_r. reflexivity.
Qed.
(** ** zpl_socket_multi_select: how many different ones of the sockets can be read; negative ones are skipped *)
Theorem C121_multi : forall state sockets count x tv, let l := firstn (Z.to_nat count) sockets in timeval x = Some tv -> 0 <= fst tv -> 0 <= snd tv ->
  ((exists fd, In fd l /\ 1024 <= fd) -> socket_multi_select state sockets count x = None) /\
  ((forall fd, In fd l -> fd < 1024) ->
    ((exists fd, In fd l /\ 0 <= fd /\ state fd = None) -> socket_multi_select state sockets count x = Some (-1)) /\
    ((forall fd, In fd l -> 0 <= fd -> state fd <> None) -> exists ready, NoDup ready /\ (forall fd, In fd ready <-> In fd l /\ 0 <= fd /\ state fd = Some true) /\ socket_multi_select state sockets count x = Some (Z.of_nat (length ready)))).
Proof.
  intros state sockets count x tv l T A B. unfold socket_multi_select. fold l. rewrite T. apply Z.ltb_ge in A, B. split.
  - intros (fd & I & H). destruct (multi_loop l (-1) []) as [[m fds]|] eqn:E; [|reflexivity]. apply multi_loop_ok in E. destruct E as (E & _). specialize (E fd I). lia.
  - intros Lt. destruct (multi_loop_some l (-1) [] Lt) as ((m, fds) & E). rewrite E. cbn [obind]. apply multi_loop_ok in E. destruct E as (_ & N & I & M & Mx & _). specialize (N (NoDup_nil _)).
    assert (Q : forall g, In g (filter (fun fd => fd <? m + 1) fds) <-> In g l /\ 0 <= g). { intros g. rewrite filter_In, I, Z.ltb_lt. cbn. split; [tauto|]. intros [H H']. specialize (Mx g H). split; [now right|lia]. }
    unfold sys_select. rewrite A, B, (proj2 (Z.ltb_ge (m + 1) 0)) by lia. cbn [orb]. split.
    + intros (fd & H & P & Z). assert (existsb (fun fd => match state fd with Some _ => false | None => true end) (filter (fun fd => fd <? m + 1) fds) = true) as ->; [|reflexivity]. apply existsb_exists. exists fd. rewrite Q, Z. auto.
    + intros H. assert (existsb (fun fd => match state fd with Some _ => false | None => true end) (filter (fun fd => fd <? m + 1) fds) = false) as ->. { apply Bool.not_true_is_false. intros H'. apply existsb_exists in H'. destruct H' as (fd & J & K). apply Q in J. destruct J as [J P]. specialize (H fd J P). destruct (state fd); [discriminate|contradiction]. }
      eexists. split; [|split; [|reflexivity]].
      * do 2 apply NoDup_filter. exact N.
      * intros fd. rewrite filter_In, Q. destruct (state fd) as [[|]|]; intuition congruence.
Qed.
(** one socket: the same as zpl_socket_select, but not if it is below -1 *)
Theorem C121_one : forall state fd x tv, timeval x = Some tv -> 0 <= fst tv -> 0 <= snd tv -> -1 <= fd -> socket_multi_select state [fd] 1 x = socket_select state fd x.
Proof.
  intros state fd x tv T A B P. unfold socket_multi_select, socket_select. rewrite T. change (firstn (Z.to_nat 1) [fd]) with [fd]. cbn [multi_loop]. destruct (-1 <? fd) eqn:Q.
  - destruct (fd_set [] fd); reflexivity.
  - assert (fd = -1) by lia. subst fd. reflexivity.
Qed.
Theorem C121_below_refuted : forall state fd x tv, timeval x = Some tv -> 0 <= fst tv -> 0 <= snd tv -> fd < -1 -> socket_multi_select state [fd] 1 x = Some 0 /\ socket_select state fd x = Some (-1).
Proof.
  intros state fd x tv T A B P. split; [|now apply (C121_select state fd x tv T A B)]. unfold socket_multi_select. rewrite T. change (firstn (Z.to_nat 1) [fd]) with [fd]. cbn [multi_loop]. rewrite (proj2 (Z.ltb_ge (-1) fd)) by lia. cbn [obind multi_loop].
  apply Z.ltb_ge in A, B. unfold sys_select. rewrite A, B. reflexivity.
Qed.
(** which socket is ready is not told *)
Theorem C121_which_refuted : exists state state', state 3 <> state' 3 /\ state 4 <> state' 4 /\ forall x, socket_multi_select state [3; 4] 2 x = socket_multi_select state' [3; 4] 2 x.
Proof.
  exists (fun fd => Some (fd =? 3)), (fun fd => Some (fd =? 4)). split; [discriminate|]. split; [discriminate|]. intros x. unfold socket_multi_select. change (firstn (Z.to_nat 2) [3; 4]) with [3; 4]. cbn -[sys_select timeval]. destruct (timeval x) as [tv|]; [|reflexivity]. cbn [obind]. unfold sys_select. destruct ((_ <? 0) || (fst tv <? 0) || (snd tv <? 0))%bool; reflexivity.
Qed.

(** a second and a half, a quarter below zero; 3 can be read, 4 not, 5 is closed *)
Definition ex_state (fd : Z) : option bool := if fd =? 3 then Some true else if fd =? 4 then Some false else None.
Example C121_ex : let x := fdiv (f_of_int 3) (f_of_int 2) in timeval x = Some (1, 500000) /\ timeval (fdiv (f_of_int (-1)) (f_of_int 4)) = Some (0, -250000) /\
  socket_select ex_state 3 x = Some 1 /\ socket_select ex_state 4 x = Some 0 /\ socket_select ex_state 5 x = Some (-1) /\ socket_select ex_state 3 (f_of_int (-1)) = Some (-1) /\
  socket_multi_select ex_state [4; -7; 3; 3; 5] 4 x = Some 1 /\ socket_multi_select ex_state [4; -7; 3; 3; 5] 5 x = Some (-1) /\ socket_multi_select ex_state [2000] 1 x = None.
Proof. repeat split; vm_compute; reflexivity. Qed.
Example C121_ex_real : is_real (f_of_int 7) 7.
Proof. apply int_real. lia. Qed.
Print Assumptions C121_time.
Print Assumptions C121_negative.
Print Assumptions C121_undefined.
Print Assumptions C121_select.
Print Assumptions C121_multi.
Print Assumptions C121_one.
Print Assumptions C121_below_refuted.
Print Assumptions C121_which_refuted.
