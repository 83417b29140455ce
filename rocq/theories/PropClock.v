(** C94: the arithmetic of the clocks and of zpl_sleep_ms on Linux. *)
From Coq Require Import Reals SpecFloat Psatz Lra.
From Flocq Require Import Core BinarySingleNaN.
From Verif Require Import Base Float FloatSpec FloatProofs FloatProofs4 Clock ClockProofs.
Local Open Scope Z_scope.

(** a reading of the clock in nanoseconds *)
Definition ns (t : Z * Z) : Z := fst t * 1000000000 + snd t.
Definition reading (t : Z * Z) : Prop := 0 <= fst t < 2 ^ 43 /\ 0 <= snd t < 1000000000.

Lemma ms_of sec nsec : 0 <= nsec < 1000000000 -> ns (sec, nsec) / 1000000 = 1000 * sec + nsec / 1000000.
Proof. intros N. unfold ns. cbn [fst snd]. replace (sec * 1000000000 + nsec) with (nsec + 1000 * sec * 1000000) by ring. rewrite Z.div_add by lia. lia. Qed.
Lemma ns_parts n : IZR n = (1000000 * IZR (n / 1000000) + IZR (n mod 1000000))%R /\ (0 <= IZR (n mod 1000000) <= 999999)%R.
Proof. pose proof (Z.div_mod n 1000000 ltac:(lia)) as D. pose proof (Z.mod_pos_bound n 1000000 ltac:(lia)) as M. split; [rewrite D at 1; rewrite plus_IZR, mult_IZR; reflexivity|split; apply IZR_le; lia]. Qed.

(** zpl_sleep_ms asks for exactly the time given. *)
Theorem C94_sleep (ms : Z) : 0 <= ms < 2 ^ 32 -> exists s n, sleep_ms ms = Some (s, n) /\ ns (s, n) = ms * 1000000 /\ 0 <= n < 1000000000.
Proof.
  intros H. exists (ms / 1000), (ms mod 1000 * 1000000). unfold sleep_ms. rewrite thousandth by lia. cbn [obind]. pose proof (Z.mod_pos_bound ms 1000 ltac:(lia)). rewrite millionfold by lia. cbn [obind]. pose proof (Z.div_mod ms 1000 ltac:(lia)). unfold ns. cbn [fst snd]. split; [reflexivity|]. lia.
Qed.
Example C94_sleep_ex : sleep_ms 4294967295 = Some (4294967, 295000000).
Proof. vm_compute. reflexivity. Qed.

(** ** The monotonic clock *)
(** Milliseconds since the clock started, without their fraction, or one more. *)
Theorem C94_gettime (t : Z * Z) : reading t -> exists r, gettime (fst t) (snd t) = Some r /\ ns t / 1000000 <= r <= ns t / 1000000 + 1.
Proof.
  destruct t as [sec nsec]. intros [S N]. cbn [fst snd] in *. destruct (gettime_spec sec nsec S N) as (z & E & Z & B). exists z. split; [exact E|]. rewrite ms_of by exact N.
  destruct (nano_bounds nsec N) as [[L U] P]. destruct (ns_parts nsec) as [D M]. set (k := nsec / 1000000) in *.
  assert (X1 : (IZR (1000 * sec + k) <= IZR (1000 * sec) + nano nsec)%R) by (rewrite plus_IZR; lra).
  assert (Y1 : (IZR (1000 * sec + k) <= rnd (IZR (1000 * sec) + nano nsec))%R) by (apply rnd_ge_int; [pose proof (Z.div_pos nsec 1000000); pose proof (Z.div_lt_upper_bound nsec 1000000 1000); unfold k; lia|exact X1]).
  assert (X2 : (IZR (1000 * sec) + nano nsec <= IZR (1000 * sec + k + 1))%R) by (rewrite !plus_IZR; lra).
  assert (Y2 : (rnd (IZR (1000 * sec) + nano nsec) <= IZR (1000 * sec + k + 1))%R).
  { rewrite <- (rnd_fmt (IZR (1000 * sec + k + 1))); [now apply rnd_mono|]. apply fmt_int. pose proof (Z.div_pos nsec 1000000). pose proof (Z.div_lt_upper_bound nsec 1000000 1000). unfold k. lia. }
  split.
  - assert (A : (IZR (1000 * sec + k) < IZR (z + 1))%R) by (rewrite (plus_IZR z 1); lra). apply lt_IZR in A. lia.
  - apply le_IZR. lra.
Qed.
(** Exact for the first 99 days. *)
Theorem C94_gettime_exact (t : Z * Z) : reading t -> fst t < 8589934 -> gettime (fst t) (snd t) = Some (ns t / 1000000).
Proof.
  intros R T. destruct (C94_gettime t R) as (r & E & L). rewrite E. f_equal. destruct t as [sec nsec]. destruct R as [S N]. cbn [fst snd] in *. destruct (gettime_spec sec nsec S N) as (z & E' & Z & B). rewrite E in E'. injection E' as <-.
  rewrite ms_of in * by exact N. destruct (nano_bounds nsec N) as [[_ U] P]. destruct (ns_parts nsec) as [D M]. set (k := nsec / 1000000) in *. destruct (gettime_real sec nsec S N) as [_ G]. pose proof (rnd_near _ G) as Q. apply Rabs_le_inv in Q. clear G.
  assert (T' : (IZR (1000 * sec) <= 8589933000)%R) by (apply IZR_le; lia).
  assert (K : (IZR r < IZR (1000 * sec + k + 1))%R) by (rewrite !plus_IZR; lra). apply lt_IZR in K. lia.
Qed.
(** Later it may be ahead of the clock, but by less than a microsecond for 278 years. *)
Theorem C94_gettime_ahead (t : Z * Z) (r : Z) : reading t -> fst t < 8796093000 -> gettime (fst t) (snd t) = Some r -> ns t - 1000000 < r * 1000000 < ns t + 1000.
Proof.
  intros R T E. destruct (C94_gettime t R) as (r' & E' & L). rewrite E in E'. injection E' as <-. split.
  - pose proof (Z.div_mod (ns t) 1000000 ltac:(lia)). pose proof (Z.mod_pos_bound (ns t) 1000000 ltac:(lia)). lia.
  - destruct t as [sec nsec]. destruct R as [S N]. cbn [fst snd] in *. destruct (gettime_spec sec nsec S N) as (z & E' & Z & B). rewrite E in E'. injection E' as <-.
    destruct (nano_bounds nsec N) as [[_ U] P]. destruct (gettime_real sec nsec S N) as [_ G]. pose proof (rnd_near _ G) as Q. apply Rabs_le_inv in Q. clear G. assert (T' : (IZR (1000 * sec) <= 8796092999000)%R) by (apply IZR_le; lia).
    apply lt_IZR. unfold ns. cbn [fst snd]. rewrite mult_IZR, !plus_IZR, mult_IZR. rewrite mult_IZR in *. lra.
Qed.
Theorem C94_gettime_refuted : exists t, reading t /\ gettime (fst t) (snd t) = Some (ns t / 1000000 + 1).
Proof. exists (31536000, 999999999). split; [unfold reading; cbn [fst snd]; lia|]. vm_compute. reflexivity. Qed.
(** It never goes back. *)
Theorem C94_gettime_mono (t t' : Z * Z) (r r' : Z) : reading t -> reading t' -> ns t <= ns t' ->
  gettime (fst t) (snd t) = Some r -> gettime (fst t') (snd t') = Some r' -> r <= r'.
Proof.
  destruct t as [s n], t' as [s' n']. intros [S N] [S' N'] L E E'. unfold ns in L. cbn [fst snd] in *. destruct (gettime_spec s n S N) as (z & G & Z & B). rewrite E in G. injection G as <-. destruct (gettime_spec s' n' S' N') as (z' & G' & Z' & B'). rewrite E' in G'. injection G' as <-.
  assert (M : (rnd (IZR (1000 * s) + nano n) <= rnd (IZR (1000 * s') + nano n'))%R).
  { apply rnd_mono. destruct (Z.eq_dec s s') as [<-|D].
    - pose proof (nano_mono n n' ltac:(lia)). lra.
    - destruct (nano_bounds n N) as [_ P]. destruct (nano_bounds n' N') as [_ P']. assert (D' : 1000 * s + 1000 <= 1000 * s') by lia. apply IZR_le in D'. rewrite plus_IZR in D'. lra. }
  assert (A : (IZR r < IZR (r' + 1))%R) by (rewrite plus_IZR; lra). apply lt_IZR in A. lia.
Qed.

(** zpl_time_rel_ms: the first call starts the count; the others give the time since then, to about a millisecond,
    and never less than before. *)
Theorem C94_rel (first now : Z * Z) : reading first -> reading now -> fst now < 8796093000 -> ns first <= ns now -> 1000000 <= ns first ->
  exists start r, time_rel_ms 0 first now = Some (start, r) /\ start <> 0 /\ Z.abs (r * 1000000 - (ns now - ns first)) < 1001000 /\
    forall now' unused r', reading now' -> ns now <= ns now' -> time_rel_ms start unused now' = Some (start, r') -> r <= r'.
Proof.
  intros R0 R1 T L M. assert (T0 : fst first < 8796093000). { destruct first as [s n], now as [s' n']. unfold reading, ns in *. cbn [fst snd] in *. lia. }
  destruct (C94_gettime first R0) as (s & E0 & B0). destruct (C94_gettime now R1) as (m & E1 & B1). exists s, (u64 (m - s)). unfold time_rel_ms. cbn [Z.eqb]. rewrite E0. cbn [obind]. rewrite E1. cbn [obind]. split; [reflexivity|].
  assert (S1 : 1 <= s). { assert (1 <= ns first / 1000000) by (apply Z.div_le_lower_bound; lia). lia. } split; [lia|].
  pose proof (C94_gettime_mono first now s m R0 R1 L E0 E1) as Mo. destruct (C94_gettime_ahead first s R0 T0 E0) as [A1 A2]. destruct (C94_gettime_ahead now m R1 T E1) as [A3 A4].
  assert (BM : forall t x, reading t -> gettime (fst t) (snd t) = Some x -> 0 <= x < 2 ^ 60) by (intros [a b] x [Ha Hb] E; cbn [fst snd] in *; destruct (gettime_spec a b Ha Hb) as (z & E' & Z & _); rewrite E in E'; injection E' as <-; exact Z).
  pose proof (BM _ _ R1 E1). unfold u64. rewrite Z.mod_small by lia. split; [lia|]. intros now' unused r' R2 L2 E2.
  destruct (Z.eqb_spec s 0); [lia|]. cbn [obind] in E2. destruct (gettime (fst now') (snd now')) as [m'|] eqn:E3; [|discriminate]. cbn [obind] in E2. injection E2 as <-. pose proof (BM _ _ R2 E3). pose proof (C94_gettime_mono now now' m m' R1 R2 L2 E1 E3). unfold u64. rewrite Z.mod_small by lia. lia.
Qed.
Example C94_rel_ex : time_rel_ms 0 (100, 0) (100, 0) = Some (100000, 0) /\ time_rel_ms 100000 (0, 0) (101, 500000000) = Some (100000, 1500).
Proof. vm_compute. split; reflexivity. Qed.
(** The count starts again as long as the start is in the first millisecond of the clock. *)
Theorem C94_rel_refuted : exists first later, reading first /\ reading later /\ ns first < ns later /\
  exists start, time_rel_ms 0 first first = Some (start, 0) /\ time_rel_ms start later later = Some (5000, 0).
Proof. exists (0, 999999), (5, 0). unfold reading, ns. cbn [fst snd]. split; [lia|]. split; [lia|]. split; [lia|]. exists 0. vm_compute. split; reflexivity. Qed.

(** ** The calendar *)
(** zpl_time_utc_ms: milliseconds since 1601, without their fraction, or one more; ahead by less than 4 microseconds until 2150. *)
Lemma utc_real sec nsec : 0 <= sec < 5947000000 -> 0 <= nsec < 1000000000 -> exists r, time_utc_ms sec nsec = Some r /\
  1000 * sec + nsec / 1000000 + epoch <= r /\ r * 1000000 < ns (sec, nsec) + epoch * 1000000 + 4000.
Proof.
  intros S N. destruct (nano_bounds nsec N) as [[L U] P]. unfold time_utc_ms. replace (u64 (u64 sec * 1000)) with (1000 * sec) by (unfold u64; rewrite (Z.mod_small sec) by lia; rewrite Z.mod_small by lia; lia).
  assert (B : (0 <= IZR (1000 * sec) <= 5947000000000)%R) by (split; apply IZR_le; lia).
  assert (R1 : is_real (fadd (f_of_int (1000 * sec)) (fmul (f_of_int nsec) f_1em6)) (rnd (IZR (1000 * sec) + nano nsec))).
  { apply fadd_real; [apply int_real; lia|now apply nano_real|]. apply small53. change (IZR (2 ^ 53)) with 9007199254740992%R. lra. }
  pose proof (rnd_near (IZR (1000 * sec) + nano nsec)) as Q. change (IZR (2 ^ 53)) with 9007199254740992%R in Q. specialize (Q ltac:(lra)). apply Rabs_le_inv in Q.
  assert (K : 0 <= nsec / 1000000 < 1000) by (split; [apply Z.div_pos; lia|apply Z.div_lt_upper_bound; lia]).
  assert (Y1 : (IZR (1000 * sec + nsec / 1000000) <= rnd (IZR (1000 * sec) + nano nsec))%R) by (apply rnd_ge_int; [lia|rewrite plus_IZR; lra]).
  set (s1 := rnd (IZR (1000 * sec) + nano nsec)) in *. assert (EP : IZR epoch = 11644473600000%R) by reflexivity.
  assert (N1 : (0 <= s1)%R) by (apply Rle_trans with (2 := Y1); apply IZR_le; lia).
  assert (R2 : is_real (fadd (fadd (f_of_int (1000 * sec)) (fmul (f_of_int nsec) f_1em6)) (f_of_int epoch)) (rnd (s1 + IZR epoch))).
  { apply fadd_real; [exact R1|apply int_real; unfold epoch; lia|]. apply small53. change (IZR (2 ^ 53)) with 9007199254740992%R. lra. }
  pose proof (rnd_near (s1 + IZR epoch)) as Q2. change (IZR (2 ^ 53)) with 9007199254740992%R in Q2. specialize (Q2 ltac:(lra)). apply Rabs_le_inv in Q2.
  assert (Y2 : (IZR (1000 * sec + nsec / 1000000 + epoch) <= rnd (s1 + IZR epoch))%R) by (apply rnd_ge_int; [unfold epoch; lia|rewrite plus_IZR; lra]).
  destruct (trunc_u64 _ _ R2) as (z & E & _ & Z & T); [split; [apply rnd_pos; lra|change (IZR (2 ^ 60)) with 1152921504606846976%R; lra]|]. exists z. split; [exact E|]. split.
  - assert (A : (IZR (1000 * sec + nsec / 1000000 + epoch) < IZR (z + 1))%R) by (rewrite (plus_IZR z 1); lra). apply lt_IZR in A. lia.
  - apply lt_IZR. unfold ns. cbn [fst snd]. rewrite mult_IZR, !plus_IZR, !mult_IZR, EP. rewrite (mult_IZR 1000 sec) in *. lra.
Qed.
Theorem C94_utc (t : Z * Z) : reading t -> fst t < 5947000000 -> exists r, time_utc_ms (fst t) (snd t) = Some r /\
  ns t + epoch * 1000000 - 1000000 < r * 1000000 < ns t + epoch * 1000000 + 4000 /\
  (r = ns t / 1000000 + epoch \/ r = ns t / 1000000 + epoch + 1).
Proof.
  destruct t as [sec nsec]. intros [S N] T. cbn [fst snd] in *. destruct (utc_real sec nsec ltac:(lia) N) as (r & E & L & U). exists r. split; [exact E|]. rewrite ms_of by exact N. unfold ns in *. cbn [fst snd] in *.
  pose proof (Z.div_mod nsec 1000000 ltac:(lia)). pose proof (Z.mod_pos_bound nsec 1000000 ltac:(lia)). lia.
Qed.
Theorem C94_utc_refuted : exists t, reading t /\ fst t < 5947000000 /\ time_utc_ms (fst t) (snd t) = Some (ns t / 1000000 + epoch + 1).
Proof. exists (1700000000, 999999999). split; [unfold reading; cbn [fst snd]; lia|]. split; [cbn [fst]; lia|]. vm_compute. reflexivity. Qed.
Example C94_utc_ex : time_utc_ms 1700000000 123456789 = Some (1700000000123 + epoch).
Proof. vm_compute. reflexivity. Qed.
(** zpl_time_tz_ms differs from zpl_time_utc_ms by the time zone and an hour in summer, if mktime undoes localtime. *)
Theorem C94_tz (isdst : Z -> Z) (tz sec nsec utc : Z) : 0 <= sec < 5947000000 -> 0 <= nsec < 1000000000 -> time_utc_ms sec nsec = Some utc ->
  let d := isdst ((utc - epoch) / 1000) in
  0 <= d <= 1 -> Z.abs tz < 86400 -> time_tz_ms (fun t => (t, isdst t)) tz sec nsec = Some (utc + (d * 3600 - tz) * 1000).
Proof.
  intros S N E d D T. destruct (utc_real sec nsec S N) as (r & E' & L & U). rewrite E in E'. injection E' as <-. unfold time_tz_ms. rewrite E. cbn [obind]. unfold ns in U. cbn [fst snd] in U. pose proof (Z.div_pos nsec 1000000 ltac:(lia) ltac:(lia)) as K. unfold epoch in *.
  replace (u64 (utc - 11644473600000)) with (utc - 11644473600000) by (unfold u64; rewrite Z.mod_small by lia; reflexivity). set (w := utc - 11644473600000) in *. assert (W : 0 <= w < 2 ^ 45) by (unfold w; lia).
  unfold f_to_u64. rewrite thousandth by exact W. cbn [obind]. pose proof (Z.div_pos w 1000 ltac:(lia) ltac:(lia)). pose proof (Z.div_lt_upper_bound w 1000 (2 ^ 45) ltac:(lia) ltac:(lia)).
  destruct (Z.leb_spec 0 (w / 1000)); [|lia]. destruct (Z.ltb_spec (w / 1000) (2 ^ 64)); [|lia]. cbn [andb obind]. fold d. f_equal.
  pose proof (Z.div_mod w 1000 ltac:(lia)). pose proof (Z.mod_pos_bound w 1000 ltac:(lia)). unfold u16. rewrite (Z.mod_small (w mod 1000)) by lia. unfold u64.
  rewrite (Z.mod_small (w / 1000)) by lia. rewrite (Zplus_mod_idemp_l (w / 1000 - tz)), Zmult_mod_idemp_l, <- (Z.add_assoc _ (w mod 1000)), Zplus_mod_idemp_l. rewrite Z.mod_small by lia. lia.
Qed.
Example C94_tz_ex : time_tz_ms (fun t => (t, 1)) (-3600) 1700000000 0 = Some (1700000000000 + epoch + 7200000).
Proof. vm_compute. reflexivity. Qed.
Theorem C94_conversions (ms : Z) : 0 <= ms < 2 ^ 64 -> win32_to_unix (unix_to_win32 ms) = ms /\ unix_to_win32 (win32_to_unix ms) = ms.
Proof.
  intros H. unfold win32_to_unix, unix_to_win32, u64. rewrite Zminus_mod_idemp_l, Zplus_mod_idemp_l. replace (ms + epoch - epoch) with ms by lia. replace (ms - epoch + epoch) with ms by lia. rewrite Z.mod_small by lia. auto.
Qed.

Print Assumptions C94_sleep. Print Assumptions C94_gettime. Print Assumptions C94_gettime_refuted. Print Assumptions C94_rel. Print Assumptions C94_utc. Print Assumptions C94_tz. Print Assumptions C94_conversions.
