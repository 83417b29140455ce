(** Final statements: memory routines (C04-C08). Success ([Some]) includes memory
    safety: nothing outside the regions named in the hypotheses needs to be
    accessible. *)
From Verif Require Import Base Mem MemSpec MemProofs MemProofs2 MemProofs3.

(** A memory holding exactly the bytes [l] from address [a] on; used in examples. *)
Definition mem_of (a : Z) (l : list Z) : mem :=
  fun x => if x <? a then None else nth_error l (Z.to_nat (x - a)).
Definition show (r : option mem) (a : Z) (n : nat) : option (list Z) :=
  match r with Some m => load_range m a n | None => None end.

(** C04 *)
Theorem C04_memset : forall m p c n, p <> 0 -> byte c -> 0 <= n ->
  (forall x, p <= x < p + n -> m x <> None) ->
  exists m', memset m p c n = Some (m', p) /\ is_fill m p c n m'.
Proof. exact memset_correct. Qed.
Theorem C04_memset_null : forall m c n, memset m 0 c n = Some (m, 0).
Proof. reflexivity. Qed.
Example C04_ex : show (option_map fst (memset (mem_of 1001 (repeat 7 45)) 1002 255 43)) 1001 45
  = Some (7 :: repeat 255 43 ++ [7]).
Proof. vm_compute. reflexivity. Qed.

(** C05 *)
Theorem C05_memmove : forall m d s n, d <> 0 -> 0 <= n -> accessible m d n -> accessible m s n ->
  exists m', memmove m d s n = Some (m', d) /\ is_copy m d s n m'.
Proof. exact memmove_correct. Qed.
Theorem C05_memcopy : forall m d s n, d <> 0 -> 0 <= n -> disjoint_ranges d s n ->
  accessible m d n -> accessible m s n -> exists m', memcopy m d s n = Some (m', d) /\ is_copy m d s n m'.
Proof. exact memcopy_correct. Qed.
Theorem C05_memmove_null : forall m s n, memmove m 0 s n = Some (m, 0).
Proof. reflexivity. Qed.
Theorem C05_memcopy_null : forall m s n, memcopy m 0 s n = Some (m, 0).
Proof. reflexivity. Qed.
(** memcopy of overlapping regions is undefined, memmove is not *)
Theorem C05_memcopy_overlap_refuted : forall m d s n, d <> 0 -> 0 < n -> d < s + n -> s < d + n -> memcopy m d s n = None.
Proof.
  intros m d s n D N A B. unfold memcopy. destruct (Z.eqb_spec d 0); [easy|]. destruct (Z.ltb_spec n 0); [lia|]. destruct (Z.eqb_spec n 0); [lia|]. destruct (Z.leb_spec (s + n) d); [lia|]. destruct (Z.leb_spec (d + n) s); [lia|]. reflexivity.
Qed.
Definition up_to (n : nat) : list Z := map Z.of_nat (seq 0 n).
Example C05_ex_down : show (option_map fst (memmove (mem_of 1000 (up_to 40)) 1003 1011 20)) 1000 40
  = Some (up_to 3 ++ map (fun x => x + 8) (map Z.of_nat (seq 3 20)) ++ map Z.of_nat (seq 23 17)).
Proof. vm_compute. reflexivity. Qed.
Example C05_ex_up : show (option_map fst (memmove (mem_of 1000 (up_to 40)) 1008 1000 30)) 1000 40
  = Some (up_to 8 ++ up_to 30 ++ [38; 39]).
Proof. vm_compute. reflexivity. Qed.

(** C06 *)
Theorem C06_memswap : forall m i j n, 0 < i -> 0 < j -> 0 <= n -> disjoint_ranges i j n ->
  accessible m i n -> accessible m j n -> exists m', memswap m i j n = Some m' /\ is_swap m i j n m'.
Proof. exact memswap_correct. Qed.
Theorem C06_memswap_same : forall m i n, memswap m i i n = Some m.
Proof. intros. unfold memswap. rewrite Z.eqb_refl. reflexivity. Qed.
(** Disjointness is needed: overlapping 3-byte regions are not exchanged. *)
Theorem C06_memswap_overlap_refuted : exists m i j n m', 0 < i /\ 0 < j /\ 0 <= n /\
  accessible m i n /\ accessible m j n /\ memswap m i j n = Some m' /\
  exists k, 0 <= k < n /\ m' (j + k) <> m (i + k).
Proof.
  exists (mem_of 1000 (up_to 10)), 1000, 1001, 3.
  eexists. split; [lia|]. split; [lia|]. split; [lia|].
  assert (A: forall a, 1000 <= a <= 1001 -> accessible (mem_of 1000 (up_to 10)) a 3).
  { intros a Ha x Hx. assert (x = 1000 \/ x = 1001 \/ x = 1002 \/ x = 1003) by lia.
    unfold byte. destruct H as [->|[->|[->| ->]]]; eexists; (split; [reflexivity|lia]). }
  split; [exact (A 1000 ltac:(lia))|]. split; [exact (A 1001 ltac:(lia))|]. split; [vm_compute; reflexivity|].
  exists 0. split; [lia|]. clear A. vm_compute. discriminate.
Qed.
Example C06_ex : show (memswap (mem_of 1000 (up_to 200)) 1000 1100 100) 1000 200
  = Some (map (fun x => x + 100) (up_to 100) ++ up_to 100).
Proof. vm_compute. reflexivity. Qed.

(** C07 *)
Theorem C07_memchr : forall m p c n, byte c -> 0 <= n -> accessible m p n ->
  exists r, memchr m p c n = Some r /\ first_at m p n c r.
Proof. exact memchr_correct. Qed.
Theorem C07_memrchr : forall m p c n, 0 <= n -> accessible m p n ->
  exists r, memrchr m p c n = Some r /\ last_at m p n c r.
Proof. exact memrchr_correct. Qed.
(** The word trick itself is exact on all 2^64 words. *)
Theorem C07_has_zero : forall x, 0 <= x < 2^64 ->
  (has_zero x = true <-> exists i, 0 <= i < 8 /\ BitsSpec.byte_at x i = 0).
Proof. exact has_zero_correct. Qed.
Example C07_ex1 : memchr (mem_of 1001 (up_to 40)) 1001 33 40 = Some (Some 1034).
Proof. vm_compute. reflexivity. Qed.
Example C07_ex2 : memchr (mem_of 1001 (up_to 40)) 1001 77 40 = Some None.
Proof. vm_compute. reflexivity. Qed.
Example C07_ex3 : memrchr (mem_of 1001 (up_to 10 ++ up_to 10)) 1001 3 20 = Some (Some 1014).
Proof. vm_compute. reflexivity. Qed.

(** C08 *)
Theorem C08_memcompare : forall m a b n, a <> 0 -> b <> 0 -> 0 <= n -> accessible m a n -> accessible m b n ->
  exists r, memcompare m a b n = Some r /\ lex_result m a b n r /\ -256 < r < 256.
Proof. exact memcompare_correct. Qed.
Theorem C08_memcompare_null : forall m a n, memcompare m 0 a n = Some 0 /\ memcompare m a 0 n = Some 0.
Proof. intros. split; [reflexivity|]. unfold memcompare. rewrite Z.eqb_refl, orb_true_r. reflexivity. Qed.
Example C08_ex : memcompare (mem_of 1000 [1;2;200;9;1;2;3;9]) 1000 1004 4 = Some 197.
Proof. vm_compute. reflexivity. Qed.

Print Assumptions C04_memset.
Print Assumptions C05_memmove.
Print Assumptions C05_memcopy.
Print Assumptions C05_memcopy_null.
Print Assumptions C05_memcopy_overlap_refuted.
Print Assumptions C06_memswap.
Print Assumptions C07_memchr.
Print Assumptions C07_memrchr.
Print Assumptions C08_memcompare.
