(** C119: full names of paths. *)
From Verif Require Import Base Mem MemSpec MemProofs Alloc AllocProofs2 Nested FullName FullNameSpec.
Open Scope list_scope.

Lemma strlen_ok m : forall s a fuel, text s -> text_at m a s -> (length s < fuel)%nat -> mem_strlen fuel m a = Some (Z.of_nat (length s)).
Proof.
  induction s as [|c s IH]; intros a fuel T (B & E) L; (destruct fuel; [cbn in L; lia|]); cbn [mem_strlen]; unfold load8.
  - cbn in E. rewrite Z.add_0_r in E. now rewrite E.
  - assert (m a = Some c) as ->. { rewrite <- (Z.add_0_r a). apply (B 0%nat). cbn. lia. } cbn [obind].
    pose proof (T c (or_introl eq_refl)). destruct (c =? 0) eqn:C; [lia|]. rewrite (IH (a + 1) fuel).
    + cbn [obind length]. f_equal. lia.
    + intros x I. apply T. now right.
    + split.
      * intros i Hi. replace (a + 1 + Z.of_nat i) with (a + Z.of_nat (S i)) by lia. apply (B (S i)). cbn. lia.
      * replace (a + 1 + Z.of_nat (length s)) with (a + Z.of_nat (length (c :: s))) by (cbn [length]; lia). exact E.
    + cbn in L. lia.
Qed.
Lemma text_accessible m a s : text s -> text_at m a s -> accessible m a (Z.of_nat (length s)).
Proof.
  intros T (B & _) x R. specialize (B (Z.to_nat (x - a)) ltac:(lia)). replace (a + Z.of_nat (Z.to_nat (x - a))) with x in B by lia. eexists. split; [exact B|].
  pose proof (T _ (nth_In s 0 (n := Z.to_nat (x - a)) ltac:(lia))). unfold byte. lia.
Qed.

(** ** The result is a copy of the full path, or of the path itself if the file does not exist, in a block of the allocator; nothing else changes but what freeing realpath's block with that allocator does *)
Theorem C119_copy : forall St (A : allocator St) fuel m st path real s m1 st1 p, let src := if real =? 0 then path else real in let n := Z.of_nat (length s) in
  text s -> text_at m src s -> (length s < fuel)%nat -> al_alloc A m st (n + 1) 16 = Some (m1, st1, p) -> p <> 0 -> accessible m1 p (n + 1) -> text_at m1 src s -> apart p src (n + 1) ->
  exists m2, text_at m2 p s /\ (forall x, ~ p <= x < p + n + 1 -> m2 x = m1 x) /\
  path_get_full_name A fuel m st path real =
    if real =? 0 then Some (m2, st1, p) else match al_free A m2 st1 real with Some (m3, st3) => Some (m3, st3, p) | None => None end.
Proof.
  intros St A fuel m st path real s m1 st1 p src n T X L Al Np Ac X1 Ap. assert (Hn : n = Z.of_nat (length s)) by reflexivity. fold n in Ac, Ap.
  assert (Ap' : accessible m1 p n) by (intros x R; apply Ac; lia).
  destruct (memmove_correct m1 p src n Np ltac:(lia) Ap' (text_accessible _ _ _ T X1)) as (m2 & M & C & K).
  assert (E2 : m2 (p + n) <> None). { rewrite K by lia. destruct (Ac (p + n) ltac:(lia)) as (b & -> & _). discriminate. }
  destruct (store8 m2 (p + n) 0) as [m3|] eqn:E3; [|unfold store8 in E3; destruct (m2 (p + n)); [discriminate|contradiction]].
  assert (V : forall x, m3 x = if x =? p + n then Some 0 else m2 x). { intros x. unfold store8 in E3. destruct (m2 (p + n)); [|discriminate]. injection E3 as <-. reflexivity. }
  exists m3. split; [|split].
  - split.
    + intros i Hi. rewrite V. destruct (p + Z.of_nat i =? p + n) eqn:Q; [lia|]. rewrite C by lia. now apply (proj1 X1).
    + rewrite V. fold n. now rewrite Z.eqb_refl.
  - intros x R. rewrite V. destruct (x =? p + n) eqn:Q; [lia|]. apply K. lia.
  - unfold path_get_full_name. fold src. rewrite (strlen_ok m s src fuel T X L). cbn [obind]. fold n. unfold zpl_alloc, DEFAULT_ALIGNMENT. rewrite Al. cbn [obind]. rewrite M. cbn [obind]. rewrite E3. cbn [obind]. unfold zpl_free. destruct (real =? 0); [reflexivity|]. destruct (al_free A m3 st1 real) as [[m4 st4]|]; reflexivity.
Qed.
(** without memory the byte at address [len] is written *)
Theorem C119_no_memory : forall St (A : allocator St) fuel m st path real s m1 st1, let src := if real =? 0 then path else real in let n := Z.of_nat (length s) in
  text s -> text_at m src s -> (length s < fuel)%nat -> al_alloc A m st (n + 1) 16 = Some (m1, st1, 0) -> m1 n = None -> path_get_full_name A fuel m st path real = None.
Proof.
  intros St A fuel m st path real s m1 st1 src n T X L Al N. unfold path_get_full_name. fold src. rewrite (strlen_ok m s src fuel T X L). cbn [obind]. fold n. unfold zpl_alloc, DEFAULT_ALIGNMENT. rewrite Al. cbn [obind].
  unfold memmove. rewrite Z.eqb_refl. cbn [obind]. unfold store8. rewrite Z.add_0_l, N. reflexivity.
Qed.
(** an arena frees nothing: the block of realpath is left as it was, and nobody will give it back to malloc *)
Theorem C119_arena_refuted : forall fuel m a path real s m1 a1 p, let n := Z.of_nat (length s) in
  real <> 0 -> text s -> text_at m real s -> (length s < fuel)%nat -> arena_alloc true m a (n + 1) 16 = Some (m1, a1, p) -> p <> 0 -> accessible m1 p (n + 1) -> text_at m1 real s -> apart p real (n + 1) ->
  exists m2, path_get_full_name arena_allocator fuel m a path real = Some (m2, a1, p) /\ text_at m2 p s /\ text_at m2 real s.
Proof.
  intros fuel m a path real s m1 a1 p n Nr T X L Al Np Ac X1 Ap. assert (Hn : n = Z.of_nat (length s)) by reflexivity. apply Z.eqb_neq in Nr.
  pose proof (C119_copy arena arena_allocator fuel m a path real s m1 a1 p) as H. cbv zeta in H. rewrite Nr in H. destruct (H T X L Al Np Ac X1 Ap) as (m2 & Y & K & E). exists m2. split; [exact E|]. split; [exact Y|].
  unfold apart in Ap. split; [intros i Hi|]; rewrite K by lia; [now apply (proj1 X1)|apply (proj2 X1)].
Qed.
(** a pool takes realpath's block for one of its own: it is overwritten and is the next block handed out *)
Theorem C119_pool_refuted : forall fuel m o path real s m1 o1 p, let n := Z.of_nat (length s) in
  real <> 0 -> text s -> text_at m real s -> (length s < fuel)%nat -> pool_alloc true m o (n + 1) 16 = Some (m1, o1, p) -> p <> 0 -> accessible m1 p (n + 1) -> text_at m1 real s -> apart p real (n + 1) ->
  0 <= po_free_list o1 < 2^64 -> (forall x, real <= x < real + 8 -> m1 x <> None) ->
  exists m3 o3, path_get_full_name pool_allocator fuel m o path real = Some (m3, o3, p) /\ po_free_list o3 = real /\ po_total o3 = po_total o /\
  loadn m3 real 8 = Some (po_free_list o1) /\ forall m4 o4 q, pool_alloc true m3 o3 (n + 1) 16 = Some (m4, o4, q) -> q = real.
Proof.
  intros fuel m o path real s m1 o1 p n Nr T X L Al Np Ac X1 Ap Fr Wr. assert (Hn : n = Z.of_nat (length s)) by reflexivity. pose proof Nr as Nr'. apply Z.eqb_neq in Nr'.
  pose proof (C119_copy pool pool_allocator fuel m o path real s m1 o1 p) as H. cbv zeta in H. rewrite Nr' in H. destruct (H T X L Al Np Ac X1 Ap) as (m2 & Y & K & E). clear H.
  assert (Wr2 : forall x, real <= x < real + 8 -> m2 x <> None).
  { intros x R. fold n in K, Y. destruct (Z_lt_dec x p) as [Q|Q]; [rewrite K by lia; now apply Wr|]. destruct (Z_le_dec (p + n + 1) x) as [Q'|Q']; [rewrite K by lia; now apply Wr|].
    destruct Y as (Y & Y'). fold n in Y'. destruct (Z.eq_dec x (p + n)) as [->|Q'']; [rewrite Y'; discriminate|]. specialize (Y (Z.to_nat (x - p)) ltac:(lia)). replace (p + Z.of_nat (Z.to_nat (x - p))) with x in Y by lia. rewrite Y. discriminate. }
  destruct (storen8_ok m2 real (po_free_list o1) Fr Wr2) as (m3 & S3 & S4). cbn in E. unfold pool_free in E. rewrite Nr', S3 in E. cbn [obind] in E.
  exists m3. eexists. split; [exact E|]. cbn [po_free_list po_total po_block_size]. split; [reflexivity|].
  unfold pool_alloc in Al. destruct (negb _); [discriminate|]. destruct (negb _); [discriminate|]. destruct (po_free_list o =? 0); [discriminate|]. destruct (loadn m _ 8); [|discriminate]. cbn [obind] in Al. destruct (zero_if _ _ _ _); [|discriminate]. cbn [obind] in Al. injection Al as <- <- <-.
  split; [cbn; lia|]. split; [apply S4|]. intros m4 o4 q. unfold pool_alloc. cbn [po_free_list po_total po_block_size po_block_align].
  destruct (negb _); [discriminate|]. destruct (negb _); [discriminate|]. destruct (real =? 0); [discriminate|]. destruct (loadn _ _ 8); [|discriminate]. cbn [obind]. destruct (zero_if _ _ _ _); [|discriminate]. cbn [obind]. intros Q. injection Q as _ _ <-. reflexivity.
Qed.
(** realpath's block at 200 holds /a, an arena of 64 bytes at 64; the path "b" at 300 does not exist *)
Definition fn_mem : mem := fun x => if x =? 200 then Some 47 else if x =? 201 then Some 97 else if x =? 300 then Some 98 else if ((64 <=? x) && (x <? 128)) || ((200 <=? x) && (x <? 216)) || ((300 <=? x) && (x <? 302)) then Some 0 else None.
Definition fn_pool : mem * pool := match pool_init_align fn_mem 64 2 3 16 with Some r => r | None => (fn_mem, mkPool 0 0 0 0 0 0) end.
Example C119_ex :
  option_map (fun '(m, a, p) => (p, load_range m p 3, load_range m 200 3, ar_allocated a)) (path_get_full_name arena_allocator 9 fn_mem (arena_init 64 64) 300 200) = Some (64, Some [47; 97; 0], Some [47; 97; 0], 16) /\
  option_map (fun '(m, a, p) => (p, load_range m p 2)) (path_get_full_name arena_allocator 9 fn_mem (arena_init 64 64) 300 0) = Some (64, Some [98; 0]) /\
  option_map (fun '(m, o, p) => (p, load_range m p 3, po_free_list o, loadn m 200 8)) (path_get_full_name pool_allocator 9 (fst fn_pool) (snd fn_pool) 300 200) = Some (64, Some [47; 97; 0], 200, Some 83) /\
  path_get_full_name arena_allocator 9 fn_mem (arena_init 64 8) 300 200 = None.
Proof. repeat split; vm_compute; reflexivity. Qed.
(** the hypotheses of [C119_arena_refuted] hold there *)
Example C119_ex_hyps : text [47; 97] /\ text_at fn_mem 200 [47; 97] /\ exists m1 a1, arena_alloc true fn_mem (arena_init 64 64) 3 16 = Some (m1, a1, 64) /\ accessible m1 64 3 /\ text_at m1 200 [47; 97] /\ apart 64 200 3.
Proof.
  assert (T : forall m, m 200 = Some 47 -> m 201 = Some 97 -> m 202 = Some 0 -> text_at m 200 [47; 97]) by (intros m ? ? ?; split; [|assumption]; intros [|[|i]] Hi; [assumption|assumption|cbn in Hi; lia]).
  split; [intros c [<-|[<-|[]]]; lia|]. split; [apply T; reflexivity|].
  destruct (arena_alloc true fn_mem (arena_init 64 64) 3 16) as [[[m1 a1] q]|] eqn:E; [|vm_compute in E; discriminate].
  assert (Q : option_map (fun '(m, a, p) => (p, map m [64; 65; 66; 200; 201; 202])) (arena_alloc true fn_mem (arena_init 64 64) 3 16) = Some (64, [Some 0; Some 0; Some 0; Some 47; Some 97; Some 0])) by (vm_compute; reflexivity).
  rewrite E in Q. cbn [option_map map] in Q. injection Q as -> Q1 Q2 Q3 Q4 Q5 Q6. exists m1, a1. split; [reflexivity|]. split; [|split; [now apply T|left; lia]].
  intros x R. exists 0. split; [|unfold byte; lia]. assert (x = 64 \/ x = 65 \/ x = 66) as [->|[->| ->]] by lia; assumption.
Qed.
Print Assumptions C119_copy.
Print Assumptions C119_no_memory.
Print Assumptions C119_arena_refuted.
Print Assumptions C119_pool_refuted.
