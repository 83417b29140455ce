(** C45, C75: length-prefixed strings. *)
From Verif Require Import Base CStr CStrSpec CStrProofs Utf8 Utf8Spec StrLib StrLibSpec StrLibProofs.

(** one operation, with the allocator it finds *)
Definition step (new : allocator) (o : op) (s : zstring) : option (option zstring) :=
  match o with
  | OAppend t => append_length new s t (Z.of_nat (length t))
  | OAppendC t tl => appendc new s (t ++ 0 :: tl)
  | OAppendRune r => append_rune new s r
  | OSet t tl => set new s (t ++ 0 :: tl)
  | OSpace n => make_space_for new s n
  | OClear => r <- clear s ;; Some (Some r)
  | OTrim cut tl => r <- trim s (cut ++ 0 :: tl) ;; Some (Some r)
  end.
(** a history ends when an operation returns NULL *)
Fixpoint run (os : list (allocator * op)) (s : zstring) : option (option zstring) :=
  match os with
  | [] => Some (Some s)
  | (new, o) :: rest => r <- step new o s ;; match r with None => Some None | Some s => run rest s end
  end.

Lemma step_ok new o s c : sane new -> argument o -> holds s c ->
  (step new o s = Some None /\ exists n, 0 <= n /\ new n = None) \/ (exists t d, step new o s = Some (Some t) /\ holds t d /\ effect o c d).
Proof.
  intros Hn Ha Hs. assert (Hl : 0 <= slen s /\ 0 <= available_space s) by (destruct (avail s c Hs) as (? & ? & ? & ? & ?); lia).
  destruct o; cbn [step argument] in *.
  - pose proof (append_ok new s c t [] Hn Hs) as X. rewrite app_nil_r in X. destruct X as [(A & B & ->)|(r & -> & Hr)]; [left; split; [easy|]; eexists; split; [|exact B]; lia|right]. exists r, (c ++ t). repeat split; [easy|constructor].
  - destruct (appendc_ok new s c t tl Hn Hs Ha) as [(A & B & ->)|(r & -> & Hr)]; [left; split; [easy|]; eexists; split; [|exact B]; lia|right]. exists r, (c ++ t). repeat split; [easy|constructor].
  - apply rune_ok; easy.
  - destruct (set_ok new s c t tl Hn Hs Ha) as [(A & B & ->)|(r & -> & Hr)]; [left; split; [easy|]; eexists; split; [|exact B]; lia|right]. exists r, t. repeat split; [easy|constructor].
  - destruct (space_ok new s c n Hn Hs) as [(A & B & ->)|(r & -> & Hr & _)]; [left; split; [easy|]; eexists; split; [|exact B]; lia|right]. exists r, c. repeat split; [easy|constructor].
  - right. destruct (clear_ok s c Hs) as (r & -> & Hr). exists r, []. repeat split; [easy|constructor].
  - right. destruct (trim_done cut tl Ha s c Hs) as (r & t & -> & Hr & Ht). exists r, t. repeat split; [easy|now constructor].
Qed.

(** constructors *)
Theorem C45_make : forall new s x, sane new ->
  (make_length new (Some (s ++ x)) (Z.of_nat (length s)) = Some None /\ new (Z.of_nat (length s) + 1) = None) \/
  (exists t, make_length new (Some (s ++ x)) (Z.of_nat (length s)) = Some (Some t) /\ holds t s).
Proof. intros new s x Hn. destruct (make_length_ok new s x Hn) as [(A & B)|(t & A & B & _)]; eauto. Qed.
Theorem C45_make_cstring : forall new s x, sane new -> cstring s ->
  (make new (Some (s ++ 0 :: x)) = Some None /\ new (Z.of_nat (length s) + 1) = None) \/ (exists t, make new (Some (s ++ 0 :: x)) = Some (Some t) /\ holds t s).
Proof. intros new s x Hn Hs. unfold make. rewrite strlen_ok by easy. cbn [obind]. now apply C45_make. Qed.
Theorem C45_make_reserve : forall new cap, sane new -> 0 <= cap ->
  (make_reserve new cap = Some None /\ new (cap + 1) = None) \/ (exists t, make_reserve new cap = Some (Some t) /\ holds t [] /\ scap t = cap).
Proof. intros new cap Hn Hc. destruct (reserve_ok new cap Hn Hc) as [(A & B)|(t & A & B & C)]; eauto. Qed.
Theorem C45_duplicate : forall new s c, sane new -> holds s c ->
  (duplicate new s = Some None /\ new (slen s + 1) = None) \/ (exists t, duplicate new s = Some (Some t) /\ holds t c).
Proof. intros new s c Hn (rest & E & El & _). unfold duplicate. rewrite E, El. now apply C45_make. Qed.
(** every history: no undefined behaviour; either some allocation failed, or the
    contents, length, terminator and block size are those of the mathematical string *)
Theorem C45_history : forall os s c, Forall (fun p => sane (fst p) /\ argument (snd p)) os -> holds s c ->
  (run os s = Some None /\ exists new o n, In (new, o) os /\ 0 <= n /\ new n = None) \/
  (exists t d, run os s = Some (Some t) /\ holds t d /\ effects (map snd os) c d).
Proof.
  induction os as [|(new, o) os IH]; intros s c H Hs; cbn [run].
  - right. exists s, c. repeat split; [easy|constructor].
  - inversion H as [|? ? (Hn & Ha) H']; subst. cbn [fst snd] in *. destruct (step_ok new o s c Hn Ha Hs) as [(-> & n & Pn & N)|(t & d & -> & Ht & Hd)]; cbn [obind].
    + left. split; [easy|]. exists new, o, n. repeat split; try easy. now left.
    + destruct (IH t d H' Ht) as [(-> & new' & o' & n & I & Pn & N)|(t2 & d2 & -> & Ht2 & Hd2)].
      * left. split; [easy|]. exists new', o', n. repeat split; try easy. now right.
      * right. exists t2, d2. repeat split; [easy|]. cbn [map snd]. now apply effs_cons with d.
Qed.
(** so it never fails when the allocator does not *)
Theorem C45_history_total : forall os s c, Forall (fun p => sane (fst p) /\ (forall n, 0 <= n -> fst p n <> None) /\ argument (snd p)) os -> holds s c ->
  exists t d, run os s = Some (Some t) /\ holds t d /\ effects (map snd os) c d.
Proof.
  intros os s c H Hs. destruct (C45_history os s c) as [(_ & new & o & n & I & Pn & N)|X]; [|easy| |easy].
  - eapply Forall_impl; [|exact H]. cbn. tauto.
  - exfalso. rewrite Forall_forall in H. apply H in I as (_ & I & _). now apply (I n).
Qed.
(** trimming white space: the blanks are those of the C locale's isspace, and NUL *)
Theorem C45_trim_space : forall s c, holds s c ->
  exists r t, trim_space s = Some r /\ holds r t /\ trimmed (fun z => z = 0 \/ z = 32 \/ 9 <= z <= 13) c t.
Proof.
  intros s c H. destruct (trim_done [32; 9; 13; 10; 11; 12] [] ltac:(repeat constructor; easy) s c H) as (r & t & E & Hr & Ht).
  exists r, t. split; [exact E|]. split; [exact Hr|].
  assert (Eq : forall z, (z = 0 \/ In z [32; 9; 13; 10; 11; 12]) <-> (z = 0 \/ z = 32 \/ 9 <= z <= 13)) by (intros z; cbn; lia).
  destruct Ht as (a & b & E1 & A & B & F & L). exists a, b. split; [easy|]. split; [|split; [|split]].
  - apply (Forall_impl _ (fun z => proj1 (Eq z)) A).
  - apply (Forall_impl _ (fun z => proj1 (Eq z)) B).
  - intros z q Ez X. now apply (F z q Ez), Eq.
  - intros z q Ez X. now apply (L z q Ez), Eq.
Qed.
Example C45_trim_space_ex : trim_space (Str 5 5 [11; 97; 32; 98; 12; 0]) = Some (Str 3 5 [97; 32; 98; 0; 12; 0]).
Proof. reflexivity. Qed.
Theorem C45_join : forall new parts glue x, sane new -> (forall n, 0 <= n -> new n <> None) -> Forall cstring parts -> cstring glue ->
  exists t, join new (map (fun p => p ++ [0]) parts) (glue ++ 0 :: x) = Some (Some t) /\ holds t (joined parts glue).
Proof.
  intros new parts glue x Hn Hok Hp Hg. unfold join. destruct (make_null_ok new Hn) as [(E & _)|(s & -> & Hs & _)]; [apply Hok in E; [easy|lia]|]. cbn [obind].
  assert (G : forall parts, Forall cstring parts -> forall s c, holds s c -> exists t, join_loop new (Some s) (map (fun p => p ++ [0]) parts) (glue ++ 0 :: x) = Some (Some t) /\ holds t (c ++ joined parts glue)).
  { clear s Hs parts Hp. induction 1 as [|p rest Hp Hr IH]; intros s c Hs; cbn [map join_loop joined].
    - exists s. split; [easy|]. now rewrite app_nil_r.
    - cbn [appendc_null]. destruct (appendc_ok new s c p [] Hn Hs Hp) as [(_ & E & _)|(s1 & -> & H1)]; [apply Hok in E; [easy|destruct Hs as (? & ? & ? & ?); lia]|]. cbn [obind].
      destruct rest as [|p2 rest].
      + cbn [map obind join_loop]. eauto.
      + cbn [map]. cbn match. cbn [appendc_null]. destruct (appendc_ok new s1 (c ++ p) glue x Hn H1 Hg) as [(_ & E & _)|(s2 & -> & H2)]; [apply Hok in E; [easy|destruct H1 as (? & ? & ? & ?); lia]|]. cbn [obind].
        destruct (IH s2 ((c ++ p) ++ glue) H2) as (t & E & Ht). exists t. split; [exact E|]. rewrite <- !app_assoc in Ht. exact Ht. }
  exact (G parts Hp s [] Hs).
Qed.
Theorem C45_are_equal : forall s t c d, holds s c -> holds t d -> exists r, are_equal s t = Some r /\ (r = true <-> c = d).
Proof. exact equal_ok. Qed.
(** a tight allocator, and a history that grows twice, trims and sets *)
Definition heap : allocator := fun n => if n <? 0 then None else Some (repeat 170 (Z.to_nat n)).
Lemma heap_sane : sane heap.
Proof. intros n b. unfold heap. destruct (Z.ltb_spec n 0); [easy|]. intros [= <-]. rewrite repeat_length. lia. Qed.
Lemma heap_total n : 0 <= n -> heap n <> None.
Proof. intros H. unfold heap. destruct (Z.ltb_spec n 0); [lia|easy]. Qed.
Example C45_example :
  make heap (Some [32; 97; 0; 7]) = Some (Some (Str 2 2 [32; 97; 0])) /\
  run (map (fun o => (heap, o)) [OAppend [98; 0; 99]; OAppendRune 0x20AC; OTrim [32; 0xAC] []]) (Str 2 2 [32; 97; 0]) =
    Some (Some (Str 6 8 [97; 98; 0; 99; 0xE2; 0x82; 0; 0xAC; 0])) /\
  holds (Str 6 8 [97; 98; 0; 99; 0xE2; 0x82; 0; 0xAC; 0]) [97; 98; 0; 99; 0xE2; 0x82] /\
  join heap [[97; 0]; [98; 0]] [44; 32; 0] = Some (Some (Str 4 4 [97; 44; 32; 98; 0])).
Proof. split; [reflexivity|]. split; [reflexivity|]. split; [|reflexivity]. exists [0xAC; 0]. repeat split; reflexivity. Qed.

(** appending a string to itself is right exactly while nothing has to move: after a move the source is a released block *)
Theorem C75_append_self : forall new s c, sane new -> holds s c ->
  (slen s <= available_space s -> exists r, append_self new s = Some (Some r) /\ holds r (c ++ c)) /\
  (available_space s < slen s -> append_self new s = Some None \/ append_self new s = None).
Proof. intros new s c Hn Hs. split; [now apply self_ok|now apply (self_moved new s c)]. Qed.
Theorem C75_append_self_refuted : exists s, holds s [97] /\ append_self heap s = None.
Proof. exists (Str 1 1 [97; 0]). split; [exists []; repeat split; reflexivity|reflexivity]. Qed.
(** the reported size of the allocation misses the terminator *)
Theorem C75_allocation_size_refuted : forall s c, holds s c -> allocation_size s = Z.of_nat (length (sbuf s)) - 1.
Proof. intros s c (rest & E & El & Ec). unfold allocation_size. rewrite E, Ec, app_length. cbn [length]. lia. Qed.
(** joining goes on with NULL when an allocation fails *)
Theorem C75_join_refuted : exists new parts glue, sane new /\ Forall cstring parts /\ cstring glue /\
  join new (map (fun p => p ++ [0]) parts) (glue ++ [0]) = None.
Proof.
  exists (fun n => if n =? 1 then Some [0] else None), [[97]; [98]], [44]. repeat split; try (repeat constructor; lia).
  intros n b. destruct (Z.eqb_spec n 1) as [->|]; [|easy]. intros [= <-]. easy.
Qed.
Example C75_example : append_self heap (Str 1 2 [97; 0; 5]) = Some (Some (Str 2 2 [97; 97; 0])) /\ allocation_size (Str 1 2 [97; 0; 5]) = 2.
Proof. split; reflexivity. Qed.

Print Assumptions C45_make.
Print Assumptions C45_make_cstring.
Print Assumptions C45_make_reserve.
Print Assumptions C45_duplicate.
Print Assumptions C45_history.
Print Assumptions C45_history_total.
Print Assumptions C45_join.
Print Assumptions C45_are_equal.
Print Assumptions C75_append_self.
Print Assumptions C75_append_self_refuted.
Print Assumptions C75_allocation_size_refuted.
Print Assumptions C75_join_refuted.
Print Assumptions C45_trim_space.
