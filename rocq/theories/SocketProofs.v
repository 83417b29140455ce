(** Lemmas about sockets. *)
From Coq Require Import Permutation.
From Verif Require Import Base Socket SocketSpec.
Open Scope list_scope.

Lemma get_none l fd : get l fd = None <-> ~ In fd (map fst l).
Proof.
  induction l as [|(g, s) l IH]; cbn; [tauto|]. destruct (g =? fd) eqn:E.
  - apply Z.eqb_eq in E. split; [discriminate|]. intros N. destruct N. now left.
  - apply Z.eqb_neq in E. rewrite IH. tauto.
Qed.
Lemma lowest_some l : forall n fd r, lowest l fd n = Some r -> fd <= r < fd + Z.of_nat n /\ ~ In r (map fst l) /\ forall g, fd <= g < r -> In g (map fst l).
Proof.
  induction n as [|n IH]; intros fd r E; [discriminate|]. cbn in E. destruct (get l fd) as [s|] eqn:G.
  - apply IH in E. destruct E as (A & B & C). split; [lia|]. split; [exact B|]. intros g R. destruct (Z.eq_dec g fd) as [->|N]; [|apply C; lia].
    destruct (in_dec Z.eq_dec fd (map fst l)) as [I|I]; [exact I|]. apply get_none in I. congruence.
  - injection E as <-. split; [lia|]. split; [now apply get_none|]. intros g R. lia.
Qed.
Lemma lowest_none l : forall n fd, lowest l fd n = None -> forall g, fd <= g < fd + Z.of_nat n -> In g (map fst l).
Proof.
  induction n as [|n IH]; intros fd E g R; [lia|]. cbn in E. destruct (get l fd) as [s|] eqn:G; [|discriminate]. destruct (Z.eq_dec g fd) as [->|N]; [|apply (IH _ E); lia].
  destruct (in_dec Z.eq_dec fd (map fst l)) as [I|I]; [exact I|]. apply get_none in I. congruence.
Qed.
Lemma change_head fd s l i f : change (Kernel ((fd, s) :: l) i) fd f = Kernel ((fd, f s) :: l) i.
Proof. unfold change. cbn. rewrite Z.eqb_refl. reflexivity. Qed.
(** everything zpl_socket_create does *)
Lemma create_cases w k protocol mode flags host :
  let '(r, k') := socket_create w k protocol mode flags host in
  infos k' = infos k /\
  (lookup w host = [] /\ r = -1 /\ open k' = open k
   \/ (exists ai rest, lookup w host = ai :: rest /\ (may_open w (ai_family ai) = false \/ lowest (open k) 0 (limit w) = None) /\ r = -1 /\ open k' = open k)
   \/ exists ai rest fd s, lookup w host = ai :: rest /\ may_open w (ai_family ai) = true /\ lowest (open k) 0 (limit w) = Some fd /\ open k' = (fd, s) :: open k /\
      (allowed w mode flags ai /\ r = fd /\ s = wanted w protocol mode flags ai \/ ~ allowed w mode flags ai /\ r = -1)).
Proof.
  unfold socket_create. destruct (lookup w host) as [|ai rest] eqn:L; [split; [reflexivity|]; left; repeat split; reflexivity|].
  unfold sys_socket. cbn [open infos]. destruct (may_open w (ai_family ai)) eqn:O; [|cbn; split; [lia|]; right; left; exists ai, rest; repeat split; now left].
  destruct (lowest (open k) 0 (limit w)) as [fd|] eqn:F; [|cbn; split; [lia|]; right; left; exists ai, rest; repeat split; now right].
  assert (Nf : fd =? -1 = false) by (apply lowest_some in F; lia). rewrite Nf.
  set (l := open k). clearbody l. set (i := infos k). clearbody i.
  set (s0 := Sock (ai_family ai) (if protocol =? UDP then SOCK_DGRAM else SOCK_STREAM) true false None false None []).
  assert (E1 : (if ai_family ai =? AF_INET6 then if may_set w then change (Kernel ((fd, s0) :: l) (i + 1)) fd (set_v6only false) else Kernel ((fd, s0) :: l) (i + 1) else Kernel ((fd, s0) :: l) (i + 1)) =
     Kernel ((fd, Sock (ai_family ai) (if protocol =? UDP then SOCK_DGRAM else SOCK_STREAM) (negb ((ai_family ai =? AF_INET6) && may_set w)) false None false None []) :: l) (i + 1)).
  { destruct (ai_family ai =? AF_INET6), (may_set w); try rewrite change_head; reflexivity. }
  rewrite E1. clear E1 s0. set (v6 := negb ((ai_family ai =? AF_INET6) && may_set w)).
  set (s1 := Sock (ai_family ai) _ v6 _ _ _ _ _).
  assert (E2 : (if protocol =? TCP then if may_set w then change (Kernel ((fd, s1) :: l) (i + 1)) fd (set_nodelay (negb (Z.land flags NO_DELAY =? 0))) else Kernel ((fd, s1) :: l) (i + 1) else Kernel ((fd, s1) :: l) (i + 1)) =
     Kernel ((fd, Sock (ai_family ai) (if protocol =? UDP then SOCK_DGRAM else SOCK_STREAM) v6 ((protocol =? TCP) && may_set w && has_flag flags NO_DELAY) None false None []) :: l) (i + 1)).
  { unfold has_flag. destruct (protocol =? TCP), (may_set w); try rewrite change_head; reflexivity. }
  rewrite E2. clear E2 s1. set (nd := (protocol =? TCP) && may_set w && has_flag flags NO_DELAY).
  unfold allowed, wanted. fold v6 nd. change (negb (Z.land flags NON_BLOCKING =? 0)) with (has_flag flags NON_BLOCKING). unfold BIND, CONNECT.
  destruct (mode =? 0) eqn:MB; [destruct (may_bind w (ai_addr ai)) eqn:B|]; cbv iota beta; cbn [negb];
    [rewrite change_head| |]; (destruct (mode =? 1) eqn:MC; [first [lia|destruct (may_connect w (ai_addr ai)) eqn:C]|]);
    destruct (has_flag flags NON_BLOCKING) eqn:NB; try (destruct (may_unblock w) eqn:U); cbv iota beta; cbn [negb]; rewrite ?change_head; cbn [freeaddrinfo open infos andb];
    (split; [lia|]); right; right; exists ai, rest, fd; eexists; (split; [reflexivity|]); (split; [first [exact O|reflexivity]|]); (split; [first [exact F|reflexivity]|]); (split; [reflexivity|]);
    try rewrite B; try rewrite C; solve [left; split; [repeat split; intros; try congruence; try lia; auto|split; [reflexivity|reflexivity]] | right; split; [intros (A1 & A2 & A3); try (discriminate (A1 ltac:(lia))); try (discriminate (A2 ltac:(reflexivity))); destruct (A3 ltac:(lia)); congruence|reflexivity]].
Qed.
Lemma room_lowest w k : room w k <-> exists fd, lowest (open k) 0 (limit w) = Some fd.
Proof.
  split.
  - intros (fd & R & N). destruct (lowest (open k) 0 (limit w)) as [g|] eqn:E; [now exists g|]. destruct N. apply (lowest_none _ _ _ E). lia.
  - intros (fd & E). apply lowest_some in E. exists fd. split; [lia|apply E].
Qed.
Lemma lowest_next w k fd : lowest (open k) 0 (limit w) = Some fd -> next_fd w k fd.
Proof. intros E. apply lowest_some in E. destruct E as (A & B & C). split; [lia|]. now split. Qed.
Lemma no_room w k : ~ room w k <-> lowest (open k) 0 (limit w) = None.
Proof.
  rewrite room_lowest. destruct (lowest (open k) 0 (limit w)) as [fd|]; split; [intros H; destruct H; now exists fd|discriminate|reflexivity|intros _ (fd & H); discriminate].
Qed.
Lemma wf_cons w k fd s i : wf w k -> lowest (open k) 0 (limit w) = Some fd -> wf w (Kernel ((fd, s) :: open k) i).
Proof.
  intros (D & R) E. apply lowest_some in E. destruct E as (A & B & _). split; cbn; [now constructor|]. intros g [<-|I]; [lia|now apply R].
Qed.
Lemma wf_create w k protocol mode flags host : wf w k -> wf w (snd (socket_create w k protocol mode flags host)).
Proof.
  intros W. pose proof (create_cases w k protocol mode flags host) as C. destruct (socket_create _ _ _ _ _ _) as (r, k'). cbn [snd]. destruct C as (_ & [(_ & _ & E)|[(ai & rest & _ & _ & _ & E)|(ai & rest & fd & s & _ & _ & F & E & _)]]).
  - unfold wf. now rewrite E.
  - unfold wf. now rewrite E.
  - pose proof (wf_cons w k fd s 0 W F) as W'. unfold wf in *. rewrite E. exact W'.
Qed.
(** below the limit there are only so many *)
Lemma bounded w k : wf w k -> (length (open k) <= limit w)%nat.
Proof.
  intros (D & R). rewrite <- (map_length fst). replace (limit w) with (length (map Z.of_nat (seq 0 (limit w)))) by now rewrite map_length, seq_length.
  apply NoDup_incl_length; [exact D|]. intros fd I. specialize (R fd I). apply in_map_iff. exists (Z.to_nat fd). split; [lia|]. apply in_seq. lia.
Qed.
Lemma full w k : wf w k -> (limit w <= length (open k))%nat -> ~ room w k.
Proof.
  intros W L (fd & R & N). pose proof (bounded w (Kernel ((fd, Sock 0 0 false false None false None []) :: open k) 0)) as B. cbn in B.
  assert (wf w (Kernel ((fd, Sock 0 0 false false None false None []) :: open k) 0)) as W'. { destruct W as (D & Rk). split; cbn; [now constructor|]. intros g [<-|I]; [exact R|now apply Rk]. }
  specialize (B W'). lia.
Qed.
Lemma del_in l fd p : In p (del l fd) <-> In p l /\ fst p <> fd.
Proof. unfold del. rewrite filter_In, negb_true_iff, Z.eqb_neq. tauto. Qed.
Lemma del_keys l fd : map fst (del l fd) = remove Z.eq_dec fd (map fst l).
Proof.
  induction l as [|(g, s) l IH]; [reflexivity|]. unfold del in *. cbn [filter fst map remove]. destruct (Z.eq_dec fd g) as [->|N].
  - rewrite Z.eqb_refl. cbn [negb]. exact IH.
  - apply not_eq_sym, Z.eqb_neq in N. rewrite N. cbn [negb map fst]. now rewrite IH.
Qed.
Lemma change_keys k fd f : map fst (open (change k fd f)) = map fst (open k).
Proof.
  unfold change. destruct (get (open k) fd) as [s|]; [|reflexivity]. cbn [open]. generalize (f s) as t. clear s. intros t. induction (open k) as [|(g, s) l IH]; [reflexivity|]. cbn. destruct (g =? fd); [reflexivity|]. cbn. now rewrite IH.
Qed.
Lemma get_put l fd s t : get l fd = Some s -> get (put l fd t) fd = Some t.
Proof.
  induction l as [|(g, u) l IH]; [discriminate|]. cbn. destruct (g =? fd) eqn:E; cbn; rewrite E; [reflexivity|exact IH].
Qed.
Lemma get_put_other l fd g t : fd <> g -> get (put l fd t) g = get l g.
Proof.
  intros N. induction l as [|(h, u) l IH]; [reflexivity|]. cbn. destruct (h =? fd) eqn:E; cbn; destruct (h =? g) eqn:G; try reflexivity; [lia|exact IH].
Qed.
