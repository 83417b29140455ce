(** C120: sockets. *)
From Coq Require Import Permutation.
From Verif Require Import Base Socket SocketSpec SocketProofs.
Open Scope list_scope.

(** ** zpl_socket_create gives a socket exactly if its first address can be opened and all that was asked for is allowed; it is then as asked for, has the smallest free number, and no other socket is touched *)
Theorem C120_create : forall w k protocol mode flags host, wf w k -> exists r k', socket_create w k protocol mode flags host = (r, k') /\ wf w k' /\ infos k' = infos k /\
  (r <> -1 <-> exists ai, opens w k host ai /\ allowed w mode flags ai) /\
  (forall ai, opens w k host ai -> allowed w mode flags ai -> next_fd w k r /\ open k' = (r, wanted w protocol mode flags ai) :: open k).
Proof.
  intros w k protocol mode flags host W. pose proof (create_cases w k protocol mode flags host) as C. pose proof (wf_create w k protocol mode flags host W) as W'. destruct (socket_create _ _ _ _ _ _) as (r, k'). cbn [snd] in W'. exists r, k'. split; [reflexivity|]. split; [exact W'|].
  destruct C as (I & C). split; [exact I|].
  assert (X : forall ai, opens w k host ai -> exists rest fd s, lookup w host = ai :: rest /\ lowest (open k) 0 (limit w) = Some fd /\ open k' = (fd, s) :: open k /\ (allowed w mode flags ai /\ r = fd /\ s = wanted w protocol mode flags ai \/ ~ allowed w mode flags ai /\ r = -1)).
  { intros ai ((rest & L) & M & R). apply room_lowest in R. destruct R as (fd & F). destruct C as [(L' & _)|[(ai' & rest' & L' & [M'|F'] & _)|(ai' & rest' & fd' & s & L' & _ & F' & E & P)]]; try congruence.
    rewrite L in L'. injection L' as <- <-. exists rest, fd', s. now repeat split. }
  split.
  - split.
    + intros N. destruct C as [(_ & -> & _)|[(ai & rest & _ & _ & -> & _)|(ai & rest & fd & s & L & M & F & E & [(A & _)|(_ & ->)])]]; try easy. exists ai. split; [|exact A]. split; [now exists rest|]. split; [exact M|]. apply room_lowest. now exists fd.
    + intros (ai & O & A). destruct (X ai O) as (rest & fd & s & _ & F & _ & [(_ & -> & _)|(N & _)]); [|contradiction]. apply lowest_some in F. lia.
  - intros ai O A. destruct (X ai O) as (rest & fd & s & _ & F & E & [(_ & -> & ->)|(N & _)]); [|contradiction]. split; [now apply lowest_next|exact E].
Qed.
(** ** If it fails after the descriptor was made, that descriptor stays open and its number is lost; otherwise failing leaves all as it was *)
Theorem C120_failure : forall w k protocol mode flags host k', wf w k -> socket_create w k protocol mode flags host = (-1, k') ->
  ((forall ai, ~ opens w k host ai) /\ open k' = open k \/
   exists ai fd s, opens w k host ai /\ ~ allowed w mode flags ai /\ next_fd w k fd /\ open k' = (fd, s) :: open k).
Proof.
  intros w k protocol mode flags host k' W E. pose proof (create_cases w k protocol mode flags host) as C. rewrite E in C. destruct C as (_ & [(L & _ & O)|[(ai & rest & L & D & _ & O)|(ai & rest & fd & s & L & M & F & O & [(_ & Z & _)|(N & _)])]]).
  - left. split; [|exact O]. intros ai ((rest & L') & _). congruence.
  - left. split; [|exact O]. intros ai' ((rest' & L') & M & R). rewrite L in L'. injection L' as <- <-. destruct D as [D|D]; [congruence|]. apply no_room in D. contradiction.
  - apply lowest_some in F. lia.
  - right. exists ai, fd, s. split; [|split; [exact N|split; [now apply lowest_next|exact O]]]. split; [now exists rest|]. split; [exact M|]. apply room_lowest. now exists fd.
Qed.
(** as many failures as there are descriptors, and no socket can be made or accepted any more *)
Theorem C120_leak_refuted : forall w k protocol mode flags host ai rest, wf w k -> lookup w host = ai :: rest -> may_open w (ai_family ai) = true -> ~ allowed w mode flags ai ->
  let again k := snd (socket_create w k protocol mode flags host) in
  let k' := Nat.iter (limit w) again k in
  forall protocol' mode' flags' host' fd from, fst (socket_create w k' protocol' mode' flags' host') = -1 /\ fst (socket_accept w k' fd from) = -1.
Proof.
  intros w k protocol mode flags host ai rest W L M N again k'.
  assert (G : forall n, wf w (Nat.iter n again k) /\ (Nat.min (limit w) (length (open k) + n) <= length (open (Nat.iter n again k)))%nat).
  { induction n as [|n (Wn & IH)]; [split; [exact W|cbn; lia]|]. cbn [Nat.iter nat_rect]. fold (Nat.iter n again k). set (kn := Nat.iter n again k) in *. clearbody kn. split; [now apply wf_create|].
    unfold again. pose proof (create_cases w kn protocol mode flags host) as C. destruct (socket_create _ _ _ _ _ _) as (r, k1). cbn [snd]. destruct C as (_ & [(L' & _)|[(ai' & rest' & L' & D & _ & O)|(ai' & rest' & fd & s & L' & _ & F & O & _)]]).
    - congruence.
    - rewrite L in L'. injection L' as <- <-. destruct D as [D|D]; [congruence|]. rewrite O. assert (limit w <= length (open kn))%nat; [|lia]. destruct (Nat.le_gt_cases (limit w) (length (open kn))) as [H|H]; [exact H|]. exfalso. clear - D H.
      pose proof (lowest_none _ _ _ D) as A. assert (incl (map Z.of_nat (seq 0 (limit w))) (map fst (open kn))) as Q. { intros x I. apply in_map_iff in I. destruct I as (m & <- & I). apply in_seq in I. apply A. lia. }
      apply NoDup_incl_length in Q; [rewrite !map_length, seq_length in Q; lia|]. apply FinFun.Injective_map_NoDup; [intros a b; lia|apply seq_NoDup].
    - rewrite O. cbn. lia. }
  destruct (G (limit w)) as (W' & Len). fold k' in W', Len. assert (R : ~ room w k') by (apply full; [exact W'|lia]). clearbody k'.
  intros protocol' mode' flags' host' fd from. split.
  - pose proof (create_cases w k' protocol' mode' flags' host') as C. destruct (socket_create _ _ _ _ _ _) as (r, k1). destruct C as (_ & [(_ & -> & _)|[(? & ? & _ & _ & -> & _)|(? & ? & fd' & ? & _ & _ & F & _)]]); [reflexivity|reflexivity|]. destruct R. apply room_lowest. now exists fd'.
  - unfold socket_accept. apply no_room in R. rewrite R. destruct (get _ _), from; reflexivity.
Qed.
(** only the first address is tried *)
Theorem C120_first_only_refuted : forall w k protocol flags host ai rest, wf w k -> lookup w host = ai :: rest -> may_connect w (ai_addr ai) = false -> has_flag flags NON_BLOCKING = false -> fst (socket_create w k protocol CONNECT flags host) = -1.
Proof.
  intros w k protocol flags host ai rest W L M N. destruct (C120_create w k protocol CONNECT flags host W) as (r & k' & E & _ & _ & Q & _). rewrite E. cbn [fst]. destruct (Z.eq_dec r (-1)) as [H|H]; [exact H|]. apply Q in H. destruct H as (ai' & ((rest' & L') & _) & _ & _ & A).
  rewrite L in L'. injection L' as <- <-. destruct (A eq_refl); congruence.
Qed.
(** ** Descriptors are those the program holds and those lost by failures. [lost] counts the failures of [C120_failure]'s second kind *)
Inductive run (w : world) (base : kernel) : kernel -> list Z -> nat -> Prop :=
| run_start : run w base base [] 0
| run_create k held n protocol mode flags host r k' : run w base k held n -> socket_create w k protocol mode flags host = (r, k') -> r <> -1 -> run w base k' (r :: held) n
| run_no_address k held n protocol mode flags host k' : run w base k held n -> socket_create w k protocol mode flags host = (-1, k') -> (forall ai, ~ opens w k host ai) -> run w base k' held n
| run_refused k held n protocol mode flags host ai k' : run w base k held n -> socket_create w k protocol mode flags host = (-1, k') -> opens w k host ai -> run w base k' held (S n)
| run_accept k held n fd from r k' : run w base k held n -> socket_accept w k fd from = (r, k') -> run w base k' (if r =? -1 then held else r :: held) n
| run_close k held n fd : run w base k held n -> In fd held -> run w base (socket_close k fd) (remove Z.eq_dec fd held) n.
Lemma remove_perm x (l m : list Z) : NoDup l -> Permutation l (x :: m) -> Permutation (remove Z.eq_dec x l) m.
Proof.
  intros N P. assert (NM : NoDup (x :: m)) by (eapply Permutation_NoDup; eauto). inversion NM as [|? ? NI NM']; subst. apply NoDup_Permutation; [|exact NM'|].
  - clear - N. induction N as [|y l NI N IH]; cbn; [constructor|]. destruct (Z.eq_dec x y); [exact IH|]. constructor; [|exact IH]. intros I. apply in_remove in I. tauto.
  - intros y. split.
    + intros I. apply in_remove in I. destruct I as [I Ny]. apply (Permutation_in _ P) in I. destruct I as [<-|I]; [easy|exact I].
    + intros I. apply in_in_remove; [intros ->; contradiction|]. apply (Permutation_in _ (Permutation_sym P)). now right.
Qed.
Theorem C120_balanced : forall w base k held n, wf w base -> run w base k held n ->
  wf w k /\ infos k = infos base /\ exists lost, length lost = n /\ Permutation (map fst (open k)) (held ++ lost ++ map fst (open base)).
Proof.
  intros w base k held n W R. induction R as [|k held n protocol mode flags host r k' R IH E N|k held n protocol mode flags host k' R IH E N|k held n protocol mode flags host ai k' R IH E O|k held n fd from r k' R IH E|k held n fd R IH I].
  - split; [exact W|]. split; [reflexivity|]. exists []. split; reflexivity.
  - destruct IH as (Wk & I & lost & L & P). destruct (C120_create w k protocol mode flags host Wk) as (r' & k1 & E' & W' & I' & Q & Q'). rewrite E in E'. injection E' as <- <-. apply Q in N. destruct N as (ai & O & A). destruct (Q' ai O A) as (_ & S). split; [exact W'|]. split; [congruence|]. exists lost. split; [exact L|]. rewrite S. cbn. now constructor.
  - destruct IH as (Wk & I & lost & L & P). destruct (C120_create w k protocol mode flags host Wk) as (r' & k1 & E' & W' & I' & _). rewrite E in E'. injection E' as <- <-. split; [exact W'|]. split; [congruence|]. exists lost. split; [exact L|].
    destruct (C120_failure _ _ _ _ _ _ _ Wk E) as [(_ & S)|(ai & fd & s & O & _)]; [now rewrite S|destruct (N ai O)].
  - destruct IH as (Wk & I & lost & L & P). destruct (C120_create w k protocol mode flags host Wk) as (r' & k1 & E' & W' & I' & _). rewrite E in E'. injection E' as <- <-. split; [exact W'|]. split; [congruence|].
    destruct (C120_failure _ _ _ _ _ _ _ Wk E) as [(N & _)|(ai' & fd & s & _ & _ & _ & S)]; [destruct (N ai O)|]. exists (fd :: lost). split; [cbn; congruence|]. rewrite S. cbn. eapply Permutation_trans; [constructor; exact P|]. apply Permutation_middle.
  - destruct IH as (Wk & I & lost & L & P). unfold socket_accept in E. destruct (get (open k) fd) as [s|]; [destruct from as [a|]; [destruct (lowest (open k) 0 (limit w)) as [new|] eqn:F|]|]; injection E as <- <-; try (split; [exact Wk|]; split; [exact I|]; now exists lost).
    assert (new =? -1 = false) as -> by (apply lowest_some in F; lia). split; [now apply wf_cons|]. split; [exact I|]. exists lost. split; [exact L|]. cbn. now constructor.
  - destruct IH as (Wk & J & lost & L & P). unfold socket_close, wf. cbn [open infos]. rewrite del_keys. destruct Wk as (D & Rk).
    apply in_split in I. destruct I as (a & b & ->). assert (P' : Permutation (map fst (open k)) (fd :: (a ++ b) ++ lost ++ map fst (open base))). { eapply Permutation_trans; [exact P|]. rewrite <- !app_assoc. apply Permutation_sym, Permutation_middle. }
    pose proof (remove_perm _ _ _ D P') as Q. assert (D' : NoDup (fd :: (a ++ b) ++ lost ++ map fst (open base))) by (eapply Permutation_NoDup; eauto).
    split; [split|].
    + eapply Permutation_NoDup; [apply Permutation_sym; exact Q|]. now inversion D'.
    + intros g G. apply in_remove in G. now apply Rk.
    + split; [exact J|]. exists lost. split; [exact L|]. assert (Nf : ~ In fd (a ++ b)) by (inversion D' as [|? ? H _]; subst; intros F; apply H, in_app_iff; now left). rewrite in_app_iff in Nf.
      rewrite remove_app. cbn [remove]. destruct (Z.eq_dec fd fd); [|easy]. rewrite (notin_remove Z.eq_dec a fd (fun H => Nf (or_introl H))), (notin_remove Z.eq_dec b fd (fun H => Nf (or_intror H))). exact Q.
Qed.
(** closing closes that descriptor and no other *)
Theorem C120_close : forall k fd g s, In (g, s) (open (socket_close k fd)) <-> In (g, s) (open k) /\ g <> fd.
Proof. intros k fd g s. unfold socket_close. cbn [open]. apply del_in. Qed.
(** a socket made by accepting is a new one, and what it was made from stays as it was *)
Theorem C120_accept : forall w k fd from r k', wf w k -> socket_accept w k fd from = (r, k') ->
  (r = -1 /\ k' = k /\ (~ is_open k fd \/ from = None \/ ~ room w k)) \/ (next_fd w k r /\ is_open k fd /\ exists s a, from = Some a /\ peer s = Some a /\ nonblocking s = false /\ open k' = (r, s) :: open k).
Proof.
  intros w k fd from r k' W E. unfold socket_accept in E. destruct (get (open k) fd) as [s|] eqn:G; [destruct from as [a|]; [destruct (lowest (open k) 0 (limit w)) as [new|] eqn:F|]|]; injection E as <- <-.
  - right. split; [now apply lowest_next|]. split; [destruct (in_dec Z.eq_dec fd (map fst (open k))) as [I|I]; [exact I|apply get_none in I; congruence]|]. eexists. exists a. now repeat split.
  - left. split; [reflexivity|]. split; [reflexivity|]. right. right. now apply no_room.
  - left. split; [reflexivity|]. split; [reflexivity|]. right. now left.
  - left. split; [reflexivity|]. split; [reflexivity|]. left. now apply get_none.
Qed.
(** ** Receiving: at most [size] bytes, the first ones waiting; a stream keeps the rest, of a datagram it is lost *)
Theorem C120_receive : forall k fd size s msg q, get (open k) fd = Some s -> waiting s = msg :: q -> 0 <= size -> exists got k', socket_receive k fd size = (Z.of_nat (length got), got, k') /\ Z.of_nat (length got) = Z.min size (Z.of_nat (length msg)) /\
  (exists rest s', msg = got ++ rest /\ get (open k') fd = Some s' /\ (kind s = SOCK_STREAM -> concat (waiting s') = rest ++ concat q) /\ (kind s <> SOCK_STREAM -> waiting s' = q)) /\
  forall g, g <> fd -> get (open k') g = get (open k) g.
Proof.
  intros k fd size s msg q G Wt Sz. unfold socket_receive, sys_recv. rewrite G, Wt. do 2 eexists. split; [reflexivity|]. split; [rewrite firstn_length; lia|].
  unfold change. rewrite G. cbn [open]. split; [|intros g N; apply get_put_other; congruence]. exists (skipn (Z.to_nat size) msg). eexists. split; [now rewrite firstn_skipn|]. split; [exact (get_put _ _ _ _ G)|]. cbn [set_waiting waiting]. unfold SOCK_STREAM. split; intros K.
  - rewrite K, Z.eqb_refl. cbn [andb]. destruct (skipn (Z.to_nat size) msg); reflexivity.
  - apply Z.eqb_neq in K. now rewrite K.
Qed.
(** zpl_socket_receive_from takes the message away and reports an error, zpl_socket_get_address always fails: both pass the number 128 as a pointer *)
Theorem C120_receive_from_refuted : forall k fd size, let '(r, got, k') := socket_receive k fd size in socket_receive_from false k fd size = (-1, got, k') /\ socket_get_address false k fd = -1.
Proof.
  intros k fd size. unfold socket_receive, socket_receive_from, socket_get_address. destruct (sys_recv k fd size) as ((r, got), k') eqn:E. split; [|now destruct (get (open k) fd)].
  destruct (0 <=? r) eqn:R; [reflexivity|]. cbn [andb]. unfold sys_recv in E. destruct (get (open k) fd) as [s|]; [destruct (waiting s)|]; [injection E as <- <- <-; reflexivity| |injection E as <- <- <-; reflexivity]. exfalso. apply (f_equal (fun x => fst (fst x))) in E. cbn [fst] in E. lia.
Qed.

(** host 1 has an IPv6 address that refuses connections and another that would not; host 2 accepts; there are three descriptors *)
Definition ex_world : world := World 3 (fun h => if h =? 1 then [Addrinfo 10 7; Addrinfo 2 8] else if h =? 2 then [Addrinfo 2 8] else []) (fun _ => true) (fun _ => true) true (fun a => a =? 8) true.
Definition ex_kernel : kernel := Kernel [(0, Sock 2 2 true false None false None [[1; 2; 3]; [4]])] 0.
Example C120_ex : wf ex_world ex_kernel /\ socket_create ex_world ex_kernel TCP CONNECT 2 2 = (1, Kernel [(1, Sock 2 1 true true None false (Some 8) []); (0, Sock 2 2 true false None false None [[1; 2; 3]; [4]])] 0) /\
  fst (socket_create ex_world ex_kernel TCP CONNECT 0 1) = -1 /\ length (open (snd (socket_create ex_world ex_kernel TCP CONNECT 0 1))) = 2%nat /\ fst (socket_create ex_world ex_kernel TCP CONNECT 1 1) = 1 /\
  fst (socket_create ex_world (snd (socket_create ex_world (snd (socket_create ex_world ex_kernel TCP CONNECT 0 1)) TCP CONNECT 0 1)) TCP CONNECT 0 2) = -1 /\
  fst (socket_receive ex_kernel 0 2) = (2, [1; 2]) /\ fst (socket_receive_from false ex_kernel 0 2) = (-1, [1; 2]) /\
  fst (socket_receive (snd (socket_receive_from false ex_kernel 0 2)) 0 2) = (1, [4]).
Proof. split; [split; [repeat constructor; cbn; tauto|intros fd [<-|[]]; cbn; lia]|]. repeat split; reflexivity. Qed.
Example C120_ex_refused : ~ allowed ex_world CONNECT 0 (Addrinfo 10 7).
Proof. intros (_ & _ & A). destruct (A eq_refl) as [H|H]; discriminate H. Qed.
Print Assumptions C120_create.
Print Assumptions C120_failure.
Print Assumptions C120_leak_refuted.
Print Assumptions C120_first_only_refuted.
Print Assumptions C120_balanced.
Print Assumptions C120_close.
Print Assumptions C120_accept.
Print Assumptions C120_receive.
Print Assumptions C120_receive_from_refuted.
