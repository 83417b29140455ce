(** C108, C109: environment variables and commands. *)
From Verif Require Import Base CStr CStrSpec CStrProofs StrLib StrLibSpec StrLibProofs PropStrLib Env.

(** ** C108 *)
Inductive change := Set_ (n v : list Z) | Unset (n : list Z).
Definition apply_change (e : environment) (c : change) : environment := match c with Set_ n v => set_env e n v | Unset n => unset_env e n end.
(** a name that an environment can have *)
Definition proper (n : list Z) : Prop := n <> [] /\ ~ In 61 n.
(** the value that the last change of n leaves, of the changes in order *)
Fixpoint latest (n : list Z) (before : option (list Z)) (cs : list change) : option (list Z) :=
  match cs with
  | [] => before
  | Set_ m v :: r => latest n (if list_eq_dec Z.eq_dec m n then Some v else before) r
  | Unset m :: r => latest n (if list_eq_dec Z.eq_dec m n then None else before) r
  end.
Lemma name_eqb_spec a b : reflect (a = b) (name_eqb a b).
Proof. unfold name_eqb. destruct (list_eq_dec Z.eq_dec a b); now constructor. Qed.
Lemma valid_proper n : valid_name n = true <-> proper n.
Proof.
  unfold valid_name, proper. rewrite andb_true_iff, !negb_true_iff. destruct (name_eqb_spec n []) as [E|E].
  - split; [intros [H _]; discriminate|intros [H _]; now destruct H].
  - split; intros [_ H]; (split; [easy||reflexivity|]).
    + intros I. assert (existsb (Z.eqb 61) n = true) by (apply existsb_exists; exists 61; now split). congruence.
    + destruct (existsb (Z.eqb 61) n) eqn:X; [|reflexivity]. apply existsb_exists in X. destruct X as (x & I & X). apply Z.eqb_eq in X. subst. now destruct H.
Qed.
Lemma getenv_replace e n v m : getenv (replace e n v) m = if list_eq_dec Z.eq_dec n m then Some v else getenv e m.
Proof.
  unfold getenv. induction e as [|[k w] e IH]; cbn [replace find].
  - cbn [fst]. destruct (name_eqb_spec n m), (list_eq_dec Z.eq_dec n m); easy.
  - destruct (name_eqb_spec k n) as [->|K]; cbn [find fst].
    + destruct (name_eqb_spec n m), (list_eq_dec Z.eq_dec n m); easy.
    + destruct (name_eqb_spec k m) as [->|K']; [destruct (list_eq_dec Z.eq_dec n m); [now subst|reflexivity]|exact IH].
Qed.
Lemma getenv_filter e n m : getenv (filter (fun p => negb (name_eqb (fst p) n)) e) m = if list_eq_dec Z.eq_dec n m then None else getenv e m.
Proof.
  unfold getenv. induction e as [|[k w] e IH]; cbn [filter find]; [now destruct (list_eq_dec Z.eq_dec n m)|]. cbn [fst]. destruct (name_eqb_spec k n) as [->|K]; cbn [negb find fst].
  - rewrite IH. destruct (list_eq_dec Z.eq_dec n m), (name_eqb_spec n m); easy.
  - destruct (name_eqb_spec k m) as [->|K']; [destruct (list_eq_dec Z.eq_dec n m); [now subst|reflexivity]|exact IH].
Qed.
Definition name_of (c : change) : list Z := match c with Set_ n _ | Unset n => n end.
(** After any history the environment holds for each name what the last change left. *)
Theorem C108_history (e : environment) (cs : list change) (n : list Z) : Forall (fun c => proper (name_of c)) cs ->
  get_env_buf (fold_left apply_change cs e) n = option_map (fun v => v ++ [0]) (latest n (getenv e n) cs).
Proof.
  intros H. unfold get_env_buf. assert (E : getenv (fold_left apply_change cs e) n = latest n (getenv e n) cs).
  { revert e. induction H as [|c cs P H IH]; intros e; [reflexivity|]. cbn [fold_left]. rewrite IH. apply valid_proper in P. destruct c as [m v|m]; cbn [apply_change latest name_of] in *; unfold set_env, setenv, unset_env, unsetenv; rewrite P; [now rewrite getenv_replace|now rewrite getenv_filter]. }
  rewrite E. now destruct (latest n (getenv e n) cs).
Qed.
(** Changes with other names are silently ignored. *)
Theorem C108_improper (e : environment) (c : change) : ~ proper (name_of c) -> apply_change e c = e.
Proof.
  intros P. destruct (valid_name (name_of c)) eqn:V; [now apply valid_proper in V|]. destruct c; cbn [name_of apply_change] in *; unfold set_env, setenv, unset_env, unsetenv; now rewrite V.
Qed.
(** zpl_get_env copies the value with its terminator; zpl_get_env_str makes a string of it; both give NULL for what is not there. *)
Theorem C108_copies (new : allocator) (e : environment) (n : list Z) : sane new -> (forall k, 0 <= k -> new k <> None) -> Forall (fun p => cstring (snd p)) e ->
  match getenv e n with
  | None => get_env new e n = Some None /\ get_env_str new e n = Some None
  | Some v => get_env new e n = Some (Some (v ++ [0])) /\ exists t, get_env_str new e n = Some (Some t) /\ holds t v
  end.
Proof.
  intros S N F. unfold get_env, get_env_str, get_env_buf, getenv. destruct (find (fun p => name_eqb (fst p) n) e) as [p|] eqn:E; [|now split]. apply find_some in E. destruct E as [I _]. pose proof (proj1 (Forall_forall _ _) F p I) as C. cbn beta in C. split.
  - rewrite strlen_ok by exact C. cbn [obind]. destruct (new (Z.of_nat (length (snd p)) + 1)) as [b|] eqn:B; [|destruct (N (Z.of_nat (length (snd p)) + 1)); [lia|exact B]]. pose proof (S _ _ B) as L.
    pose proof (blit_ok (length (snd p) + 1) (snd p ++ [0]) [] b [] []) as W. rewrite !app_nil_r in W. cbn [app length] in W. rewrite W; [reflexivity|rewrite app_length; reflexivity|lia].
  - destruct (C45_make_cstring new (snd p) [] S C) as [[_ X]|X]; [destruct (N (Z.of_nat (length (snd p)) + 1)); [lia|exact X]|exact X].
Qed.
(** Without memory zpl_get_env writes to NULL; zpl_get_env_str gives NULL. *)
Theorem C108_no_memory_refuted (new : allocator) (e : environment) (n v : list Z) : getenv e n = Some v -> cstring v -> new (Z.of_nat (length v) + 1) = None -> get_env new e n = None /\ get_env_str new e n = Some None.
Proof.
  intros E C N. unfold get_env, get_env_str, get_env_buf. rewrite E. unfold make. rewrite strlen_ok by exact C. cbn [obind]. unfold make_length. rewrite N. now split.
Qed.
Example C108_ex : let e := fold_left apply_change [Set_ [65] [49]; Set_ [66] [50; 51]; Unset [65]; Set_ [66; 61] [52]] [([67], [53])] in
  e = [([67], [53]); ([66], [50; 51])] /\ get_env heap e [66] = Some (Some [50; 51; 0]) /\ get_env heap e [65] = Some None /\ proper [66] /\ ~ proper [66; 61].
Proof. repeat split; try reflexivity; [easy|cbn; lia|]. intros [_ H]. apply H. right. now left. Qed.

(** ** C109 *)
Lemma command_loop_ok : forall output i len a b, 0 <= i -> i = Z.of_nat (length a) -> len <= Z.of_nat (length (a ++ b)) ->
  let n := Nat.min (length output) (Z.to_nat (len - i)) in
  command_loop output i len (a ++ b) (length a) = Some (a ++ firstn n output ++ skipn n b).
Proof.
  induction output as [|c r IH]; intros i len a b I E L; cbn [command_loop length]; [cbn; reflexivity|]. cbn zeta. destruct (Z.ltb_spec i len) as [H|H].
  - rewrite app_length in L. destruct b as [|x b]; [cbn [length] in L; lia|]. rewrite wr_at. cbn [obind]. replace (a ++ c :: b) with ((a ++ [c]) ++ b) by (now rewrite <- app_assoc). replace (S (length a)) with (length (a ++ [c])) by (rewrite app_length; cbn; lia).
    rewrite IH; [|lia|rewrite app_length; cbn; lia|rewrite !app_length in *; cbn [length] in *; lia]. replace (Z.to_nat (len - i)) with (S (Z.to_nat (len - (i + 1)))) by lia. cbn [Nat.min firstn skipn]. now rewrite <- app_assoc.
  - replace (Z.to_nat (len - i)) with O by lia. now rewrite Nat.min_0_r.
Qed.
Lemma in_firstn_cstring n s : In 0 (firstn n s) -> cstring s -> False.
Proof. intros I C. assert (J : In 0 s) by (rewrite <- (firstn_skipn n s); apply in_or_app; now left). apply (proj1 (Forall_forall _ _) C) in J. lia. Qed.
(** The buffer gets the first bytes of the output, as many as fit, and is otherwise unchanged; the answer is 1, or 0 if the command cannot be started. *)
Theorem C109_command (output buffer : list Z) (len : Z) : 0 <= len <= Z.of_nat (length buffer) ->
  let n := Nat.min (length output) (Z.to_nat len) in
  system_command (Some output) len buffer = Some (1, firstn n output ++ skipn n buffer) /\ system_command None len buffer = Some (0, buffer).
Proof.
  intros L n. split; [|reflexivity]. unfold system_command. pose proof (command_loop_ok output 0 len [] buffer ltac:(lia) eq_refl ltac:(cbn; lia)) as E. cbn [app length] in E. rewrite Z.sub_0_r in E. rewrite E. reflexivity.
Qed.
(** So there is no terminator: what follows the output is what was there before, and when the output fills the buffer there is none at all. *)
Theorem C109_terminator_refuted (output buffer : list Z) (len : Z) : 0 <= len <= Z.of_nat (length buffer) -> cstring output ->
  exists b, system_command (Some output) len buffer = Some (1, b) /\ length b = length buffer /\
    (Z.of_nat (length output) < len -> nth_error b (length output) = nth_error buffer (length output)) /\
    (len = Z.of_nat (length buffer) /\ len <= Z.of_nat (length output) -> ~ In 0 b).
Proof.
  intros L C. destruct (C109_command output buffer len L) as [E _]. cbn zeta in E. set (n := Nat.min (length output) (Z.to_nat len)) in *. exists (firstn n output ++ skipn n buffer). split; [exact E|]. split; [rewrite app_length, firstn_length, skipn_length; lia|]. split.
  - intros H. assert (n = length output) as -> by lia. rewrite firstn_all, nth_error_app2, Nat.sub_diag by lia. rewrite <- (firstn_skipn (length output) buffer) at 2. rewrite nth_error_app2; rewrite firstn_length; [|lia]. f_equal. lia.
  - intros [H1 H2]. assert (n = length buffer) as -> by lia. rewrite skipn_all, app_nil_r. intros I. apply (in_firstn_cstring) in I; [exact I|exact C].
Qed.
(** A buffer shorter than said, and output that does not fit, is undefined. *)
Theorem C109_short_buffer (output buffer : list Z) (len : Z) : Z.of_nat (length buffer) < len -> (length buffer < length output)%nat -> system_command (Some output) len buffer = None.
Proof.
  intros L O. unfold system_command. assert (G : forall output i a b, 0 <= i -> i = Z.of_nat (length a) -> Z.of_nat (length (a ++ b)) < len -> (length b < length output)%nat -> command_loop output i len (a ++ b) (length a) = None).
  { clear. induction output as [|c r IH]; intros i a b I E L O; cbn [length] in O; [lia|]. cbn [command_loop]. rewrite app_length in L. destruct (Z.ltb_spec i len) as [H|H]; [|lia]. destruct b as [|x b].
    - rewrite app_nil_r, wr_out by lia. reflexivity.
    - rewrite wr_at. cbn [obind]. replace (a ++ c :: b) with ((a ++ [c]) ++ b) by (now rewrite <- app_assoc). replace (S (length a)) with (length (a ++ [c])) by (rewrite app_length; cbn; lia). cbn [length] in *. apply IH; [lia|rewrite app_length; cbn; lia|rewrite !app_length; cbn [length]; lia|lia]. }
  specialize (G output 0 [] buffer ltac:(lia) eq_refl L O). cbn [app length] in G. now rewrite G.
Qed.
(** zpl_system_command_str gives the output without its zero bytes. *)
Theorem C109_command_str (new : allocator) (output : list Z) : sane new -> (forall k, 0 <= k -> new k <> None) -> Forall (fun c => 0 <= c < 256) output ->
  (exists t, system_command_str new (Some output) = Some (Some t) /\ holds t (filter (fun c => negb (c =? 0)) output)) /\ system_command_str new None = Some None.
Proof.
  intros S N B. split; [|reflexivity]. unfold system_command_str. destruct (C45_make_reserve new 4 S ltac:(lia)) as [[_ X]|(t & -> & H & _)]; [destruct (N (4 + 1)); [lia|exact X]|]. cbn [obind].
  enough (G : forall c, holds t c -> exists r, command_str_loop new output (Some t) = Some (Some r) /\ holds r (c ++ filter (fun c => negb (c =? 0)) output)) by (destruct (G [] H) as (r & E & R); now exists r).
  clear H. revert t. induction B as [|c rest C B IH]; intros t d H; cbn [command_str_loop filter].
  - exists t. now rewrite app_nil_r.
  - cbn [appendc_null]. destruct (Z.eqb_spec c 0) as [->|NZ]; cbn [negb].
    + pose proof (appendc_ok new t d [] [0] S H ltac:(constructor)) as [(A & _)|(r & E & R)]; [destruct (avail t d H) as (? & ? & ? & ? & ?); cbn in A; lia|]. cbn [app] in E. rewrite E. cbn [obind]. rewrite app_nil_r in R. now apply IH.
    + pose proof (appendc_ok new t d [c] [] S H ltac:(repeat constructor; lia)) as [(_ & X & _)|(r & E & R)]; [exfalso; apply N in X; [exact X|]; destruct (avail t d H) as (? & ? & ? & ? & ?); cbn [length]; lia|]. cbn [app] in E. rewrite E. cbn [obind]. destruct (IH r _ R) as (r' & E' & R'). exists r'. split; [exact E'|]. now rewrite <- app_assoc in R'.
Qed.
Example C109_ex : system_command (Some [104; 105; 10]) 2 [1; 2; 3; 4] = Some (1, [104; 105; 3; 4]) /\ system_command (Some [104]) 4 [1; 2; 3; 4] = Some (1, [104; 2; 3; 4]) /\
  system_command (Some [104; 105; 10]) 4 [1; 2] = None /\ exists t, system_command_str heap (Some [104; 0; 105; 10; 97; 98]) = Some (Some t) /\ firstn 6 (sbuf t) = [104; 105; 10; 97; 98; 0] /\ slen t = 5.
Proof. split; [reflexivity|]. split; [reflexivity|]. split; [reflexivity|]. eexists. split; [reflexivity|]. now split. Qed.
Print Assumptions C108_history.
Print Assumptions C108_improper.
Print Assumptions C108_copies.
Print Assumptions C108_no_memory_refuted.
Print Assumptions C109_command.
Print Assumptions C109_terminator_refuted.
Print Assumptions C109_short_buffer.
Print Assumptions C109_command_str.
