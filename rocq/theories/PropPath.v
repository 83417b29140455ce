(** C91: what the path and directory functions do. *)
From Verif Require Import Base CStr CStrSpec CStrProofs PropCStr Path PathSpec PathProofs PathProofs2.
Open Scope list_scope.

(** ** absolute paths, base names, extensions *)
Theorem C91_absolute : forall p x, cstring p -> exists a r, path_is_absolute (p ++ 0 :: x) = Some a /\ path_is_root (p ++ 0 :: x) = Some r /\
  (a = true <-> exists q, p = 47 :: q) /\ (r = true <-> p = [47]).
Proof.
  intros p x H. unfold path_is_root, path_is_absolute. rewrite strlen_ok by easy. cbn [obind]. destruct p as [|c p]; cbn [length Nat.ltb Nat.leb].
  - exists false, false. cbn. repeat (split; [easy|]). split; (split; [easy|]); [now intros (q & ?)|easy].
  - cbn [app rd nth_error obind]. change SEP with 47. destruct (Z.eqb_spec c 47) as [->|Hc].
    + exists true, (S (length p) =? 1)%nat. cbn [obind].
      split; [easy|]. split; [easy|]. split; [split; [now exists p|easy]|]. rewrite Nat.eqb_eq. split; [intros [= E]; now destruct p|intros [= ->]; easy].
    + exists false, false. cbn [obind]. split; [easy|]. split; [easy|]. split; (split; [easy|]); [intros (q & [= E _]); easy|intros [= E _]; easy].
Qed.
Lemma cut_at (s : list Z) k c : cstring s -> c <> 0 -> nth_error (s ++ [0]) k = Some c -> (forall j, (k < j)%nat -> nth_error (s ++ [0]) j <> Some c) ->
  exists a e, s = a ++ c :: e /\ length a = k /\ ~ In c e.
Proof.
  intros H Hc E N. assert (L : (k < length s)%nat).
  { destruct (Nat.ltb_spec k (length s)); [easy|]. rewrite nth_error_app2 in E by lia. destruct (k - length s)%nat as [|m]; cbn in E; [congruence|now destruct m]. }
  rewrite nth_error_app1 in E by easy. apply nth_error_split in E. destruct E as (a & e & -> & La). exists a, e. split; [easy|]. split; [easy|].
  intros I. apply In_nth_error in I. destruct I as (j & I). apply (N (S k + j)%nat); [lia|].
  rewrite <- app_assoc, nth_error_app2 by lia. replace (S k + j - length a)%nat with (S j) by lia. cbn. rewrite nth_error_app1; [easy|]. apply nth_error_Some. congruence.
Qed.
Theorem C91_base_name : forall p x, cstring p -> exists k d b, path_base_name (p ++ 0 :: x) = Some k /\ p = d ++ b /\ length d = k /\ ~ In 47 b /\ (d = [] \/ exists e, d = e ++ [47]).
Proof.
  intros p x H. unfold path_base_name. destruct (C44_last_occurence p x SEP H) as (o & E & O). rewrite E. cbn [obind]. destruct o as [k|].
  - destruct O as (O & N). destruct (cut_at p k 47 H) as (a & e & -> & La & Ne); [easy|exact O|exact N|].
    exists (S k), (a ++ [47]), e. split; [reflexivity|]. split; [now rewrite <- app_assoc|]. split; [rewrite app_length; cbn; lia|]. split; [easy|]. right. now exists a.
  - exists 0%nat, [], p. split; [reflexivity|]. repeat split; auto. intros I. apply O. apply in_app_iff. now left.
Qed.
Theorem C91_extension : forall p x, cstring p -> exists o, path_extension (p ++ 0 :: x) = Some o /\
  match o with None => ~ In 46 p | Some k => exists a e, p = a ++ 46 :: e /\ k = S (length a) /\ ~ In 46 e end.
Proof.
  intros p x H. unfold path_extension. destruct (C44_last_occurence p x 46 H) as (o & E & O). rewrite E. cbn [obind]. eexists. split; [reflexivity|]. destruct o as [k|].
  - destruct O as (O & N). destruct (cut_at p k 46 H) as (a & e & -> & La & Ne); [easy|exact O|exact N|]. exists a, e. split; [easy|]. split; [congruence|easy].
  - intros I. apply O. apply in_app_iff. now left.
Qed.
(** d.x/f has the extension x/f, although its base name has none *)
Theorem C91_extension_refuted : exists p k b, cstring p /\ path_extension (p ++ [0]) = Some (Some k) /\ In 47 (skipn k p) /\ path_base_name (p ++ [0]) = Some b /\ ~ In 46 (skipn b p).
Proof.
  exists [100; 46; 120; 47; 102], 2%nat, 4%nat. split; [repeat constructor; lia|]. split; [reflexivity|]. split; [right; now left|]. split; [reflexivity|]. cbn. lia.
Qed.

(** ** making directories *)
Theorem C91_mkdir_recursive : forall t p cs, distinct t -> spells p cs -> Z.of_nat (length p) <= 4095 ->
  exists t', path_mkdir_recursive t p = (0, t') /\ distinct t' /\
  forall q b, at_path t' q b <-> at_path t q b \/ (b = true /\ prefix q cs /\ forall f, prefix f q -> ~ at_path t f false).
Proof.
  intros t p cs D Sp L. destruct (mkdir_recursive_after t p D L) as (t' & E & D' & A). exists t'. split; [easy|]. split; [easy|].
  rewrite (names_spells p cs Sp) in A. intros q b. rewrite A. split; (intros [H|(-> & Q & N)]; [now left|right; split; [easy|]]).
  - split; [|intros f Pf F; apply N; now exists f]. destruct Q as (k & _ & ->). exists (skipn k cs). now rewrite firstn_skipn.
  - split; [|intros (f & Pf & F); now apply (N f)]. destruct Q as (r & ->). exists (length q). split; [rewrite app_length; lia|]. now rewrite firstn_app, Nat.sub_diag, firstn_all, app_nil_r.
Qed.
Theorem C91_mkdir_recursive_long : forall t p, 4095 < Z.of_nat (length p) -> path_mkdir_recursive t p = (-1, t).
Proof. intros t p L. unfold path_mkdir_recursive, MAX_PATH. now rewrite (proj2 (Z.ltb_lt (4096 - 1) _)) by lia. Qed.
Theorem C91_spelling : forall p, exists cs, spells p cs /\ forall cs', spells p cs' -> cs' = cs.
Proof. intros p. exists (names p). split; [apply spells_names|]. intros cs' H. symmetry. now apply names_spells. Qed.
(** 0 is returned although a file is in the way and nothing is made *)
Theorem C91_mkdir_recursive_refuted : exists t p cs, distinct t /\ spells p cs /\ path_mkdir_recursive t p = (0, t) /\ ~ at_path t cs true.
Proof.
  exists (NDir [([97], NFile)]), [97; 47; 98], [[97]; [98]]. split; [repeat constructor; cbn; easy|]. split.
  - apply (sp_name [97] [98] [[98]]); [easy|cbn; lia|]. constructor; [easy|cbn; lia].
  - split; [reflexivity|]. intros A. inversion A as [| |? ? x ? ? I Ax]; subst. destruct I as [[= <-]|[]]. inversion Ax.
Qed.
Example C91_mkdir_example : path_mkdir_recursive (NDir [([97], NDir [([120], NFile)])]) [47; 97; 47; 47; 98; 47; 99] =
  (0, NDir [([97], NDir [([120], NFile); ([98], NDir [([99], NDir [])])])]).
Proof. reflexivity. Qed.

(** ** listing directories *)
Theorem C91_dirlist : forall root path cs l, distinct root -> path <> [] -> spells path cs -> below root cs (NDir l) ->
  exists ps ds, NoDup ps /\ NoDup ds /\
  (forall q, In q ps <-> q <> [] /\ (exists b, at_path (NDir l) q b) /\ Forall (fun n => ~ hidden n) q) /\
  (forall q, In q ds <-> In q ps /\ at_path (NDir l) q true) /\
  (forall a q b s, ps = a ++ q :: b -> prefix q s -> s <> q -> ~ In s a) /\
  forall avail, (2 * length ds + 1 <= avail)%nat ->
    path_dirlist root path true avail = (text_of (map (line_of path) ps), (avail - (2 * length ds + 1))%nat).
Proof.
  intros root path cs l D Hp Sp B. pose proof (below_distinct _ _ _ D B) as Dl. exists (listing (NDir l)), (subdirs (NDir l)).
  split; [now apply listing_nodup|]. split; [now apply subdirs_nodup|]. split; [apply listing_in|]. split.
  { intros q. rewrite subdirs_in, listing_in. split; [|tauto]. intros (H & A & F). split; [|easy]. split; [easy|]. split; [now exists true|easy]. }
  split; [now apply listing_order|]. intros avail L. unfold path_dirlist, resolve. destruct path as [|c path]; [easy|].
  rewrite (names_spells _ _ Sp), (find_below _ _ _ D B). now apply direntry_all.
Qed.
(** The empty path, and a path to nothing, list nothing. *)
Theorem C91_dirlist_nothing : forall root path recurse avail, path = [] \/ (forall cs t, spells path cs -> ~ below root cs t) -> path_dirlist root path recurse avail = ([], avail).
Proof.
  intros root path recurse avail H. unfold path_dirlist, resolve. destruct path as [|c path]; [reflexivity|]. destruct H as [H|H]; [discriminate|]. destruct (find (names (c :: path)) root) as [t|] eqn:E; [|reflexivity]. exfalso.
  destruct (C91_spelling (c :: path)) as (cs & S & _). rewrite (names_spells _ _ S) in E. exact (H cs t S (below_find _ _ _ E)).
Qed.
Example C91_dirlist_nothing_ex : path_dirlist (NDir [([97], NFile)]) [98] true 5 = ([], 5%nat) /\ path_dirlist (NDir [([97], NFile)]) [] true 5 = ([], 5%nat).
Proof. split; reflexivity. Qed.
Theorem C91_dirlist_flat : forall root path cs l, distinct root -> path <> [] -> spells path cs -> below root cs (NDir l) ->
  exists ns, NoDup ns /\ (forall n, In n ns <-> (exists b, at_path (NDir l) [n] b) /\ ~ hidden n) /\
  forall avail, path_dirlist root path false (S avail) = (text_of (map (fun n => path ++ 47 :: n) ns), avail).
Proof.
  intros root path cs l D Hp Sp B. pose proof (below_distinct _ _ _ D B) as Dl. inversion Dl as [|? ND FD]; subst. exists (tops l). unfold tops. split; [now apply NoDup_filter|]. split.
  - intros n. rewrite filter_In, negb_true_iff. split.
    + intros (I & S'). apply in_map_iff in I. destruct I as ((n', x) & <- & I). split; [|cbn [fst] in *; rewrite <- skipped_hidden; congruence].
      destruct x; eexists; (eapply at_below; [exact I|constructor]).
    + intros ((b & A) & H). inversion A as [| |? ? x ? ? I Ax]; subst. split; [now apply (in_map fst) in I|]. destruct (skipped n) eqn:E; [now apply skipped_hidden in E|easy].
  - intros avail. unfold path_dirlist, resolve. destruct path as [|c path]; [easy|].
    rewrite (names_spells _ _ Sp), (find_below _ _ _ D B), direntry_top. unfold lines. rewrite map_map. f_equal. f_equal. apply map_ext. intros n. unfold line_of. cbn [flat_map]. now rewrite app_nil_r.
Qed.
(** every listing keeps a directory stream open: when there are none left, nothing is listed *)
Fixpoint list_times (root : node) (path : list Z) (avail k : nat) : list (list Z) :=
  match k with O => [] | S k => let '(out, avail) := path_dirlist root path false avail in out :: list_times root path avail k end.
Theorem C91_dirlist_leak_refuted : forall root path cs l n x k, distinct root -> path <> [] -> spells path cs -> below root cs (NDir l) ->
  In (n, x) l -> ~ hidden n -> exists out, out <> [] /\ list_times root path k (S k) = repeat out k ++ [[]].
Proof.
  intros root path cs l n x k D Hp Sp B I Hn. destruct (C91_dirlist_flat root path cs l D Hp Sp B) as (ns & _ & N & E).
  exists (text_of (map (fun n => path ++ 47 :: n) ns)). split.
  - assert (J : In n ns). { apply N. split; [|easy]. destruct x; eexists; (eapply at_below; [exact I|constructor]). }
    destruct ns as [|m ns]; [easy|]. cbn. now destruct path.
  - induction k as [|k IH].
    + cbn. destruct (path_dirlist root path false 0) as (o, a) eqn:F. unfold path_dirlist, resolve in F. destruct path; [easy|].
      rewrite (names_spells _ _ Sp), (find_below _ _ _ D B) in F. cbn in F. now injection F as <- <-.
    + change (list_times root path (S k) (S (S k))) with (let '(out, avail) := path_dirlist root path false (S k) in out :: list_times root path avail (S k)).
      rewrite E. cbn [repeat app]. now rewrite <- IH.
Qed.
(** ..a is a name like any other, and is left out *)
Theorem C91_dirlist_hidden_refuted : exists root l n x, distinct root /\ root = NDir l /\ In (n, x) l /\ n <> [46] /\ n <> [46; 46] /\
  forall avail, fst (path_dirlist root [47] true avail) = [].
Proof.
  exists (NDir [([46; 46; 97], NFile)]), [([46; 46; 97], NFile)], [46; 46; 97], NFile. split; [repeat constructor; cbn; easy|]. repeat (split; [easy|]). split; [now left|].
  split; [discriminate|]. split; [discriminate|]. now intros [|avail].
Qed.
(** a name with a newline looks like two *)
Theorem C91_dirlist_newline_refuted : exists t u, distinct t /\ distinct u /\ at_path t [[97]] false /\ ~ (exists b, at_path u [[97]] b) /\
  forall avail, path_dirlist t [47] true avail = path_dirlist u [47] true avail.
Proof.
  exists (NDir [([97], NFile); ([98], NFile)]), (NDir [([97; 10; 47; 47; 98], NFile)]).
  split; [repeat constructor; cbn; intuition discriminate|]. split; [repeat constructor; cbn; easy|]. split; [apply at_below with NFile; [now left|constructor]|].
  split; [intros (b & A); inversion A as [| |? ? x ? ? I Ax]; subst; now destruct I as [I|[]]|]. now intros [|avail].
Qed.
Example C91_dirlist_example :
  let root := NDir [([100], NDir [([97], NDir [([98], NFile)]); ([46; 46; 120], NFile); ([99], NFile)])] in
  path_dirlist root [100] true 10 = ([100; 47; 97; 10; 100; 47; 97; 47; 98; 10; 100; 47; 99; 10], 7%nat) /\
  path_dirlist root [100] true 2 = ([100; 47; 97; 10; 100; 47; 99; 10], 0%nat) /\
  path_dirlist root [100] false 10 = ([100; 47; 97; 10; 100; 47; 99; 10], 9%nat).
Proof. repeat split; reflexivity. Qed.

(** ** zpl_dir_info *)
Lemma starts_strings path : forall ns k pre rest, path <> [] -> length pre = k -> Forall (fun n => match rev n with 13 :: _ => False | _ => True end) ns ->
  Forall2 (fun n o => string_at (pre ++ flat_map chomped (map (fun n => path ++ 47 :: n) ns) ++ 0 :: rest) o (path ++ 47 :: n)) ns
    (starts false k (map (fun n => path ++ 47 :: n) ns)).
Proof.
  induction ns as [|n ns IH]; intros k pre rest Hp Lk F; cbn [map flat_map]; [constructor|]. inversion F as [|? ? Fn F']; subst.
  assert (C : chomped (path ++ 47 :: n) = (path ++ 47 :: n) ++ [0]).
  { unfold chomped. rewrite rev_app_distr. cbn [rev]. rewrite <- app_assoc. destruct (rev n) as [|c r]; [reflexivity|]. cbn [app].
    destruct (Z.eq_dec c 13) as [->|Hc]; [easy|]. destruct c as [|c|c]; try reflexivity. repeat (destruct c as [c|c|]; try reflexivity). easy. }
  assert (St : forall k r, starts false k ((path ++ 47 :: n) :: r) = k :: starts false (k + length (path ++ 47%Z :: n) + 1) r) by (intros; destruct path; easy).
  rewrite C, St. constructor.
  - exists pre. eexists. split; [|reflexivity]. rewrite <- !app_assoc. reflexivity.
  - replace (pre ++ (((path ++ 47 :: n) ++ [0]) ++ flat_map chomped (map (fun n => path ++ 47 :: n) ns)) ++ 0 :: rest)
      with ((pre ++ (path ++ 47 :: n) ++ [0]) ++ flat_map chomped (map (fun n => path ++ 47 :: n) ns) ++ 0 :: rest) by now rewrite <- !app_assoc.
    apply IH; [easy| |easy]. rewrite !app_length. cbn [length]. lia.
Qed.
(** the file names are the path of the directory, a slash and the names in it *)
Theorem C91_dirinfo_names : forall root path cs l avail, distinct root -> path <> [] -> spells path cs -> below root cs (NDir l) ->
  Forall (fun c => c <> 0 /\ c <> 10) path -> Forall (fun e => Forall (fun c => c <> 0 /\ c <> 10) (fst e) /\ forall r, fst e <> r ++ [13]) l ->
  exists ns buf offs, NoDup ns /\ (forall n, In n ns <-> (exists b, at_path (NDir l) [n] b) /\ ~ hidden n) /\
  dirinfo_names root path (S avail) = Some (buf, offs) /\ Forall2 (fun n o => string_at buf o (path ++ 47 :: n)) ns offs.
Proof.
  intros root path cs l avail D Hp Sp B Fp Fl. destruct (C91_dirlist_flat root path cs l D Hp Sp B) as (ns & Dn & N & E). exists ns.
  assert (Fn : Forall (fun n => Forall (fun c => c <> 0 /\ c <> 10) n /\ forall r, n <> r ++ [13]) ns).
  { apply Forall_forall. intros n I. apply N in I. destruct I as ((b & A) & _). inversion A as [| |? ? x ? ? I Ax]; subst. rewrite Forall_forall in Fl. exact (Fl _ I). }
  unfold dirinfo_names. rewrite E. cbn [fst]. destruct ns as [|n ns].
  - exists [0], []. split; [easy|]. split; [easy|]. split; [reflexivity|constructor].
  - eexists. eexists. split; [easy|]. split; [easy|]. cbn [map]. split.
    + apply C73_split_lines; [|now destruct path]. change ((path ++ 47 :: n) :: map (fun n => path ++ 47 :: n) ns) with (map (fun n => path ++ 47 :: n) (n :: ns)).
      apply Forall_forall. intros s I. apply in_map_iff in I. destruct I as (m & <- & I). rewrite Forall_forall in Fn. apply Forall_app. split; [easy|]. constructor; [easy|apply (Fn _ I)].
    + apply (starts_strings path (n :: ns) 0 [] [] Hp eq_refl). apply Forall_forall. intros m I. rewrite Forall_forall in Fn. destruct (Fn _ I) as (_ & H).
      destruct (rev m) as [|c r] eqn:R; [easy|]. assert (Em : m = rev r ++ [c]) by (rewrite <- (rev_involutive m), R; reflexivity).
      destruct (Z.eq_dec c 13) as [->|Hc]; [exfalso; now apply (H (rev r))|]. destruct c as [|c|c]; try easy. repeat (destruct c as [c|c|]; try easy).
Qed.
(** a carriage return at the end of a name is lost *)
Theorem C91_dirinfo_return_refuted : exists root l n r, distinct root /\ root = NDir l /\ l = [(n, NFile)] /\ n = r ++ [13] /\
  exists buf k, dirinfo_names root [47] 1 = Some (buf, [k]) /\ string_at buf k ([47] ++ 47 :: r) /\ ~ string_at buf k ([47] ++ 47 :: n).
Proof.
  exists (NDir [([97; 13], NFile)]), [([97; 13], NFile)], [97; 13], [97]. split; [repeat constructor; cbn; easy|]. split; [easy|]. split; [easy|]. split; [easy|].
  exists [47; 47; 97; 0; 0; 0], O. split; [reflexivity|]. split; [now exists [], [0; 0]|]. intros (a & b & E & La). now destruct a.
Qed.
Lemma strlen_none s : ~ In 0 s -> strlen s = None.
Proof. induction s as [|c s IH]; intros N; cbn; [easy|]. destruct (Z.eqb_spec c 0) as [->|]; [exfalso; apply N; now left|]. rewrite IH; [easy|]. intros I. apply N. now right. Qed.
(** the path kept has no terminator: reading it as a string leaves its memory *)
Theorem C91_dirinfo_fullpath_refuted : forall mem path, cstring path -> (length path <= length mem)%nat ->
  dirinfo_fullpath mem path = Some path /\ ~ In 0 path /\ strlen path = None.
Proof.
  intros mem path H L. assert (N : ~ In 0 path) by (intros I; unfold cstring in H; rewrite Forall_forall in H; specialize (H _ I); lia).
  split; [|split; [easy|now apply strlen_none]]. unfold dirinfo_fullpath. change (path ++ [0]) with (path ++ 0 :: []).
  rewrite (proj1 (C43_strcpy _ path [] H)) by (rewrite firstn_length; lia). rewrite skipn_all2 by (rewrite firstn_length; lia). now rewrite app_nil_r.
Qed.
(** what zpl_dirinfo_step opens for a file d/n: d the first time, later d and what is left in the buffer *)
Lemma last_slash d n : cstring (d ++ 47 :: n) -> ~ In 47 n -> last_occurence ((d ++ 47 :: n) ++ [0]) SEP = Some (Some (length d)).
Proof.
  intros H N. destruct (C44_last_occurence (d ++ 47 :: n) [] SEP H) as (o & E & O). rewrite E. f_equal. destruct o as [k|].
  - destruct O as (O & M). destruct (cut_at (d ++ 47 :: n) k 47 H) as (a & e & F & La & Ne); [easy|exact O|exact M|]. f_equal. rewrite <- La. clear -F N Ne.
    assert (G : forall x y a e, ~ In 47 x -> ~ In 47 y -> x ++ 47 :: a = y ++ 47 :: e -> x = y).
    { induction x as [|c x IH]; intros [|c' y] a' e' Nx Ny Q; cbn in Q; [easy| | |].
      - injection Q as <- _. exfalso. apply Ny. now left.
      - injection Q as -> _. exfalso. apply Nx. now left.
      - injection Q as <- Q. f_equal. apply (IH y a' e'); [|  |easy]; intros I; [apply Nx|apply Ny]; now right. }
    apply (f_equal (@rev Z)) in F. rewrite !rev_app_distr in F. cbn [rev] in F. rewrite <- !app_assoc in F. cbn [app] in F.
    assert (R : rev n = rev e) by (apply (G _ _ (rev d) (rev a)); [now rewrite <- in_rev|now rewrite <- in_rev|easy]).
    rewrite R in F. apply app_inv_head in F. injection F as F. apply (f_equal (@length Z)) in F. now rewrite !rev_length in F.
  - exfalso. apply O. apply in_app_iff. left. apply in_app_iff. right. now left.
Qed.
Theorem C91_step : forall d n buf, cstring (d ++ 47 :: n) -> ~ In 47 n -> length buf = 128%nat ->
  ((length d <= 128)%nat -> step_buf buf (d ++ 47 :: n) = Some (d ++ skipn (length d) buf)) /\
  ((128 < length d)%nat -> step_buf buf (d ++ 47 :: n) = None).
Proof.
  intros d n buf H N L. unfold step_buf. rewrite last_slash by easy. cbn [obind]. destruct (C43_strncpy buf (d ++ 47 :: n) [] (Z.of_nat (length d)) H) as (A & B); [lia|].
  rewrite Nat2Z.id, L in *. split; intros Q; [rewrite A by easy|now rewrite B]. rewrite firstn_app, Nat.sub_diag, firstn_all, app_length. cbn [firstn length].
  replace (length d - (length d + S (length n)))%nat with O by lia. now rewrite app_nil_r.
Qed.
Theorem C91_step_first : forall d n, cstring (d ++ 47 :: n) -> ~ In 47 n -> (length d < 128)%nat ->
  exists buf, step_buf (repeat 0 128) (d ++ 47 :: n) = Some buf /\ string_at buf 0 d.
Proof.
  intros d n H N L. eexists. split; [apply C91_step; [easy|easy|apply repeat_length|lia]|]. exists [], (repeat 0 (127 - length d)). split; [|easy]. cbn [app]. f_equal.
  replace 128%nat with (length d + S (127 - length d))%nat by lia. rewrite repeat_app, skipn_app, repeat_length, Nat.sub_diag, skipn_all2 by (rewrite repeat_length; lia). easy.
Qed.
Theorem C91_step_stale_refuted : forall d n e b, cstring (d ++ 47 :: n) -> ~ In 47 n -> (length d <= length e)%nat -> length (e ++ 0 :: b) = 128%nat ->
  exists buf, step_buf (e ++ 0 :: b) (d ++ 47 :: n) = Some buf /\ string_at buf 0 (d ++ skipn (length d) e).
Proof.
  intros d n e b H N L Lb. eexists. split; [apply C91_step; [easy|easy|easy|rewrite <- Lb, app_length; lia]|]. exists [], b. split; [|easy]. cbn [app].
  rewrite skipn_app. replace (length d - length e)%nat with O by lia. now rewrite <- app_assoc.
Qed.
(** a file name without a slash: NULL - path is taken for a length *)
Theorem C91_step_no_slash_refuted : forall n buf, cstring n -> ~ In 47 n -> step_buf buf n = None.
Proof.
  intros n buf H N. unfold step_buf. destruct (C44_last_occurence n [] SEP H) as (o & E & O). rewrite E. cbn [obind]. destruct o as [k|]; [|easy].
  destruct O as (O & M). destruct (cut_at n k 47 H) as (a & e & F & _); [easy|exact O|exact M|]. exfalso. apply N. rewrite F. apply in_app_iff. right. now left.
Qed.
Example C91_step_example : exists b b', step_buf (repeat 0 128) [97; 98; 99; 47; 120] = Some b /\ string_at b 0 [97; 98; 99] /\
  step_buf b [100; 47; 120] = Some b' /\ string_at b' 0 [100; 98; 99].
Proof.
  destruct (C91_step_first [97; 98; 99] [120]) as (b & E & St); [repeat constructor; lia|cbn; lia|cbn; lia|].
  exists b. eexists. split; [easy|]. split; [easy|]. cbn in E. injection E as <-. split; [reflexivity|]. exists [], (repeat 0 124). now split.
Qed.

Print Assumptions C91_absolute.
Print Assumptions C91_dirlist_nothing.
Print Assumptions C91_base_name.
Print Assumptions C91_extension.
Print Assumptions C91_extension_refuted.
Print Assumptions C91_mkdir_recursive.
Print Assumptions C91_mkdir_recursive_long.
Print Assumptions C91_spelling.
Print Assumptions C91_mkdir_recursive_refuted.
Print Assumptions C91_dirlist.
Print Assumptions C91_dirlist_flat.
Print Assumptions C91_dirlist_leak_refuted.
Print Assumptions C91_dirlist_hidden_refuted.
Print Assumptions C91_dirlist_newline_refuted.
Print Assumptions C91_dirinfo_names.
Print Assumptions C91_dirinfo_return_refuted.
Print Assumptions C91_dirinfo_fullpath_refuted.
Print Assumptions C91_step.
Print Assumptions C91_step_first.
Print Assumptions C91_step_stale_refuted.
Print Assumptions C91_step_no_slash_refuted.
