(** C114: archives of directories. *)
From Verif Require Import Base CStr CStrSpec CStrProofs PropCStr Bits Path PathSpec PathProofs PathProofs2 PropPath.
From Verif Require Import Array ArraySpec FStream FStreamSpec FStreamProofs Tar TarSpec TarProofs TarProofs2 TarProofs3 PropTar PropTar2 TarDir.
Open Scope list_scope.

(** names that can be listed: no NUL, no newline, no carriage return at the end *)
Definition plain_name (n : list Z) : Prop := Forall (fun c => c <> 0 /\ c <> 10) n /\ forall r, n <> r ++ [13].
Definition plain_names (t : node) : Prop := forall q b, at_path t q b -> Forall plain_name q.
Definition plain_line (s : list Z) : Prop := s <> [] /\ plain_name s.
Lemma line_plain path q : Forall (fun c => c <> 0 /\ c <> 10) path -> q <> [] -> Forall plain_name q -> plain_line (line_of path q).
Proof.
  intros P N F. destruct (exists_last N) as (r & n & ->). unfold line_of. rewrite flat_map_app. cbn [flat_map]. rewrite app_nil_r.
  apply Forall_app in F. destruct F as (F & Fn). inversion Fn as [|? ? (Fc & Fe) _]; subst.
  assert (G : Forall (fun c => c <> 0 /\ c <> 10) (flat_map (fun n => 47 :: n) r)).
  { clear - F. induction F as [|m r (H & _) F IH]; cbn [flat_map]; [constructor|]. cbn [app]. constructor; [easy|]. apply Forall_app. now split. }
  split; [destruct path; [destruct (flat_map (fun n => 47 :: n) r); discriminate|discriminate]|]. split.
  - apply Forall_app. split; [exact P|]. apply Forall_app. split; [exact G|]. constructor; [easy|exact Fc].
  - intros s E. destruct n as [|c n] using rev_ind.
    + rewrite !app_assoc in E. apply app_inj_tail in E. destruct E as (_ & E). discriminate.
    + clear IHn. change (47 :: n ++ [c]) with ((47 :: n) ++ [c]) in E. rewrite !app_assoc in E. apply app_inj_tail in E. destruct E as (_ & ->). now apply (Fe n).
Qed.
Lemma string_from_at s x : Forall (fun c => c <> 0 /\ c <> 10) s -> string_from (s ++ 0 :: x) = s ++ [0].
Proof. induction 1 as [|c s (H & _) F IH]; [reflexivity|]. cbn [app string_from]. destruct (Z.eqb_spec c 0); [easy|]. now rewrite IH. Qed.
Lemma starts_lines : forall ls k pre rest, length pre = k -> Forall plain_line ls ->
  map (fun o => string_from (skipn o (pre ++ flat_map chomped ls ++ 0 :: rest))) (starts false k ls) = map (fun s => s ++ [0]) ls.
Proof.
  induction ls as [|s ls IH]; intros k pre rest L F; [reflexivity|]. inversion F as [|? ? (Ne & Fs & Fe) F']; subst. cbn [flat_map].
  assert (C : chomped s = s ++ [0]).
  { unfold chomped. destruct (rev s) as [|c r] eqn:R; [reflexivity|]. assert (Em : s = rev r ++ [c]) by (rewrite <- (rev_involutive s), R; reflexivity).
    destruct (Z.eq_dec c 13) as [->|Hc]; [exfalso; now apply (Fe (rev r))|]. destruct c as [|c|c]; try reflexivity. repeat (destruct c as [c|c|]; try reflexivity). easy. }
  assert (St : starts false (length pre) (s :: ls) = length pre :: starts false (length pre + length s + 1) ls) by (destruct s; easy).
  rewrite St, C. cbn [map]. f_equal.
  - rewrite skipn_len, <- !app_assoc. cbn [app]. now apply string_from_at.
  - rewrite <- (IH (length pre + length s + 1)%nat (pre ++ s ++ [0]) rest); [|rewrite !app_length; cbn [length]; lia|exact F'].
    apply map_ext. intros o. f_equal. f_equal. now rewrite <- !app_assoc.
Qed.

(** what is packed: all that is below the directory, except under names beginning with two dots, directories too *)
Theorem C114_paths : forall root path cs l, distinct root -> path <> [] -> spells path cs -> below root cs (NDir l) ->
  Forall (fun c => c <> 0 /\ c <> 10) path -> plain_names (NDir l) ->
  exists ps n, NoDup ps /\
  (forall q, In q ps <-> q <> [] /\ (exists b, at_path (NDir l) q b) /\ Forall (fun n => ~ hidden n) q) /\
  (forall a q b s, ps = a ++ q :: b -> prefix q s -> s <> q -> ~ In s a) /\
  forall fs avail d, (n <= avail)%nat -> pack_dir root fs avail d path = pack fs [] d (map (fun q => line_of path q ++ [0]) ps).
Proof.
  intros root path cs l D Hp Sp B Fp Pl. destruct (C91_dirlist root path cs l D Hp Sp B) as (ps & ds & Np & _ & Ip & _ & Op & E). exists ps, (2 * length ds + 1)%nat.
  split; [exact Np|]. split; [exact Ip|]. split; [exact Op|]. intros fs avail d L. unfold pack_dir. rewrite (E avail L). cbn [fst].
  assert (F : Forall plain_line (map (line_of path) ps)).
  { apply Forall_forall. intros s I. apply in_map_iff in I. destruct I as (q & <- & I). apply Ip in I. destruct I as (Nq & (b & A) & _). apply line_plain; [exact Fp|exact Nq|exact (Pl _ _ A)]. }
  rewrite <- (map_map (line_of path) (fun s => s ++ [0])). destruct (map (line_of path) ps) as [|s ls] eqn:M; [reflexivity|].
  rewrite C73_split_lines; [|apply Forall_forall; intros t I; rewrite Forall_forall in F; apply (F _ I)|apply Forall_inv in F; apply F].
  cbn [obind]. f_equal. exact (starts_lines (s :: ls) 0 [] [] eq_refl F).
Qed.

(** a directory without directories in it, whose files can be stored, is packed and unpacked again *)
Definition file_at (fs : list Z -> opened) (path : list Z) (n : list Z) (e : entry) : Prop := e_name e = path ++ 47 :: n /\ fs (path ++ 47 :: n ++ [0]) = Opened (e_data e) (e_mtime e).
Theorem C114_flat : forall root path cs l fs f base, distinct root -> path <> [] -> spells path cs -> below root cs (NDir l) ->
  Forall (fun c => c <> 0 /\ c <> 10) path -> plain_names (NDir l) ->
  (forall n, ~ hidden n -> ~ at_path (NDir l) [n] true) ->
  (forall n, ~ hidden n -> at_path (NDir l) [n] false -> file_at fs path n (f n) /\ fits base (f n)) -> cstring base ->
  exists ns k, NoDup ns /\ (forall n, In n ns <-> at_path (NDir l) [n] false /\ ~ hidden n) /\
  forall avail d, (k <= avail)%nat -> size_of (map f ns) + 1024 < 2^63 -> stream_new true = Some d ->
  exists d1 x d2 d3, pack_dir root fs avail d path = Some (0, d1) /\ archive_of (map f ns) x /\ fst (stream_buf d1) = x ++ skipn (length x) (fst (stream_buf d1)) /\ snd (stream_buf d1) = len x /\
    file_seek d1 0 = Some (0, d2) /\
    forall fuel, (length ns < fuel)%nat -> unpack (extractor (base ++ [0])) fuel [] d2 = Some (0, map (fun n => Some (under base (path ++ 47 :: n), e_data (f n))) ns, d3).
Proof.
  intros root path cs l fs f base D Hp Sp B Fp Pl Nd Fi Cb. destruct (C114_paths root path cs l D Hp Sp B Fp Pl) as (ps & k & Np & Ip & Op & E).
  assert (S1 : forall q, In q ps -> exists n, q = [n] /\ at_path (NDir l) [n] false /\ ~ hidden n).
  { intros q I. apply Ip in I. destruct I as (Nq & (b & A) & H). destruct q as [|n q]; [easy|]. inversion H as [|? ? Hn Hq]; subst. exists n.
    inversion A as [| |? ? x ? ? Ix Ax]; subst. destruct x as [|l'].
    - inversion Ax; subst. split; [reflexivity|]. split; [exact A|exact Hn].
    - exfalso. apply (Nd n Hn). econstructor; [exact Ix|constructor]. }
  assert (X : exists ns, ps = map (fun n => [n]) ns).
  { clear - S1. induction ps as [|q ps IH]; [exists []; reflexivity|]. destruct IH as (ns & ->); [intros; apply S1; now right|]. destruct (S1 q (or_introl eq_refl)) as (n & -> & _). now exists (n :: ns). }
  destruct X as (ns & ->). exists ns, k. split; [now apply NoDup_map_inv in Np|]. assert (In' : forall n, In n ns <-> at_path (NDir l) [n] false /\ ~ hidden n).
  { intros n. split.
    - intros I. destruct (S1 [n]) as (m & [= <-] & R); [apply in_map_iff; now exists n|exact R].
    - intros (A & H). assert (I : In [n] (map (fun n => [n]) ns)) by (apply Ip; split; [easy|]; split; [now exists false|constructor; [exact H|constructor]]). apply in_map_iff in I. destruct I as (m & [= <-] & I). exact I. }
  split; [exact In'|]. intros avail d L Sz Nw.
  assert (H : Forall2 (holds fs) (map (fun q => line_of path q ++ [0]) (map (fun n => [n]) ns)) (map f ns)).
  { assert (G : forall n, In n ns -> holds fs (line_of path [n] ++ [0]) (f n)).
    { intros n I. apply In' in I. destruct I as (A & Hn). destruct (Fi n Hn A) as ((F1 & F2) & _). unfold holds, line_of. cbn [flat_map]. rewrite app_nil_r. rewrite F1. split; [reflexivity|]. rewrite <- app_assoc. exact F2. }
    clear - G. induction ns as [|n ns IH]; constructor; [apply G; now left|]. apply IH. intros m I. apply G. now right. }
  assert (Ft : Forall (fits base) (map f ns)) by (apply Forall_forall; intros e I; apply in_map_iff in I; destruct I as (n & <- & I); apply In' in I; destruct I as (A & Hn); apply (Fi n Hn A)).
  assert (St : Forall storable (map f ns)) by (eapply Forall_impl; [|exact Ft]; now intros e (Q & _)).
  destruct (C49_pack _ _ _ d H St Sz Nw) as (d' & x & P1 & P2 & P3 & P4 & _). destruct (C50_unpack_dir _ _ _ d base H Ft Cb Sz Nw) as (d1 & d2 & d3 & Q1 & Q2 & Q3).
  rewrite P1 in Q1. injection Q1 as <-. exists d', x, d2, d3. rewrite (E fs avail d L). split; [exact P1|]. split; [exact P2|]. split; [exact P3|]. split; [exact P4|]. split; [exact Q2|].
  intros fuel Lf. rewrite Q3 by (rewrite map_length; exact Lf). do 3 f_equal. rewrite map_map. apply map_ext_in. intros n I. apply In' in I. destruct I as (A & Hn). destruct (Fi n Hn A) as ((-> & _) & _). reflexivity.
Qed.

(** nothing to pack: also if there is no such directory the archive is written, without entries, and 0 is returned *)
Theorem C114_nothing : forall root path fs avail d, stream_new true = Some d ->
  (path = [] \/ (forall cs t, spells path cs -> ~ below root cs t)) -> 
  exists d', pack_dir root fs avail d path = Some (0, d') /\ snd (stream_buf d') = 1024 /\ firstn (Z.to_nat 1024) (fst (stream_buf d')) = repeat 0 (Z.to_nat 1024).
Proof.
  intros root path fs avail d N H. unfold pack_dir. rewrite (C91_dirlist_nothing root path true avail H). cbn [fst app]. 
  change (str_split_lines [0] false) with (Some ([0], @nil nat)). cbn [obind map].
  destruct (pack_ok fs [] [] d (Forall2_nil _) (Forall_nil _) (new_at_end d N)) as (d' & xs & E & G & (S & _)); [reflexivity|]. inversion G; subst. cbn [concat app] in S.
  exists d'. split; [exact E|]. destruct (srep_buf _ _ S) as (B1 & B2). cbn [contents] in *. rewrite B1. cbn [fst snd]. rewrite repeat_length in B2. split; [reflexivity|exact B2].
Qed.

(** a directory in the directory: reading it fails; what was listed before is packed, nothing after it, and the archive is not closed *)
Theorem C114_subdirectory_refuted : forall root path cs l fs, distinct root -> path <> [] -> spells path cs -> below root cs (NDir l) ->
  Forall (fun c => c <> 0 /\ c <> 10) path -> plain_names (NDir l) ->
  (forall q, Forall (fun n => ~ hidden n) q -> at_path (NDir l) q true -> exists size mtime, 0 <= size < 2^31 /\ fs (line_of path q ++ [0]) = Directory size mtime) ->
  (forall q, Forall (fun n => ~ hidden n) q -> at_path (NDir l) q false -> exists data mtime, Z.of_nat (length data) < 2^31 /\ fs (line_of path q ++ [0]) = Opened data mtime) ->
  (forall q b, Forall (fun n => ~ hidden n) q -> at_path (NDir l) q b -> cstring (line_of path q) /\ (length (line_of path q) <= 12)%nat) ->
  (exists n, ~ hidden n /\ at_path (NDir l) [n] true) ->
  exists a q es k, at_path (NDir l) q true /\ Forall (fun s => at_path (NDir l) s false) a /\ map e_name es = map (line_of path) a /\
  forall avail d, (k <= avail)%nat -> size_of es + 512 < 2^63 -> stream_new true = Some d -> exists d' xs h, pack_dir root fs avail d path = Some (-2, d') /\
    Forall2 entry_of es xs /\ length h = 512%nat /\ snd (stream_buf d') = len (concat xs ++ h) /\ firstn (length (concat xs ++ h)) (fst (stream_buf d')) = concat xs ++ h.
Proof.
  intros root path cs l fs D Hp Sp B Fp Pl Fd Ff Fl (n & Hn & An). destruct (C114_paths root path cs l D Hp Sp B Fp Pl) as (ps & k & Np & Ip & _ & E).
  (* the first directory *)
  assert (X : forall qs, (forall q, In q qs -> In q ps) -> (exists q, In q qs /\ at_path (NDir l) q true) -> exists a q b, qs = a ++ q :: b /\ at_path (NDir l) q true /\ Forall (fun q => at_path (NDir l) q false) a).
  { induction qs as [|q qs IH]; intros Sub (q0 & I0 & A0); [easy|]. destruct (proj1 (Ip q) (Sub q (or_introl eq_refl))) as (_ & (b & A) & _). destruct b.
    - exists [], q, qs. split; [reflexivity|]. split; [exact A|constructor].
    - destruct (list_eq_dec (list_eq_dec Z.eq_dec) q q0) as [->|Nq].
      + exists [], q0, qs. split; [reflexivity|]. split; [exact A0|constructor].
      + destruct IH as (a & q1 & b & -> & A1 & F1); [intros; apply Sub; now right|exists q0; split; [destruct I0 as [->|I0]; [easy|exact I0]|exact A0]|].
        exists (q :: a), q1, b. split; [reflexivity|]. split; [exact A1|now constructor]. }
  destruct (X ps (fun q I => I)) as (a & q & b & -> & Aq & Fa); [exists [n]; split; [apply Ip; split; [easy|]; split; [now exists true|constructor; [exact Hn|constructor]]|exact An]|]. clear X.
  assert (Hid : forall s, In s (a ++ q :: b) -> Forall (fun n => ~ hidden n) s) by (intros s I; now apply Ip in I).
  assert (H : exists es, Forall2 (holds fs) (map (fun q => line_of path q ++ [0]) a) es /\ Forall storable es /\ map e_name es = map (line_of path) a).
  { assert (Hid' : forall s, In s a -> Forall (fun n => ~ hidden n) s) by (intros s I; apply Hid, in_or_app; now left). clear - Fa Ff Fl Hid'. induction a as [|s a IH].
    - exists []. split; [constructor|]. split; [constructor|reflexivity].
    - inversion Fa as [|? ? Fs Fa']; subst. destruct IH as (es & E1 & E2 & E3); [exact Fa'|intros; apply Hid'; now right|]. pose proof (Hid' s (or_introl eq_refl)) as Hs.
      destruct (Ff s Hs Fs) as (data & mtime & Ld & Ed). destruct (Fl s false Hs Fs) as (Cs & Ls). exists (Entry (line_of path s) data mtime :: es). cbn [map e_name].
      split; [constructor; [split; [reflexivity|exact Ed]|exact E1]|]. split; [constructor; [split; [exact Cs|]; split; [exact Ls|exact Ld]|exact E2]|]. now rewrite E3. }
  destruct H as (es & H1 & H2 & H3). exists a, q, es, k. split; [exact Aq|]. split; [exact Fa|]. split; [exact H3|]. intros avail d L Sz N. rewrite (E fs avail d L). rewrite map_app. cbn [map].
  destruct (pack_prefix fs ((line_of path q ++ [0]) :: map (fun q => line_of path q ++ [0]) b) _ es d [] H1 H2 (new_at_end d N)) as (d1 & xs & P & G & A); [change (len []) with 0; lia|]. cbn [app] in A.
  assert (Hq : Forall (fun n => ~ hidden n) q) by (apply Hid, in_or_app; right; now left). destruct (Fd q Hq Aq) as (size & mtime & Ls & Es). destruct (Fl q true Hq Aq) as (Cq & Lq).
  destruct (header_ok (Entry (line_of path q) (repeat 0 (Z.to_nat size)) mtime) []) as (h & Hh & _ & Lh); [split; [exact Cq|]; split; [exact Lq|]; cbn [e_data]; rewrite repeat_length; lia|].
  cbn [e_name e_data e_mtime] in Hh. rewrite repeat_length, Z2Nat.id in Hh by lia.
  assert (Lh' : length h = 512%nat) by (eapply (layout_len (Entry (line_of path q) (repeat 0 (Z.to_nat size)) mtime)); [|exact Lh]; split; [exact Cq|]; split; [exact Lq|]; cbn [e_data]; rewrite repeat_length; lia).
  assert (Lx : len (concat xs) = size_of es).
  { clear - G H2. induction G as [|e x es xs (h & _ & Hl & ->) G IH]; [reflexivity|]. apply Forall_cons_iff in H2. destruct H2 as (Se & St). cbn [concat size_of map] in *. unfold len in *. rewrite !app_length, !Nat2Z.inj_add, (layout_len e h Se Hl), IH by exact St.
    fold (len (padded_data (e_data e))). rewrite padded_len. cbn. unfold len. lia. }
  destruct (append_ok d1 (concat xs) h A) as (d2 & W & (S2 & _)); [unfold len in *; lia|].
  exists d2, xs, h. split.
  - unfold pack. rewrite P. cbn [pack_loop]. rewrite Es, Hh. cbn [obind next]. rewrite W. cbn [obind].
    destruct (align_forward_i64 size 512) as [t|] eqn:Al; [reflexivity|]. exfalso. clear - Al Ls. unfold align_forward_i64 in Al. cbn [Z.eqb] in Al.
    pose proof (Z.rem_bound_pos size 512 ltac:(lia) ltac:(lia)) as R. set (r := Z.rem size 512) in *.
    pose proof (Z.rem_bound_pos (512 - r) 512 ltac:(lia) ltac:(lia)) as R2. set (r2 := Z.rem (512 - r) 512) in *. clearbody r r2.
    destruct ((- 2 ^ 63 <=? 512 - r) && (512 - r <? 2 ^ 63)) eqn:C1; [|lia]. cbn [negb] in Al. destruct ((- 2 ^ 63 <=? size + r2) && (size + r2 <? 2 ^ 63)) eqn:C2; [discriminate|lia].
  - split; [clear - G; induction G as [|e x es xs (h & H & _ & E) G IH]; constructor; [exists h; easy|easy]|]. split; [exact Lh'|].
    destruct (srep_buf _ _ S2) as (B1 & B2). cbn [contents] in *. rewrite B1. cbn [fst snd]. split; [reflexivity|exact B2].
Qed.
(** where lseek(2) puts the end of a directory at the largest offset, rounding the size up overflows *)
Theorem C114_directory_size_refuted : forall fs path paths d mtime, fs path = Directory (2^63 - 1) mtime -> pack fs [] d (path :: paths) = None.
Proof.
  intros fs path paths d mtime E. unfold pack. cbn [pack_loop]. rewrite E. destruct (pack_header path (2 ^ 63 - 1) mtime) as [h|]; [|reflexivity]. cbn [obind next].
  destruct (file_write true d h) as [(r & d')|]; [|reflexivity]. cbn [obind]. replace (align_forward_i64 (2^63 - 1) 512) with (@None Z) by (vm_compute; reflexivity). reflexivity.
Qed.

(** unpacking makes the directories a file is in; nothing else changes; a file in the way of one stops the making there *)
Theorem C114_unpack_folders : forall t dir name x cs, distinct t -> cstring (dir ++ 47 :: name) -> ~ In 47 name -> spells dir cs -> Z.of_nat (length dir) <= 4095 ->
  exists t', unpack_folders t (dir ++ 47 :: name ++ 0 :: x) = Some t' /\ distinct t' /\
  (forall q b, at_path t' q b <-> at_path t q b \/ (b = true /\ prefix q cs /\ forall f, prefix f q -> ~ at_path t f false)) /\
  ((forall f, prefix f cs -> ~ at_path t f false) -> at_path t' cs true).
Proof.
  intros t dir name x cs D C N Sp L. unfold unpack_folders. pose proof (C44_last_occurence (dir ++ 47 :: name) x SEP C) as (o & E & O). rewrite <- app_assoc in E, O. cbn [app] in E, O. rewrite E. cbn [obind].
  destruct o as [k|].
  - destruct O as (O & M). assert (K : k = length dir).
    { assert (I : k = length dir \/ (k < length dir)%nat \/ (length dir < k)%nat) by lia. destruct I as [->|[I|I]]; [reflexivity| |]; exfalso.
      - apply (M (length dir) I). rewrite nth_error_app2, Nat.sub_diag by lia. reflexivity.
      - rewrite nth_error_app2 in O by lia. destruct (k - length dir)%nat as [|j] eqn:J; [lia|]. cbn [nth_error] in O.
        apply nth_error_In, in_app_or in O. destruct O as [O|[O|[]]]; [exact (N O)|discriminate O]. }
    subst k. rewrite firstn_app, firstn_all, Nat.sub_diag, firstn_O, app_nil_r.
    destruct (C91_mkdir_recursive t dir cs D Sp L) as (t' & -> & D' & A). exists t'. cbn [snd]. split; [reflexivity|]. split; [exact D'|]. split; [exact A|].
    intros Hf. apply A. right. split; [reflexivity|]. split; [|exact Hf]. exists []. rewrite app_nil_r. reflexivity.
  - exfalso. apply O. apply in_or_app. right. left. reflexivity.
Qed.

(** a directory d with the files a and b; then with a directory e between them *)
Definition ex_disk (p : list Z) : opened :=
  if list_eq_dec Z.eq_dec p [100; 47; 97; 0] then Opened [1; 2; 3] 7 else
  if list_eq_dec Z.eq_dec p [100; 47; 98; 0] then Opened [] 8 else
  if list_eq_dec Z.eq_dec p [100; 47; 101; 0] then Directory 4096 9 else NotExists.
Example C114_flat_ex : let root := NDir [([100], NDir [([97], NFile); ([98], NFile)])] in
  distinct root /\ spells [100] [[100]] /\ below root [[100]] (NDir [([97], NFile); ([98], NFile)]) /\
  option_map (fun p => (fst p, snd (stream_buf (snd p)))) (d <- stream_new true ;; pack_dir root ex_disk 5 d [100]) = Some (0, 512 + 512 + 512 + 1024).
Proof.
  cbv zeta. split; [|split; [|split]].
  - constructor; [repeat constructor; easy|]. apply Forall_cons; [|constructor]. constructor; [|repeat constructor]. cbn [map fst]. constructor; [intros [?|[]]; discriminate|]. constructor; [easy|constructor].
  - apply sp_last; [easy|]. intros [?|[]]; discriminate.
  - econstructor; [left; reflexivity|constructor].
  - vm_compute. reflexivity.
Qed.
Example C114_subdirectory_ex : let root := NDir [([100], NDir [([97], NFile); ([101], NDir []); ([98], NFile)])] in
  option_map (fun p => (fst p, snd (stream_buf (snd p)))) (d <- stream_new true ;; pack_dir root ex_disk 5 d [100]) = Some (-2, 512 + 512 + 512).
Proof. vm_compute. reflexivity. Qed.
Print Assumptions C114_paths.
Print Assumptions C114_flat.
Print Assumptions C114_nothing.
Print Assumptions C114_subdirectory_refuted.
Print Assumptions C114_directory_size_refuted.
Print Assumptions C114_unpack_folders.
