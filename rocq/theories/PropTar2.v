(** C49: packing that fails, and callbacks that stop. *)
From Verif Require Import Base CStr CStrSpec CStrProofs Print Array ArraySpec FStream FStreamSpec FStreamProofs Tar TarSpec TarProofs TarProofs2 TarProofs3 PropTar.

(** the first file that cannot be opened stops the packing: the files before it are stored,
    without the closing blocks; -4 tells a missing file from other failures, -2 *)
Theorem C49_missing_file fs paths es path rest d code : Forall2 (holds fs) paths es -> Forall storable es -> size_of es < 2^63 -> stream_new true = Some d ->
  (fs path = NotExists /\ code = -4) \/ (fs path = OpenError /\ code = -2) ->
  exists d' xs, pack fs [] d (paths ++ path :: rest) = Some (code, d') /\ Forall2 entry_of es xs /\
    fst (stream_buf d') = concat xs ++ skipn (length (concat xs)) (fst (stream_buf d')) /\ snd (stream_buf d') = len (concat xs).
Proof.
  intros H St L N C. destruct (pack_prefix fs (path :: rest) paths es d [] H St (new_at_end d N)) as (d' & xs & E & G & (S & _)); [exact L|].
  exists d', xs. split; [|split].
  - unfold pack. rewrite E. cbn [pack_loop]. destruct C as [(-> & ->)|(-> & ->)]; reflexivity.
  - clear - G. induction G as [|e x es xs (h & H & _ & E) G IH]; constructor; [exists h; easy|easy].
  - cbn [app] in S. destruct (srep_buf _ _ S) as (B1 & B2). cbn [contents] in *. rewrite B1. cbn [fst snd]. split; [|easy]. rewrite <- B2 at 1. symmetry. apply firstn_skipn.
Qed.
Example C49_missing_ex : option_map (fun p => (fst p, snd (stream_buf (snd p))))
  (d <- stream_new true ;; pack (fun p => if list_eq_dec Z.eq_dec p [97; 0] then Opened [1; 2; 3] 7 else NotExists) [] d [[97; 0]; [98; 0]]) = Some (-4, 1024).
Proof. vm_compute. reflexivity. Qed.

(** a stream opened for reading: its contents stay, and the result is -2 as soon as a file
    needs padding, or at the closing blocks *)
Theorem C49_not_writable fs paths es d f oks : Forall2 (holds fs) paths es -> Forall storable es -> srep d f -> kind_of d = ReadOnly -> size f + 4096 < 2^63 ->
  exists d' p, pack fs oks d paths = Some (-2, d') /\ srep d' (File (contents f) p).
Proof.
  intros H St S K L. assert (X : exists r oks' d' p, pack_loop fs oks d paths = Some (r, oks', d') /\ (r = 0 \/ r = -2) /\ srep d' (File (contents f) p) /\ kind_of d' = ReadOnly).
  { revert oks d f S K L. induction H as [|path e paths es Hp H IH]; intros oks d f S K L.
    - exists 0, oks, d, (pos f). destruct f. split; [easy|]. split; [now left|easy].
    - apply Forall_cons_iff in St. destruct St as (Se & St). destruct (pack_one_ro fs oks d f path e paths Hp Se S K L) as (oks1 & d1 & p1 & -> & S1 & K1).
      destruct (len (e_data e) mod 512 =? 0).
      + apply (IH St oks1 d1 _ S1 K1 L).
      + exists (-2), oks1, d1, p1. split; [easy|]. split; [now right|easy]. }
  destruct X as (r & oks' & d' & p & E & R & S' & K'). unfold pack. rewrite E. cbn [obind]. destruct R as [-> | ->]; cbn [Z.eqb].
  - destruct (null_ro oks' d' _ 1024 S' K') as (oks2 & d2 & p2 & -> & S2 & _); [lia|unfold size in *; cbn [contents]; lia|]. cbn [obind contents] in *. eauto.
  - eauto.
Qed.
Theorem C49_not_writable_stops fs path e rest d f oks : holds fs path e -> storable e -> len (e_data e) mod 512 <> 0 -> srep d f -> kind_of d = ReadOnly -> size f + 4096 < 2^63 ->
  exists d' p, pack fs oks d (path :: rest) = Some (-2, d') /\ srep d' (File (contents f) p).
Proof.
  intros H Se M S K L. destruct (pack_one_ro fs oks d f path e rest H Se S K L) as (oks1 & d1 & p1 & E & S1 & _). exists d1, p1. split; [|easy].
  unfold pack. rewrite E. destruct (Z.eqb_spec (len (e_data e) mod 512) 0); [easy|]. reflexivity.
Qed.
Example C49_not_writable_ex : exists d d', stream_open true [7; 8; 9] 3 false false = Some d /\ kind_of d = ReadOnly /\ srep d (File [7; 8; 9] 0) /\
  pack (fun p => if list_eq_dec Z.eq_dec p [97; 0] then Opened [1; 2; 3] 7 else NotExists) [] d [[97; 0]; [98; 0]] = Some (-2, d').
Proof. do 2 eexists. split; [reflexivity|]. split; [reflexivity|]. split; [|vm_compute; reflexivity]. repeat split; cbn; try lia. now exists []. Qed.

(** the other writes are not checked: when memory runs out for a header and for a file's data,
    the result still is 0, and the archive lacks the entry *)
Theorem C49_lost_entry_refuted : exists fs paths es oks d d', Forall2 (holds fs) paths es /\ Forall storable es /\ es <> [] /\ stream_new true = Some d /\
  pack fs oks d paths = Some (0, d') /\ snd (stream_buf d') = 1024.
Proof.
  exists (fun _ => Opened (repeat 5 512) 0), [[97; 0]], [Entry [97] (repeat 5 512) 0], [false; false]. do 2 eexists.
  split; [repeat constructor|]. split; [repeat constructor; cbn; lia|]. split; [easy|]. split; [reflexivity|]. split; [vm_compute; reflexivity|reflexivity].
Qed.

(** a callback may look at all it has seen so far: the first positive result stops the
    unpacking with -1, before the following entry is shown *)
Theorem C49_callback_stops code fs paths es d : Forall2 (holds fs) paths es -> Forall storable es -> size_of es + 1024 < 2^63 -> stream_new true = Some d ->
  exists d1 d2 recs d3 k r, pack fs [] d paths = Some (0, d1) /\ file_seek d1 0 = Some (0, d2) /\ Forall2 (matches d3) es recs /\ (k <= length es)%nat /\
    (forall fuel, (length es < fuel)%nat -> unpack (judge code) fuel [] d2 = Some (r, firstn k recs, d3)) /\
    (forall j, (0 < j < k)%nat -> code (firstn j recs) <= 0) /\
    ((r = -1 /\ (0 < k)%nat /\ 0 < code (firstn k recs)) \/ (r = 0 /\ k = length es /\ ((0 < k)%nat -> code (firstn k recs) <= 0))).
Proof.
  intros H St L N. destruct (pack_ok fs paths es d H St (new_at_end d N) L) as (d1 & xs & E & G & (S & _)).
  set (c := concat xs ++ repeat 0 1024) in *.
  destruct (seek_to d1 _ 0 S ltac:(lia)) as (d2 & E2 & S2 & _). rewrite Z.min_l in * by (unfold size; lia). cbn [contents] in S2.
  destruct (judge_ok code c es xs [] d2 [] G St) as (k & r & d3 & p & Lk & U & S3 & J & O); try easy.
  { destruct S as (_ & _ & _ & _ & Q). exact Q. }
  exists d1, d2, (recs_of es xs 0), d3, k, r. split; [easy|]. split; [easy|]. split; [|easy].
  pose proof (rec_data es xs [] (repeat 0 1024) G St) as R. change (len []) with 0 in R. cbn [app] in R. fold c in R.
  clear - R S3 St. induction R; [constructor|]. apply Forall_cons_iff in St. destruct St as ((Cn & _) & St). constructor; [now apply (shows_matches d3 (File c p))|auto].
Qed.
Example C49_callback_ex : exists d1 d2 d3 rec, (d <- stream_new true ;; pack ex_fs [] d [[97; 0]; [98; 46; 99; 0]]) = Some (0, d1) /\ file_seek d1 0 = Some (0, d2) /\
  unpack (judge (fun l => Z.of_nat (length l))) 3 [] d2 = Some (-1, [rec], d3) /\ r_length rec = 3.
Proof. do 4 eexists. split; [vm_compute; reflexivity|]. split; [vm_compute; reflexivity|]. split; vm_compute; reflexivity. Qed.

Print Assumptions C49_missing_file. Print Assumptions C49_not_writable. Print Assumptions C49_not_writable_stops. Print Assumptions C49_lost_entry_refuted. Print Assumptions C49_callback_stops.
