(** C110, C111: what files hold, and kinds of files. *)
From Coq Require Import Permutation.
From Verif Require Import Base FileLife.

Definition update (vars : nat -> zfile) (v : nat) (f : zfile) : nat -> zfile := fun w => if Nat.eq_dec w v then f else vars w.
(** Files in variables: each is opened, or made as a temporary file, and closed before it is used again. [l]: the
    variables whose file is open; [n]: how many temporary files have been made. *)
Inductive reach (base : system) : system -> (nat -> zfile) -> list nat -> Z -> Prop :=
| reach_start vars : NoDup (fds base) -> NoDup (blocks base) -> reach base base vars [] 0
| reach_open s vars l n v mode d b f s' : reach base s vars l n -> ~ In v l -> ~ In d (fds s) -> ~ In b (blocks s) ->
    file_open_mode s mode d b = Some (true, f, s') -> reach base s' (update vars v f) (v :: l) n
| reach_open_failed s vars l n v mode d b f s' : reach base s vars l n -> ~ In v l ->
    file_open_mode s mode d b = Some (false, f, s') -> reach base s' (update vars v f) l n
| reach_temp s vars l n v d f s' : reach base s vars l n -> ~ In v l -> ~ In d (fds s) -> file_temp s d = (true, f, s') -> reach base s' (update vars v f) (v :: l) (n + 1)
| reach_temp_failed s vars l n v d f s' : reach base s vars l n -> ~ In v l -> file_temp s d = (false, f, s') -> reach base s' (update vars v f) l n
| reach_close s vars l n v r f s' : reach base s vars l n -> In v l -> file_close s (vars v) = Some (r, f, s') -> reach base s' (update vars v f) (remove Nat.eq_dec v l) n.

Definition name_block (f : zfile) : list Z := match filename f with Some b => [b] | None => [] end.
Record Inv (base s : system) (vars : nat -> zfile) (l : list nat) (n : Z) : Prop := {
  i_fds : Permutation (fds s) (fds base ++ map (fun v => fd (vars v)) l);
  i_blocks : Permutation (blocks s) (blocks base ++ flat_map (fun v => name_block (vars v)) l);
  i_nd : NoDup (fds s);
  i_nb : NoDup (blocks s);
  i_nl : NoDup l;
  i_ok : forall v, In v l -> 0 <= fd (vars v) /\ has_ops (vars v) = true;
  i_streams : streams s = streams base + n
}.
Lemma update_same vars v f : update vars v f v = f.
Proof. unfold update. now destruct (Nat.eq_dec v v). Qed.
Lemma map_update {A} (g : zfile -> A) vars v f l : ~ In v l -> map (fun w => g (update vars v f w)) l = map (fun w => g (vars w)) l.
Proof. intros N. apply map_ext_in. intros w W. unfold update. destruct (Nat.eq_dec w v); [subst; contradiction|reflexivity]. Qed.
Lemma flat_map_update {A} (g : zfile -> list A) vars v f l : ~ In v l -> flat_map (fun w => g (update vars v f w)) l = flat_map (fun w => g (vars w)) l.
Proof. intros N. rewrite !flat_map_concat_map. f_equal. now apply map_update. Qed.
Lemma remove_notin {A} (dec : forall a b : A, {a = b} + {a <> b}) x l : ~ In x l -> remove dec x l = l.
Proof. apply notin_remove. Qed.
Lemma remove_perm {A} (dec : forall a b : A, {a = b} + {a <> b}) x l m : NoDup l -> Permutation l (x :: m) -> Permutation (remove dec x l) m.
Proof.
  intros N P. assert (NM : NoDup (x :: m)) by (eapply Permutation_NoDup; eauto). inversion NM as [|? ? NI _]; subst. rewrite <- (remove_notin dec x m NI). replace (remove dec x m) with (remove dec x (x :: m)) by (cbn; destruct (dec x x); [reflexivity|contradiction]).
  clear N NM NI. revert P. generalize (x :: m) as k. intros k P. induction P as [|y l' m' P IH|y z l'|l1 l2 l3 P1 IH1 P2 IH2].
  - constructor.
  - cbn. destruct (dec x y); [exact IH|now constructor].
  - cbn. destruct (dec x y), (dec x z); try apply Permutation_refl. apply perm_swap.
  - eapply Permutation_trans; eauto.
Qed.
Lemma remove_nodup {A} (dec : forall a b : A, {a = b} + {a <> b}) x l : NoDup l -> NoDup (remove dec x l).
Proof.
  induction 1 as [|y l NI N IH]; cbn; [constructor|]. destruct (dec x y); [exact IH|]. constructor; [|exact IH]. intros I. apply in_remove in I. tauto.
Qed.
Lemma split_member (v : nat) (l : list nat) : NoDup l -> In v l -> exists m, Permutation l (v :: m) /\ ~ In v m.
Proof.
  intros N I. apply in_split in I. destruct I as (a & b & ->). exists (a ++ b). split; [apply Permutation_sym, Permutation_middle|]. now apply NoDup_remove_2.
Qed.
Lemma close_inv base s vars l n v : Inv base s vars l n -> In v l -> exists f s', file_close s (vars v) = Some (true, f, s') /\ Inv base s' (update vars v f) (remove Nat.eq_dec v l) n /\ ~ In (fd (vars v)) (fds s') /\ (forall b, filename (vars v) = Some b -> ~ In b (blocks s')) /\ filename f = filename (vars v) /\ fd f = fd (vars v).
Proof.
  intros J I. destruct J as [F B ND NB NL OK ST]. destruct (OK v I) as [O1 O2]. destruct (split_member v l NL I) as (m & P & NM).
  assert (RM : Permutation (remove Nat.eq_dec v l) m) by (now apply remove_perm).
  assert (PF : Permutation (fds s) (fd (vars v) :: fds base ++ map (fun w => fd (vars w)) m)). { eapply Permutation_trans; [exact F|]. eapply Permutation_trans; [apply Permutation_app_head, (Permutation_map (fun w => fd (vars w)) P)|]. cbn [map]. apply Permutation_sym, Permutation_middle. }
  assert (PB : Permutation (blocks s) (name_block (vars v) ++ blocks base ++ flat_map (fun w => name_block (vars w)) m)). { eapply Permutation_trans; [exact B|]. eapply Permutation_trans; [apply Permutation_app_head, (Permutation_flat_map (fun w => name_block (vars w)) P)|]. cbn [flat_map]. rewrite !app_assoc. apply Permutation_app_tail, Permutation_app_comm. }
  unfold file_close.
  assert (FR : exists s1, free s (filename (vars v)) = Some s1 /\ fds s1 = fds s /\ streams s1 = streams s /\ NoDup (blocks s1) /\ Permutation (blocks s1) (blocks base ++ flat_map (fun w => name_block (vars w)) m) /\ (forall b, filename (vars v) = Some b -> ~ In b (blocks s1))).
  { unfold free. unfold name_block at 1 in PB. destruct (filename (vars v)) as [b|]; [|exists s; repeat split; try assumption; discriminate]. cbn [app] in PB. destruct (in_dec Z.eq_dec b (blocks s)) as [IB|NI]; [|exfalso; apply NI; eapply Permutation_in; [apply Permutation_sym, PB|now left]]. eexists. split; [reflexivity|]. cbn [fds streams blocks]. split; [reflexivity|]. split; [reflexivity|]. split; [now apply remove_nodup|]. split; [now apply remove_perm|]. intros c E. injection E as <-. apply remove_In. }
  destruct FR as (s1 & -> & E1 & E2 & N1 & P1 & D1). cbn [obind]. destruct (Z.ltb_spec (fd (vars v)) 0); [lia|].
  assert (G : forall f, filename f = filename (vars v) -> fd f = fd (vars v) -> Inv base (close s1 (fd (vars v))) (update vars v f) (remove Nat.eq_dec v l) n /\ ~ In (fd (vars v)) (fds (close s1 (fd (vars v)))) /\ (forall b, filename (vars v) = Some b -> ~ In b (blocks (close s1 (fd (vars v))))) /\ filename f = filename (vars v) /\ fd f = fd (vars v)).
  { intros f H1 H2. assert (NR : ~ In v (remove Nat.eq_dec v l)) by apply remove_In. split; [|cbn [close fds blocks]; repeat split; try assumption; apply remove_In].
    constructor; unfold close; cbn [fds blocks streams].
    - rewrite (map_update fd vars v f _ NR), E1. eapply Permutation_trans; [apply (remove_perm Z.eq_dec _ _ _ ND PF)|]. apply Permutation_app_head, Permutation_map, Permutation_sym, RM.
    - rewrite (flat_map_update name_block vars v f _ NR). eapply Permutation_trans; [exact P1|]. apply Permutation_app_head, Permutation_flat_map, Permutation_sym, RM.
    - rewrite E1. now apply remove_nodup.
    - exact N1.
    - now apply remove_nodup.
    - intros w W. apply in_remove in W. destruct W as [W NE]. unfold update. destruct (Nat.eq_dec w v); [contradiction|]. now apply OK.
    - now rewrite E2. }
  rewrite O2. destruct (is_temp (vars v)); do 2 eexists; (split; [reflexivity|]); apply G; reflexivity.
Qed.
Lemma reach_inv base s vars l n : reach base s vars l n -> Inv base s vars l n.
Proof.
  induction 1 as [vars N1 N2|s vars l n v mode d b f s' R J NV ND NB E|s vars l n v mode d b f s' R J NV E|s vars l n v d f s' R J NV ND E|s vars l n v d f s' R J NV E|s vars l n v r f s' R J IV E].
  - constructor; cbn; rewrite ?app_nil_r; try easy; try lia; constructor.
  - unfold file_open_mode in E. destruct (known_mode mode); [|discriminate]. destruct (Z.ltb_spec d 0); [discriminate|]. injection E as <- <-. destruct J as [F B XD XB NL OK ST]. constructor; cbn [fds blocks streams map flat_map].
    + rewrite update_same. cbn [fd]. rewrite (map_update fd vars v _ l NV). eapply Permutation_trans; [apply perm_skip, F|]. apply Permutation_middle.
    + rewrite update_same. cbn [name_block filename app]. rewrite (flat_map_update name_block vars v _ l NV). eapply Permutation_trans; [apply perm_skip, B|]. apply Permutation_middle.
    + now constructor.
    + now constructor.
    + now constructor.
    + intros w [<-|W]; [rewrite update_same; cbn; split; [lia|reflexivity]|]. unfold update. destruct (Nat.eq_dec w v); [subst; contradiction|now apply OK].
    + exact ST.
  - unfold file_open_mode in E. destruct (known_mode mode); [|discriminate]. destruct (Z.ltb_spec d 0); [|discriminate]. injection E as <- <-. destruct J as [F B XD XB NL OK ST]. constructor; try assumption.
    + now rewrite (map_update fd vars v _ l NV).
    + now rewrite (flat_map_update name_block vars v _ l NV).
    + intros w W. unfold update. destruct (Nat.eq_dec w v); [subst; contradiction|now apply OK].
  - unfold file_temp in E. destruct (Z.ltb_spec d 0); [discriminate|]. injection E as <- <-. destruct J as [F B XD XB NL OK ST]. constructor; cbn [fds blocks streams map flat_map].
    + rewrite update_same. cbn [fd]. rewrite (map_update fd vars v _ l NV). eapply Permutation_trans; [apply perm_skip, F|]. apply Permutation_middle.
    + rewrite update_same. cbn [name_block filename app]. now rewrite (flat_map_update name_block vars v _ l NV).
    + now constructor.
    + exact XB.
    + now constructor.
    + intros w [<-|W]; [rewrite update_same; cbn; split; [lia|reflexivity]|]. unfold update. destruct (Nat.eq_dec w v); [subst; contradiction|now apply OK].
    + lia.
  - unfold file_temp in E. destruct (Z.ltb_spec d 0); [|discriminate]. injection E as <- <-. destruct J as [F B XD XB NL OK ST]. constructor; try assumption.
    + now rewrite (map_update fd vars v _ l NV).
    + now rewrite (flat_map_update name_block vars v _ l NV).
    + intros w W. unfold update. destruct (Nat.eq_dec w v); [subst; contradiction|now apply OK].
  - destruct (close_inv base s vars l n v J IV) as (f' & s1 & E' & J' & _). rewrite E in E'. injection E' as -> -> ->. exact J'.
Qed.

(** ** C110 *)
(** Closing an open file is defined and releases its descriptor and its name. *)
Theorem C110_close (base s : system) (vars : nat -> zfile) (l : list nat) (n : Z) (v : nat) : reach base s vars l n -> In v l ->
  exists f s', file_close s (vars v) = Some (true, f, s') /\ In (fd (vars v)) (fds s) /\ ~ In (fd (vars v)) (fds s') /\ (forall b, file_name (vars v) = Some b -> In b (blocks s) /\ ~ In b (blocks s')).
Proof.
  intros R I. apply reach_inv in R. destruct (close_inv base s vars l n v R I) as (f & s' & E & _ & D & B & _). exists f, s'. split; [exact E|]. destruct R as [F BL _ _ _ _ _]. split; [|split; [exact D|]].
  - eapply Permutation_in; [apply Permutation_sym, F|]. apply in_or_app. right. now apply (in_map (fun w => fd (vars w))).
  - intros b N. split; [|now apply B]. eapply Permutation_in; [apply Permutation_sym, BL|]. apply in_or_app. right. apply in_flat_map. exists v. split; [exact I|]. unfold name_block. unfold file_name in N. rewrite N. now left.
Qed.
(** When every file has been closed, the descriptors and the memory in use are those of the start. *)
Theorem C110_balanced (base s : system) (vars : nat -> zfile) (n : Z) : reach base s vars [] n -> Permutation (fds s) (fds base) /\ Permutation (blocks s) (blocks base).
Proof. intros R. apply reach_inv in R. destruct R as [F B _ _ _ _ _]. cbn in F, B. rewrite app_nil_r in F, B. now split. Qed.
(** But each temporary file leaves a FILE object behind. *)
Theorem C110_temp_refuted (base s : system) (vars : nat -> zfile) (l : list nat) (n : Z) : reach base s vars l n -> streams s = streams base + n.
Proof. intros R. apply reach_inv in R. now destruct R. Qed.
(** Open files have different descriptors, none of which was open at the start. *)
Theorem C110_distinct (base s : system) (vars : nat -> zfile) (l : list nat) (n : Z) : reach base s vars l n -> NoDup (map (fun v => fd (vars v)) l) /\ forall v, In v l -> ~ In (fd (vars v)) (fds base).
Proof.
  intros R. apply reach_inv in R. destruct R as [F _ ND _ _ _ _]. pose proof (Permutation_NoDup F ND) as N. clear F. split.
  - revert N. induction (fds base) as [|x r IH]; intros N; [exact N|]. inversion N; subst. now apply IH.
  - intros v I B. apply (in_map (fun v => fd (vars v))) in I. revert N B I. generalize (map (fun v => fd (vars v)) l) as m. induction (fds base) as [|x r IH]; intros m N B I; [destruct B|]. inversion N as [|? ? NI N']; subst. destruct B as [E|B]; [apply NI, in_or_app; right; now rewrite E|now apply (IH m)].
Qed.
(** Closing what could not be opened reports an error and does nothing. *)
Theorem C110_failed_open (s s' : system) (mode d b : Z) (f : zfile) : file_open_mode s mode d b = Some (false, f, s') -> s' = s /\ file_close s' f = Some (false, f, s).
Proof.
  unfold file_open_mode. destruct (known_mode mode); [|discriminate]. destruct (Z.ltb_spec d 0) as [L|L]; [|discriminate]. intros E. injection E as <- <-. split; [reflexivity|]. unfold file_close. cbn [filename free obind fd]. now rewrite (proj2 (Z.ltb_lt d 0) L).
Qed.
(** Modes other than READ, WRITE or APPEND, with or without RW, panic. *)
Theorem C110_modes (s : system) (mode d b : Z) : (file_open_mode s mode d b = None <-> ~ In (Z.land mode 15) [1; 2; 4; 9; 10; 12]).
Proof.
  unfold file_open_mode, known_mode. destruct (existsb (Z.eqb (Z.land mode 15)) [1; 2; 4; 9; 10; 12]) eqn:E.
  - apply existsb_exists in E. destruct E as (x & I & E). apply Z.eqb_eq in E. subst x. split; [destruct (d <? 0); discriminate|contradiction].
  - split; [intros _ I|reflexivity]. assert (existsb (Z.eqb (Z.land mode 15)) [1; 2; 4; 9; 10; 12] = true) by (apply existsb_exists; exists (Z.land mode 15); split; [exact I|apply Z.eqb_refl]). congruence.
Qed.
(** zpl_file_create and zpl_file_open never panic: with a descriptor they give a file with a name, otherwise an error; a temporary file is marked as one and has no name *)
Theorem C110_shortcuts (s : system) (d b : Z) : (0 <= d -> exists f s1 g s2, file_create s d b = Some (true, f, s1) /\ file_open s d b = Some (true, g, s2) /\ file_name f = Some b /\ file_name g = Some b /\ is_temp f = false /\ is_temp g = false /\
    exists h s3, file_temp s d = (true, h, s3) /\ is_temp h = true /\ file_name h = None /\ fd h = d) /\
  (d < 0 -> exists f g, file_create s d b = Some (false, f, s) /\ file_open s d b = Some (false, g, s)).
Proof.
  split; intros L.
  - unfold file_create, file_open, file_open_mode, file_temp. rewrite (proj2 (Z.ltb_ge d 0) L). do 4 eexists. do 6 (split; [reflexivity|]). do 2 eexists. repeat split; reflexivity.
  - unfold file_create, file_open, file_open_mode. rewrite (proj2 (Z.ltb_lt d 0) L). do 2 eexists. split; reflexivity.
Qed.
(** Closing a file twice frees its name twice. *)
Theorem C110_twice_refuted (base s : system) (vars : nat -> zfile) (l : list nat) (n : Z) (v : nat) (b : Z) (f : zfile) (r : bool) (s' : system) :
  reach base s vars l n -> In v l -> file_name (vars v) = Some b -> file_close s (vars v) = Some (r, f, s') -> file_close s' f = None.
Proof.
  intros R I N E. apply reach_inv in R. destruct (close_inv base s vars l n v R I) as (f' & s1 & E' & _ & _ & B & K & _). rewrite E in E'. injection E' as -> -> ->. unfold file_name in N. unfold file_close. rewrite K, N. unfold free. destruct (in_dec Z.eq_dec b (blocks s1)) as [IB|]; [|reflexivity]. now destruct (B b N).
Qed.
(** Closing a temporary file that could not be made, or a file never opened, closes the standard input. *)
Theorem C110_failed_temp_refuted (s : system) (d : Z) : d < 0 -> file_temp s d = (false, zeroed, s) /\ exists f, file_close s zeroed = Some (true, f, close s 0).
Proof. intros L. unfold file_temp. rewrite (proj2 (Z.ltb_lt d 0) L). split; [reflexivity|]. eexists. reflexivity. Qed.
(** Closing a standard file twice closes the file that was given its descriptor in between. *)
Theorem C110_standard_refuted (s : system) (k mode b : Z) : 0 <= k -> known_mode mode = true ->
  exists f1 s1 f2 s2 f3 s3, file_close s (standard k) = Some (true, f1, s1) /\ ~ In k (fds s1) /\ file_open_mode s1 mode k b = Some (true, f2, s2) /\ In (fd f2) (fds s2) /\ file_close s2 f1 = Some (true, f3, s3) /\ ~ In (fd f2) (fds s3).
Proof.
  intros K M. unfold file_close, standard, file_open_mode. cbn [filename free obind fd is_temp has_ops]. rewrite (proj2 (Z.ltb_ge k 0) K), M. do 6 eexists. split; [reflexivity|]. split; [apply remove_In|]. split; [reflexivity|]. split; [now left|]. cbn [filename free obind fd is_temp]. rewrite (proj2 (Z.ltb_ge k 0) K). split; [reflexivity|]. unfold close at 1. cbn [fds fd]. apply remove_In.
Qed.
Example C110_ex : exists s vars, reach (System [0; 1; 2] [] 0) s vars [7%nat] 1 /\ fd (vars 7%nat) = 4 /\ file_name (vars 7%nat) = Some 100.
Proof.
  do 2 eexists. split.
  - eapply (reach_close _ _ _ [8%nat; 7%nat] _ 8%nat).
    + eapply (reach_temp _ _ _ [7%nat] 0 8%nat 5); [|now intros [H|[]]| |reflexivity].
      * eapply (reach_open _ (System [0; 1; 2] [] 0) (fun _ => zeroed) [] 0 7%nat 1 4 100); [apply reach_start; cbn; repeat constructor; cbn; lia|intros []|cbn; lia|intros []|reflexivity].
      * cbn; lia.
    + now left.
    + reflexivity.
  - split; reflexivity.
Qed.

(** ** C111 *)
(** stat(2): the kind of a file in the bits from 12 on *)
Definition kind (m : Z) : Z := Z.land (Z.shiftr m 12) 15.
Definition FIFO := 1. Definition CHR := 2. Definition DIR := 4. Definition BLK := 6. Definition REG := 8. Definition SOCK := 12.
Definition file_kind (k : Z) : Prop := In k [FIFO; CHR; DIR; BLK; REG; SOCK].
(** A folder is what stat(2) says is a directory, a block device or a socket; any other file is a file. *)
Theorem C111_type (m : Z) : file_kind (kind m) -> (fs_get_type (Some m) = 1 <-> kind m = DIR \/ kind m = BLK \/ kind m = SOCK) /\ (fs_get_type (Some m) = 0 <-> kind m = REG \/ kind m = FIFO \/ kind m = CHR) /\ fs_get_type None = 2.
Proof.
  intros K. assert (E : fs_get_type (Some m) = if Z.testbit (kind m) 2 then 1 else 0).
  { unfold fs_get_type, kind. rewrite Z.land_spec, Z.shiftr_spec by lia. change (Z.testbit 15 2) with true. rewrite andb_true_r. change (2 + 12) with 14. change 0x4000 with (2 ^ 14).
    assert (L : Z.land m (2 ^ 14) = if Z.testbit m 14 then 2 ^ 14 else 0). { apply Z.bits_inj'. intros i I. rewrite Z.land_spec. destruct (Z.eq_dec i 14) as [->|NE]; [rewrite Z.pow2_bits_true by lia; destruct (Z.testbit m 14); reflexivity|]. rewrite Z.pow2_bits_false by lia. rewrite andb_false_r. destruct (Z.testbit m 14); [now rewrite Z.pow2_bits_false by lia|now rewrite Z.bits_0]. }
    rewrite L. destruct (Z.testbit m 14); reflexivity. }
  rewrite E. unfold file_kind, FIFO, CHR, DIR, BLK, REG, SOCK in *. repeat (destruct K as [<-|K]; [cbn; lia|]). destruct K.
Qed.
(** So block devices and sockets are taken for folders. *)
Theorem C111_type_refuted (m : Z) : kind m = BLK \/ kind m = SOCK -> fs_get_type (Some m) = 1 /\ kind m <> DIR.
Proof.
  intros H. assert (K : file_kind (kind m)) by (unfold file_kind; destruct H as [->| ->]; cbn; tauto). split; [apply C111_type; [exact K|tauto]|]. unfold DIR, BLK, SOCK in *. lia.
Qed.
Example C111_ex : kind 0x41ed = DIR /\ kind 0x81a4 = REG /\ kind 0x61b0 = BLK /\ fs_get_type (Some 0x41ed) = 1 /\ fs_get_type (Some 0x81a4) = 0 /\ fs_get_type (Some 0x61b0) = 1.
Proof. repeat split; reflexivity. Qed.
Print Assumptions C110_close.
Print Assumptions C110_balanced.
Print Assumptions C110_temp_refuted.
Print Assumptions C110_distinct.
Print Assumptions C110_failed_open.
Print Assumptions C110_modes.
Print Assumptions C110_shortcuts.
Print Assumptions C110_twice_refuted.
Print Assumptions C110_failed_temp_refuted.
Print Assumptions C110_standard_refuted.
Print Assumptions C111_type.
Print Assumptions C111_type_refuted.
