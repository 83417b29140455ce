(** C118: making and removing directories. *)
From Verif Require Import Base CStr CStrSpec Path PathSpec PathProofs PathProofs2 Rmdir RmdirSpec RmdirProofs.
Open Scope list_scope.

Lemma none_at t d l c cs : distinct t -> below t d (NDir l) -> get l c = None -> ~ exists b, at_path t (d ++ c :: cs) b.
Proof.
  intros D B E (b & A). apply at_below' in A. destruct A as (x & A & _). apply below_split in A. destruct A as (y & B' & A). pose proof (below_fun _ _ _ _ D B B'). subst y. inversion A as [|? ? z ? ? I A']; subst. apply (get_none _ _ E). now apply (in_map fst) in I.
Qed.
Lemma below_snoc t d l c x : below t d (NDir l) -> get l c = Some x -> below t (d ++ [c]) x.
Proof. intros B E. eapply below_app; [exact B|]. econstructor; [apply get_in, E|constructor]. Qed.
Lemma added t d l c : distinct t -> below t d (NDir l) -> get l c = None -> forall q b,
  at_path (replace d t (NDir (l ++ [(c, NDir [])]))) q b <-> at_path t q b \/ (q = d ++ [c] /\ b = true).
Proof.
  intros D B E q b. pose proof (below_distinct _ _ _ D B) as Dl. inversion Dl as [|? ND FD]; subst. rewrite (replace_at d t l _ D B). split.
  - intros [(r & -> & A)|[_ A]]; [|now left]. inversion A as [| |? n x r' ? I Ax]; subst.
    + left. rewrite app_nil_r. apply (below_at _ _ _ B).
    + apply in_app_iff in I. destruct I as [I|[I|[]]].
      * left. apply at_below' in Ax. destruct Ax as (y & By & ->). apply below_at. eapply below_app; [exact B|]. econstructor; eassumption.
      * injection I as <- <-. inversion Ax as [| |? ? ? ? ? I' _]; subst; [|destruct I']. right. now split.
  - intros [A|[-> ->]].
    + apply at_below' in A. destruct A as (x & A & ->). destruct (list_eq_dec (list_eq_dec Z.eq_dec) (firstn (length d) q) d) as [Eq|Nq].
      * left. exists (skipn (length d) q). assert (Q : q = d ++ skipn (length d) q) by (rewrite <- (firstn_skipn (length d) q) at 1; rewrite Eq; reflexivity). split; [exact Q|]. rewrite Q in A. apply below_split in A. destruct A as (y & B' & A). pose proof (below_fun _ _ _ _ D B B'). subst y.
        apply below_at in A. inversion A as [|? E0|? n z r' ? I Az E1 E2]; [constructor|]. econstructor; [apply in_app_iff; left; exact I|exact Az].
      * right. split; [|apply below_at; exact A]. intros r ->. apply Nq. now rewrite firstn_app, Nat.sub_diag, firstn_all, app_nil_r.
    + left. exists [c]. split; [reflexivity|]. econstructor; [apply in_app_iff; right; left; reflexivity|constructor].
Qed.
Lemma removed t d l c : distinct t -> below t d (NDir l) -> get l c = Some (NDir []) -> forall q b,
  at_path (replace d t (NDir (del l c))) q b <-> at_path t q b /\ q <> d ++ [c].
Proof.
  intros D B E q b. pose proof (below_distinct _ _ _ D B) as Dl. inversion Dl as [|? ND FD]; subst. rewrite (replace_at d t l _ D B). split.
  - intros [(r & -> & A)|[N A]]; [|split; [exact A|apply N]]. inversion A as [| |? n x r' ? I Ax]; subst.
    + rewrite app_nil_r. split; [apply (below_at _ _ _ B)|]. intros F. apply (f_equal (@length _)) in F. rewrite app_length in F. cbn in F. lia.
    + apply (del_in _ _ _ _ ND) in I. destruct I as [I Nn]. split; [|intros F; apply app_inv_head in F; congruence].
      apply at_below' in Ax. destruct Ax as (y & By & ->). apply below_at. eapply below_app; [exact B|]. econstructor; eassumption.
  - intros [A N]. pose proof A as A0. apply at_below' in A. destruct A as (x & A & ->). destruct (list_eq_dec (list_eq_dec Z.eq_dec) (firstn (length d) q) d) as [Eq|Nq].
    + left. exists (skipn (length d) q). assert (Q : q = d ++ skipn (length d) q) by (rewrite <- (firstn_skipn (length d) q) at 1; rewrite Eq; reflexivity). split; [exact Q|]. rewrite Q in A, N. clear A0 Eq Q. apply below_split in A. destruct A as (y & B' & A). pose proof (below_fun _ _ _ _ D B B'). subst y.
      revert A N. generalize (skipn (length d) q) as r. intros r A N. inversion A as [|? n z r' ? I Az]; subst; [constructor|]. apply below_at in Az. econstructor; [|exact Az]. apply (del_in _ _ _ _ ND). split; [exact I|]. intros ->.
      assert (z = NDir []) by (apply (in_get _ _ _ ND) in I; congruence). subst z. inversion Az as [| |? ? ? ? ? I' _]; subst; [now apply N|destruct I'].
    + right. split; [|exact A0]. intros r ->. apply Nq. now rewrite firstn_app, Nat.sub_diag, firstn_all, app_nil_r.
Qed.

(** ** zpl_path_mkdir: the result tells why, except that a missing or unusable parent is reported as unknown; exactly the directory is added on success, nothing changes otherwise *)
Theorem C118_mkdir : forall allowed t p cs, distinct t -> spells p cs -> p <> [] -> fits p cs -> exists e t', mkdir allowed t p = (e, t') /\ distinct t' /\
  (e = ERROR_NONE /\ allowed = true /\ nothing_at t cs /\ (exists d c, cs = d ++ [c] /\ at_path t d true) /\ (forall q b, at_path t' q b <-> at_path t q b \/ (q = cs /\ b = true))
   \/ e = ERROR_PERMISSION /\ allowed = false /\ nothing_at t cs /\ (exists d c, cs = d ++ [c] /\ at_path t d true) /\ t' = t
   \/ e = ERROR_EXISTS /\ (exists b, at_path t cs b) /\ t' = t
   \/ e = ERROR_UNKNOWN /\ nothing_at t cs /\ (exists d c, cs = d ++ [c] /\ ~ at_path t d true) /\ t' = t).
Proof.
  intros allowed t p cs D Sp Np F. unfold mkdir, sys_mkdir. pose proof (parent_spec t p cs EEXIST D Sp Np F) as P. destruct (resolve_parent t p EEXIST) as [e|[[d l] c]].
  - eexists. exists t. split; [reflexivity|]. split; [exact D|]. right. right. destruct P as [[-> ->]|[(d & c & -> & N) P]].
    + left. split; [reflexivity|]. split; [|reflexivity]. destruct t; eexists; constructor.
    + right. split; [destruct P as [[-> _]|[-> _]]; reflexivity|]. split; [|split; [exists d, c; now split|reflexivity]]. intros b A. apply N. apply at_below' in A. destruct A as (x & A & _). apply below_split in A. destruct A as (y & B & A). inversion A; subst. apply (below_at _ _ _ B).
  - destruct P as [-> B]. pose proof (below_at _ _ _ B) as A. cbn in A. destruct (get l c) as [x|] eqn:E.
    + eexists. exists t. split; [reflexivity|]. split; [exact D|]. right. right. left. split; [reflexivity|]. split; [|reflexivity]. eexists. apply below_at. exact (below_snoc _ _ _ _ _ B E).
    + assert (N : nothing_at t (d ++ [c])) by (intros b A'; apply (none_at t d l c [] D B E); now exists b). destruct allowed.
      * do 2 eexists. split; [reflexivity|]. split.
        -- pose proof (below_distinct _ _ _ D B) as Dl. apply (replace_distinct d t (NDir l) _ D B). pose proof (make_distinct [c] (NDir l) Dl) as M. cbn in M. now rewrite E in M.
        -- left. split; [reflexivity|]. split; [reflexivity|]. split; [exact N|]. split; [exists d, c; now split|]. exact (added t d l c D B E).
      * do 2 eexists. split; [reflexivity|]. split; [exact D|]. right. left. split; [reflexivity|]. split; [reflexivity|]. split; [exact N|]. split; [exists d, c; now split|reflexivity].
Qed.
(** ** zpl_path_rmdir: only an empty directory is removed, and nothing else; files, and files in the way, are reported as unknown *)
Theorem C118_rmdir : forall allowed t p cs, distinct t -> spells p cs -> p <> [] -> fits p cs -> exists e t', rmdir allowed t p = (e, t') /\ distinct t' /\
  (e = ERROR_NONE /\ allowed = true /\ cs <> [] /\ below t cs (NDir []) /\ (forall q b, at_path t' q b <-> at_path t q b /\ q <> cs)
   \/ e = ERROR_PERMISSION /\ allowed = false /\ cs <> [] /\ (exists b, at_path t cs b) /\ t' = t
   \/ e = ERROR_NOT_EMPTY /\ allowed = true /\ cs <> [] /\ (exists x l, below t cs (NDir (x :: l))) /\ t' = t
   \/ e = ERROR_NOT_EXISTS /\ nothing_at t cs /\ ~ file_before t cs /\ t' = t
   \/ e = ERROR_UNKNOWN /\ (cs = [] \/ (allowed = true /\ at_path t cs false) \/ file_before t cs) /\ t' = t).
Proof.
  intros allowed t p cs D Sp Np F. unfold rmdir, sys_rmdir. pose proof (parent_spec t p cs EBUSY D Sp Np F) as P. destruct (resolve_parent t p EBUSY) as [e|[[d l] c]].
  - eexists. exists t. split; [reflexivity|]. split; [exact D|]. right. right. right. destruct P as [[-> ->]|[(d & c & -> & N) [[-> P]|[-> P]]]].
    + right. split; [reflexivity|]. split; [now left|reflexivity].
    + right. split; [reflexivity|]. split; [right; now right|reflexivity].
    + left. split; [reflexivity|]. split; [|now split]. intros b A. apply N. apply at_below' in A. destruct A as (x & A & _). apply below_split in A. destruct A as (y & B & A). inversion A; subst. apply (below_at _ _ _ B).
  - destruct P as [-> B]. assert (Nc : d ++ [c] <> []) by now destruct d. destruct (get l c) as [x|] eqn:E.
    + pose proof (below_snoc _ _ _ _ _ B E) as Bx. destruct allowed.
      * destruct x as [|[|y k]].
        -- eexists. exists t. split; [reflexivity|]. split; [exact D|]. right. right. right. right. split; [reflexivity|]. split; [right; left; split; [reflexivity|exact (below_at _ _ _ Bx)]|reflexivity].
        -- do 2 eexists. split; [reflexivity|]. split.
           ++ pose proof (below_distinct _ _ _ D B) as Dl. inversion Dl as [|? ND FD]; subst. apply (replace_distinct d t (NDir l) _ D B). constructor; [now apply del_nodup|]. apply Forall_forall. intros (m, z) I. apply (del_in _ _ _ _ ND) in I. rewrite Forall_forall in FD. exact (FD _ (proj1 I)).
           ++ left. split; [reflexivity|]. split; [reflexivity|]. split; [exact Nc|]. split; [exact Bx|]. exact (removed t d l c D B E).
        -- eexists. exists t. split; [reflexivity|]. split; [exact D|]. right. right. left. split; [reflexivity|]. split; [reflexivity|]. split; [exact Nc|]. split; [now exists y, k|reflexivity].
      * eexists. exists t. split; [reflexivity|]. split; [exact D|]. right. left. split; [reflexivity|]. split; [reflexivity|]. split; [exact Nc|]. split; [eexists; exact (below_at _ _ _ Bx)|reflexivity].
    + eexists. exists t. split; [reflexivity|]. split; [exact D|]. right. right. right. left. split; [reflexivity|]. split; [intros b A'; apply (none_at t d l c [] D B E); now exists b|]. split; [|reflexivity].
      intros (f & r & Ef & Nr & A). destruct r as [|y r] using rev_ind; [easy|]. clear IHr. rewrite app_assoc in Ef. apply app_inj_tail in Ef. destruct Ef as [-> _].
      apply below_at in B. cbn in B. destruct r as [|z r]; [rewrite app_nil_r in B; pose proof (at_fun _ D _ _ _ A B); discriminate|]. exact (file_no_below t f (z :: r) true D A ltac:(discriminate) B).
Qed.
(** what was made can be removed, and all is as before *)
Theorem C118_round_trip : forall t p cs t', distinct t -> spells p cs -> p <> [] -> fits p cs -> mkdir true t p = (ERROR_NONE, t') ->
  exists t'', rmdir true t' p = (ERROR_NONE, t'') /\ same t t''.
Proof.
  intros t p cs t' D Sp Np F M. destruct (C118_mkdir true t p cs D Sp Np F) as (e & u & E & D' & K). rewrite M in E. injection E as <- <-.
  destruct K as [(_ & _ & N & (d & c & Ec & A) & Q)|[(K & _)|[(K & _)|(K & _)]]]; [|discriminate|discriminate|discriminate].
  assert (At : at_path t' cs true) by (apply Q; right; now split).
  assert (Sole : forall r b, r <> [] -> ~ at_path t' (cs ++ r) b).
  { intros r b Nr Ar. apply Q in Ar. destruct Ar as [Ar|[Ar _]]; [|apply (f_equal (@length _)) in Ar; rewrite app_length in Ar; destruct r; [easy|cbn in Ar; lia]].
    apply at_below' in Ar. destruct Ar as (x & Ar & _). apply below_split in Ar. destruct Ar as (y & B & _). exact (N _ (below_at _ _ _ B)). }
  destruct (C118_rmdir true t' p cs D' Sp Np F) as (e & u & E & _ & K). rewrite E.
  destruct K as [(-> & _ & _ & _ & R)|[(_ & Z & _)|[(_ & _ & _ & ((n, x) & l & B) & _)|[(_ & Z & _)|(_ & [Z|[(_ & Z)|Z]] & _)]]]]; [|discriminate| | | | |].
  - exists u. split; [reflexivity|]. intros q b. rewrite R, Q. split; [intros [[H|[H _]] H']; [exact H|contradiction]|]. intros H. split; [now left|]. intros ->. exact (N b H).
  - exfalso. apply (Sole [n] (match x with NDir _ => true | NFile => false end)); [discriminate|]. apply below_at. eapply below_app; [exact B|]. econstructor; [left; reflexivity|constructor].
  - destruct (Z true At).
  - exfalso. rewrite Z in Ec. now destruct d.
  - pose proof (at_fun _ D' _ _ _ At Z). discriminate.
  - exfalso. destruct Z as (f & r & Ef & Nr & Af). rewrite Ef in At. exact (file_no_below t' f r true D' Af Nr At).
Qed.
(** paths of 4096 bytes and more, and names of more than 255 bytes in a directory, are reported as too long; the empty path does not exist *)
Theorem C118_too_long : forall allowed t p, 4095 < Z.of_nat (length p) -> mkdir allowed t p = (ERROR_NAME_TOO_LONG, t) /\ rmdir allowed t p = (ERROR_NAME_TOO_LONG, t).
Proof. intros allowed t p L. unfold mkdir, rmdir, sys_mkdir, sys_rmdir, resolve_parent, parent. destruct p; [cbn in L; lia|]. rewrite (proj2 (Z.ltb_lt 4095 _) L). split; reflexivity. Qed.
Theorem C118_long_name : forall allowed t p d c, distinct t -> spells p (d ++ [c]) -> fits p d -> at_path t d true -> 255 < Z.of_nat (length c) ->
  mkdir allowed t p = (ERROR_NAME_TOO_LONG, t) /\ rmdir allowed t p = (ERROR_NAME_TOO_LONG, t).
Proof.
  intros allowed t p d c D Sp (Lp & F) A L. unfold mkdir, rmdir, sys_mkdir, sys_rmdir, resolve_parent, parent. rewrite (names_spells _ _ Sp), rev_app_distr, (proj2 (Z.ltb_ge 4095 _) Lp). cbn [rev app]. rewrite rev_involutive.
  pose proof (walk_spec d t D F) as W. apply at_below' in A. destruct A as (x & B & E). destruct (walk d t) as [e|y]; [destruct W as [N _]; destruct (N x B)|]. pose proof (below_fun _ _ _ _ D W B). subst y. destruct x as [|l]; [discriminate|].
  unfold long_name. rewrite (proj2 (Z.ltb_lt 255 _) L). destruct p; [|split; reflexivity]. apply names_spells in Sp. destruct d; discriminate.
Qed.
Theorem C118_empty_path : forall allowed t, mkdir allowed t [] = (ERROR_UNKNOWN, t) /\ rmdir allowed t [] = (ERROR_NOT_EXISTS, t).
Proof. intros allowed t. split; reflexivity. Qed.
(** the same missing directory is unknown to the one and does not exist for the other; a full directory is kept *)
Theorem C118_unknown_refuted : let t := NDir [([97], NFile); ([98], NDir [([99], NFile)])] in
  mkdir true t [120; 47; 121] = (ERROR_UNKNOWN, t) /\ rmdir true t [120; 47; 121] = (ERROR_NOT_EXISTS, t) /\ rmdir true t [97] = (ERROR_UNKNOWN, t).
Proof. repeat split; reflexivity. Qed.
Example C118_ex : let t := NDir [([97], NFile); ([98], NDir [([99], NFile)])] in
  mkdir true t [98; 47; 100; 47] = (ERROR_NONE, NDir [([97], NFile); ([98], NDir [([99], NFile); ([100], NDir [])])]) /\
  rmdir true (NDir [([97], NFile); ([98], NDir [([99], NFile); ([100], NDir [])])]) [47; 98; 47; 47; 100] = (ERROR_NONE, t) /\
  mkdir true t [98] = (ERROR_EXISTS, t) /\ mkdir true t [97] = (ERROR_EXISTS, t) /\ mkdir false t [120] = (ERROR_PERMISSION, t) /\ rmdir true t [98] = (ERROR_NOT_EMPTY, t) /\ rmdir false t [98] = (ERROR_PERMISSION, t).
Proof. repeat split; reflexivity. Qed.
Print Assumptions C118_mkdir.
Print Assumptions C118_rmdir.
Print Assumptions C118_round_trip.
Print Assumptions C118_too_long.
Print Assumptions C118_long_name.
Print Assumptions C118_empty_path.
Print Assumptions C118_unknown_refuted.
