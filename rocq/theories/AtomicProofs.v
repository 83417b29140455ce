(** Proofs about the atomic operations. *)
From Verif Require Import Base Atomic AtomicSpec.

Lemma own_app t a b : own t (a ++ b) = own t a ++ own t b.
Proof. unfold own. now rewrite filter_app, map_app. Qed.
Lemma stored_app t a b : stored t (a ++ b) = stored t a ++ stored t b.
Proof. unfold stored. now rewrite filter_app, map_app. Qed.
Lemma seen_app v a b r : In r (seen v a) -> In r (seen v (a ++ b)).
Proof. unfold seen. rewrite map_app. cbn. rewrite in_app_iff. tauto. Qed.
Lemma chain_app v a x v1 : chain v a (w_old x) -> w_new x = v1 -> chain v (a ++ [x]) v1.
Proof. revert v. induction a as [|y a IH]; cbn; intros v H E; [auto|]. destruct H as (A & B). split; [exact A|]. now apply IH. Qed.
Lemma chain_seen v a v1 : chain v a v1 -> In v1 (seen v a).
Proof. revert v. induction a as [|y a IH]; intros v H; [now left|]. destruct H as (A & B). right. apply IH in B. exact B. Qed.
Lemma upd_same f t x : upd f t x t = x.
Proof. unfold upd. now rewrite Nat.eqb_refl. Qed.
Lemma upd_other f t x u : u <> t -> upd f t x u = f u.
Proof. intros H. unfold upd. destruct (Nat.eqb_spec u t); [easy|reflexivity]. Qed.

(** where a thread is in its operation, with n instructions executed and D writes to memory since the call *)
Definition spin (x : Z) (f : Z -> Z -> Z) (v : Z) (th : thread) (ows : list (Z * Z)) (D n : nat) : Prop :=
  r3 th = x /\
  match pc th with
  | 0%nat => ows = [] /\ (n <= 5 * D)%nat
  | 1%nat => ows = [] /\ exists k, (k <= D /\ n <= 5 * k + 1 /\ (k = D -> buf th = [] -> r0 th = v))%nat
  | 2%nat => ows = [] /\ r2 th = r0 th /\ exists k, (k <= D /\ n <= 5 * k + 2 /\ (k = D -> buf th = [] -> r0 th = v))%nat
  | 3%nat => ows = [] /\ r2 th = f (r0 th) x /\ exists k, (k <= D /\ n <= 5 * k + 3 /\ (k = D -> buf th = [] -> r0 th = v))%nat
  | 4%nat => buf th = [] /\ (n + 1 <= 5 * D)%nat /\ (if zf th then ows = [(r0 th, f (r0 th) x)] else ows = [])
  | 5%nat => buf th = [] /\ (n <= 5 * D)%nat /\ ows = [(r0 th, f (r0 th) x)]
  | _ => False
  end.
Definition at_point (w : Z) (o : op) (v0 v : Z) (b0 : list Z) (th : thread) (ws : list write) (ows : list (Z * Z)) (n : nat) : Prop :=
  match o with
  | OLoad => ows = [] /\ incl (buf th) b0 /\ n = pc th /\ match pc th with 0%nat => True | 1%nat => In (r0 th) (seen v0 ws) \/ In (r0 th) b0 | _ => False end
  | OStore x => ows = [] /\ n = pc th /\ (pc th <= 1)%nat
  | OCas e d => n = pc th /\ match pc th with
      | 0%nat => ows = [] /\ r0 th = e /\ r2 th = d
      | 1%nat => buf th = [] /\ ((r0 th = e /\ ows = [(e, d)]) \/ (r0 th <> e /\ ows = [] /\ In (r0 th) (seen v0 ws)))
      | _ => False end
  | OXchg x => n = pc th /\ match pc th with 0%nat => ows = [] /\ r0 th = x | 1%nat => buf th = [] /\ ows = [(r0 th, x)] | _ => False end
  | OAdd x => n = pc th /\ match pc th with 0%nat => ows = [] /\ r0 th = x | 1%nat => buf th = [] /\ ows = [(r0 th, (r0 th + x) mod 2^w)] | _ => False end
  | OAnd x => spin x Z.land v th ows (length ws) n
  | OOr x => spin x Z.lor v th ows (length ws) n
  end.
Definition inv (w : Z) (t : nat) (o : op) (v0 : Z) (b0 : list Z) (ws0 : list write) (n : nat) (s : state) : Prop :=
  exists ws, writes s = ws0 ++ ws /\ chain v0 ws (val s) /\ cur (threads s t) = Some o /\ at_point w o v0 (val s) b0 (threads s t) ws (own t ws) n.

(** a write that is not of an instruction of this thread *)
Lemma at_point_more w o v0 v v' b0 th b ws x ows n : at_point w o v0 v b0 th ws ows n -> incl b (buf th) -> (buf th = [] -> b = []) ->
  at_point w o v0 v' b0 (mkThread (cur th) (pc th) (r0 th) (r2 th) (r3 th) (zf th) b) (ws ++ [x]) ows n.
Proof.
  intros H Ib Nb. assert (L : length (ws ++ [x]) = S (length ws)) by (rewrite app_length; cbn; lia).
  assert (SP : forall y f, spin y f v th ows (length ws) n -> spin y f v' (mkThread (cur th) (pc th) (r0 th) (r2 th) (r3 th) (zf th) b) ows (length (ws ++ [x])) n).
  { intros y f. unfold spin. rewrite L. cbn [pc r0 r2 r3 zf buf]. intros (A & B). split; [exact A|].
    destruct (pc th) as [|[|[|[|[|[|p]]]]]]; [..|exact B].
    - destruct B. split; [assumption|lia].
    - destruct B as (B & k & C & D & E). split; [exact B|]. exists k. repeat split; [lia|lia|intros; lia].
    - destruct B as (B & B2 & k & C & D & E). split; [exact B|]. split; [exact B2|]. exists k. repeat split; [lia|lia|intros; lia].
    - destruct B as (B & B2 & k & C & D & E). split; [exact B|]. split; [exact B2|]. exists k. repeat split; [lia|lia|intros; lia].
    - destruct B as (B & C & D). split; [auto|]. split; [lia|exact D].
    - destruct B as (B & C & D). split; [auto|]. split; [lia|exact D]. }
  destruct o; cbn [at_point] in *; cbn [pc r0 r2 r3 zf buf] in *.
  - destruct H as (A & B & C & D). split; [exact A|]. split; [intros y Hy; auto|]. split; [exact C|]. destruct (pc th) as [|[|p]]; [exact I| |exact D]. destruct D as [D|D]; [left; now apply seen_app|now right].
  - exact H.
  - destruct H as (A & B). split; [exact A|]. destruct (pc th) as [|[|p]]; [exact B| |exact B]. destruct B as (B & [C|(C & D & E)]); (split; [auto|]); [now left|]. right. split; [exact C|]. split; [exact D|]. now apply seen_app.
  - destruct H as (A & B). split; [exact A|]. destruct (pc th) as [|[|p]]; [exact B| |exact B]. destruct B. split; auto.
  - destruct H as (A & B). split; [exact A|]. destruct (pc th) as [|[|p]]; [exact B| |exact B]. destruct B. split; auto.
  - now apply SP.
  - now apply SP.
Qed.
Lemma thread_eta th : mkThread (cur th) (pc th) (r0 th) (r2 th) (r3 th) (zf th) (buf th) = th.
Proof. now destruct th. Qed.

Lemma step_other w t o v0 b0 ws0 n s l s' : inv w t o v0 b0 ws0 n s -> step w s l = Some s' ->
  (match l with Call u _ | Exec u | Ret u _ => u <> t | Flush _ => True end) -> inv w t o v0 b0 ws0 n s'.
Proof.
  intros (ws & W & C & Cu & P) E N. destruct l as [u o'|u|u r|u]; cbn [step] in E.
  - destruct (cur (threads s u)); [discriminate|]. injection E as <-. exists ws. cbn [writes val threads]. rewrite upd_other by auto. tauto.
  - destruct (cur (threads s u)) as [o'|]; [|discriminate]. cbn [obind] in E. destruct (nth_error (code o') (pc (threads s u))) as [i|]; [|discriminate]. cbn [obind] in E.
    destruct (exec w (val s) (threads s u) i) as [[th wr]|]; [|discriminate]. cbn [obind] in E. injection E as <-. destruct wr as [x|].
    + exists (ws ++ [mkWrite u false (val s) x]). cbn [writes val threads]. rewrite upd_other by auto. split; [rewrite W; now rewrite app_assoc|]. split; [now apply chain_app|]. split; [exact Cu|].
      assert (O : own t (ws ++ [mkWrite u false (val s) x]) = own t ws). { rewrite own_app. unfold own at 2. cbn. destruct (Nat.eqb_spec u t); [easy|]. cbn. apply app_nil_r. }
      rewrite O. rewrite <- (thread_eta (threads s t)). apply (at_point_more w o v0 (val s)); [exact P|intros y Hy; exact Hy|tauto].
    + exists ws. cbn [writes val threads]. rewrite upd_other by auto. tauto.
  - destruct (cur (threads s u)) as [o'|]; [|discriminate]. cbn [obind] in E. destruct (Nat.eqb _ _ && _); [|discriminate]. injection E as <-. exists ws. cbn [writes val threads]. rewrite upd_other by auto. tauto.
  - destruct (buf (threads s u)) as [|x b] eqn:B; [discriminate|]. injection E as <-. exists (ws ++ [mkWrite u true (val s) x]). cbn [writes val threads].
    split; [rewrite W; now rewrite app_assoc|]. split; [now apply chain_app|].
    assert (O : own t (ws ++ [mkWrite u true (val s) x]) = own t ws). { rewrite own_app. unfold own at 2. cbn. rewrite andb_false_r. cbn. apply app_nil_r. }
    rewrite O. destruct (Nat.eqb_spec u t) as [->|Nu].
    + rewrite upd_same. cbn [cur]. split; [exact Cu|]. apply (at_point_more w o v0 (val s)); [exact P|rewrite B; intros y Hy; now right|rewrite B; discriminate].
    + rewrite upd_other by auto. split; [exact Cu|]. rewrite <- (thread_eta (threads s t)). apply (at_point_more w o v0 (val s)); [exact P|intros y Hy; exact Hy|tauto].
Qed.

Lemma last_in (b : list Z) v : b <> [] -> In (last b v) b.
Proof. induction b as [|x b IH]; [easy|]. intros _. destruct b as [|y b]; [now left|]. right. apply IH. discriminate. Qed.
Lemma spin_exec x f i (Hi : i = IAnd /\ f = Z.land \/ i = IOr /\ f = Z.lor) w t v th ws n j th' wr :
  spin x f v th (own t ws) (length ws) n -> nth_error [IMov; ICopy; i; ICmpxchg; IJne] (pc th) = Some j -> exec w v th j = Some (th', wr) ->
  match wr with
  | None => spin x f v th' (own t ws) (length ws) (S n)
  | Some y => spin x f y th' (own t (ws ++ [mkWrite t false v y])) (length (ws ++ [mkWrite t false v y])) (S n)
  end.
Proof.
  intros (R & P) J E. assert (O : forall y, own t (ws ++ [mkWrite t false v y]) = own t ws ++ [(v, y)]). { intros y. rewrite own_app. f_equal. unfold own. cbn. now rewrite Nat.eqb_refl. }
  destruct (pc th) as [|[|[|[|[|p]]]]] eqn:Pc; cbn in J; [injection J as <-..|destruct p; discriminate].
  - cbn [exec] in E. injection E as <- <-. unfold spin. cbn [pc r0 r2 r3 zf buf]. rewrite Pc. split; [exact R|]. destruct P as (A & B). split; [exact A|]. exists (length ws). repeat split; [lia|lia|]. intros _ ->. reflexivity.
  - cbn [exec] in E. injection E as <- <-. unfold spin. cbn [pc r0 r2 r3 zf buf]. rewrite Pc. split; [exact R|]. destruct P as (A & k & B & C & D). split; [exact A|]. split; [reflexivity|]. exists k. repeat split; [lia|lia|exact D].
  - assert (E' : mkThread (cur th) 3 (r0 th) (f (r2 th) (r3 th)) (r3 th) (f (r2 th) (r3 th) =? 0) (buf th) = th' /\ wr = None).
    { destruct Hi as [(-> & ->)|(-> & ->)]; cbn [exec] in E; injection E as <- <-; rewrite Pc; now split. }
    destruct E' as (<- & ->). unfold spin. cbn [pc r0 r2 r3 zf buf]. split; [exact R|]. destruct P as (A & A2 & k & B & C & D). split; [exact A|]. split; [now rewrite A2, R|]. exists k. repeat split; [lia|lia|exact D].
  - cbn [exec] in E. destruct P as (A & A2 & k & B & C & D). destruct (buf th) eqn:Bf; [|discriminate]. destruct (Z.eqb_spec (r0 th) v) as [Ev|Nv]; injection E as <- <-.
    + unfold spin. cbn [pc r0 r2 r3 zf buf]. rewrite Pc, O, app_length. cbn [length]. split; [exact R|]. split; [reflexivity|]. split; [lia|]. rewrite A, A2, <- Ev. reflexivity.
    + unfold spin. cbn [pc r0 r2 r3 zf buf]. rewrite Pc. split; [exact R|]. split; [reflexivity|]. split; [|exact A]. assert (k <> length ws) by (intros ->; apply Nv; auto). lia.
  - cbn [exec] in E. destruct P as (A & B & C). destruct (zf th); injection E as <- <-; unfold spin; cbn [pc r0 r2 r3 zf buf]; (split; [exact R|]).
    + rewrite Pc. split; [exact A|]. split; [lia|exact C].
    + split; [exact C|lia].
Qed.
Lemma step_own w t o v0 b0 ws0 n s s' : inv w t o v0 b0 ws0 n s -> step w s (Exec t) = Some s' -> inv w t o v0 b0 ws0 (S n) s'.
Proof.
  intros (ws & W & C & Cu & P) E. cbn [step] in E. rewrite Cu in E. cbn [obind] in E. destruct (nth_error (code o) (pc (threads s t))) as [i|] eqn:J; [|discriminate]. cbn [obind] in E.
  destruct (exec w (val s) (threads s t) i) as [[th wr]|] eqn:X; [|discriminate]. cbn [obind] in E. injection E as <-.
  assert (Cu' : cur th = Some o).
  { rewrite <- Cu. destruct i; cbn [exec] in X; repeat match type of X with context [match ?d with _ => _ end] => destruct d end; congruence || (injection X as <- <-; reflexivity). }
  assert (O : forall y, own t (ws ++ [mkWrite t false (val s) y]) = own t ws ++ [(val s, y)]). { intros y. rewrite own_app. f_equal. unfold own. cbn. now rewrite Nat.eqb_refl. }
  assert (G : match wr with
    | None => at_point w o v0 (val s) b0 th ws (own t ws) (S n)
    | Some y => at_point w o v0 y b0 th (ws ++ [mkWrite t false (val s) y]) (own t (ws ++ [mkWrite t false (val s) y])) (S n)
    end).
  { pose proof (chain_seen _ _ _ C) as Sv. destruct o; cbn [at_point code] in *.
    - destruct P as (A & B & D & F). destruct (pc (threads s t)) as [|[|p]] eqn:Pc; cbn in J; [|discriminate|destruct p; discriminate]. injection J as <-. cbn [exec] in X. injection X as <- <-. cbn [pc r0 buf]. rewrite Pc.
      split; [exact A|]. split; [exact B|]. split; [lia|]. destruct (buf (threads s t)) as [|y b] eqn:Bf; [now left|]. right. apply B. apply last_in. discriminate.
    - destruct P as (A & B & D). destruct (pc (threads s t)) as [|[|p]] eqn:Pc; cbn in J; [|discriminate|destruct p; discriminate]. injection J as <-. cbn [exec] in X. injection X as <- <-. cbn [pc]. rewrite Pc. repeat split; [exact A|lia|lia].
    - destruct P as (A & B). destruct (pc (threads s t)) as [|[|p]] eqn:Pc; cbn in J; [|discriminate|destruct p; discriminate]. injection J as <-. cbn [exec] in X. destruct B as (B & D & F).
      destruct (buf (threads s t)) eqn:Bf; [|discriminate]. destruct (Z.eqb_spec (r0 (threads s t)) (val s)) as [Ev|Nv]; injection X as <- <-; cbn [pc r0 buf]; rewrite Pc; (split; [lia|]); (split; [reflexivity|]).
      + left. split; [exact D|]. rewrite O, B, F. cbn [app]. congruence.
      + right. split; [congruence|]. now split.
    - destruct P as (A & B). destruct (pc (threads s t)) as [|[|p]] eqn:Pc; cbn in J; [|discriminate|destruct p; discriminate]. injection J as <-. cbn [exec] in X. destruct B as (B & D).
      destruct (buf (threads s t)) eqn:Bf; [|discriminate]. injection X as <- <-. cbn [pc r0 buf]. rewrite Pc. split; [lia|]. split; [reflexivity|]. rewrite O, B, D. reflexivity.
    - destruct P as (A & B). destruct (pc (threads s t)) as [|[|p]] eqn:Pc; cbn in J; [|discriminate|destruct p; discriminate]. injection J as <-. cbn [exec] in X. destruct B as (B & D).
      destruct (buf (threads s t)) eqn:Bf; [|discriminate]. injection X as <- <-. cbn [pc r0 buf]. rewrite Pc. split; [lia|]. split; [reflexivity|]. rewrite O, B, D. reflexivity.
    - exact (spin_exec operand Z.land IAnd ltac:(now left) w t (val s) (threads s t) ws n i th wr P J X).
    - exact (spin_exec operand Z.lor IOr ltac:(now right) w t (val s) (threads s t) ws n i th wr P J X). }
  destruct wr as [x|].
  - exists (ws ++ [mkWrite t false (val s) x]). cbn [writes val threads]. rewrite upd_same. split; [rewrite W; now rewrite app_assoc|]. split; [now apply chain_app|]. split; [exact Cu'|exact G].
  - exists ws. cbn [writes val threads]. rewrite upd_same. tauto.
Qed.
Lemma run_inv w t o v0 b0 ws0 : forall tr n s s', inv w t o v0 b0 ws0 n s -> returns t tr = false -> run w s tr = Some s' -> inv w t o v0 b0 ws0 (n + instructions t tr) s'.
Proof.
  induction tr as [|l tr IH]; cbn [run]; intros n s s' H N R.
  - injection R as <-. cbn. now rewrite Nat.add_0_r.
  - destruct (step w s l) as [s1|] eqn:E; [|discriminate]. cbn [obind] in R. destruct l as [u o'|u|u r|u]; cbn [returns instructions] in *.
    + apply (IH _ s1); [|exact N|exact R]. apply (step_other _ _ _ _ _ _ _ s (Call u o')); [exact H|exact E|]. intros ->. destruct H as (ws & _ & _ & Cu & _). cbn [step] in E. rewrite Cu in E. discriminate.
    + destruct (Nat.eqb_spec u t) as [->|Nu].
      * replace (n + S (instructions t tr))%nat with (S n + instructions t tr)%nat by lia. apply (IH _ s1); [now apply (step_own _ _ _ _ _ _ _ s)|exact N|exact R].
      * apply (IH _ s1); [|exact N|exact R]. now apply (step_other _ _ _ _ _ _ _ s (Exec u)).
    + apply orb_false_iff in N. destruct N as (N & N'). apply Nat.eqb_neq in N. apply (IH _ s1); [|exact N'|exact R]. now apply (step_other _ _ _ _ _ _ _ s (Ret u r)).
    + apply (IH _ s1); [|exact N|exact R]. now apply (step_other _ _ _ _ _ _ _ s (Flush u)).
Qed.
Lemma run_app w a : forall b s s', run w s (a ++ b) = Some s' <-> exists s1, run w s a = Some s1 /\ run w s1 b = Some s'.
Proof.
  induction a as [|l a IH]; cbn [run app]; intros b s s'.
  - split; [intros H; now exists s|]. intros (s1 & E & H). now injection E as ->.
  - destruct (step w s l) as [s1|]; cbn [obind]; [apply IH|]. split; [discriminate|]. now intros (s1 & E & _).
Qed.
