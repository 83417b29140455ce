(** C116: atomic operations. *)
From Verif Require Import Base Atomic AtomicSpec AtomicProofs.

(** every operation that returned made at most one write, in one moment, of the value computed from what it returns; those that
    lock have let all earlier stores of their thread reach memory; an operation takes at most five instructions for every
    write to memory made meanwhile, its own included *)
Theorem C116_atomic : forall w v0 tr1 t o tr2 r s, run w (start v0) (tr1 ++ Call t o :: tr2 ++ [Ret t r]) = Some s -> returns t tr2 = false ->
  exists s1 ws, run w (start v0) tr1 = Some s1 /\ writes s = writes s1 ++ ws /\ chain (val s1) ws (val s) /\
  did w t o r (val s1) (buf (threads s1 t)) ws /\ (locked o = true -> buf (threads s t) = []) /\ (instructions t tr2 <= Nat.max 1 (5 * length ws))%nat.
Proof.
  intros w v0 tr1 t o tr2 r s R N. apply run_app in R. destruct R as (s1 & R1 & R). cbn [run] in R. destruct (step w s1 (Call t o)) as [s2|] eqn:E2; [|discriminate]. cbn [obind] in R.
  apply run_app in R. destruct R as (s3 & R3 & R). cbn [run] in R. destruct (step w s3 (Ret t r)) as [s4|] eqn:E4; [|discriminate]. cbn [obind] in R. injection R as <-.
  cbn [step] in E2. destruct (cur (threads s1 t)) eqn:Cu; [discriminate|]. injection E2 as <-.
  assert (I0 : inv w t o (val s1) (buf (threads s1 t)) (writes s1) 0 (mkState (val s1) (upd (threads s1) t (enter (threads s1 t) o)) (writes s1))).
  { exists []. cbn [writes val threads]. rewrite upd_same, app_nil_r. split; [reflexivity|]. split; [reflexivity|]. destruct o; cbn [enter cur]; (split; [reflexivity|]); cbn; repeat split; auto; intros y Hy; exact Hy. }
  apply (run_inv _ _ _ _ _ _ tr2 0 _ s3 I0 N) in R3. destruct R3 as (ws & W & C & Cu3 & P). cbn [Nat.add] in P. cbn [step] in E4. rewrite Cu3 in E4. cbn [obind] in E4.
  destruct (Nat.eqb_spec (pc (threads s3 t)) (length (code o))) as [Pc|]; [|discriminate]. destruct (Z.eqb_spec (r0 (threads s3 t)) r) as [Er|]; [|discriminate]. cbn [andb] in E4. injection E4 as <-. cbn [writes val threads]. rewrite upd_same. cbn [buf].
  exists s1, ws. split; [exact R1|]. split; [exact W|]. split; [exact C|]. destruct o; cbn [at_point did locked code length] in *; rewrite ?Pc in P.
  - destruct P as (A & B & D & F). rewrite <- Er. split; [now split|]. split; [discriminate|lia].
  - destruct P as (A & B & D). split; [exact A|]. split; [discriminate|lia].
  - destruct P as (A & B & D). rewrite <- Er. split; [exact D|]. split; [auto|lia].
  - destruct P as (A & B & D). rewrite <- Er. split; [exact D|]. split; [auto|lia].
  - destruct P as (A & B & D). rewrite <- Er. split; [exact D|]. split; [auto|lia].
  - unfold spin in P. rewrite Pc in P. destruct P as (_ & A & B & D). rewrite <- Er. split; [exact D|]. split; [auto|lia].
  - unfold spin in P. rewrite Pc in P. destruct P as (_ & A & B & D). rewrite <- Er. split; [exact D|]. split; [auto|lia].
Qed.

(** induction over executions, adding steps at the end *)
Lemma run_ind w v0 (Q : list label -> state -> Prop) : Q [] (start v0) -> (forall tr s l s', run w (start v0) tr = Some s -> Q tr s -> step w s l = Some s' -> Q (tr ++ [l]) s') ->
  forall tr s, run w (start v0) tr = Some s -> Q tr s.
Proof.
  intros H0 HS. induction tr as [|l tr IH] using rev_ind; intros s R.
  - cbn in R. now injection R as <-.
  - apply run_app in R. destruct R as (s1 & R1 & R). cbn [run] in R. destruct (step w s1 l) as [s2|] eqn:E; [|discriminate]. cbn in R. injection R as <-. eapply HS; eauto.
Qed.
Lemma run_known w s tr v : option_map val (run w s tr) = Some v -> exists s', run w s tr = Some s' /\ val s' = v.
Proof. destruct (run w s tr) as [s'|]; [|discriminate]. cbn. intros H. injection H as <-. now exists s'. Qed.
(** memory changes by these writes only *)
Theorem C116_memory : forall w v0 tr s, run w (start v0) tr = Some s -> chain v0 (writes s) (val s).
Proof.
  intros w v0. apply (run_ind w v0 (fun _ s => chain v0 (writes s) (val s))); [reflexivity|]. intros tr s l s' _ C E. destruct l as [u o|u|u r|u]; cbn [step] in E.
  - destruct (cur (threads s u)); [discriminate|]. injection E as <-. exact C.
  - destruct (cur (threads s u)) as [o|]; [|discriminate]. cbn [obind] in E. destruct (nth_error _ _); [|discriminate]. cbn [obind] in E. destruct (exec _ _ _ _) as [[th [x|]]|]; [| |discriminate]; cbn [obind] in E; injection E as <-; cbn [writes val]; [now apply chain_app|exact C].
  - destruct (cur (threads s u)) as [o|]; [|discriminate]. cbn [obind] in E. destruct (_ && _); [|discriminate]. injection E as <-. exact C.
  - destruct (buf (threads s u)) as [|x b]; [discriminate|]. injection E as <-. cbn [writes val]. now apply chain_app.
Qed.

(** stores: those that a thread has called reach memory once, in order; the rest is pending *)
Lemma called_app t a b : called_stores t (a ++ b) = called_stores t a ++ called_stores t b.
Proof. induction a as [|l a IH]; [reflexivity|]. destruct l as [u [|x| | | | |]|u|u r|u]; cbn [app called_stores]; rewrite ?IH; try reflexivity. now destruct (Nat.eqb u t). Qed.
Definition to_store (th : thread) : list Z := match cur th, pc th with Some (OStore _), 0%nat => [r3 th] | _, _ => [] end.
Lemma stores_inv w v0 tr s : run w (start v0) tr = Some s -> forall t, called_stores t tr = stored t (writes s) ++ buf (threads s t) ++ to_store (threads s t).
Proof.
  revert tr s. apply (run_ind w v0 (fun tr s => forall t, called_stores t tr = stored t (writes s) ++ buf (threads s t) ++ to_store (threads s t))); [reflexivity|].
  intros tr s l s' _ IH E t. rewrite called_app, IH. destruct l as [u o|u|u r|u]; cbn [step] in E.
  - destruct (cur (threads s u)) eqn:Cu; [discriminate|]. injection E as <-. cbn [writes threads]. destruct (Nat.eqb_spec u t) as [->|Nu].
    + rewrite upd_same. assert (T : to_store (threads s t) = []) by (unfold to_store; now rewrite Cu). rewrite T, app_nil_r, <- app_assoc. f_equal. destruct o; cbn [called_stores enter buf]; rewrite ?Nat.eqb_refl; try reflexivity; unfold to_store; cbn [cur pc]; now rewrite ?app_nil_r.
    + rewrite upd_other by auto. destruct o; cbn [called_stores]; rewrite ?app_nil_r; try reflexivity. destruct (Nat.eqb_spec u t); [easy|]. now rewrite app_nil_r.
  - cbn [called_stores]. rewrite app_nil_r. destruct (cur (threads s u)) as [o|] eqn:Cu; [|discriminate]. cbn [obind] in E. destruct (nth_error (code o) (pc (threads s u))) as [i|] eqn:J; [|discriminate]. cbn [obind] in E.
    destruct (exec w (val s) (threads s u) i) as [[th wr]|] eqn:X; [|discriminate]. cbn [obind] in E. injection E as <-.
    assert (Wr : stored t (writes (match wr with None => mkState (val s) (upd (threads s) u th) (writes s) | Some x => mkState x (upd (threads s) u th) (writes s ++ [mkWrite u false (val s) x]) end)) = stored t (writes s)).
    { destruct wr; cbn [writes]; [|reflexivity]. rewrite stored_app. unfold stored at 2. cbn. rewrite andb_false_r. apply app_nil_r. }
    rewrite Wr. f_equal. assert (Th : threads (match wr with None => mkState (val s) (upd (threads s) u th) (writes s) | Some x => mkState x (upd (threads s) u th) (writes s ++ [mkWrite u false (val s) x]) end) t = upd (threads s) u th t) by now destruct wr.
    rewrite Th. destruct (Nat.eqb_spec u t) as [->|Nu]; [|now rewrite upd_other by auto]. rewrite upd_same.
    destruct i; cbn [exec] in X.
    1,3,4,5: injection X as <- <-; unfold to_store; cbn [cur pc buf]; rewrite Cu; destruct o; cbn [code] in J; try reflexivity; destruct (pc (threads s t)) as [|[|p]]; try discriminate J; destruct p; discriminate J.
    { injection X as <- <-. unfold to_store. cbn [cur pc buf]. rewrite Cu. destruct o; cbn [code] in J; destruct (pc (threads s t)) as [|[|[|[|[|[|p]]]]]]; try discriminate J. now rewrite app_nil_r. }
    1,2,3: destruct (buf (threads s t)) eqn:B; [|discriminate]; try destruct (r0 (threads s t) =? val s); injection X as <- <-; unfold to_store; cbn [cur pc buf]; rewrite Cu, ?B; destruct o; cbn [code] in J; try reflexivity; destruct (pc (threads s t)) as [|[|p]]; try discriminate J; destruct p; discriminate J.
    destruct (zf (threads s t)); injection X as <- <-; unfold to_store; cbn [cur pc buf]; rewrite Cu; destruct o; cbn [code] in J; try reflexivity; destruct (pc (threads s t)) as [|[|p]]; try discriminate J; destruct p; discriminate J.
  - cbn [called_stores]. rewrite app_nil_r. destruct (cur (threads s u)) as [o|] eqn:Cu; [|discriminate]. cbn [obind] in E. destruct (Nat.eqb_spec (pc (threads s u)) (length (code o))) as [Pc|]; [|discriminate]. destruct (r0 (threads s u) =? r); [|discriminate]. cbn [andb] in E. injection E as <-. cbn [writes threads].
    destruct (Nat.eqb_spec u t) as [->|Nu]; [|now rewrite upd_other by auto]. rewrite upd_same. unfold to_store. cbn [cur buf]. rewrite Cu, Pc. now destruct o.
  - cbn [called_stores]. rewrite app_nil_r. destruct (buf (threads s u)) as [|x b] eqn:B; [discriminate|]. injection E as <-. cbn [writes threads]. rewrite stored_app.
    destruct (Nat.eqb_spec u t) as [->|Nu].
    + rewrite upd_same. unfold stored at 3. cbn. rewrite Nat.eqb_refl. cbn. rewrite B, <- app_assoc. cbn. unfold to_store. cbn [cur pc r3]. reflexivity.
    + rewrite upd_other by auto. unfold stored at 3. cbn. destruct (Nat.eqb_spec u t); [easy|]. cbn. now rewrite app_nil_r.
Qed.
Theorem C116_stores : forall w v0 tr s t, run w (start v0) tr = Some s -> cur (threads s t) = None -> called_stores t tr = stored t (writes s) ++ buf (threads s t).
Proof. intros w v0 tr s t R Cu. rewrite (stores_inv _ _ _ _ R t). unfold to_store. rewrite Cu. now rewrite app_nil_r. Qed.
(** but a store that has returned need not have reached memory: another thread still loads the old value *)
Theorem C116_store_late_refuted : exists s, run 32 (start 0) [Call 0 (OStore 1); Exec 0; Ret 0 0; Call 1 OLoad; Exec 1; Ret 1 0; Flush 0] = Some s /\ val s = 1.
Proof. apply run_known. vm_compute. reflexivity. Qed.

(** numbers handed out by fetch_add of 1: one after the other, without gap or repetition until they wrap around *)
Definition only_adds (n : nat) (tr : list label) : Prop := Forall (fun l => match l with Call t o => (t < n)%nat /\ exists x, o = OAdd x | _ => True end) tr.
Definition adding (v : Z) (w : Z) (s : state) : Prop := forall t, buf (threads s t) = [] /\ match cur (threads s t) with None => True | Some (OAdd x) => (pc (threads s t) = 0%nat /\ r0 (threads s t) = x) \/ pc (threads s t) = 1%nat | Some _ => False end.
Fixpoint tot (f : nat -> Z) (n : nat) : Z := match n with O => 0 | S n => tot f n + f n end.
Lemma tot_upd f g t n : (forall u, u <> t -> g u = f u) -> tot g n = tot f n + (if Nat.ltb t n then g t - f t else 0).
Proof.
  intros H. induction n as [|n IH]; [reflexivity|]. cbn [tot]. rewrite IH. destruct (Nat.eq_dec n t) as [->|N].
  - destruct (Nat.ltb_spec t t), (Nat.ltb_spec t (S t)); lia.
  - rewrite (H n N). destruct (Nat.ltb_spec t n), (Nat.ltb_spec t (S n)); lia.
Qed.
Definition waiting (s : state) (t : nat) : Z := match cur (threads s t), pc (threads s t) with Some (OAdd x), 0%nat => x | _, _ => 0 end.
Fixpoint added (tr : list label) : Z := match tr with [] => 0 | Call _ (OAdd x) :: tr => x + added tr | _ :: tr => added tr end.
Lemma added_app a b : added (a ++ b) = added a + added b.
Proof. induction a as [|l a IH]; [reflexivity|]. destruct l as [u [| | | |x| |]|u|u r|u]; cbn [app added]; rewrite ?IH; lia. Qed.
Lemma add_mod_l a b c m : a mod m = b mod m -> (a + c) mod m = (b + c) mod m.
Proof. intros H. rewrite (Z.add_mod_idemp_l a c m) || idtac. destruct (Z.eq_dec m 0) as [->|N]; [rewrite !Zmod_0_r in *; lia|]. rewrite <- (Z.add_mod_idemp_l a), <- (Z.add_mod_idemp_l b), H by exact N. reflexivity. Qed.
Lemma adds_inv w v0 n tr s : 0 <= w -> 0 <= v0 < 2^w -> run w (start v0) tr = Some s -> only_adds n tr ->
  adding v0 w s /\ 0 <= val s < 2^w /\ (val s + tot (waiting s) n) mod 2^w = (v0 + added tr) mod 2^w /\ Forall (fun x => w_buffered x = false /\ exists d, w_new x = (w_old x + d) mod 2^w /\ ((forall t y, In (Call t (OAdd y)) tr -> y = 1) -> d = 1)) (writes s) /\
  forall t x, cur (threads s t) = Some (OAdd x) -> In (Call t (OAdd x)) tr /\ (t < n)%nat.
Proof.
  intros Hw Hv R. revert tr s R. assert (P2 : 0 < 2^w) by (apply Z.pow_pos_nonneg; lia).
  apply (run_ind w v0 (fun tr s => only_adds n tr -> adding v0 w s /\ 0 <= val s < 2^w /\ (val s + tot (waiting s) n) mod 2^w = (v0 + added tr) mod 2^w /\ Forall (fun x => w_buffered x = false /\ exists d, w_new x = (w_old x + d) mod 2^w /\ ((forall t y, In (Call t (OAdd y)) tr -> y = 1) -> d = 1)) (writes s) /\ forall t x, cur (threads s t) = Some (OAdd x) -> In (Call t (OAdd x)) tr /\ (t < n)%nat)).
  - intros _. split; [intros t; now split|]. split; [exact Hv|]. split; [|split; [constructor|discriminate]]. f_equal. cbn [val start added].
    assert (Z0 : forall k, tot (waiting (start v0)) k = 0) by (induction k as [|k IHk]; [reflexivity|cbn [tot]; rewrite IHk; reflexivity]). rewrite Z0. lia.
  - intros tr s l s' _ IH E O. unfold only_adds in O. apply Forall_app in O. destruct O as (O & Ol). apply Forall_inv in Ol. destruct (IH O) as (A & B & C & D & F). clear IH.
    assert (D' : Forall (fun x => w_buffered x = false /\ exists d, w_new x = (w_old x + d) mod 2^w /\ ((forall t y, In (Call t (OAdd y)) (tr ++ [l]) -> y = 1) -> d = 1)) (writes s)).
    { eapply Forall_impl; [|exact D]. intros x (X1 & d & X2 & X3). split; [exact X1|]. exists d. split; [exact X2|]. intros H. apply X3. intros t y Hy. apply (H t). apply in_or_app. now left. }
    assert (F' : forall t x, cur (threads s t) = Some (OAdd x) -> In (Call t (OAdd x)) (tr ++ [l]) /\ (t < n)%nat) by (intros t x Hc; destruct (F t x Hc); split; [apply in_or_app; now left|assumption]).
    rewrite added_app. destruct l as [u o|u|u r|u]; cbn [step] in E.
    + destruct Ol as (Lu & x & ->). destruct (cur (threads s u)) eqn:Cu; [discriminate|]. injection E as <-. cbn [val writes threads].
      split; [|split; [exact B|split; [|split; [exact D'|]]]].
      * intros t. cbn [threads]. destruct (Nat.eq_dec t u) as [->|N]; [rewrite upd_same; cbn; split; [apply A|now left]|rewrite upd_other by auto; apply A].
      * match goal with |- (_ + tot (waiting ?s2) n) mod _ = _ => assert (T : tot (waiting s2) n = tot (waiting s) n + x) end.
        { rewrite (tot_upd (waiting s) _ u); [|intros t Nt; unfold waiting; cbn [threads]; now rewrite upd_other]. destruct (Nat.ltb_spec u n); [|lia]. f_equal. unfold waiting. cbn [threads]. rewrite upd_same, Cu. cbn. lia. }
        rewrite T, Z.add_assoc. cbn [added]. rewrite Z.add_0_r, Z.add_assoc. now apply add_mod_l.
      * intros t y Hc. destruct (Nat.eq_dec t u) as [->|N]; [rewrite upd_same in Hc; cbn in Hc; injection Hc as <-; split; [apply in_or_app; right; now left|exact Lu]|rewrite upd_other in Hc by auto; now apply F'].
    + cbn [added]. rewrite Z.add_0_r. destruct (cur (threads s u)) as [o|] eqn:Cu; [|discriminate]. cbn [obind] in E. destruct (A u) as (Bu & Au). rewrite Cu in Au. destruct o as [| | | |x| |]; try easy. destruct Au as [(Pc & Er)|Pc]; [|rewrite Pc in E; discriminate]. rewrite Pc in E. cbn [code nth_error obind exec] in E. rewrite Bu in E. cbn [obind] in E. injection E as <-. cbn [val writes threads].
      destruct (F u x Cu) as (Iu & Lu).
      split; [|split; [apply Z.mod_pos_bound, P2|split; [|split]]].
      * intros t. cbn [threads]. destruct (Nat.eq_dec t u) as [->|N]; [rewrite upd_same; cbn; rewrite Cu, Pc; split; [reflexivity|now right]|rewrite upd_other by auto; apply A].
      * match goal with |- (_ + tot (waiting ?s2) n) mod _ = _ => assert (T : tot (waiting s2) n = tot (waiting s) n - x) end.
        { rewrite (tot_upd (waiting s) _ u); [|intros t Nt; unfold waiting; cbn [threads]; now rewrite upd_other]. destruct (Nat.ltb_spec u n); [|lia]. unfold waiting at 2 3. cbn [threads]. rewrite upd_same. cbn [cur pc]. rewrite Cu, Pc. lia. }
        rewrite T, Z.add_mod_idemp_l by lia. rewrite <- C. f_equal. rewrite Er. lia.
      * apply Forall_app. split; [exact D'|]. constructor; [|constructor]. cbn [w_buffered w_new w_old]. split; [reflexivity|]. exists x. rewrite Er. split; [reflexivity|]. intros H. apply (H u). apply in_or_app. now left.
      * intros t y Hc. apply F'. destruct (Nat.eq_dec t u) as [->|N]; [rewrite upd_same in Hc; cbn in Hc; exact Hc|now rewrite upd_other in Hc by auto].
    + cbn [added]. rewrite Z.add_0_r. destruct (cur (threads s u)) as [o|] eqn:Cu; [|discriminate]. cbn [obind] in E. destruct (Nat.eqb_spec (pc (threads s u)) (length (code o))) as [Pc|]; [|discriminate]. destruct (r0 (threads s u) =? r); [|discriminate]. cbn [andb] in E. injection E as <-. cbn [val writes threads].
      split; [|split; [exact B|split; [|split; [exact D'|]]]].
      * intros t. cbn [threads]. destruct (Nat.eq_dec t u) as [->|N]; [rewrite upd_same; cbn; split; [apply A|exact I]|rewrite upd_other by auto; apply A].
      * rewrite <- C. f_equal. f_equal. match goal with |- tot (waiting ?s2) n = _ => rewrite (tot_upd (waiting s) (waiting s2) u) end; [|intros t Nt; unfold waiting; cbn [threads]; now rewrite upd_other].
        unfold waiting at 2 3. cbn [threads]. rewrite upd_same. cbn [cur]. rewrite Cu, Pc. destruct o; cbn [code length]; destruct (Nat.ltb u n); lia.
      * intros t y Hc. destruct (Nat.eq_dec t u) as [->|N]; [rewrite upd_same in Hc; discriminate|rewrite upd_other in Hc by auto; now apply F'].
    + destruct (A u) as (Bu & _). rewrite Bu in E. discriminate.
Qed.
Theorem C116_counter : forall w v0 n tr s, 0 <= w -> 0 <= v0 < 2^w -> run w (start v0) tr = Some s -> only_adds n tr -> (forall t, cur (threads s t) = None) ->
  val s = (v0 + added tr) mod 2^w.
Proof.
  intros w v0 n tr s Hw Hv R O Id. destruct (adds_inv w v0 n tr s Hw Hv R O) as (_ & B & C & _). rewrite <- C.
  assert (Z0 : forall k, tot (waiting s) k = 0) by (induction k as [|k IHk]; [reflexivity|cbn [tot]; rewrite IHk; unfold waiting; now rewrite Id]). rewrite Z0, Z.add_0_r. symmetry. now apply Z.mod_small.
Qed.
Theorem C116_tickets : forall w v0 n tr s, 0 <= w -> 0 <= v0 < 2^w -> run w (start v0) tr = Some s -> only_adds n tr -> (forall t x, In (Call t (OAdd x)) tr -> x = 1) ->
  map w_old (writes s) = map (fun i => (v0 + Z.of_nat i) mod 2^w) (seq 0 (length (writes s))).
Proof.
  intros w v0 n tr s Hw Hv R O O1. destruct (adds_inv w v0 n tr s Hw Hv R O) as (_ & _ & _ & D & _). pose proof (C116_memory w v0 tr s R) as C. clear R O.
  assert (G : forall ws v k, v = (v0 + Z.of_nat k) mod 2^w -> chain v ws (val s) -> Forall (fun x => w_buffered x = false /\ exists d, w_new x = (w_old x + d) mod 2^w /\ ((forall t y, In (Call t (OAdd y)) tr -> y = 1) -> d = 1)) ws -> map w_old ws = map (fun i => (v0 + Z.of_nat i) mod 2^w) (seq k (length ws))).
  { assert (P2 : 0 < 2^w) by (apply Z.pow_pos_nonneg; lia). induction ws as [|x ws IH]; intros v k Ev Cv F; [reflexivity|]. inversion F as [|? ? (_ & d & N & Hd) F']; subst. destruct Cv as (Ow & Cv). cbn [map length seq]. f_equal; [congruence|].
    apply (IH (w_new x)); [|exact Cv|exact F']. rewrite N, (Hd O1), Ow, Z.add_mod_idemp_l by lia. f_equal. lia. }
  apply (G _ v0); [|exact C|exact D]. rewrite Z.add_0_r. symmetry. now apply Z.mod_small.
Qed.

(** an operation that has been started can be finished by its thread alone, with its pending stores and ten instructions *)
Lemma pc_inv w v0 tr s : run w (start v0) tr = Some s -> forall t o, cur (threads s t) = Some o -> exists v1 b0 ws0 n, inv w t o v1 b0 ws0 n s.
Proof.
  revert tr s. apply (run_ind w v0 (fun _ s => forall t o, cur (threads s t) = Some o -> exists v1 b0 ws0 n, inv w t o v1 b0 ws0 n s)); [discriminate|].
  intros tr s l s' _ IH E t o Cu. assert (Ot : (match l with Call u _ | Exec u | Ret u _ => u <> t | Flush _ => True end) -> exists v1 b0 ws0 n, inv w t o v1 b0 ws0 n s').
  { intros N. assert (Cs : cur (threads s t) = Some o).
    { rewrite <- Cu. destruct l as [u o'|u|u r|u]; cbn [step] in E.
      - destruct (cur (threads s u)); [discriminate|]. injection E as <-. cbn [threads]. now rewrite upd_other by auto.
      - destruct (cur (threads s u)) as [o'|]; [|discriminate]. cbn [obind] in E. destruct (nth_error _ _); [|discriminate]. cbn [obind] in E. destruct (exec _ _ _ _) as [[th [x|]]|]; [| |discriminate]; cbn [obind] in E; injection E as <-; cbn [threads]; now rewrite upd_other by auto.
      - destruct (cur (threads s u)) as [o'|]; [|discriminate]. cbn [obind] in E. destruct (_ && _); [|discriminate]. injection E as <-. cbn [threads]. now rewrite upd_other by auto.
      - destruct (buf (threads s u)) as [|x b]; [discriminate|]. injection E as <-. cbn [threads]. destruct (Nat.eq_dec t u) as [->|Nu]; [now rewrite upd_same|now rewrite upd_other by auto]. }
    destruct (IH t o Cs) as (v1 & b0 & ws0 & n & J). exists v1, b0, ws0, n. now apply (step_other _ _ _ _ _ _ _ s l). }
  destruct l as [u o'|u|u r|u]; [| | |now apply Ot]; (destruct (Nat.eq_dec u t) as [->|N]; [|now apply Ot]); clear Ot.
  - cbn [step] in E. destruct (cur (threads s t)); [discriminate|]. injection E as <-. cbn [threads] in Cu. rewrite upd_same in Cu. assert (o' = o) as -> by (destruct o'; cbn in Cu; congruence). exists (val s), (buf (threads s t)), (writes s), 0%nat.
    exists []. cbn [writes val threads]. rewrite upd_same, app_nil_r. split; [reflexivity|]. split; [reflexivity|]. destruct o; cbn [enter cur]; (split; [reflexivity|]); cbn; repeat split; auto; intros y Hy; exact Hy.
  - pose proof E as E0. cbn [step] in E. destruct (cur (threads s t)) as [o'|] eqn:Cs; [|discriminate]. destruct (IH t o' Cs) as (v1 & b0 & ws0 & n & J). apply (step_own _ _ _ _ _ _ _ _ s') in J; [|exact E0].
    assert (o' = o) as -> by (destruct J as (? & _ & _ & J & _); congruence). now exists v1, b0, ws0, (S n).
  - cbn [step] in E. destruct (cur (threads s t)) as [o'|]; [|discriminate]. cbn [obind] in E. destruct (_ && _); [|discriminate]. injection E as <-. cbn [threads] in Cu. rewrite upd_same in Cu. discriminate.
Qed.
Definition can (w : Z) (m : nat) (s : state) (t : nat) : Prop := exists k r s', (k <= m)%nat /\ run w s (repeat (Exec t) k ++ [Ret t r]) = Some s'.
Lemma can_ret w m s t o : cur (threads s t) = Some o -> pc (threads s t) = length (code o) -> can w m s t.
Proof. intros C P. eexists 0%nat, (r0 (threads s t)), _. split; [lia|]. cbn [repeat app run step]. rewrite C. cbn [obind]. rewrite P, Nat.eqb_refl, Z.eqb_refl. reflexivity. Qed.
Lemma can_next w m s t o i th wr : cur (threads s t) = Some o -> nth_error (code o) (pc (threads s t)) = Some i -> exec w (val s) (threads s t) i = Some (th, wr) ->
  (forall s', threads s' t = th -> val s' = match wr with None => val s | Some x => x end -> can w m s' t) -> can w (S m) s t.
Proof.
  intros C N X H. destruct (step w s (Exec t)) as [s1|] eqn:E.
  - destruct (H s1) as (k & r & s' & L & R).
    + cbn [step] in E. rewrite C in E. cbn [obind] in E. rewrite N in E. cbn [obind] in E. rewrite X in E. cbn [obind] in E. injection E as <-. destruct wr; cbn [threads]; apply upd_same.
    + cbn [step] in E. rewrite C in E. cbn [obind] in E. rewrite N in E. cbn [obind] in E. rewrite X in E. cbn [obind] in E. injection E as <-. now destruct wr.
    + exists (S k), r, s'. split; [lia|]. cbn [repeat app run]. rewrite E. exact R.
  - exfalso. cbn [step] in E. rewrite C in E. cbn [obind] in E. rewrite N in E. cbn [obind] in E. rewrite X in E. discriminate.
Qed.
Lemma can_spin w i (Hi : i = IAnd \/ i = IOr) : forall s t o, code o = [IMov; ICopy; i; ICmpxchg; IJne] -> cur (threads s t) = Some o -> buf (threads s t) = [] -> (pc (threads s t) <= 5)%nat -> can w 10 s t.
Proof.
  intros s t o Co. assert (F5 : forall m s, cur (threads s t) = Some o -> pc (threads s t) = 5%nat -> can w m s t) by (intros m s' C P; apply (can_ret _ _ _ _ o C); rewrite Co; exact P).
  assert (F4 : forall m s, cur (threads s t) = Some o -> pc (threads s t) = 4%nat -> zf (threads s t) = true -> can w (S m) s t).
  { intros m s' C P Z. eapply (can_next _ _ _ _ o); [exact C|rewrite Co, P; reflexivity|cbn [exec]; rewrite Z; reflexivity|]. intros s2 T _. apply F5; rewrite T; cbn; [exact C|now rewrite P]. }
  assert (F3 : forall m s, cur (threads s t) = Some o -> pc (threads s t) = 3%nat -> buf (threads s t) = [] -> r0 (threads s t) = val s -> can w (S (S m)) s t).
  { intros m s' C P B R. eapply (can_next _ _ _ _ o); [exact C|rewrite Co, P; reflexivity|cbn [exec]; rewrite B, R, Z.eqb_refl; reflexivity|]. intros s2 T _. apply F4; rewrite T; cbn; [exact C|now rewrite P|reflexivity]. }
  assert (F2 : forall m s, cur (threads s t) = Some o -> pc (threads s t) = 2%nat -> buf (threads s t) = [] -> r0 (threads s t) = val s -> can w (S (S (S m))) s t).
  { intros m s' C P B R. destruct Hi as [-> | ->]; (eapply (can_next _ _ _ _ o); [exact C|rewrite Co, P; reflexivity|reflexivity|]; intros s2 T V; apply F3; rewrite T; cbn; [exact C|now rewrite P|exact B|congruence]). }
  assert (F1 : forall m s, cur (threads s t) = Some o -> pc (threads s t) = 1%nat -> buf (threads s t) = [] -> r0 (threads s t) = val s -> can w (S (S (S (S m)))) s t).
  { intros m s' C P B R. eapply (can_next _ _ _ _ o); [exact C|rewrite Co, P; reflexivity|reflexivity|]. intros s2 T V. apply F2; rewrite T; cbn; [exact C|now rewrite P|exact B|congruence]. }
  assert (F0 : forall m s, cur (threads s t) = Some o -> pc (threads s t) = 0%nat -> buf (threads s t) = [] -> can w (S (S (S (S (S m))))) s t).
  { intros m s' C P B. eapply (can_next _ _ _ _ o); [exact C|rewrite Co, P; reflexivity|reflexivity|]. intros s2 T V. apply F1; rewrite T; cbn; [exact C|now rewrite P|exact B|rewrite B; cbn; congruence]. }
  assert (G4 : forall m s, cur (threads s t) = Some o -> pc (threads s t) = 4%nat -> buf (threads s t) = [] -> can w (6 + m) s t).
  { intros m s' C P B. destruct (zf (threads s' t)) eqn:Z; [now apply (F4 (5 + m)%nat)|]. eapply (can_next _ _ _ _ o); [exact C|rewrite Co, P; reflexivity|cbn [exec]; rewrite Z; reflexivity|]. intros s2 T V. apply (F0 m); rewrite T; cbn; [exact C|reflexivity|exact B]. }
  assert (G3 : forall m s, cur (threads s t) = Some o -> pc (threads s t) = 3%nat -> buf (threads s t) = [] -> can w (7 + m) s t).
  { intros m s' C P B. destruct (Z.eqb_spec (r0 (threads s' t)) (val s')) as [R|R]; [now apply (F3 (5 + m)%nat)|]. eapply (can_next _ _ _ _ o); [exact C|rewrite Co, P; reflexivity|cbn [exec]; rewrite B; apply Z.eqb_neq in R; rewrite R; reflexivity|]. intros s2 T V. apply (G4 m); rewrite T; cbn; [exact C|now rewrite P|reflexivity]. }
  assert (G2 : forall m s, cur (threads s t) = Some o -> pc (threads s t) = 2%nat -> buf (threads s t) = [] -> can w (8 + m) s t).
  { intros m s' C P B. destruct Hi as [-> | ->]; (eapply (can_next _ _ _ _ o); [exact C|rewrite Co, P; reflexivity|reflexivity|]; intros s2 T V; apply (G3 m); rewrite T; cbn; [exact C|now rewrite P|exact B]). }
  assert (G1 : forall m s, cur (threads s t) = Some o -> pc (threads s t) = 1%nat -> buf (threads s t) = [] -> can w (9 + m) s t).
  { intros m s' C P B. eapply (can_next _ _ _ _ o); [exact C|rewrite Co, P; reflexivity|reflexivity|]. intros s2 T V. apply (G2 m); rewrite T; cbn; [exact C|now rewrite P|exact B]. }
  intros C B L. destruct (pc (threads s t)) as [|[|[|[|[|[|p]]]]]] eqn:P; [now apply (F0 5%nat)|now apply (G1 1%nat)|now apply (G2 2%nat)|now apply (G3 3%nat)|now apply (G4 4%nat)|now apply F5|lia].
Qed.
Lemma flush_all w t : forall b s, buf (threads s t) = b -> exists s', run w s (repeat (Flush t) (length b)) = Some s' /\ buf (threads s' t) = [] /\ cur (threads s' t) = cur (threads s t) /\ pc (threads s' t) = pc (threads s t).
Proof.
  induction b as [|x b IH]; intros s B; [now exists s|]. cbn [length repeat run step]. rewrite B. cbn [obind].
  match goal with |- exists s', run w ?s1 _ = _ /\ _ => destruct (IH s1) as (s' & R & P1 & P2 & P3) end; [cbn [threads]; now rewrite upd_same|]. exists s'. split; [exact R|]. split; [exact P1|]. cbn [threads] in P2, P3. rewrite upd_same in P2, P3. now split.
Qed.
Theorem C116_finishes : forall w v0 tr s t o, run w (start v0) tr = Some s -> cur (threads s t) = Some o ->
  exists k m r s', run w s (repeat (Flush t) k ++ repeat (Exec t) m ++ [Ret t r]) = Some s' /\ (m <= 10)%nat.
Proof.
  intros w v0 tr s t o R Cu. destruct (pc_inv w v0 tr s R t o Cu) as (v1 & b0 & ws0 & n & ws & _ & _ & _ & P). destruct (flush_all w t (buf (threads s t)) s eq_refl) as (s1 & R1 & B1 & C1 & P1). rewrite Cu in C1.
  assert (G : can w 10 s1 t).
  { assert (One : forall i th wr, code o = [i] -> (pc (threads s t) <= 1)%nat -> (pc (threads s1 t) = 0%nat -> exec w (val s1) (threads s1 t) i = Some (th, wr) /\ pc th = 1%nat /\ cur th = Some o) -> can w 10 s1 t).
    { intros i th wr Co L X. destruct (pc (threads s t)) as [|[|p]] eqn:Pc; [| |lia].
      - destruct (X P1) as (X1 & X2 & X3). eapply (can_next _ _ _ _ o i th wr C1); [rewrite Co, P1; reflexivity|exact X1|]. intros s2 T _. apply (can_ret _ _ _ _ o); rewrite T; [exact X3|now rewrite Co].
      - apply (can_ret _ _ _ _ o C1). now rewrite Co. }
    destruct o; cbn [at_point] in P.
    - eapply (One IMov); [reflexivity|destruct P as (_ & _ & _ & P); destruct (pc (threads s t)) as [|[|p]]; [lia|lia|easy]|]. intros P0. cbn [exec]. split; [reflexivity|]. cbn. now rewrite P0.
    - eapply (One IStore); [reflexivity|tauto|]. intros P0. cbn [exec]. split; [reflexivity|]. cbn. now rewrite P0.
    - assert (L : (pc (threads s t) <= 1)%nat) by (destruct P as (_ & P); destruct (pc (threads s t)) as [|[|p]]; [lia|lia|easy]).
      destruct (r0 (threads s1 t) =? val s1) eqn:Q; (eapply (One ICmpxchg); [reflexivity|exact L|]; intros P0; cbn [exec]; rewrite B1, Q; split; [reflexivity|]; cbn; now rewrite P0).
    - eapply (One IXchg); [reflexivity|destruct P as (_ & P); destruct (pc (threads s t)) as [|[|p]]; [lia|lia|easy]|]. intros P0. cbn [exec]. rewrite B1. split; [reflexivity|]. cbn. now rewrite P0.
    - eapply (One IXadd); [reflexivity|destruct P as (_ & P); destruct (pc (threads s t)) as [|[|p]]; [lia|lia|easy]|]. intros P0. cbn [exec]. rewrite B1. split; [reflexivity|]. cbn. now rewrite P0.
    - apply (can_spin w IAnd ltac:(now left) s1 t (OAnd operand) eq_refl C1 B1). rewrite P1. destruct P as (_ & P). destruct (pc (threads s t)) as [|[|[|[|[|[|p]]]]]]; [lia..|easy].
    - apply (can_spin w IOr ltac:(now right) s1 t (OOr operand) eq_refl C1 B1). rewrite P1. destruct P as (_ & P). destruct (pc (threads s t)) as [|[|[|[|[|[|p]]]]]]; [lia..|easy]. }
  destruct G as (m & r & s' & L & G). exists (length (buf (threads s t))), m, r, s'. split; [|exact L]. apply run_app. exists s1. now split.
Qed.

(** two threads: one takes the and with 6 while the other adds 1 in between, so that the first has to try again *)
Example C116_ex : exists s, run 32 (start 13) [Call 0 (OAnd 6); Exec 0; Exec 0; Call 1 (OAdd 1); Exec 1; Exec 0; Exec 0; Exec 0; Exec 0; Exec 0; Exec 0; Ret 1 13; Exec 0; Exec 0; Ret 0 14] = Some s /\ val s = 6.
Proof. apply run_known. vm_compute. reflexivity. Qed.
Example C116_ex2 : exists s, run 32 (start (2^32 - 1)) [Call 0 (OAdd 1); Call 1 (OAdd 1); Exec 1; Exec 0; Ret 0 0; Ret 1 (2^32 - 1)] = Some s /\ val s = 1.
Proof. apply run_known. vm_compute. reflexivity. Qed.
Print Assumptions C116_atomic.
Print Assumptions C116_memory.
Print Assumptions C116_stores.
Print Assumptions C116_store_late_refuted.
Print Assumptions C116_counter.
Print Assumptions C116_tickets.
Print Assumptions C116_finishes.
