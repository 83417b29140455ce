(** The invariant of starting and joining in turns. *)
From Verif Require Import Base Thread ThreadSpec.
Open Scope list_scope.

Lemma starts_app a b : starts (a ++ b) = starts a ++ starts b.
Proof. induction a as [|l a IH]; cbn; [easy|]. destruct l; cbn; now rewrite IH. Qed.

Section Inv.
  Context (result : Z -> Z -> Z).
  Definition last_result (l : list (Z * Z)) (r : Z) : Prop := forall l' p u, l = l' ++ [(p, u)] -> r = result p u.
  Definition early (w : where_) : Prop := w = Created \/ w = Flagged.
  Definition before_run (w : where_) : Prop := w = Created \/ w = Flagged \/ w = Released \/ exists p, w = Called p.
  Record inv (nw : bool) (s : state) (out : bool) (l : list (Z * Z)) : Prop := {
    i_ok : stuck s = false;
    i_nw : nowait (t s) = nw;
    i_out : if out then exists id w prev p u,
        threads s = [(id, w)] /\ handle (t s) = Some id /\ l = prev ++ [(p, u)] /\ proc (t s) = p /\ user_data (t s) = u /\
        is_running (t s) = match w with Created | Finished => false | _ => true end /\
        semaphore (t s) = match owner s with Starting => if nw then O else match w with Created | Flagged => O | _ => 1%nat end | _ => O end /\
        (nw = false -> owner s <> Starting -> ~ early w) /\
        match w with
        | Created | Flagged | Released => ran s = prev
        | Called q => q = p /\ ran s = prev
        | Left v => v = result p u /\ ran s = l
        | Stored | Finished => return_value (t s) = result p u /\ ran s = l
        end
      else threads s = [] /\ owner s = Idle /\ is_running (t s) = false /\ semaphore (t s) = O /\ ran s = l /\ last_result l (return_value (t s))
  }.
  Lemma single {A} (a b : list A) x y : [x] = a ++ y :: b -> a = [] /\ b = [] /\ x = y.
  Proof. destruct a as [|z a]; cbn; [intros [= -> <-]; easy|]. intros [= _ E]. now destruct a. Qed.
  Lemma inv_steps nw tr s : steps result (init nw) tr s -> forall out, turns tr out -> inv nw s out (starts tr).
  Proof.
    remember (init nw) as s0 eqn:E0. induction 1 as [s|s tr s' l s'' Hs IH Hst]; intros out T.
    { subst s. inversion T as [|? ? ? ? E|? ? ? ? ? ? E|? ? ? ? E|? ? E|? ? E|? ? ? E]; try (now destruct tr). subst. split; [reflexivity|reflexivity|].
      split; [easy|]. split; [easy|]. split; [easy|]. split; [easy|]. split; [easy|]. intros l' p u E. now destruct l'. }
    specialize (IH E0). subst s. rewrite starts_app.
    inversion T as [E|tr' p u T' E|tr' p u e h T' E|tr' b r T' E|tr' T' E|tr' T' E|tr' b T' E];
      [now destruct tr|apply app_inj_tail in E; destruct E as (-> & <-)..]; subst; destruct (IH _ T') as [Ok Nw Out]; clear IH; cbn [starts app]; rewrite ?app_nil_r.
    - destruct Out as (Th & Ow & Ru & Se & Ra & La). inversion Hst as [? ? ? O R|? ? ? O R| | | | | | |]; subst; [|congruence].
      split; [exact Ok|reflexivity|]. exists (next s'), Created, (starts tr), p, u. cbn. rewrite Th, Ru, Se. destruct (nowait (t s')); repeat (split; [easy|]); exact Ra.
    - destruct Out as (Th & Ow & Ru & Se & Ra & La). inversion Hst; subst. split; [exact Ok|reflexivity|]. cbn. tauto.
    - inversion Hst as [| | |? O N|? n O N Se'| | | |]; subst.
      + split; [exact Ok|exact eq_refl|]. destruct out.
        * destruct Out as (id & w & prev & q & v & Th & Ha & L & P & U & Ru & Se & Ea & W). exists id, w, prev, q, v. cbn. rewrite O, N in *. repeat (split; [easy|]). exact W.
        * destruct Out as (Th & Ow & Ru & Se & Ra & La). cbn. tauto.
      + split; [exact Ok|exact eq_refl|]. destruct out.
        * destruct Out as (id & w & prev & q & v & Th & Ha & L & P & U & Ru & Se & Ea & W). exists id, w, prev, q, v. cbn. rewrite O, N in *. rewrite Se' in Se.
          assert (n = 0%nat /\ ~ early w) as (-> & NE). { unfold early. destruct w; try discriminate; injection Se as ->; (split; [easy|]); intros [Z|Z]; discriminate. }
          repeat (split; [easy|]). easy.
        * destruct Out as (Th & Ow & Ru & Se & Ra & La). congruence.
    - destruct Out as (id & w & prev & q & v & Th & Ha & L & P & U & Ru & Se & Ea & W). inversion Hst as [| | | | |? id' w' O H I|? O H| |]; subst.
      + split; [exact Ok|exact eq_refl|]. exists id, w, prev, (proc (t s')), (user_data (t s')). cbn. rewrite O in *. repeat (split; [easy|]). split; [|easy]. intros N _. now apply Ea.
      + exfalso. apply (H id w Ha). rewrite Th. now left.
    - destruct Out as (id & w & prev & q & v & Th & Ha & L & P & U & Ru & Se & Ea & W). inversion Hst as [| | | | | | |? id' a b O H I|]; subst.
      rewrite Th in I. apply single in I. destruct I as (-> & -> & [= -> ->]). split; [exact Ok|exact eq_refl|]. cbn. rewrite O in Se. destruct W as (W & Ra). split; [easy|]. split; [easy|]. split; [easy|]. split; [easy|].
      split; [easy|]. intros l' p u E. rewrite L in E. apply app_inj_tail in E. destruct E as (_ & [= <- <-]). exact W.
    - inversion Hst as [| | | | | | | |? id w x w' r a b Th' Wk]; subst. destruct out.
      + destruct Out as (id' & w0 & prev & q & v & Th & Ha & L & P & U & Ru & Se & Ea & W). rewrite Th in Th'. apply single in Th'. destruct Th' as (-> & -> & [= -> ->]).
        split; cbn [stuck nowait t]; [exact Ok|destruct w; try discriminate Wk; injection Wk as <- <- <-; reflexivity|].
        exists id, w', prev, q, v. cbn [threads t owner ran app]. unfold early in *.
        destruct w; try discriminate Wk; injection Wk as <- <- <-; cbn [handle proc user_data is_running semaphore return_value]; (split; [reflexivity|]); (split; [assumption|]); (split; [assumption|]); (split; [assumption|]); (split; [assumption|]).
        * split; [reflexivity|]. split; [exact Se|]. split; [|exact W]. intros N O. exfalso. apply (Ea N O). now left.
        * split; [exact Ru|]. split; [|split; [intros _ _ [Z|Z]; discriminate|exact W]]. rewrite Se. destruct (nowait (t s')) eqn:N; destruct (owner s') eqn:O; try reflexivity; exfalso; apply Ea; auto; discriminate.
        * split; [exact Ru|]. split; [exact Se|]. split; [intros _ _ [Z|Z]; discriminate|]. now split.
        * split; [exact Ru|]. split; [exact Se|]. split; [intros _ _ [Z|Z]; discriminate|]. destruct W as (-> & ->). rewrite U, L. now split.
        * split; [exact Ru|]. split; [exact Se|]. split; [intros _ _ [Z|Z]; discriminate|]. destruct W as (-> & ->). now split.
        * split; [reflexivity|]. split; [exact Se|]. split; [intros _ _ [Z|Z]; discriminate|]. exact W.
      + destruct Out as (Th & _). rewrite Th in Th'. now destruct a.
  Qed.
End Inv.
