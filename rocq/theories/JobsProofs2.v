From Verif Require Import Base Ring RingSpec RingProofs Jobs JobsSpec JobsProofs.

Lemma hand_worker id ws m i w w' : nth_error ws i = Some w -> wjob w' = wjob w ->
  hand id (set_nth ws i w') m = hand id ws m.
Proof.
  intros H E. unfold hand. destruct m; try easy. destruct (Nat.eq_dec i i0) as [->|N].
  - rewrite (nth_set_eq _ _ w) by easy. now rewrite H, E.
  - now rewrite nth_set_ne.
Qed.

(** a worker's step keeps everything the worker's part is responsible for *)
Lemma worker_jinv cap Q p i w w' ev : jinv cap Q p -> nth_error (workers p) i = Some w ->
  worker_step i w = Some (w', ev) ->
  jinv cap Q (mkP (counter p) (queues p) (set_nth (workers p) i w') (mat p) (ev ++ hist p)).
Proof.
  intros [Jh J5 Jf Ja Jd Je Jr Jt Jn Jp Js] Hw E.
  assert (Ew : wjob w' = wjob w).
  { unfold worker_step in E. destruct (wat w); try discriminate E; now injection E as <- <-. }
  assert (Ewait : fits w = true -> wst w = WAITING -> wst w' = WAITING).
  { unfold worker_step in E. intros F Hs. unfold fits in F. rewrite Hs in *.
    destruct (wat w); try discriminate E; try discriminate F; now injection E as <- <-. }
  assert (Efit : fits w = true -> fits w' = true).
  { unfold worker_step in E. unfold fits. destruct w as [ws wj wa]. cbn [wst wat wjob] in *.
    destruct ws, wa; try discriminate E; injection E as <- <-; easy. }
  assert (Ev : forall id, (started id (ev ++ hist p) + pend id w' <= started id (hist p) + pend id w)%nat /\
     (normal (mat p) = true -> (started id (ev ++ hist p) + pend id w' = started id (hist p) + pend id w)%nat)).
  { intros id. unfold worker_step in E. unfold pend, pending.
    assert (F : normal (mat p) = true -> fits w = true) by (intros N; now apply (Jt N i)).
    destruct w as [ws wj wa]. cbn [wst wat wjob] in *. unfold fits in F. cbn [wst wat] in F.
    destruct wa; try discriminate E; injection E as <- <-; cbn [wst wat wjob app];
      unfold started; cbn [count_ev]; fold (started id (hist p));
      destruct ws; cbn [andb b2n]; try (split; [lia|]; intros; lia);
      destruct (Nat.eqb wj id); cbn [b2n]; try (split; [lia|]; intros N; try specialize (F N); try discriminate F; lia);
      exfalso; destruct (Jn i _ Hw) as [Q1|Q1]; discriminate Q1. }
  assert (Er : forall id, (started id (ev ++ hist p) + running id w + finished id (hist p) = started id (hist p) + running id w' + finished id (ev ++ hist p))%nat).
  { intros id. unfold worker_step in E. unfold running, b2n. destruct w as [ws wj wa]. cbn [wst wat wjob] in *.
    destruct wa; try discriminate E; injection E as <- <-; cbn [wst wat wjob app];
      unfold started, finished; cbn [count_ev]; try lia; destruct ws; lia. }
  assert (Ed : forall id, disps id (ev ++ hist p) = disps id (hist p) /\ accepted id (ev ++ hist p) = accepted id (hist p)).
  { intros id. unfold worker_step in E. destruct (wat w); try discriminate E; injection E as <- <-; easy. }
  assert (Ef : forall j, accepted_in j (ev ++ hist p) = accepted_in j (hist p) /\ taken_from j (ev ++ hist p) = taken_from j (hist p)).
  { intros j. unfold worker_step in E. destruct (wat w); try discriminate E; injection E as <- <-; easy. }
  constructor; cbn [queues workers mat hist].
  - easy.
  - easy.
  - intros j q H. destruct (Ef j) as [-> ->]. now apply Jf.
  - intros id. destruct (Ed id) as [-> ->]. apply Ja.
  - intros id. destruct (Ed id) as [-> _]. rewrite (hand_worker id _ _ i w w') by easy.
    pose proof (sumw_set (pend id) _ i w w' Hw). specialize (Jd id). destruct (Ev id) as [A _]. lia.
  - intros N id. destruct (Ed id) as [-> _]. rewrite (hand_worker id _ _ i w w') by easy.
    pose proof (sumw_set (pend id) _ i w w' Hw). specialize (Je N id). destruct (Ev id) as [_ A]. specialize (A N). lia.
  - intros id. pose proof (sumw_set (running id) _ i w w' Hw). specialize (Jr id). specialize (Er id). lia.
  - intros N k x Hk. destruct (nth_set_inv _ _ _ _ _ Hk) as [[<- ->]|[_ Hx]]; [|now apply (Jt N k)].
    apply Efit. now apply (Jt N i).
  - intros k x Hk. destruct (nth_set_inv _ _ _ _ _ Hk) as [[<- ->]|[_ Hx]]; [|now apply (Jn k)].
    destruct (Jn i w Hw) as [A|A]; [left; now apply Efit|].
    unfold worker_step in E. destruct w as [st wj wa]. cbn [wst wat wjob] in *. subst st.
    destruct wa; try discriminate E; injection E as <- <-; cbn; tauto.
  - intros k Hm. destruct (Jp k Hm) as (x & Hx & Hs).
    destruct (Nat.eq_dec i k) as [->|N]; [|exists x; now rewrite nth_set_ne].
    rewrite Hw in Hx. injection Hx as <-. exists w'. split; [now apply nth_set_eq with w|].
    apply Ewait; [|easy]. apply (Jt ltac:(destruct Hm as [->|[[? ->]| ->]]; easy) k w Hw).
  - intros a k x Hm Hk Hx. destruct (nth_set_inv _ _ _ _ _ Hx) as [[<- ->]|[_ Hx']]; [|now apply (Js a k x)].
    apply Ewait; [|now apply (Js a i w)]. apply (Jt ltac:(rewrite Hm; easy) i w Hw).
Qed.

Ltac noevent := unfold accepted, started, finished, disps in *; cbn [count_ev accepted_in taken_from] in *.

Lemma main_jinv cap Q p m p' : 0 < cap < 2^64 -> jinv cap Q p -> main_step p m = Some p' -> exists Q', jinv cap Q' p'.
Proof.
  intros Hc [Jh J5 Jf Ja Jd Je Jr Jt Jn Jp Js] E.
  destruct p as [cnt qs ws at_ h]. cbn [counter queues workers mat hist] in *.
  unfold main_step in E. destruct at_; destruct m; try discriminate E.
  - (* enqueue *)
    destruct (nth_error qs j) as [r|] eqn:Hr; cbn [obind] in E; [|easy].
    destruct (holds_nth cap qs Q j r Jh Hr) as (q & Hq & Rd & Cp).
    rewrite (full_ok1 r q Rd) in E by lia. cbn [obind] in E. destruct (Z.eqb_spec (Z.of_nat (length q)) (rcap r - 1)) as [F|F].
    + injection E as <-. exists Q. constructor; cbn [counter queues workers mat hist] in *; noevent; easy.
    + destruct (append_ok r q id Rd) as (r' & A & C' & Rd').
      { destruct Rd as (_ & _ & L & _). lia. }
      rewrite A in E. cbn [obind] in E. injection E as <-.
      assert (Sh : newest (Z.to_nat (rcap r - 1)) (q ++ [id]) = q ++ [id]).
      { apply newest_short. rewrite app_length. cbn. destruct Rd as (_ & _ & L & _). lia. }
      rewrite Sh in Rd'. exists (set_nth Q j (q ++ [id])).
      constructor; cbn [counter queues workers mat hist]; noevent; try easy.
      * apply holds_set; try easy. lia.
      * now rewrite set_len.
      * intros k q' Hk. destruct (nth_set_inv _ _ _ _ _ Hk) as [[<- ->]|[N Hk']].
        -- rewrite Nat.eqb_refl, (Jf j q Hq), app_assoc. easy.
        -- apply Nat.eqb_neq in N. rewrite N, app_nil_r. now apply Jf.
      * intros x. pose proof (qcount_set x Q j q (q ++ [id]) Hq) as C. rewrite count_occ_app in C. cbn [count_occ] in C.
        specialize (Ja x). destruct (Nat.eqb_spec id x) as [->|N].
        -- destruct (Nat.eq_dec x x); [|easy]. lia.
        -- destruct (Nat.eq_dec id x); [easy|]. lia.
  - (* process *)
    destruct (empty_all qs); injection E as <-; exists Q; constructor; cbn [counter queues workers mat hist] in *; noevent; try easy.
    now intros i [H|[[x H]|H]].
  - injection E as <-; exists Q; constructor; cbn [counter queues workers mat hist] in *; noevent; try easy.
    + now intros i [H|[[x H]|H]].
    + intros i k w [= <-]. lia.
  - injection E as <-; exists Q; constructor; cbn [counter queues workers mat hist] in *; noevent; try easy. now intros i [H|[[x H]|H]].
  - (* PLoad *)
    destruct (nth_error ws i) as [w|] eqn:Hw.
    + destruct (wst w) eqn:Hs; injection E as <-; exists Q; constructor; cbn [counter queues workers mat hist] in *; noevent; try easy;
        try (now intros k [H|[[x H]|H]]).
      intros k [[= <-]|[[x H]|H]]; try easy. now exists w.
    + injection E as <-; exists Q; constructor; cbn [counter queues workers mat hist] in *; noevent; try easy. now intros k [H|[[x H]|H]].
  - (* PPick *)
    destruct (Jp i (or_introl eq_refl)) as (w & Hw & Hs).
    destruct (pick_ok cap Hc qs Q chances 0 cnt Jh) as (rs' & r & E1 & E2); [now rewrite J5|now rewrite J5|].
    rewrite E1 in E. cbn [obind] in E. destruct (snd (apick 0 Q chances cnt)) as [k|].
    + destruct E2 as (j & x & q & r0' & Hk & Hn & -> & -> & Rd & Cp). injection E as <-.
      cbn [Nat.add] in Hk. subst k.
      exists (set_nth Q j q). constructor; cbn [counter queues workers mat hist]; noevent; try easy.
      * now apply holds_set.
      * now rewrite set_len.
      * intros k q' Hk. destruct (nth_set_inv _ _ _ _ _ Hk) as [[<- ->]|[N Hk']].
        -- rewrite Nat.eqb_refl, (Jf j _ Hn), <- app_assoc. easy.
        -- apply Nat.eqb_neq in N. rewrite N, app_nil_r. now apply Jf.
      * intros y. pose proof (qcount_set y Q j _ q Hn) as C. cbn [count_occ] in C.
        specialize (Ja y). destruct (Nat.eqb_spec x y) as [->|N].
        -- destruct (Nat.eq_dec y y); [|easy]. lia.
        -- destruct (Nat.eq_dec x y); [easy|]. lia.
      * intros y. specialize (Jd y). cbn [hand] in *. unfold b2n. destruct (Nat.eqb x y); lia.
      * intros _ y. specialize (Je eq_refl y). cbn [hand] in *. unfold b2n. destruct (Nat.eqb x y); lia.
      * intros k [H|[[y H]|H]]; try easy. injection H as <- <-. now exists w.
    + destruct E2 as [-> ->]. injection E as <-. exists Q. constructor; cbn [counter queues workers mat hist] in *; noevent; try easy. now intros k [H|[[x H]|H]].
  - (* PStore *)
    destruct (Jp i (or_intror (or_introl (ex_intro _ id eq_refl)))) as (w & Hw & Hs). rewrite Hw in E. cbn [obind] in E.
    injection E as <-. pose proof (Jt eq_refl i w Hw) as Fw.
    assert (Pw : pending w = false).
    { unfold fits in Fw. unfold pending. rewrite Hs in *. now destruct (wat w). }
    exists Q. constructor; cbn [counter queues workers mat hist] in *; noevent; try easy.
    + intros x. pose proof (sumw_set (pend x) ws i w (mkW (wst w) id (wat w)) Hw) as C. specialize (Jd x).
      assert (P1 : pend x w = 0%nat) by (unfold pend; now rewrite Pw).
      assert (P2 : pend x (mkW (wst w) id (wat w)) = 0%nat) by (unfold pend, pending in *; cbn [wst wat]; now rewrite Pw).
      cbn [hand] in *. rewrite (nth_set_eq _ _ w) by easy. cbn [wjob]. lia.
    + intros _ x. pose proof (sumw_set (pend x) ws i w (mkW (wst w) id (wat w)) Hw) as C. specialize (Je eq_refl x).
      assert (P1 : pend x w = 0%nat) by (unfold pend; now rewrite Pw).
      assert (P2 : pend x (mkW (wst w) id (wat w)) = 0%nat) by (unfold pend, pending in *; cbn [wst wat]; now rewrite Pw).
      cbn [hand] in *. rewrite (nth_set_eq _ _ w) by easy. cbn [wjob]. lia.
    + intros x. pose proof (sumw_set (running x) ws i w (mkW (wst w) id (wat w)) Hw) as C. specialize (Jr x).
      assert (running x (mkW (wst w) id (wat w)) = running x w) by easy. lia.
    + intros _ k x Hk. destruct (nth_set_inv _ _ _ _ _ Hk) as [[<- ->]|[N Hk']]; [exact Fw|now apply (Jt eq_refl k)].
    + intros k x Hk. destruct (nth_set_inv _ _ _ _ _ Hk) as [[<- ->]|[N Hk']]; [left; exact Fw|now apply (Jn k)].
    + intros k [H|[[x H]|H]]; try easy. injection H as <-. eexists. split; [now apply nth_set_eq with w|easy].
  - (* PReady *)
    destruct (Jp i (or_intror (or_intror eq_refl))) as (w & Hw & Hs). rewrite Hw in E. cbn [obind] in E.
    injection E as <-. pose proof (Jt eq_refl i w Hw) as Fw.
    assert (Pw : pending w = false).
    { unfold fits in Fw. unfold pending. rewrite Hs in *. now destruct (wat w). }
    assert (Pc : forall x, (sumw (pend x) (set_nth ws i (mkW READY (wjob w) (wat w))) = sumw (pend x) ws + b2n (Nat.eqb (wjob w) x))%nat).
    { intros x. pose proof (sumw_set (pend x) ws i w (mkW READY (wjob w) (wat w)) Hw) as C.
      assert (P1 : pend x w = 0%nat) by (unfold pend; now rewrite Pw).
      assert (P2 : pend x (mkW READY (wjob w) (wat w)) = b2n (Nat.eqb (wjob w) x)) by easy. lia. }
    exists Q. constructor; cbn [counter queues workers mat hist] in *; noevent; try easy.
    + intros x. rewrite Pc. specialize (Jd x). cbn [hand] in *. rewrite Hw in Jd. lia.
    + intros _ x. rewrite Pc. specialize (Je eq_refl x). cbn [hand] in *. rewrite Hw in Je. lia.
    + intros x. pose proof (sumw_set (running x) ws i w (mkW READY (wjob w) (wat w)) Hw) as C. specialize (Jr x).
      assert (running x (mkW READY (wjob w) (wat w)) = running x w) by easy. lia.
    + intros _ k x Hk. destruct (nth_set_inv _ _ _ _ _ Hk) as [[<- ->]|[N Hk']]; [|now apply (Jt eq_refl k)].
      unfold fits in *. cbn [wst wat]. rewrite Hs in Fw. now destruct (wat w).
    + intros k x Hk. destruct (nth_set_inv _ _ _ _ _ Hk) as [[<- ->]|[N Hk']]; [|now apply (Jn k)].
      left. unfold fits in *. cbn [wst wat]. rewrite Hs in Fw. now destruct (wat w).
    + now intros k [H|[[x H]|H]].
  - (* DLoad *)
    destruct (nth_error ws i) as [w|] eqn:Hw.
    + destruct (wst w) eqn:Hs; injection E as <-; exists Q; constructor; cbn [counter queues workers mat hist] in *; noevent; try easy;
        try (now intros k [H|[[x H]|H]]).
      intros a k x [= <-] Hk Hx. destruct (Nat.eq_dec k i) as [->|]; [congruence|]. apply (Js i k x eq_refl); [lia|easy].
    + injection E as <-; exists Q; constructor; cbn [counter queues workers mat hist] in *; noevent; try easy. now intros k [H|[[x H]|H]].
  - (* FStore *)
    destruct (nth_error ws i) as [w|] eqn:Hw.
    + injection E as <-. exists Q. constructor; cbn [counter queues workers mat hist] in *; noevent; try easy.
      * intros x. pose proof (sumw_set (pend x) ws i w (mkW TERM (wjob w) (wat w)) Hw) as C. specialize (Jd x). cbn [hand] in *.
        assert (pend x (mkW TERM (wjob w) (wat w)) <= pend x w)%nat; [|lia].
        unfold pend, pending. cbn [wst wat wjob]. destruct (wst w), (wat w); cbn [andb b2n]; lia.
      * intros x. pose proof (sumw_set (running x) ws i w (mkW TERM (wjob w) (wat w)) Hw) as C. specialize (Jr x).
        assert (running x (mkW TERM (wjob w) (wat w)) = running x w) by easy. lia.
      * intros k x Hk. destruct (nth_set_inv _ _ _ _ _ Hk) as [[<- ->]|[N Hk']]; [now right|now apply (Jn k)].
      * now intros k [H|[[x H]|H]].
    + injection E as <-. exists Q. constructor; cbn [counter queues workers mat hist] in *; noevent; try easy. now intros k [H|[[x H]|H]].
  - (* FJoin *)
    destruct (nth_error ws i) as [w|] eqn:Hw; cbn [obind] in E; [|easy].
    destruct (wat w); try discriminate E. injection E as <-.
    exists Q. constructor; cbn [counter queues workers mat hist] in *; noevent; try easy. now intros k [H|[[x H]|H]].
Qed.

Lemma jstep_jinv cap Q p m p' : 0 < cap < 2^64 -> jinv cap Q p -> jstep p m = Some p' -> exists Q', jinv cap Q' p'.
Proof.
  intros Hc J E. destruct m; try (now apply (main_jinv cap Q p _ p' Hc J E)).
  cbn [jstep] in E. destruct (nth_error (workers p) i) as [w|] eqn:Hw; cbn [obind] in E; [|easy].
  destruct (worker_step i w) as [[w' ev]|] eqn:Ew; cbn [obind] in E; [|easy]. injection E as <-.
  exists Q. now apply worker_jinv with w.
Qed.
Lemma jrun_jinv cap : 0 < cap < 2^64 -> forall sch p p' Q, jinv cap Q p -> jrun p sch = Some p' -> exists Q', jinv cap Q' p'.
Proof.
  intros Hc. induction sch as [|m sch IH]; intros p p' Q J; cbn [jrun].
  - intros [= <-]. now exists Q.
  - destruct (jstep p m) as [p1|] eqn:E; cbn [obind]; [|easy].
    destruct (jstep_jinv cap Q p m p1 Hc J E) as [Q1 J1]. now apply IH with Q1.
Qed.
