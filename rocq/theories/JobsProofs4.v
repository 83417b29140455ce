(** Progress of the job system (C80): every accepted job can still be run to its end. *)
From Verif Require Import Base Ring RingSpec RingProofs Jobs JobsSpec JobsProofs JobsProofs2 JobsProofs3.

(** ** The choice of a queue, on which queues are in use *)
Fixpoint bpick (j : nat) (bs : list bool) (ch : list Z) (cnt : Z) : Z * option nat :=
  match bs, ch with
  | b :: bs, c :: ch =>
      if b then if cnt mod c =? 0 then (u32 (cnt + 1), Some j) else bpick (S j) bs ch (u32 (cnt + 1))
      else bpick (S j) bs ch cnt
  | _, _ => (cnt, None)
  end.
Definition uses (Q : list (list nat)) : list bool := map (fun q => match q with [] => false | _ => true end) Q.
Lemma apick_bpick Q : forall j ch c, apick j Q ch c = bpick j (uses Q) ch c.
Proof.
  induction Q as [|q Q IH]; intros j [|c0 ch] c; cbn [apick bpick uses map]; try easy.
  destruct q; [apply IH|]. destruct (c mod c0 =? 0); [easy|apply IH].
Qed.
(** the same without wrapping *)
Fixpoint npick (j : nat) (bs : list bool) (ch : list Z) (cnt : Z) : Z * option nat :=
  match bs, ch with
  | b :: bs, c :: ch =>
      if b then if cnt mod c =? 0 then (cnt + 1, Some j) else npick (S j) bs ch (cnt + 1)
      else npick (S j) bs ch cnt
  | _, _ => (cnt, None)
  end.
Lemma npick_range bs : forall j ch c, c <= fst (npick j bs ch c) <= c + Z.of_nat (length bs).
Proof.
  induction bs as [|b bs IH]; intros j [|c0 ch] c; cbn [npick length fst]; try lia.
  destruct b; [destruct (c mod c0 =? 0)|]; cbn [fst]; try lia; specialize (IH (S j) ch); [specialize (IH (c + 1))|specialize (IH c)]; lia.
Qed.
Lemma bpick_npick bs : forall j ch c, 0 <= c -> c + Z.of_nat (length bs) < 2^32 -> bpick j bs ch c = npick j bs ch c.
Proof.
  induction bs as [|b bs IH]; intros j [|c0 ch] c H0 H1; cbn [bpick npick length] in *; try easy.
  assert (E : u32 (c + 1) = c + 1) by (unfold u32; apply Z.mod_small; lia).
  rewrite E. destruct b; [destruct (c mod c0 =? 0); [easy|]|]; apply IH; lia.
Qed.
Lemma npick_shift bs t : forall j ch c, Forall (fun d => d <> 0 /\ (d | 2310)) ch ->
  npick j bs ch (c + 2310 * t) = (fst (npick j bs ch c) + 2310 * t, snd (npick j bs ch c)).
Proof.
  induction bs as [|b bs IH]; intros j [|c0 ch] c H; cbn [npick fst snd]; try easy.
  inversion H as [|? ? [N [d D]] H']; subst.
  assert (E : (c + 2310 * t) mod c0 = c mod c0).
  { rewrite D. replace (d * c0 * t) with (d * t * c0) by lia. now rewrite Z_mod_plus_full. }
  rewrite E. destruct b; [destruct (c mod c0 =? 0)|]; cbn [fst snd].
  - f_equal. lia.
  - replace (c + 2310 * t + 1) with (c + 1 + 2310 * t) by lia. now apply IH.
  - now apply IH.
Qed.
(** a job is taken within [m] more attempts *)
Fixpoint soon (m : nat) (bs : list bool) (c : Z) : bool :=
  let r := bpick 0 bs chances c in
  match snd r with
  | Some _ => true
  | None => match m with O => false | S m => soon m bs (fst r) end
  end.
Fixpoint nsoon (m : nat) (bs : list bool) (c : Z) : bool :=
  let r := npick 0 bs chances c in
  match snd r with
  | Some _ => true
  | None => match m with O => false | S m => nsoon m bs (fst r) end
  end.
Lemma soon_nsoon bs : length bs = 5%nat -> forall m c, 0 <= c -> c + 5 * (Z.of_nat m + 1) < 2^32 -> soon m bs c = nsoon m bs c.
Proof.
  intros L. induction m as [|m IH]; intros c H0 H1; cbn [soon nsoon]; rewrite bpick_npick by (rewrite ?L; lia); [easy|].
  destruct (snd (npick 0 bs chances c)); [easy|]. pose proof (npick_range bs 0 chances c). rewrite L in H. apply IH; lia.
Qed.
Lemma nsoon_shift bs t : forall m c, nsoon m bs (c + 2310 * t) = nsoon m bs c.
Proof.
  assert (F : Forall (fun d => d <> 0 /\ (d | 2310)) chances).
  { unfold chances. repeat constructor; try easy; [exists 1155|exists 770|exists 462|exists 330|exists 210]; reflexivity. }
  induction m as [|m IH]; intros c; cbn [nsoon]; rewrite npick_shift by exact F; cbn [fst snd]; [easy|].
  destruct (snd (npick 0 bs chances c)); [easy|]. apply IH.
Qed.
Definition pats : list (list bool) :=
  let b := [false; true] in
  flat_map (fun x => flat_map (fun y => flat_map (fun z => flat_map (fun u => map (fun v => [x; y; z; u; v]) b) b) b) b) b.
Fixpoint zs (from : Z) (n : nat) : list Z := match n with O => [] | S n => from :: zs (Z.succ from) n end.
Lemma zs_in : forall n from c, from <= c < from + Z.of_nat n -> In c (zs from n).
Proof.
  induction n as [|n IH]; intros from c H; [lia|]. cbn [zs In]. destruct (Z.eq_dec from c); [now left|]. right. apply IH. lia.
Qed.
Lemma soon_sweep : forallb (fun bs => implb (existsb (fun b => b) bs)
  (forallb (nsoon 20 bs) (zs 0 (Z.to_nat 2310)) && forallb (soon 40 bs) (zs (2^32 - 110) 110))) pats = true.
Proof. vm_compute. reflexivity. Qed.
Lemma soon_mono bs : forall m m' c, (m <= m')%nat -> soon m bs c = true -> soon m' bs c = true.
Proof.
  induction m as [|m IH]; intros [|m'] c L; cbn [soon]; try easy; try lia.
  - now destruct (snd (bpick 0 bs chances c)).
  - destruct (snd (bpick 0 bs chances c)); [easy|]. apply IH. lia.
Qed.
Lemma pats_in (bs : list bool) : length bs = 5%nat -> In bs pats.
Proof.
  destruct bs as [|a [|b [|c [|d [|e [|]]]]]]; try discriminate. intros _.
  destruct a, b, c, d, e; cbn; tauto.
Qed.
Lemma soon_ok bs c : length bs = 5%nat -> existsb (fun b => b) bs = true -> 0 <= c < 2^32 -> soon 40 bs c = true.
Proof.
  intros L E H. pose proof soon_sweep as S. rewrite forallb_forall in S. specialize (S bs (pats_in bs L)). rewrite E in S.
  cbn [implb] in S. apply andb_prop in S as [S1 S2]. rewrite forallb_forall in S1, S2.
  destruct (Z_lt_dec c (2^32 - 110)) as [Lt|Ge].
  - apply (soon_mono bs 20); [lia|]. rewrite soon_nsoon by (try exact L; lia).
    rewrite (Z.div_mod c 2310) by easy. rewrite Z.add_comm, nsoon_shift. apply S1. apply zs_in.
    pose proof (Z.mod_pos_bound c 2310). rewrite Z2Nat.id by lia. lia.
  - apply S2, zs_in. lia.
Qed.

(** ** The counter stays in range *)
Lemma pick_range j qs ch cnt le cnt' qs' r : 0 <= cnt < 2^32 -> pick j qs ch cnt le = Some (cnt', qs', r) -> 0 <= cnt' < 2^32.
Proof.
  assert (U : forall x, 0 <= u32 x < 2^32) by (intros x; unfold u32; apply Z.mod_pos_bound; easy).
  revert j ch cnt le cnt' qs' r. induction qs as [|q qs IH]; intros j [|c0 ch] cnt le cnt' qs' r H; cbn [pick]; try (intros [= <- <- <-]; exact H).
  destruct (ring_empty q).
  - destruct (pick (S j) qs ch cnt _) as [[[? ?] ?]|] eqn:E; cbn [obind]; [|easy]. intros [= <- <- <-]. now apply IH in E.
  - set (cnt1 := if le then cnt else u32 (cnt + 1)). assert (H1 : 0 <= cnt1 < 2^32) by (subst cnt1; destruct le; [exact H|apply U]).
    destruct (negb le && _).
    + destruct (pick (S j) qs ch cnt1 _) as [[[? ?] ?]|] eqn:E; cbn [obind]; [|easy]. intros [= <- <- <-]. now apply IH in E.
    + destruct (ring_get q) as [[[x|] ?]|]; cbn [obind]; try easy. intros [= <- <- <-]. exact H1.
Qed.
Lemma jstep_range p m p' : 0 <= counter p < 2^32 -> jstep p m = Some p' -> 0 <= counter p' < 2^32.
Proof.
  intros H E. destruct m as [id0 j| | | | |i].
  6:{ cbn [jstep] in E. destruct (nth_error (workers p) i) as [w|]; cbn [obind] in E; [|easy].
      destruct (worker_step i w) as [[? ?]|]; cbn [obind] in E; [|easy]. now injection E as <-. }
  all: cbn [jstep] in E; destruct p as [cnt qs ws at_ h]; unfold main_step in E; cbn [counter] in *; destruct at_; try discriminate E.
  - destruct (nth_error qs j); cbn [obind] in E; [|easy]. destruct (ring_full r) as [[|]|]; cbn [obind] in E; [| |easy].
    + now injection E as <-.
    + destruct (ring_append r id0); cbn [obind] in E; [|easy]. now injection E as <-.
  - destruct (empty_all qs); now injection E as <-.
  - now injection E as <-.
  - now injection E as <-.
  - destruct (nth_error ws i) as [w|]; [destruct (wst w)|]; now injection E as <-.
  - destruct (pick 0 qs chances cnt false) as [[[c q] r]|] eqn:P; cbn [obind] in E; [|easy].
    apply pick_range in P; [|exact H]. destruct r as [[? ?]|]; injection E as <-; exact P.
  - destruct (nth_error ws i); cbn [obind] in E; [|easy]. now injection E as <-.
  - destruct (nth_error ws i); cbn [obind] in E; [|easy]. now injection E as <-.
  - destruct (nth_error ws i) as [w|]; [destruct (wst w)|]; now injection E as <-.
  - destruct (nth_error ws i) as [w|]; now injection E as <-.
  - destruct (nth_error ws i) as [w|]; cbn [obind] in E; [|easy]. destruct (wat w); try discriminate E. now injection E as <-.
Qed.
Lemma jrun_range : forall sch p p', 0 <= counter p < 2^32 -> jrun p sch = Some p' -> 0 <= counter p' < 2^32.
Proof.
  induction sch as [|m sch IH]; intros p p' H; cbn [jrun]; [now intros [= <-]|].
  destruct (jstep p m) as [p1|] eqn:E; cbn [obind]; [|easy]. apply IH. now apply (jstep_range p m).
Qed.

(** ** Workers finish *)
Definition noenq (ev : list event) : bool := forallb (fun e => match e with Enq _ _ _ => false | _ => true end) ev.
Lemma noenq_app a b : noenq (a ++ b) = noenq a && noenq b.
Proof. apply forallb_app. Qed.
Definition calm (w : worker) : Prop := wst w = WAITING /\ wat w = WLoad.

Lemma set_set {A} (l : list A) i x y : set_nth (set_nth l i x) i y = set_nth l i y.
Proof. revert i. induction l as [|z l IH]; intros [|i]; cbn; try easy. now rewrite IH. Qed.
Lemma set_same {A} (l : list A) i x : nth_error l i = Some x -> set_nth l i x = l.
Proof. revert i. induction l as [|z l IH]; intros [|i]; cbn; try easy; [congruence|]. intros H. now rewrite IH. Qed.

Lemma wrun_step c qs ws at_ h i w w' ev sch : nth_error ws i = Some w -> worker_step i w = Some (w', ev) ->
  jrun (mkP c qs ws at_ h) (W i :: sch) = jrun (mkP c qs (set_nth ws i w') at_ (ev ++ h)) sch.
Proof. intros H E. cbn [jrun jstep workers]. rewrite H. cbn [obind]. rewrite E. reflexivity. Qed.

Lemma calm_one c qs ws at_ h i w : nth_error ws i = Some w -> fits w = true ->
  exists k w' ev, jrun (mkP c qs ws at_ h) (repeat (W i) k) = Some (mkP c qs (set_nth ws i w') at_ (ev ++ h)) /\ calm w' /\ noenq ev = true.
Proof.
  enough (G : forall k w, fits w = true ->
     (k = match wst w, wat w with WAITING, WLoad => 0 | WAITING, _ => 1 | READY, WYield => 6 | READY, WLoad => 5
          | READY, _ => 4 | _, WCall => 3 | _, WRun _ => 2 | _, _ => 1 end)%nat ->
     forall ws h, nth_error ws i = Some w ->
     exists w' ev, jrun (mkP c qs ws at_ h) (repeat (W i) k) = Some (mkP c qs (set_nth ws i w') at_ (ev ++ h)) /\ calm w' /\ noenq ev = true).
  { intros H F. eexists. exact (G _ w F eq_refl ws h H). }
  clear. induction k as [|k IH]; intros w F K ws h H.
  - destruct w as [st jb pc]. cbn in K, F. exists (mkW st jb pc), []. cbn [repeat jrun app]. rewrite set_same by exact H.
    split; [easy|]. destruct st, pc; easy.
  - destruct (worker_step i w) as [[w' ev]|] eqn:E.
    2:{ destruct w as [[] jb []]; discriminate. }
    cbn [repeat]. rewrite (wrun_step _ _ _ _ _ _ _ w' ev _ H E).
    assert (F' : fits w' = true /\ (k = match wst w', wat w' with WAITING, WLoad => 0 | WAITING, _ => 1 | READY, WYield => 6 | READY, WLoad => 5
          | READY, _ => 4 | _, WCall => 3 | _, WRun _ => 2 | _, _ => 1 end)%nat /\ noenq ev = true).
    { destruct w as [[] jb []]; cbn in K, F, E; try discriminate; injection E as <- <-; cbn; injection K as ->; easy. }
    destruct F' as (F' & K' & N).
    destruct (IH w' F' K' (set_nth ws i w') (ev ++ h)) as (w2 & ev2 & R & C & N2); [now apply (nth_set_eq _ _ w)|].
    exists w2, (ev2 ++ ev). rewrite R, set_set, app_assoc, noenq_app, N, N2. easy.
Qed.

Lemma calm_all c qs at_ : forall k ws h, (forall i w, nth_error ws i = Some w -> fits w = true) ->
  exists sch ws' ev, jrun (mkP c qs ws at_ h) sch = Some (mkP c qs ws' at_ (ev ++ h)) /\ noenq ev = true /\ length ws' = length ws /\
    (forall i w, nth_error ws' i = Some w -> fits w = true) /\ (forall i w, (i < k)%nat -> nth_error ws' i = Some w -> calm w).
Proof.
  induction k as [|k IH]; intros ws h F.
  - exists [], ws, []. cbn. refine (conj eq_refl (conj eq_refl (conj eq_refl (conj F _)))). intros. lia.
  - destruct (IH ws h F) as (sch & ws1 & ev & R & N & L & F1 & C1).
    destruct (nth_error ws1 k) as [w|] eqn:Hk.
    + destruct (calm_one c qs ws1 at_ (ev ++ h) k w Hk (F1 k w Hk)) as (n & w' & ev' & R' & C' & N').
      exists (sch ++ repeat (W k) n), (set_nth ws1 k w'), (ev' ++ ev). rewrite jrun_app, R. cbn [obind]. rewrite R', app_assoc.
      refine (conj eq_refl (conj _ (conj _ (conj _ _)))).
      * now rewrite noenq_app, N, N'.
      * now rewrite set_len.
      * intros i x Hi. apply nth_set_inv in Hi as [[-> ->]|[_ Hi]]; [|now apply (F1 i)]. destruct C' as [A B]. unfold fits. now rewrite A, B.
      * intros i x Hl Hi. apply nth_set_inv in Hi as [[-> ->]|[Ne Hi]]; [exact C'|]. apply (C1 i); [lia|exact Hi].
    + exists sch, ws1, ev. refine (conj R (conj N (conj L (conj F1 _)))). intros i w Hl Hi.
      destruct (Nat.eq_dec i k) as [->|Ne]; [congruence|]. apply (C1 i); [lia|exact Hi].
Qed.

(** ** The dispatcher comes back *)
Definition rank (p : pool) : nat :=
  let n := length (workers p) in
  match mat p with
  | PLoad i => 4 * (n - i) + 1 | PPick i => 4 * (n - i) | PStore i _ => 4 * (n - i) - 1 | PReady i => 4 * (n - i) - 2
  | DLoad i => n - i + 1 | _ => 0
  end.
Lemma settle cap : 0 < cap < 2^64 -> forall k p Q, (rank p <= k)%nat -> jinv cap Q p -> normal (mat p) = true ->
  exists sch p' ev, jrun p sch = Some p' /\ mat p' = MIdle /\ length (workers p') = length (workers p) /\
    hist p' = ev ++ hist p /\ noenq ev = true.
Proof.
  intros Hc. induction k as [|k IH]; intros p Q Hk J N.
  { destruct (mat p) eqn:Em; try discriminate N; unfold rank in Hk; rewrite Em in Hk.
    - exists [], p, []. easy.
    - lia.
    - destruct (j_pick _ _ _ J i) as (w & Hw & _); [now left|]. assert (i < length (workers p))%nat by (apply nth_error_Some; congruence). lia.
    - destruct (j_pick _ _ _ J i) as (w & Hw & _); [right; left; now exists id|]. assert (i < length (workers p))%nat by (apply nth_error_Some; congruence). lia.
    - destruct (j_pick _ _ _ J i) as (w & Hw & _); [now right; right|]. assert (i < length (workers p))%nat by (apply nth_error_Some; congruence). lia.
    - lia. }
  assert (Step : forall p1 e, jstep p MGo = Some p1 -> (rank p1 < rank p)%nat -> normal (mat p1) = true ->
     length (workers p1) = length (workers p) -> hist p1 = e ++ hist p -> noenq e = true ->
     exists sch p' ev, jrun p sch = Some p' /\ mat p' = MIdle /\ length (workers p') = length (workers p) /\
       hist p' = ev ++ hist p /\ noenq ev = true).
  { intros p1 e E Rk N1 L1 H1 Ne. destruct (jstep_jinv cap Q p MGo p1 Hc J E) as [Q1 J1].
    destruct (IH p1 Q1 ltac:(lia) J1 N1) as (sch & p' & ev & R & M' & L' & H' & N').
    exists (MGo :: sch), p', (ev ++ e). cbn [jrun]. rewrite E. cbn [obind].
    refine (conj R (conj M' (conj _ (conj _ _)))); [congruence|rewrite H', H1; apply app_assoc|now rewrite noenq_app, N', Ne]. }
  pose proof (j_pick _ _ _ J) as Jp. pose proof (j_hold _ _ _ J) as Jh. pose proof (j_five _ _ _ J) as J5.
  destruct p as [cnt qs ws at_ h]. cbn [counter queues workers mat hist] in *.
  destruct at_; try discriminate N.
  - exists [], (mkP cnt qs ws MIdle h), []. easy.
  - destruct (nth_error ws i) as [w|] eqn:Hw.
    + assert (Li : (i < length ws)%nat) by (apply nth_error_Some; congruence).
      destruct (wst w) eqn:Ew; eapply (Step _ []); cbn [jstep main_step]; rewrite ?Hw, ?Ew; try reflexivity; unfold rank; cbn [obind mat workers]; lia.
    + eapply (Step _ [Processed true]); cbn [jstep main_step]; rewrite ?Hw; try reflexivity. unfold rank. cbn [mat]. lia.
  - destruct (Jp i) as (w & Hw & _); [now left|]. assert (Li : (i < length ws)%nat) by (apply nth_error_Some; congruence).
    destruct (pick_ok cap Hc qs Q chances 0 cnt Jh) as (rs' & r & E1 & E2); [now rewrite J5|now rewrite J5|].
    destruct r as [[id j]|].
    + eapply (Step _ [Disp i j id]); cbn [jstep main_step]; rewrite ?E1; try reflexivity; unfold rank; cbn [obind mat workers]; lia.
    + eapply (Step _ []); cbn [jstep main_step]; rewrite ?E1; try reflexivity; unfold rank; cbn [obind mat workers]; lia.
  - destruct (Jp i) as (w & Hw & _); [right; left; now exists id|]. assert (Li : (i < length ws)%nat) by (apply nth_error_Some; congruence).
    eapply (Step _ []); cbn [jstep main_step]; rewrite ?Hw; try reflexivity; unfold rank; cbn [obind mat workers]; rewrite set_len; lia.
  - destruct (Jp i) as (w & Hw & _); [now right; right|]. assert (Li : (i < length ws)%nat) by (apply nth_error_Some; congruence).
    eapply (Step _ []); cbn [jstep main_step]; rewrite ?Hw; try reflexivity; unfold rank; cbn [obind mat workers]; rewrite set_len; lia.
  - destruct (nth_error ws i) as [w|] eqn:Hw.
    + assert (Li : (i < length ws)%nat) by (apply nth_error_Some; congruence).
      destruct (wst w) eqn:Ew.
      3: eapply (Step _ []); cbn [jstep main_step]; rewrite ?Hw, ?Ew; try reflexivity; unfold rank; cbn [obind mat workers]; lia.
      all: eapply (Step _ [Done false]); cbn [jstep main_step]; rewrite ?Hw, ?Ew; try reflexivity; unfold rank; cbn [obind mat workers]; lia.
    + eapply (Step _ [Done _]); cbn [jstep main_step]; rewrite ?Hw; try reflexivity. unfold rank. cbn [mat]. lia.
Qed.

(** ** A dispatch happens *)
Definition disp5 (e : event) : bool := match e with Disp _ j _ => (j <? 5)%nat | _ => false end.
Lemma serve cap : 0 < cap < 2^64 -> forall m i c qs Q ws h, holds cap qs Q -> length Q = 5%nat -> (1 <= length ws)%nat ->
  (forall i w, nth_error ws i = Some w -> calm w) -> soon m (uses Q) c = true -> existsb (fun b => b) (uses Q) = true ->
  exists sch p' ev, jrun (mkP c qs ws (PLoad i) h) sch = Some p' /\ normal (mat p') = true /\ length (workers p') = length ws /\
    hist p' = ev ++ h /\ noenq ev = true /\ existsb disp5 ev = true.
Proof.
  intros Hc. induction m as [|m IH]; intros i c qs Q ws h H L Hn Cm So Ne;
    (assert (G : forall i h, (i < length ws)%nat ->
      exists sch p' ev, jrun (mkP c qs ws (PLoad i) h) sch = Some p' /\ normal (mat p') = true /\ length (workers p') = length ws /\
        hist p' = ev ++ h /\ noenq ev = true /\ existsb disp5 ev = true);
    [clear i h; intros i h Li;
     destruct (nth_error ws i) as [w|] eqn:Hw; [|apply nth_error_None in Hw; lia];
     destruct (Cm i w Hw) as [Ws _];
     destruct (pick_ok cap Hc qs Q chances 0 c H) as (rs' & r & E1 & E2); [now rewrite L|now rewrite L|];
     cbn [soon] in So; rewrite <- apick_bpick in So;
     destruct (snd (apick 0 Q chances c)) as [k|];
     [destruct E2 as (j & x & q & r0' & Hk & Hq & -> & _); cbn [Nat.add] in Hk; subst k;
      assert (j < 5)%nat by (rewrite <- L; apply nth_error_Some; congruence);
      exists [MGo; MGo]; eexists; exists [Disp i j x];
      cbn [jrun jstep main_step]; rewrite Hw, Ws; cbn [obind main_step jstep]; rewrite E1; cbn [obind];
      refine (conj eq_refl (conj eq_refl (conj eq_refl (conj eq_refl (conj eq_refl _)))));
      cbn [existsb disp5]; rewrite orb_false_r; now apply Nat.ltb_lt|]|]).
  - discriminate So.
  - destruct (Nat.lt_ge_cases i (length ws)) as [Li|Li]; [now apply G|].
    destruct (G 0%nat (Processed true :: h) ltac:(lia)) as (sch & p' & ev & R & N & L' & H' & N' & D).
    exists (MGo :: MProcess :: sch), p', (ev ++ [Processed true]). cbn [jrun jstep main_step].
    apply nth_error_None in Li. rewrite Li. cbn [obind main_step jstep].
    assert (Em : empty_all qs = false).
    { rewrite (holds_empty cap qs Q) by (try exact H; lia). clear - Ne. induction Q as [|q Q IH]; cbn in *; [easy|]. destruct q; cbn in *; [now apply IH|easy]. }
    rewrite Em. cbn [obind]. refine (conj R (conj N (conj L' (conj _ (conj _ _))))).
    + now rewrite H', <- app_assoc.
    + now rewrite noenq_app, N'.
    + rewrite existsb_app, D. easy.
  - destruct E2 as [-> ->].
    destruct (IH (S i) (fst (apick 0 Q chances c)) qs Q ws h H L Hn Cm So Ne) as (sch & p' & ev & R & N & L' & H' & N' & D).
    exists (MGo :: MGo :: sch), p', ev. cbn [jrun jstep main_step]. rewrite Hw, Ws. cbn [obind main_step jstep]. rewrite E1. cbn [obind]. easy.
  - destruct (Nat.lt_ge_cases i (length ws)) as [Li|Li]; [now apply G|].
    destruct (G 0%nat (Processed true :: h) ltac:(lia)) as (sch & p' & ev & R & N & L' & H' & N' & D).
    exists (MGo :: MProcess :: sch), p', (ev ++ [Processed true]). cbn [jrun jstep main_step].
    apply nth_error_None in Li. rewrite Li. cbn [obind main_step jstep].
    assert (Em : empty_all qs = false).
    { rewrite (holds_empty cap qs Q) by (try exact H; lia). clear - Ne. induction Q as [|q Q IHQ]; cbn in *; [easy|]. destruct q; cbn in *; [now apply IHQ|easy]. }
    rewrite Em. cbn [obind]. refine (conj R (conj N (conj L' (conj _ (conj _ _))))).
    + now rewrite H', <- app_assoc.
    + now rewrite noenq_app, N'.
    + rewrite existsb_app, D. easy.
Qed.

(** jobs accepted and not yet taken *)
Definition left_in (j : nat) (h : list event) : nat := length (accepted_in j h) - length (taken_from j h).
Definition mu (h : list event) : nat := left_in 0 h + left_in 1 h + left_in 2 h + left_in 3 h + left_in 4 h.

Lemma acc_noenq j ev h : noenq ev = true -> accepted_in j (ev ++ h) = accepted_in j h.
Proof.
  induction ev as [|e ev IH]; cbn [noenq forallb app]; [easy|]. intros H. apply andb_prop in H as [A B]. destruct e; cbn [accepted_in]; try (now apply IH). discriminate A.
Qed.
Lemma tak_app j ev h : length (taken_from j (ev ++ h)) = (length (taken_from j ev) + length (taken_from j h))%nat.
Proof.
  induction ev as [|e ev IH]; cbn [app taken_from]; [easy|]. destruct e; try exact IH.
  rewrite !app_length. lia.
Qed.
Lemma disp5_taken ev : existsb disp5 ev = true -> exists j, (j < 5)%nat /\ (1 <= length (taken_from j ev))%nat.
Proof.
  induction ev as [|e ev IH]; cbn [existsb]; [easy|]. intros H. apply orb_prop in H as [H|H].
  - destruct e; try discriminate H. exists j. cbn [disp5] in H. apply Nat.ltb_lt in H. split; [exact H|]. cbn [taken_from].
    rewrite app_length, Nat.eqb_refl. cbn. lia.
  - destruct (IH H) as (j & A & B). exists j. split; [exact A|]. destruct e; cbn [taken_from]; try exact B. rewrite app_length. lia.
Qed.
Lemma left_le j ev h : noenq ev = true -> (left_in j (ev ++ h) <= left_in j h)%nat.
Proof. intros N. unfold left_in. rewrite (acc_noenq j ev h N), tak_app. lia. Qed.
Lemma mu_le ev h : noenq ev = true -> (mu (ev ++ h) <= mu h)%nat.
Proof. intros N. unfold mu. pose proof (fun j => left_le j ev h N) as L. pose proof (L 0%nat). pose proof (L 1%nat). pose proof (L 2%nat). pose proof (L 3%nat). pose proof (L 4%nat). lia. Qed.
Lemma mu_lt cap Q p ev h : jinv cap Q p -> hist p = ev ++ h -> noenq ev = true -> existsb disp5 ev = true -> (mu (ev ++ h) < mu h)%nat.
Proof.
  intros J E N D. destruct (disp5_taken ev D) as (j & Hj & Hl).
  pose proof (fun j => left_le j ev h N) as L. pose proof (L 0%nat) as L0. pose proof (L 1%nat) as L1. pose proof (L 2%nat) as L2. pose proof (L 3%nat) as L3. pose proof (L 4%nat) as L4.
  assert (S : (left_in j (ev ++ h) < left_in j h)%nat).
  { destruct (nth_error Q j) as [q|] eqn:Hq.
    2:{ apply nth_error_None in Hq. rewrite (j_five _ _ _ J) in Hq. lia. }
    pose proof (j_fifo _ _ _ J j q Hq) as F. rewrite E in F. apply (f_equal (@length nat)) in F. rewrite app_length in F.
    unfold left_in in *. rewrite (acc_noenq j ev h N), tak_app in *. lia. }
  unfold mu. clear L. destruct j as [|[|[|[|[|]]]]]; lia.
Qed.

(** done answers true when nothing is left *)
Lemma finish_done cap c qs Q ws h : 0 < cap -> holds cap qs Q -> existsb (fun b => b) (uses Q) = false ->
  (forall i w, nth_error ws i = Some w -> calm w) ->
  exists sch, jrun (mkP c qs ws MIdle h) sch = Some (mkP c qs ws MIdle (Done true :: h)).
Proof.
  intros Hc H E C.
  assert (G : forall k i, (length ws <= i + k)%nat -> exists sch, jrun (mkP c qs ws (DLoad i) h) sch = Some (mkP c qs ws MIdle (Done true :: h))).
  { assert (Em : empty_all qs = true).
    { rewrite (holds_empty cap qs Q) by assumption. clear - E. induction Q as [|q Q IH]; cbn in *; [easy|]. destruct q; cbn in *; [now apply IH|easy]. }
    induction k as [|k IH]; intros i Hk.
    - exists [MGo]. cbn [jrun jstep main_step]. assert (N : nth_error ws i = None) by (apply nth_error_None; lia). rewrite N. cbn [obind]. now rewrite Em.
    - destruct (nth_error ws i) as [w|] eqn:Hw.
      + destruct (IH (S i) ltac:(lia)) as [sch R]. exists (MGo :: sch). cbn [jrun jstep main_step]. rewrite Hw. destruct (C i w Hw) as [-> _]. exact R.
      + exists [MGo]. cbn [jrun jstep main_step]. rewrite Hw. cbn [obind]. now rewrite Em. }
  destruct (G (length ws) 0%nat ltac:(lia)) as [sch R]. exists (MDone :: sch). exact R.
Qed.

Lemma progress cap : 0 < cap < 2^64 -> forall k p Q, (mu (hist p) <= k)%nat -> jinv cap Q p -> normal (mat p) = true ->
  (1 <= length (workers p))%nat -> 0 <= counter p < 2^32 ->
  exists sch p' ev, jrun p sch = Some p' /\ mat p' = MIdle /\ hist p' = Done true :: ev ++ hist p /\ noenq ev = true /\
    (forall i w, nth_error (workers p') i = Some w -> calm w).
Proof.
  intros Hc. induction k as [k IH] using lt_wf_ind. intros p Q Hk J N Hn Hr.
  destruct (settle cap Hc (rank p) p Q (le_n _) J N) as (s1 & p1 & e1 & R1 & M1 & L1 & H1 & N1).
  destruct (jrun_jinv cap Hc s1 p p1 Q J R1) as [Q1 J1]. pose proof (jrun_range s1 p p1 Hr R1) as Hr1.
  destruct p1 as [c1 qs1 ws1 at1 h1]. cbn [counter queues workers mat hist] in *. subst at1 h1.
  destruct (calm_all c1 qs1 MIdle (length ws1) ws1 (e1 ++ hist p) (j_fit _ _ _ J1 eq_refl)) as (s2 & ws2 & e2 & R2 & N2 & L2 & F2 & C2).
  assert (C2' : forall i w, nth_error ws2 i = Some w -> calm w).
  { intros i w Hi. apply (C2 i); [|exact Hi]. rewrite <- L2. apply nth_error_Some. congruence. }
  clear C2 F2. destruct (jrun_jinv cap Hc s2 _ _ Q1 J1 R2) as [Q2 J2].
  pose proof (j_hold _ _ _ J2) as Jh. pose proof (j_five _ _ _ J2) as J5. cbn [queues] in Jh.
  destruct (existsb (fun b => b) (uses Q2)) eqn:Ne.
  - assert (Lu : length (uses Q2) = 5%nat) by (unfold uses; now rewrite map_length).
    destruct (serve cap Hc 40 0 c1 qs1 Q2 ws2 (e2 ++ e1 ++ hist p) Jh J5 ltac:(lia) C2' (soon_ok _ c1 Lu Ne Hr1) Ne)
      as (s3 & p3 & e3 & R3 & N3 & L3 & H3 & Ne3 & D3).
    assert (R : jrun p (s1 ++ s2 ++ MProcess :: s3) = Some p3).
    { rewrite jrun_app, R1. cbn [obind]. rewrite jrun_app, R2. cbn [obind jrun jstep main_step].
      assert (Em : empty_all qs1 = false).
      { rewrite (holds_empty cap qs1 Q2) by (try exact Jh; lia). clear - Ne. induction Q2 as [|q Q IHQ]; cbn in *; [easy|]. destruct q; cbn in *; [now apply IHQ|easy]. }
      rewrite Em. exact R3. }
    destruct (jrun_jinv cap Hc _ p p3 Q J R) as [Q3 J3].
    assert (Mu : (mu (hist p3) < mu (hist p))%nat).
    { rewrite H3. apply Nat.lt_le_trans with (mu (e2 ++ e1 ++ hist p)).
      - now apply (mu_lt cap Q3 p3).
      - rewrite app_assoc. apply mu_le. now rewrite noenq_app, N1, N2. }
    destruct (IH (mu (hist p3)) ltac:(lia) p3 Q3 (le_n _) J3 N3 ltac:(lia) (jrun_range _ _ _ Hr R)) as (s4 & p4 & e4 & R4 & M4 & H4 & N4 & C4).
    exists ((s1 ++ s2 ++ MProcess :: s3) ++ s4), p4, (e4 ++ e3 ++ e2 ++ e1). rewrite jrun_app, R. cbn [obind].
    refine (conj R4 (conj M4 (conj _ (conj _ C4)))).
    + rewrite H4, H3, <- !app_assoc. reflexivity.
    + now rewrite !noenq_app, N1, N2, Ne3, N4.
  - destruct (finish_done cap c1 qs1 Q2 ws2 (e2 ++ e1 ++ hist p) ltac:(lia) Jh Ne C2') as [s3 R3].
    exists (s1 ++ s2 ++ s3), (mkP c1 qs1 ws2 MIdle (Done true :: e2 ++ e1 ++ hist p)), (e2 ++ e1).
    rewrite jrun_app, R1. cbn [obind]. rewrite jrun_app, R2. cbn [obind]. cbn [mat hist workers].
    refine (conj R3 (conj eq_refl (conj _ (conj _ C2')))); [now rewrite <- app_assoc|now rewrite noenq_app, N1, N2].
Qed.
