(** C105: boxes in three dimensions, pieces and margins of boxes. C106: copying matrices. *)
From Coq Require Import QArith Lqa.
From Verif Require Import Base Vec Geom GeomSpec PropGeom Box.
Local Open Scope Q_scope.

(** ** What is meant *)
(** half-open boxes as sets of points *)
Definition inside2 (a : aabb2) (x y : Q) : Prop := x2 (bmin a) <= x /\ x < x2 (bmax a) /\ y2 (bmin a) <= y /\ y < y2 (bmax a).
Definition inside3 (a : aabb3) (x y z : Q) : Prop := (x3 (bmin3 a) <= x /\ x < x3 (bmax3 a)) /\ (y3 (bmin3 a) <= y /\ y < y3 (bmax3 a)) /\ (z3 (bmin3 a) <= z /\ z < z3 (bmax3 a)).
(** no corner is beyond the other *)
Definition proper (a : aabb2) : Prop := x2 (bmin a) <= x2 (bmax a) /\ y2 (bmin a) <= y2 (bmax a).
Definition same2 (u v : vec2 Q) : Prop := x2 u == x2 v /\ y2 u == y2 v.
Definition same3 (u v : vec3 Q) : Prop := x3 u == x3 v /\ y3 u == y3 v /\ z3 u == z3 v.

Theorem C105_contains3 (a : aabb3) (x y z : Q) : aabb3_contains a x y z = true <-> inside3 a x y z.
Proof. unfold aabb3_contains, between_limit, inside3. rewrite !andb_true_iff, !qle_iff, !qlt_iff. tauto. Qed.
(** positions with sizes and corners say the same *)
Theorem C105_convert (r : rect3) (a : aabb3) :
  same3 (rpos3 (rect3_aabb3 (aabb3_rect3 r))) (rpos3 r) /\ same3 (rdim3 (rect3_aabb3 (aabb3_rect3 r))) (rdim3 r) /\
  same3 (bmin3 (aabb3_rect3 (rect3_aabb3 a))) (bmin3 a) /\ same3 (bmax3 (aabb3_rect3 (rect3_aabb3 a))) (bmax3 a).
Proof. destruct r as [[a1 a2 a3] [b1 b2 b3]], a as [[c1 c2 c3] [d1 d2 d3]]. unfold same3. cbn. repeat split; ring. Qed.
Theorem C105_convert_inside (r : rect3) (x y z : Q) : inside3 (aabb3_rect3 r) x y z <->
  (x3 (rpos3 r) <= x < x3 (rpos3 r) + x3 (rdim3 r)) /\ (y3 (rpos3 r) <= y < y3 (rpos3 r) + y3 (rdim3 r)) /\ (z3 (rpos3 r) <= z < z3 (rpos3 r) + z3 (rdim3 r)).
Proof. unfold inside3. cbn. tauto. Qed.

(** zpl_rect2_intersects: some point is in both *)
Definition in_rect (a : rect2) (p : vec2 Q) : Prop := in_span (x2 (rpos a)) (x2 (rdim a)) (x2 p) /\ in_span (y2 (rpos a)) (y2 (rdim a)) (y2 p).
Theorem C105_contains_vec2 (a : rect2) (p : vec2 Q) : rect2_contains_vec2 a p = true <-> in_rect a p.
Proof.
  unfold rect2_contains_vec2, rect2_contains, in_rect, in_span, zmin, zmax. rewrite !andb_true_iff, !qle_iff, !qlt_iff. qcase; split; intros H; try (destruct H as [[[H1 H2] H3] H4]; split; [lra|lra]); destruct H as [[H|H] [G|G]]; lra.
Qed.
Theorem C105_intersects (a b : rect2) : rect2_intersects a b = true <-> exists p, in_rect a p /\ in_rect b p.
Proof.
  unfold rect2_intersects, rect2_intersection.
  set (ax := zmin (x2 (rpos a)) _). set (aX := zmax (x2 (rpos a)) _). set (ay := zmin (y2 (rpos a)) _). set (aY := zmax (y2 (rpos a)) _).
  set (bx := zmin (x2 (rpos b)) _). set (bX := zmax (x2 (rpos b)) _). set (by_ := zmin (y2 (rpos b)) _). set (bY := zmax (y2 (rpos b)) _).
  assert (S : forall p d x, in_span p d x <-> zmin p (p + d) <= x /\ x < zmax p (p + d)).
  { intros p d x. unfold in_span, zmin, zmax. qcase; split; intros; lra. }
  assert (M : forall u v x, zmax u v <= x <-> u <= x /\ v <= x) by (intros u v x; unfold zmax; qcase; split; intros; lra).
  assert (N : forall u v x, x < zmin u v <-> x < u /\ x < v) by (intros u v x; unfold zmin; qcase; split; intros; lra).
  transitivity (zmax ax bx < zmin aX bX /\ zmax ay by_ < zmin aY bY).
  { rewrite <- !qlt_iff, <- andb_true_iff. destruct (_ && _)%bool; cbn; split; intros; congruence. }
  split.
  - intros [H1 H2]. exists (V2 (zmax ax bx) (zmax ay by_)). apply N in H1, H2. pose proof (proj1 (M ax bx _) (Qle_refl _)). pose proof (proj1 (M ay by_ _) (Qle_refl _)). unfold in_rect. rewrite !S. cbn. tauto.
  - intros (p & [A1 A2] & [B1 B2]). rewrite S in A1, A2, B1, B2. split; (eapply Qle_lt_trans; [apply M; split; [apply A1||apply A2|apply B1||apply B2]|apply N; split; [apply A1||apply A2|apply B1||apply B2]]).
Qed.

(** ** Pieces *)
(** zpl_aabb2_get_left and the others give what zpl_aabb2_cut_left and the others would cut off *)
Theorem C105_get_cut (a : aabb2) (b : Q) : get_left a b = fst (cut_left a b) /\ get_right a b = fst (cut_right a b) /\ get_top a b = fst (cut_top a b) /\ get_bottom a b = fst (cut_bottom a b).
Proof. repeat split. Qed.
(** the points of the box at most b from the side *)
Theorem C105_get (a : aabb2) (b x y : Q) : 0 <= b -> proper a ->
  (inside2 (get_left a b) x y <-> inside2 a x y /\ x < x2 (bmin a) + b) /\
  (inside2 (get_right a b) x y <-> inside2 a x y /\ x2 (bmax a) - b <= x) /\
  (inside2 (get_top a b) x y <-> inside2 a x y /\ y < y2 (bmin a) + b) /\
  (inside2 (get_bottom a b) x y <-> inside2 a x y /\ y2 (bmax a) - b <= y).
Proof.
  intros B [P1 P2]. unfold inside2, get_left, get_right, get_top, get_bottom, zmin, zmax. cbn. repeat split; revert H || intros H; qcase; intros; lra.
Qed.

(** ** Margins *)
(** zpl_aabb2_add_left and the others give the strip of width b along that side, outside of the box: together they make the box that is wider by b *)
Theorem C105_add (a : aabb2) (b x y : Q) : 0 <= b -> proper a ->
  (inside2 (add_left a b) x y <-> x2 (bmin a) - b <= x < x2 (bmin a) /\ y2 (bmin a) <= y < y2 (bmax a)) /\
  (inside2 (add_right a b) x y <-> x2 (bmax a) <= x < x2 (bmax a) + b /\ y2 (bmin a) <= y < y2 (bmax a)) /\
  (inside2 (add_top a b) x y <-> y2 (bmin a) - b <= y < y2 (bmin a) /\ x2 (bmin a) <= x < x2 (bmax a)) /\
  (inside2 (add_bottom a b) x y <-> y2 (bmax a) <= y < y2 (bmax a) + b /\ x2 (bmin a) <= x < x2 (bmax a)).
Proof. intros B P. unfold inside2. cbn. tauto. Qed.
Theorem C105_add_joined (a : aabb2) (b x y : Q) : 0 <= b -> proper a ->
  (inside2 (Aabb2 (V2 (x2 (bmin a) - b) (y2 (bmin a))) (bmax a)) x y <-> inside2 a x y \/ inside2 (add_left a b) x y) /\
  (inside2 (Aabb2 (bmin a) (V2 (x2 (bmax a) + b) (y2 (bmax a)))) x y <-> inside2 a x y \/ inside2 (add_right a b) x y) /\
  (inside2 (Aabb2 (V2 (x2 (bmin a)) (y2 (bmin a) - b)) (bmax a)) x y <-> inside2 a x y \/ inside2 (add_top a b) x y) /\
  (inside2 (Aabb2 (bmin a) (V2 (x2 (bmax a)) (y2 (bmax a) + b))) x y <-> inside2 a x y \/ inside2 (add_bottom a b) x y) /\
  ~ (inside2 a x y /\ (inside2 (add_left a b) x y \/ inside2 (add_right a b) x y \/ inside2 (add_top a b) x y \/ inside2 (add_bottom a b) x y)).
Proof.
  intros B [P1 P2]. unfold inside2. cbn. refine (conj _ (conj _ (conj _ (conj _ _)))).
  - split; [intros H; destruct (Qlt_le_dec x (x2 (bmin a))); [right|left]; lra|intros [H|H]; lra].
  - split; [intros H; destruct (Qlt_le_dec x (x2 (bmax a))); [left|right]; lra|intros [H|H]; lra].
  - split; [intros H; destruct (Qlt_le_dec y (y2 (bmin a))); [right|left]; lra|intros [H|H]; lra].
  - split; [intros H; destruct (Qlt_le_dec y (y2 (bmax a))); [left|right]; lra|intros [H|H]; lra].
  - intros [H [G|[G|[G|G]]]]; lra.
Qed.
Example C105_ex : proper (Aabb2 (V2 1 2) (V2 5 6)) /\ aabb3_contains (Aabb3 (V3 0 0 0) (V3 1 2 3)) 0 1 2 = true /\ aabb3_contains (Aabb3 (V3 0 0 0) (V3 1 2 3)) 1 1 2 = false /\
  rect2_intersects (Rect2 (V2 0 0) (V2 2 2)) (Rect2 (V2 3 3) (V2 (-2) (-2))) = true /\ rect2_intersects (Rect2 (V2 0 0) (V2 2 2)) (Rect2 (V2 2 0) (V2 2 2)) = false.
Proof. unfold proper. cbn. repeat split; discriminate. Qed.

(** ** Copying matrices *)
(** the float at an address *)
Definition cell (h : memory) (p : ptr) : option Q := obj <- nth_error h (fst p) ;; nth_error obj (snd p).
Definition at_ (p : ptr) (i : nat) : ptr := (fst p, (snd p + i)%nat).
(** n floats from s on are in memory *)
Definition holds (h : memory) (s : ptr) (n : nat) : Prop := exists obj, nth_error h (fst s) = Some obj /\ (snd s + n <= length obj)%nat.
(** the areas of n floats have nothing in common *)
Definition disjoint (d s : ptr) (n : nat) : Prop := forall i j, (i < n)%nat -> (j < n)%nat -> at_ d i <> at_ s j.
(** afterwards d has what s had, and nothing else is changed *)
Definition copied (h h' : memory) (d s : ptr) (n : nat) : Prop :=
  (forall i, (i < n)%nat -> cell h' (at_ d i) = cell h (at_ s i)) /\ (forall q, (forall i, (i < n)%nat -> q <> at_ d i) -> cell h' q = cell h q).

Lemma nth_error_nil {A} i : nth_error (@nil A) i = None.
Proof. now destruct i. Qed.
Lemma nth_firstn {A} (l : list A) n i : nth_error (firstn n l) i = if (i <? n)%nat then nth_error l i else None.
Proof.
  revert l i. induction n as [|n IH]; intros l i. { now rewrite firstn_O, nth_error_nil. } destruct l as [|a l]; [rewrite firstn_nil, !nth_error_nil; now destruct (_ <? _)%nat|]. destruct i as [|i]; [reflexivity|]. cbn [firstn nth_error]. rewrite IH. reflexivity.
Qed.
Lemma nth_skipn {A} (l : list A) n i : nth_error (skipn n l) i = nth_error l (n + i).
Proof. revert l. induction n as [|n IH]; intros l; [reflexivity|]. destruct l as [|a l]; [now rewrite skipn_nil, !nth_error_nil|]. apply IH. Qed.
Lemma apart_disjoint d s n : (0 < n)%nat -> (apart d s n = true <-> disjoint d s n).
Proof.
  intros P. unfold apart, disjoint, at_. destruct d as [o i], s as [o' j]. cbn [fst snd]. rewrite !orb_true_iff, negb_true_iff, Nat.eqb_neq, !Nat.leb_le. split.
  - intros H a b A B [= E F]. lia.
  - intros H. destruct (Nat.eq_dec o o') as [->|N]; [|auto]. destruct (Nat.le_gt_cases (i + n) j); [auto|]. destruct (Nat.le_gt_cases (j + n) i); [auto|]. exfalso.
    destruct (Nat.le_gt_cases i j); [apply (H (j - i)%nat 0%nat)|apply (H 0%nat (i - j)%nat)]; try lia; f_equal; lia.
Qed.
Lemma memcopy_spec h d s n : (0 < n)%nat -> holds h d n -> holds h s n -> disjoint d s n -> exists h', memcopy h d s n = Some h' /\ copied h h' d s n.
Proof.
  intros P (dobj & D1 & D2) (sobj & S1 & S2) A. unfold memcopy. rewrite (proj2 (apart_disjoint d s n P) A). unfold peek. rewrite S1. cbn [obind]. rewrite (proj2 (Nat.leb_le _ _) S2). cbn [obind]. unfold poke. rewrite D1. cbn [obind]. set (l := firstn n (skipn (snd s) sobj)). assert (L : length l = n) by (unfold l; rewrite firstn_length, skipn_length; lia). rewrite L, (proj2 (Nat.leb_le _ _) D2). eexists. split; [reflexivity|].
  assert (DH : (fst d < length h)%nat) by (apply nth_error_Some; congruence).
  set (new := firstn (snd d) dobj ++ l ++ skipn (snd d + n) dobj).
  assert (H : forall o, nth_error (firstn (fst d) h ++ new :: skipn (S (fst d)) h) o = if Nat.eqb o (fst d) then Some new else nth_error h o).
  { intros o. assert (FL : length (firstn (fst d) h) = fst d) by (rewrite firstn_length; lia). destruct (Nat.eqb_spec o (fst d)) as [->|N].
    - rewrite nth_error_app2, FL, Nat.sub_diag by lia. reflexivity.
    - destruct (Nat.lt_ge_cases o (fst d)) as [K|K].
      + rewrite nth_error_app1, nth_firstn by lia. now rewrite (proj2 (Nat.ltb_lt _ _) K).
      + rewrite nth_error_app2, FL by lia. replace (o - fst d)%nat with (S (o - fst d - 1)) by lia. cbn [nth_error]. change (nth_error (skipn (S (fst d)) h) (o - fst d - 1) = nth_error h o). rewrite nth_skipn. f_equal. lia. }
  assert (W : forall i, nth_error new i = if ((snd d <=? i) && (i <? snd d + n))%nat%bool then nth_error l (i - snd d) else nth_error dobj i).
  { intros i. assert (FL : length (firstn (snd d) dobj) = snd d) by (rewrite firstn_length; lia). unfold new. destruct (Nat.leb_spec (snd d) i) as [K|K]; cbn [andb].
    - rewrite nth_error_app2, FL by lia. destruct (Nat.ltb_spec i (snd d + n)) as [J|J]; [apply nth_error_app1; lia|]. rewrite nth_error_app2, L by lia. rewrite nth_skipn. f_equal. lia.
    - rewrite nth_error_app1, nth_firstn by lia. now rewrite (proj2 (Nat.ltb_lt _ _) K). }
  split.
  - intros i I. unfold cell, at_. cbn [fst snd]. rewrite H, Nat.eqb_refl, S1. cbn [obind]. rewrite W. replace ((snd d <=? snd d + i) && (snd d + i <? snd d + n))%nat%bool with true by (symmetry; apply andb_true_iff; split; [apply Nat.leb_le|apply Nat.ltb_lt]; lia). unfold l. rewrite nth_firstn, nth_skipn. replace (snd d + i - snd d)%nat with i by lia. now rewrite (proj2 (Nat.ltb_lt _ _) I).
  - intros [o i] Q. unfold cell. cbn [fst snd]. rewrite H. destruct (Nat.eqb_spec o (fst d)) as [->|N]; [|reflexivity]. rewrite D1. cbn [obind]. rewrite W. destruct (Nat.leb_spec (snd d) i) as [K|K]; [|reflexivity]. destruct (Nat.ltb_spec i (snd d + n)) as [J|J]; [|reflexivity]. exfalso. apply (Q (i - snd d)%nat); [lia|]. unfold at_. f_equal. lia.
Qed.
Lemma memcopy_none h d s n : (0 < n)%nat -> ~ holds h d n \/ ~ holds h s n -> memcopy h d s n = None.
Proof.
  intros P H. unfold memcopy. destruct (apart d s n); [|reflexivity]. unfold peek. destruct (nth_error h (fst s)) as [sobj|] eqn:S; cbn [obind]; [|reflexivity]. destruct (Nat.leb_spec (snd s + n) (length sobj)) as [L|L]; cbn [obind]; [|reflexivity]. destruct H as [H|H]; [|destruct H; exists sobj; auto]. unfold poke. destruct (nth_error h (fst d)) as [dobj|] eqn:D; cbn [obind]; [|reflexivity]. rewrite firstn_length, skipn_length. replace (Nat.min n (length sobj - snd s)) with n by lia. destruct (Nat.leb_spec (snd d + n) (length dobj)) as [K|K]; [|reflexivity]. destruct H. exists dobj; auto.
Qed.

Theorem C106_mat3_copy (h : memory) (out m : ptr) : holds h out 9 -> holds h m 9 -> disjoint out m 9 -> exists h', mat3_copy h out m = Some h' /\ copied h h' out m 9.
Proof. apply memcopy_spec. lia. Qed.
Theorem C106_mat4_copy (h : memory) (out m : ptr) : holds h out 16 -> holds h m 16 -> disjoint out m 16 -> exists h', mat4_copy h out m = Some h' /\ copied h h' out m 16.
Proof. apply memcopy_spec. lia. Qed.
(** zpl_mat2_copy reads and writes nine floats, not four: it is undefined unless five more floats follow both matrices, and then it overwrites those that follow out. *)
Theorem C106_mat2_copy_refuted (h : memory) (out m : ptr) :
  (~ holds h out 9 \/ ~ holds h m 9 -> mat2_copy h out m = None) /\
  (holds h out 9 -> holds h m 9 -> disjoint out m 9 -> exists h', mat2_copy h out m = Some h' /\ copied h h' out m 9 /\
    (copied h h' out m 4 <-> forall i, (4 <= i < 9)%nat -> cell h (at_ out i) = cell h (at_ m i))).
Proof.
  split; [apply memcopy_none; lia|]. intros O M D. destruct (memcopy_spec h out m 9 ltac:(lia) O M D) as (h' & E & C1 & C2). exists h'. split; [exact E|]. split; [now split|]. split.
  - intros [_ B] i I. rewrite <- (C1 i) by lia. symmetry. apply B. intros j J. unfold at_. intros [= K]. lia.
  - intros H. split; [intros i I; apply C1; lia|]. intros q Q.
    assert (K : (exists i, (4 <= i < 9)%nat /\ q = at_ out i) \/ (forall i, (i < 9)%nat -> q <> at_ out i)).
    { destruct q as [o j]. destruct (Nat.eq_dec o (fst out)) as [->|N]; [|right; intros i _ [= K _]; auto]. destruct (Nat.lt_ge_cases j (snd out)) as [L|L]; [right; unfold at_; intros i _ [= K]; lia|]. destruct (Nat.lt_ge_cases j (snd out + 9)) as [U|U]; [|right; unfold at_; intros i I [= K]; lia]. left. exists (j - snd out)%nat. destruct (Nat.lt_ge_cases j (snd out + 4)) as [V|V]; [exfalso; apply (Q (j - snd out)%nat); [lia|]; unfold at_; f_equal; lia|]. split; [lia|]. unfold at_. f_equal. lia. }
    destruct K as [(i & I & ->)|K]; [|now apply C2]. rewrite C1 by lia. symmetry. now apply H.
Qed.
(** two matrices on their own: undefined *)
Theorem C106_mat2_copy_objects_refuted (a b : list Q) : length a = 4%nat -> length b = 4%nat -> mat2_copy [a; b] (0, 0)%nat (1, 0)%nat = None.
Proof. intros A B. apply C106_mat2_copy_refuted. left. intros (obj & E & L). cbn in E. injection E as <-. cbn [snd] in L. lia. Qed.
Example C106_ex : let a := [1; 2; 3; 4; 5; 6; 7; 8; 9] in let z := [0; 0; 0; 0; 0; 0; 0; 0; 0] in
  holds [z; a] (0, 0)%nat 9 /\ holds [z; a] (1, 0)%nat 9 /\ disjoint (0, 0)%nat (1, 0)%nat 9 /\ mat3_copy [z; a] (0, 0)%nat (1, 0)%nat = Some [a; a] /\ mat2_copy [z; a] (0, 0)%nat (1, 0)%nat = Some [a; a].
Proof. cbn zeta. split; [eexists; split; [reflexivity|cbn; lia]|]. split; [eexists; split; [reflexivity|cbn; lia]|]. split; [intros i j _ _ [=]|]. split; reflexivity. Qed.
Print Assumptions C105_contains3.
Print Assumptions C105_convert.
Print Assumptions C105_convert_inside.
Print Assumptions C105_contains_vec2.
Print Assumptions C105_intersects.
Print Assumptions C105_get_cut.
Print Assumptions C105_get.
Print Assumptions C105_add.
Print Assumptions C105_add_joined.
Print Assumptions C106_mat3_copy.
Print Assumptions C106_mat4_copy.
Print Assumptions C106_mat2_copy_refuted.
Print Assumptions C106_mat2_copy_objects_refuted.
