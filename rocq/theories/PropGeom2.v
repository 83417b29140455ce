(** C82-C85: reflection and refraction, frustums, rectangles and boxes, interpolation. *)
From Coq Require Import QArith Qabs Lqa Field Qcanon.
From Verif Require Import Base Vec VecSpec VecProofs Geom GeomSpec PropGeom.

Section C82.
Context {R : Type} {F : Fld R}.
Local Open Scope fld_scope.
Add Field Rfld : (@fth R F).

(** reflecting keeps lengths and angles, turns the normal part round and undoes itself *)
Theorem C82_reflect (i j n t : vec3 R) : vec3_dot n n = 1 ->
  vec3_dot (vec3_reflect i n) (vec3_reflect j n) = vec3_dot i j /\
  vec3_dot (vec3_reflect i n) n = - vec3_dot i n /\
  (vec3_dot t n = 0 -> vec3_dot (vec3_reflect i n) t = vec3_dot i t) /\
  vec3_reflect (vec3_reflect i n) n = i.
Proof.
  destruct i as [a b c], j as [d e f], n as [x y z], t as [p q r].
  unfold vec3_reflect, vec3_dot, vec3_sub, vec3_mul; cbn. intros N.
  assert (Z : z * z = 1 - (x * x + y * y)) by (rewrite <- N; ring).
  refine (conj _ (conj _ (conj _ _))).
  - ring [Z].
  - ring [Z].
  - intros T. transitivity (a * p + b * q + c * r - 2 * (x * a + y * b + z * c) * (p * x + q * y + r * z)); [ring|].
    rewrite T. ring.
  - f_equal; ring [Z].
Qed.

(** refraction: the part along the surface is right, the part along the normal is
    eta (n.i) (1 - root) instead of - root *)
Theorem C82_refract_exact (i n t : vec3 R) (eta root : R) : vec3_dot n n = 1 ->
  (vec3_dot t n = 0 -> vec3_dot (vec3_refract i n eta root) t = eta * vec3_dot i t) /\
  vec3_dot (vec3_refract i n eta root) n = eta * vec3_dot n i * (1 - root).
Proof.
  destruct i as [a b c], n as [x y z], t as [p q r].
  unfold vec3_refract, vec3_dot, vec3_sub, vec3_mul; cbn. intros N.
  assert (Z : z * z = 1 - (x * x + y * y)) by (rewrite <- N; ring).
  split.
  - intros T. transitivity (eta * (a * p + b * q + c * r) - eta * (x * a + y * b + z * c) * root * (p * x + q * y + r * z)); [ring|].
    rewrite T. ring.
  - ring [Z].
Qed.

(** light falling straight on any surface is refracted into nothing *)
Theorem C82_refract_refuted (n : vec3 R) (eta : R) : vec3_dot n n = 1 ->
  let i := vec3_mul n (- (1)) in
  vec3_dot i i = 1 /\ refract_k i n eta = 1 /\ vec3_refract i n eta 1 = V3 0 0 0.
Proof.
  destruct n as [x y z]. unfold refract_k, vec3_refract, vec3_dot, vec3_sub, vec3_mul; cbn. intros N.
  assert (Z : z * z = 1 - (x * x + y * y)) by (rewrite <- N; ring).
  refine (conj _ (conj _ _)); [ring [Z]|ring [Z]|f_equal; ring [Z]].
Qed.
End C82.

Example C82_ex : let n : vec3 Qc := V3 (Q2Qc (3 # 5)) (Q2Qc (4 # 5)) (Q2Qc 0) in vec3_dot n n = 1%Qc.
Proof. apply Qc_is_canon. now vm_compute. Qed.

(** ** C83 *)
Local Open Scope Q_scope.
Section C83.
Context (rsqrt : Q -> Q).

Definition normal_ok (p : plane) : Prop := 0 < pa p * pa p + pb p * pb p + pc p * pc p.

Lemma norm_side p v : (forall s, 0 < s -> 0 < rsqrt s) -> normal_ok p ->
  (negb (qle (plane_distance (plane_norm rsqrt p) v) (- 0)) = true <-> 0 < plane_distance p v).
Proof.
  intros RS N. unfold normal_ok in N. specialize (RS _ N). rewrite negb_true_iff, qle_niff.
  unfold plane_distance, plane_norm; cbn [pa pb pc pd]. set (r := rsqrt _) in *. clearbody r.
  setoid_replace (pa p * r * x3 v + pb p * r * y3 v + pc p * r * z3 v + pd p * r)
    with (r * (pa p * x3 v + pb p * y3 v + pc p * z3 v + pd p)) by ring.
  set (d := pa p * x3 v + _ + _ + _). clearbody d. split; intros H.
  - destruct (Qlt_le_dec 0 d); [assumption|]. exfalso. nra.
  - nra.
Qed.

(** the frustum is right for symmetric matrices with equal y.z and y.w *)
Theorem C83_frustum (camera proj : mat4 Q) (v : vec3 Q) :
  let pv := mat4_mul camera proj in
  (forall s, 0 < s -> 0 < rsqrt s) -> Forall normal_ok (raw_planes pv) ->
  (forall i j, el4 pv i j == el4 pv j i) -> el4 pv 1 2 == el4 pv 1 3 ->
  (point_inside (frustum_create rsqrt camera proj) v = true <-> seen (mat4_mul_vec4 pv (point v))).
Proof.
  intros pv RS N S E. unfold point_inside, sphere_inside, frustum_create. fold pv.
  rewrite forallb_forall.
  transitivity (Forall (fun p => 0 < plane_distance p v) (raw_planes pv)).
  { rewrite !Forall_forall in *. split.
    - intros H p Hp. apply (norm_side p v RS (N p Hp)). apply H. now apply in_map.
    - intros H p Hp. apply in_map_iff in Hp as (q & <- & Hq). apply (norm_side q v RS (N q Hq)). now apply H. }
  clear N RS. clearbody pv.
  pose proof (S 0 1)%nat as S01. pose proof (S 0 2)%nat as S02. pose proof (S 0 3)%nat as S03.
  pose proof (S 1 2)%nat as S12. pose proof (S 1 3)%nat as S13. pose proof (S 2 3)%nat as S23. clear S.
  destruct pv as [[m00 m01 m02 m03] [m10 m11 m12 m13] [m20 m21 m22 m23] [m30 m31 m32 m33]], v as [x y z].
  unfold raw_planes, seen, plane_distance, mat4_mul_vec4, point in *. cbn in *.
  rewrite !Forall_cons_iff. cbn [pa pb pc pd]. 
  rewrite S01, S02, S03, S12, S13, S23 in *. 
  split; [intros (H1 & H2 & H3 & H4 & H5 & H6 & _)|intros (H1 & H2 & H3 & H4 & H5 & H6)].
  - repeat split; nra.
  - repeat split; try apply Forall_nil; nra.
Qed.
End C83.

(** but not in general: a perspective projection of what lies between z = 1 and z = 3. The
    point (0, 0, 2) is in the middle of the picture and is called outside. *)
Definition pv_w : mat4 Q := M4 (V4 1 0 0 0) (V4 0 1 0 0) (V4 0 0 2 1) (V4 0 0 (-(3)) 0).
Definition planes_w := raw_planes (mat4_mul mat4_identity pv_w).
Definition planes_w' := Eval vm_compute in planes_w.
Lemma planes_w_eq : planes_w = planes_w'.
Proof. vm_compute; reflexivity. Qed.
Lemma planes_w_ok : Forall normal_ok planes_w.
Proof. rewrite planes_w_eq. unfold planes_w'. repeat (apply Forall_cons; [reflexivity|]); apply Forall_nil. Qed.
Lemma seen_w : seen (mat4_mul_vec4 (mat4_mul mat4_identity pv_w) (point (V3 0 0 2))).
Proof. vm_compute. repeat split. Qed.
Lemma inside_all rsqrt L v : (forall s, 0 < s -> 0 < rsqrt s) -> Forall normal_ok L ->
  point_inside (map (plane_norm rsqrt) L) v = true -> Forall (fun p => 0 < plane_distance p v) L.
Proof.
  intros RS N P. unfold point_inside, sphere_inside in P. rewrite forallb_forall in P.
  rewrite Forall_forall in *. intros p I. apply (norm_side rsqrt p v RS (N p I)). apply P. now apply in_map.
Qed.
Lemma missed_w rsqrt : (forall s, 0 < s -> 0 < rsqrt s) -> point_inside (map (plane_norm rsqrt) planes_w) (V3 0 0 2) = true -> False.
Proof.
  intros RS P. apply (inside_all rsqrt _ _ RS planes_w_ok) in P. rewrite planes_w_eq in P.
  unfold planes_w' in P. rewrite !Forall_cons_iff in P. destruct P as (_ & _ & _ & _ & _ & P & _). discriminate P.
Qed.
Theorem C83_frustum_refuted : forall rsqrt : Q -> Q, (forall s, 0 < s -> 0 < rsqrt s) ->
  seen (mat4_mul_vec4 (mat4_mul mat4_identity pv_w) (point (V3 0 0 2))) /\
  Forall normal_ok (raw_planes (mat4_mul mat4_identity pv_w)) /\
  point_inside (frustum_create rsqrt mat4_identity pv_w) (V3 0 0 2) = false.
Proof.
  intros rsqrt RS. refine (conj seen_w (conj planes_w_ok _)). apply not_true_is_false. exact (missed_w rsqrt RS).
Qed.

(** the third plane has y.z and y.w swapped: with this symmetric matrix a point that is seen is called outside *)
Definition pv_y : mat4 Q := M4 (V4 1 0 0 0) (V4 0 1 0 2) (V4 0 0 1 0) (V4 0 2 0 3).
Definition planes_y := Eval vm_compute in raw_planes (mat4_mul mat4_identity pv_y).
Theorem C83_third_plane_refuted : forall rsqrt : Q -> Q, (forall s, 0 < s -> 0 < rsqrt s) ->
  let pv := mat4_mul mat4_identity pv_y in
  (forall i j, (i < 4)%nat -> (j < 4)%nat -> el4 pv i j == el4 pv j i) /\ Forall normal_ok (raw_planes pv) /\
  seen (mat4_mul_vec4 pv (point (V3 0 0 (5 # 2)))) /\
  point_inside (frustum_create rsqrt mat4_identity pv_y) (V3 0 0 (5 # 2)) = false.
Proof.
  intros rsqrt RS pv. assert (E : raw_planes pv = planes_y) by (vm_compute; reflexivity).
  assert (N : Forall normal_ok planes_y) by (unfold planes_y; repeat (apply Forall_cons; [reflexivity|]); apply Forall_nil).
  refine (conj _ (conj _ (conj _ _))).
  - intros [|[|[|[|i]]]] [|[|[|[|j]]]] Hi Hj; try lia; vm_compute; reflexivity.
  - rewrite E. exact N.
  - vm_compute. repeat split.
  - apply not_true_is_false. unfold frustum_create. fold pv. rewrite E. intros P. apply (inside_all rsqrt _ _ RS N) in P.
    unfold planes_y in P. rewrite !Forall_cons_iff in P. destruct P as (_ & _ & P & _). discriminate P.
Qed.

Example C83_ex : let pv := M4 (V4 1 0 0 0) (V4 0 1 0 0) (V4 0 0 1 0) (V4 0 0 0 2) in
  Forall normal_ok (raw_planes (mat4_mul mat4_identity pv)) /\
  seen (mat4_mul_vec4 (mat4_mul mat4_identity pv) (point (V3 1 1 (-(1))))).
Proof. split; [repeat (apply Forall_cons; [vm_compute; reflexivity|]); apply Forall_nil|vm_compute; repeat split]. Qed.

(** zpl_frustum_box_inside answers whether one of the eight corners is inside *)
Definition corner (lo hi p : vec3 Q) : Prop :=
  (x3 p == x3 lo \/ x3 p == x3 hi) /\ (y3 p == y3 lo \/ y3 p == y3 hi) /\ (z3 p == z3 lo \/ z3 p == z3 hi).

Lemma point_inside_ext fr u v : x3 u == x3 v -> y3 u == y3 v -> z3 u == z3 v -> point_inside fr u = point_inside fr v.
Proof.
  intros X Y Z. unfold point_inside, sphere_inside. induction fr as [|p fr IH]; cbn; [reflexivity|]. rewrite IH.
  replace (qle (plane_distance p u) (- 0)) with (qle (plane_distance p v) (- 0)); [reflexivity|].
  assert (D : plane_distance p u == plane_distance p v) by (unfold plane_distance; rewrite X, Y, Z; reflexivity).
  destruct (qle (plane_distance p v) (- 0)) eqn:E; symmetry; [apply qle_iff in E; apply qle_iff; lra|].
  apply qle_niff in E; apply qle_niff; lra.
Qed.

Theorem C83_box_corners (fr : list plane) (lo hi : vec3 Q) :
  box_inside fr lo hi = true <-> exists p, corner lo hi p /\ point_inside fr p = true.
Proof.
  unfold box_inside. rewrite existsb_exists. cbn [x3 y3 z3]. split.
  - intros (s & I & P). eexists; split; [|exact P]. unfold corner; cbn [x3 y3 z3].
    repeat (destruct I as [<-|I]; [cbn [fst snd];
      refine (conj _ (conj _ _)); first [left; field|right; field]|]); destruct I.
  - intros (p & (X & Y & Z) & P).
    assert (S : forall a b c, c == a \/ c == b -> exists s, (s = 1 \/ s = -(1)) /\ s * ((b - a) / 2) + (a + (b - a) / 2) == c).
    { intros a b c [H|H]; [exists (-(1))|exists 1]; (split; [auto|rewrite H; field]). }
    destruct (S _ _ _ X) as (sx & Sx & Ex), (S _ _ _ Y) as (sy & Sy & Ey), (S _ _ _ Z) as (sz & Sz & Ez).
    exists (sx, sy, sz). split.
    + destruct Sx as [->| ->], Sy as [->| ->], Sz as [->| ->]; cbn; tauto.
    + rewrite <- P. apply point_inside_ext; cbn [x3 y3 z3 fst snd]; assumption.
Qed.

(** so a box round the whole frustum counts as outside *)
Theorem C83_box_refuted :
  let fr := [Plane 1 0 0 1; Plane (-(1)) 0 0 1; Plane 0 1 0 1; Plane 0 (-(1)) 0 1; Plane 0 0 1 1; Plane 0 0 (-(1)) 1] in
  let lo := V3 (-(2)) (-(2)) (-(2)) in let hi := V3 2 2 2 in
  point_inside fr (V3 0 0 0) = true /\ (x3 lo < 0 < x3 hi) /\ box_inside fr lo hi = false.
Proof. refine (conj _ (conj _ _)); [reflexivity|split; reflexivity|reflexivity]. Qed.

(** ** C84 *)
Lemma span_iff p d x : (zmin p (p + d) <= x /\ x < zmax p (p + d)) <-> in_span p d x.
Proof. unfold zmin, zmax, in_span. qcase; lra. Qed.

Theorem C84_rect_contains (a : rect2) (x y : Q) :
  rect2_contains a x y = true <-> in_span (x2 (rpos a)) (x2 (rdim a)) x /\ in_span (y2 (rpos a)) (y2 (rdim a)) y.
Proof.
  unfold rect2_contains. rewrite !andb_true_iff, !qle_iff, !qlt_iff, <- !span_iff. tauto.
Qed.

Lemma zmin_le a b c : c < zmin a b <-> c < a /\ c < b.
Proof. unfold zmin. qcase; lra. Qed.
Lemma zmax_le a b c : zmax a b <= c <-> a <= c /\ b <= c.
Proof. unfold zmax. qcase; lra. Qed.

(** the intersection holds exactly the common points, and the answer is whether there are any *)
Theorem C84_rect_intersection (a b : rect2) :
  (forall x y, rect2_contains (snd (rect2_intersection a b)) x y = true <->
     rect2_contains a x y = true /\ rect2_contains b x y = true) /\
  (fst (rect2_intersection a b) = true <-> exists x y, rect2_contains a x y = true /\ rect2_contains b x y = true).
Proof.
  assert (C : forall r x y, rect2_contains r x y = true <->
    (zmin (x2 (rpos r)) (x2 (rpos r) + x2 (rdim r)) <= x /\ x < zmax (x2 (rpos r)) (x2 (rpos r) + x2 (rdim r))) /\
    (zmin (y2 (rpos r)) (y2 (rpos r) + y2 (rdim r)) <= y /\ y < zmax (y2 (rpos r)) (y2 (rpos r) + y2 (rdim r)))).
  { intros. unfold rect2_contains. rewrite !andb_true_iff, !qle_iff, !qlt_iff. tauto. }
  setoid_rewrite C.
  set (axl := zmin (x2 (rpos a)) _). set (axh := zmax (x2 (rpos a)) _).
  set (ayl := zmin (y2 (rpos a)) _). set (ayh := zmax (y2 (rpos a)) _).
  set (bxl := zmin (x2 (rpos b)) _). set (bxh := zmax (x2 (rpos b)) _).
  set (byl := zmin (y2 (rpos b)) _). set (byh := zmax (y2 (rpos b)) _).
  unfold rect2_intersection. fold axl axh ayl ayh bxl bxh byl byh.
  clearbody axl axh ayl ayh bxl bxh byl byh.
  assert (B : forall x y, ((axl <= x /\ x < axh) /\ ayl <= y /\ y < ayh) /\ (bxl <= x /\ x < bxh) /\ byl <= y /\ y < byh <->
     (zmax axl bxl <= x /\ x < zmin axh bxh) /\ zmax ayl byl <= y /\ y < zmin ayh byh).
  { intros. rewrite !zmin_le, !zmax_le. tauto. }
  set (x0 := zmax axl bxl) in *. set (x1 := zmin axh bxh) in *. set (y0 := zmax ayl byl) in *. set (y1 := zmin ayh byh) in *.
  clearbody x0 x1 y0 y1.
  destruct (qlt x0 x1 && qlt y0 y1)%bool eqn:E; cbn [fst snd rpos rdim x2 y2].
  - apply andb_true_iff in E as [E1 E2]. apply qlt_iff in E1, E2. split.
    + intros x y. rewrite B, !span_iff. unfold in_span. split; intros; split; lra.
    + split; [intros _|reflexivity]. exists x0, y0. apply B. lra.
  - assert (N : forall x y, ~ ((x0 <= x /\ x < x1) /\ y0 <= y /\ y < y1)).
    { intros x y H. apply andb_false_iff in E. rewrite !qlt_niff in E. lra. }
    split.
    + intros x y. rewrite B, !span_iff. unfold in_span. split; [lra|intros H; destruct (N _ _ H)].
    + split; [discriminate|]. intros (x & y & H). apply B in H. destruct (N _ _ H).
Qed.

(** boxes: contains, and converting a rectangle with non-negative sides *)
Theorem C84_aabb (a : rect2) (b : aabb2) (x y : Q) :
  (aabb2_contains b x y = true <-> (x2 (bmin b) <= x /\ x < x2 (bmax b)) /\ (y2 (bmin b) <= y /\ y < y2 (bmax b))) /\
  (0 <= x2 (rdim a) -> 0 <= y2 (rdim a) -> aabb2_contains (aabb2_rect2 a) x y = rect2_contains a x y) /\
  (aabb2_contains (aabb2_rect2 (rect2_aabb2 b)) x y = aabb2_contains b x y).
Proof.
  assert (C : forall c x y, aabb2_contains c x y = true <-> (x2 (bmin c) <= x /\ x < x2 (bmax c)) /\ (y2 (bmin c) <= y /\ y < y2 (bmax c))).
  { intros. unfold aabb2_contains. rewrite !andb_true_iff, !qle_iff, !qlt_iff. tauto. }
  refine (conj (C _ _ _) (conj _ _)).
  - intros X Y. apply eq_true_iff_eq. rewrite C, C84_rect_contains. unfold in_span, aabb2_rect2; cbn. split; intros; split; lra.
  - apply eq_true_iff_eq. rewrite !C. unfold aabb2_rect2, rect2_aabb2; cbn. split; intros; split; lra.
Qed.

(** cutting splits the points of the box, and the piece is as wide as asked for or the whole box *)
Definition splits (a piece rest : aabb2) : Prop :=
  forall x y, xorb (aabb2_contains piece x y) (aabb2_contains rest x y) = aabb2_contains a x y /\
    (aabb2_contains piece x y && aabb2_contains rest x y)%bool = false.
Lemma splits_sym a p r : splits a p r -> splits a r p.
Proof. intros H x y. destruct (H x y). rewrite xorb_comm, andb_comm. auto. Qed.
Lemma span_split l c h x : l <= c <= h ->
  xorb (qle l x && qlt x c) (qle c x && qlt x h) = (qle l x && qlt x h)%bool /\
  ((qle l x && qlt x c) && (qle c x && qlt x h))%bool = false.
Proof. intros H. qcase; split; first [reflexivity|exfalso; lra]. Qed.
Lemma split_x x0 y0 x1 y1 c : x0 <= c <= x1 ->
  splits (Aabb2 (V2 x0 y0) (V2 x1 y1)) (Aabb2 (V2 x0 y0) (V2 c y1)) (Aabb2 (V2 c y0) (V2 x1 y1)).
Proof.
  intros H x y. unfold aabb2_contains; cbn [bmin bmax x2 y2]. destruct (span_split x0 c x1 x H) as [<- D]. revert D.
  destruct (qle x0 x && qlt x c)%bool, (qle c x && qlt x x1)%bool, (qle y0 y && qlt y y1)%bool; cbn; auto.
Qed.
Lemma split_y x0 y0 x1 y1 c : y0 <= c <= y1 ->
  splits (Aabb2 (V2 x0 y0) (V2 x1 y1)) (Aabb2 (V2 x0 y0) (V2 x1 c)) (Aabb2 (V2 x0 c) (V2 x1 y1)).
Proof.
  intros H x y. unfold aabb2_contains; cbn [bmin bmax x2 y2]. destruct (span_split y0 c y1 y H) as [<- D]. revert D.
  destruct (qle x0 x && qlt x x1)%bool, (qle y0 y && qlt y c)%bool, (qle c y && qlt y y1)%bool; cbn; auto.
Qed.
Theorem C84_cut (a : aabb2) (b : Q) : 0 <= b -> x2 (bmin a) <= x2 (bmax a) -> y2 (bmin a) <= y2 (bmax a) ->
  let w := x2 (bmax a) - x2 (bmin a) in let h := y2 (bmax a) - y2 (bmin a) in
  let width c := x2 (bmax c) - x2 (bmin c) in let height c := y2 (bmax c) - y2 (bmin c) in
  (splits a (fst (cut_left a b)) (snd (cut_left a b)) /\ width (fst (cut_left a b)) == zmin b w /\
     x2 (bmin (fst (cut_left a b))) == x2 (bmin a) /\ height (fst (cut_left a b)) == h) /\
  (splits a (fst (cut_right a b)) (snd (cut_right a b)) /\ width (fst (cut_right a b)) == zmin b w /\
     x2 (bmax (fst (cut_right a b))) == x2 (bmax a) /\ height (fst (cut_right a b)) == h) /\
  (splits a (fst (cut_top a b)) (snd (cut_top a b)) /\ height (fst (cut_top a b)) == zmin b h /\
     y2 (bmin (fst (cut_top a b))) == y2 (bmin a) /\ width (fst (cut_top a b)) == w) /\
  (splits a (fst (cut_bottom a b)) (snd (cut_bottom a b)) /\ height (fst (cut_bottom a b)) == zmin b h /\
     y2 (bmax (fst (cut_bottom a b))) == y2 (bmax a) /\ width (fst (cut_bottom a b)) == w).
Proof.
  destruct a as [[x0 y0] [x1 y1]]; cbn [bmin bmax x2 y2]. intros B X Y. cbv zeta.
  assert (M1 : forall l h, l <= h -> l <= zmin h (l + b) <= h) by (intros; unfold zmin; qcase; lra).
  assert (M2 : forall l h, l <= h -> l <= zmax l (h - b) <= h) by (intros; unfold zmax; qcase; lra).
  unfold cut_left, cut_right, cut_top, cut_bottom; cbn [fst snd bmin bmax x2 y2].
  refine (conj (conj _ _) (conj (conj _ _) (conj (conj _ _) (conj _ _)))).
  - apply split_x. now apply M1.
  - unfold zmin; qcase; refine (conj _ (conj _ _)); lra.
  - apply splits_sym, split_x. now apply M2.
  - unfold zmin, zmax; qcase; refine (conj _ (conj _ _)); lra.
  - apply split_y. now apply M1.
  - unfold zmin; qcase; refine (conj _ (conj _ _)); lra.
  - apply splits_sym, split_y. now apply M2.
  - unfold zmin, zmax; qcase; refine (conj _ (conj _ _)); lra.
Qed.

(** contracting moves every side inwards when the box stays farther from the origin at its upper corner *)
Theorem C84_contract (a : aabb2) (b : Q) :
  0 <= x2 (bmin a) + b -> 0 <= y2 (bmin a) + b -> x2 (bmin a) + b <= x2 (bmax a) - b -> y2 (bmin a) + b <= y2 (bmax a) - b ->
  aabb2_contract a b = Aabb2 (V2 (x2 (bmin a) + b) (y2 (bmin a) + b)) (V2 (x2 (bmax a) - b) (y2 (bmax a) - b)).
Proof.
  destruct a as [[x0 y0] [x1 y1]]; cbn [bmin bmax x2 y2]. intros X Y W H. unfold aabb2_contract, mag2; cbn [bmin bmax x2 y2].
  match goal with |- (if ?c then _ else _) = _ => destruct c eqn:E; [exfalso; apply qlt_iff in E|reflexivity] end.
  assert (forall u v, 0 <= u -> u <= v -> u * u <= v * v) as M by (intros; nra).
  pose proof (M _ _ X W). pose proof (M _ _ Y H). lra.
Qed.

Theorem C84_expand (a : aabb2) (b : Q) :
  0 <= x2 (bmin a) - b -> 0 <= y2 (bmin a) - b -> x2 (bmin a) - b <= x2 (bmax a) + b -> y2 (bmin a) - b <= y2 (bmax a) + b ->
  let e := aabb2_expand a b in
  x2 (bmin e) == x2 (bmin a) - b /\ y2 (bmin e) == y2 (bmin a) - b /\ x2 (bmax e) == x2 (bmax a) + b /\ y2 (bmax e) == y2 (bmax a) + b.
Proof.
  intros X Y W H. cbv zeta. unfold aabb2_expand. rewrite C84_contract by lra. cbn [bmin bmax x2 y2]. repeat split; lra.
Qed.
Example C84_expand_ex : aabb2_expand (Aabb2 (V2 2 3) (V2 5 5)) 1 = Aabb2 (V2 1 2) (V2 6 6).
Proof. reflexivity. Qed.

(** but a box left of the origin vanishes, even when it is to be expanded *)
Theorem C84_contract_refuted :
  let a := Aabb2 (V2 (-(9)) (-(9))) (V2 (-(1)) (-(1))) in
  aabb2_contract a 1 = Aabb2 (V2 0 0) (V2 0 0) /\ aabb2_expand a 1 = Aabb2 (V2 0 0) (V2 0 0) /\
  aabb2_contract a 0 = Aabb2 (V2 0 0) (V2 0 0).
Proof. repeat split. Qed.

Example C84_ex : rect2_intersection (Rect2 (V2 0 0) (V2 4 4)) (Rect2 (V2 6 6) (V2 (-(4)) (-(4)))) =
   (true, Rect2 (V2 (6 + -4) (6 + -4)) (V2 (0 + 4 - (6 + -4)) (0 + 4 - (6 + -4)))) /\
  0 <= 3 /\ cut_left (Aabb2 (V2 0 0) (V2 4 4)) 3 = (Aabb2 (V2 0 0) (V2 (0 + 3) 4), Aabb2 (V2 (0 + 3) 0) (V2 4 4)).
Proof. split; [reflexivity|split; [lra|reflexivity]]. Qed.

(** ** C85 *)
Theorem C85_lerp (a b t : Q) :
  lerp a b 0 == a /\ lerp a b 1 == b /\ (~ b == a -> unlerp (lerp a b t) a b == t) /\
  (a <= b -> 0 <= t <= 1 -> a <= lerp a b t <= b).
Proof.
  unfold lerp, unlerp. refine (conj _ (conj _ (conj _ _))); [ring|ring|intros N; field; lra|intros; split; nra].
Qed.

(** the steps run from 0 to 1, meet the ends level, and never turn back *)
Theorem C85_smooth_step (a b s t : Q) : a < b -> a <= s -> s <= t -> t <= b ->
  smooth_step a b a == 0 /\ smooth_step a b b == 1 /\ smooth_step a b s <= smooth_step a b t /\
  smoother_step a b a == 0 /\ smoother_step a b b == 1 /\ smoother_step a b s <= smoother_step a b t.
Proof.
  intros AB S ST T. unfold smooth_step, smoother_step.
  assert (D : forall u, a <= u -> u <= b -> 0 <= (u - a) / (b - a) /\ (u - a) / (b - a) <= 1).
  { intros u U1 U2. split; [apply Qle_shift_div_l; lra|apply Qle_shift_div_r; lra]. }
  assert (M : (s - a) / (b - a) <= (t - a) / (b - a)).
  { unfold Qdiv. apply Qmult_le_compat_r; [lra|]. apply Qlt_le_weak, Qinv_lt_0_compat. lra. }
  destruct (D s S ltac:(lra)) as [P0 P1], (D t ltac:(lra) T) as [Q0 Q1].
  set (p := (s - a) / (b - a)) in *. set (q := (t - a) / (b - a)) in *. clearbody p q.
  refine (conj _ (conj _ (conj _ (conj _ (conj _ _))))); [field; lra|field; lra| |field; lra|field; lra|].
  - assert (0 <= (q - p) * (3 * (p + q) - 2 * (p * p + p * q + q * q))); [|lra].
    apply Qmult_le_0_compat; [lra|]. nra.
  - assert (E : q * q * q * (q * (6 * q - 15) + 10) - p * p * p * (p * (6 * p - 15) + 10) ==
      (q - p) * (6 * (p*p*p*p + p*p*p*q + p*p*q*q + p*q*q*q + q*q*q*q) - 15 * (p*p*p + p*p*q + p*q*q + q*q*q) + 10 * (p*p + p*q + q*q))) by ring.
    assert (0 <= 6 * (p*p*p*p + p*p*p*q + p*p*q*q + p*q*q*q + q*q*q*q) - 15 * (p*p*p + p*p*q + p*q*q + q*q*q) + 10 * (p*p + p*q + q*q)).
    { set (A := p - p * p). set (B := (q - p) - 2 * p * (q - p)). set (C := - ((q - p) * (q - p))).
      assert (SOS : 0 <= 30 * ((A + B * (1 # 2) + C * (1 # 3)) * (A + B * (1 # 2) + C * (1 # 3)) + (B + C) * (B + C) * (1 # 12) + C * C * (1 # 180))).
      { assert (Z : forall z : Q, 0 <= z * z) by (intros; nra).
        pose proof (Z (A + B * (1 # 2) + C * (1 # 3))). pose proof (Z (B + C)). pose proof (Z C). lra. }
      apply (Qle_trans _ _ _ SOS). apply Qle_lteq. right. unfold A, B, C. ring. }
    assert (0 <= q - p) by lra. nra.
Qed.

(** the cubic spline passes through its ends with the given speeds there *)
Theorem C85_cslerp (a v0 b v1 t : Q) :
  cslerp a v0 b v1 0 == a /\ cslerp a v0 b v1 1 == b /\ dcslerp a v0 b v1 0 == v0 /\ dcslerp a v0 b v1 1 == v1 /\
  (exists c d, forall h, cslerp a v0 b v1 (t + h) - cslerp a v0 b v1 t == h * dcslerp a v0 b v1 t + h * h * (c + d * h)).
Proof.
  unfold cslerp, dcslerp. refine (conj _ (conj _ (conj _ (conj _ _)))); try ring.
  exists ((6 * t - 3) * a + (3 * t - 2) * v0 + (3 - 6 * t) * b + (3 * t - 1) * v1), (2 * a + v0 - 2 * b + v1).
  intros h. ring.
Qed.

Example C85_ex : 0 < 4 /\ smooth_step 0 4 1 == 5 # 32 /\ lerp 2 6 (1 # 4) == 3.
Proof. split; [lra|split; reflexivity]. Qed.

Print Assumptions C81_floor.
Print Assumptions C81_ceil.
Print Assumptions C81_round.
Print Assumptions C81_floor_ceil_refuted.
Print Assumptions C81_mod.
Print Assumptions C81_mod_refuted.
Print Assumptions C82_reflect.
Print Assumptions C82_refract_exact.
Print Assumptions C82_refract_refuted.
Print Assumptions C83_frustum.
Print Assumptions C83_frustum_refuted.
Print Assumptions C83_box_corners.
Print Assumptions C83_box_refuted.
Print Assumptions C84_rect_contains.
Print Assumptions C84_rect_intersection.
Print Assumptions C84_aabb.
Print Assumptions C84_cut.
Print Assumptions C84_contract.
Print Assumptions C84_contract_refuted.
Print Assumptions C85_lerp.
Print Assumptions C85_smooth_step.
Print Assumptions C85_cslerp.
Print Assumptions C83_third_plane_refuted.
Print Assumptions C84_expand.
