(** C97: views and projections (over the reals). *)
From Coq Require Import Reals Lra Psatz Field Nsatz.
From Verif Require Import Base Vec VecSpec Rot RotSpec RotProofs.
Local Open Scope R_scope.

(** ** Views *)
(** three vectors at right angles, right-handed *)
Definition frame (s u f : vec3 R) : Prop := dot3 s s = 1 /\ dot3 f f = 1 /\ dot3 s f = 0 /\ u = cross3 s f.
Lemma frame_units s u f : frame s u f -> dot3 u u = 1 /\ dot3 s u = 0 /\ dot3 u f = 0 /\ cross3 u s = f /\ cross3 f u = s.
Proof. destruct s as [s1 s2 s3], f as [f1 f2 f3]. intros (S & F & P & ->). uf. cbn -[Rmult] in *. split; [nsatz|]. split; [nsatz|]. split; [nsatz|]. split; eq3; nsatz. Qed.
(** Lagrange: a vector is the sum of its components *)
Lemma frame_parts s u f p : frame s u f -> plus3 (scale3 (dot3 s p) s) (plus3 (scale3 (dot3 u p) u) (scale3 (dot3 f p) f)) = p.
Proof. destruct s as [s1 s2 s3], f as [f1 f2 f3], p as [x y z]. intros (S & F & P & ->). uf. cbn -[Rmult] in *. eq3; nsatz. Qed.
Lemma frame_dot s u f p q : frame s u f -> dot3 s p * dot3 s q + dot3 u p * dot3 u q + dot3 f p * dot3 f q = dot3 p q.
Proof.
  intros F. rewrite <- (frame_parts s u f p F) at 4. destruct s, u, f, p, q. clear F. uf. cbn. ring.
Qed.
Lemma frame_det s u f p q r : frame s u f ->
  dot3 (cross3 (V3 (dot3 s p) (dot3 u p) (- dot3 f p)) (V3 (dot3 s q) (dot3 u q) (- dot3 f q))) (V3 (dot3 s r) (dot3 u r) (- dot3 f r)) = dot3 (cross3 p q) r.
Proof.
  intros F. assert (D : dot3 (cross3 s u) f = -1). { destruct (frame_units s u f F) as (_ & _ & _ & C & _). replace (cross3 s u) with (scale3 (-1) (cross3 u s)) by (destruct s, u; uf; eq3; ring). rewrite C. destruct F as (_ & F & _). destruct f. uf. cbn in *. lra. }
  transitivity (- (dot3 (cross3 s u) f * dot3 (cross3 p q) r)); [|rewrite D; ring]. clear. destruct s, u, f, p, q, r. uf. cbn. ring.
Qed.
(** the view along f: s to the right, u = s x f up *)
Definition view (s u f eye p : vec3 R) : vec3 R := V3 (dot3 s (minus3 p eye)) (dot3 u (minus3 p eye)) (- dot3 f (minus3 p eye)).
Lemma minus_dot s p q e : dot3 s (minus3 p e) - dot3 s (minus3 q e) = dot3 s (minus3 p q).
Proof. destruct s, p, q, e. uf. cbn. ring. Qed.
Lemma view_minus s u f e p q : minus3 (view s u f e p) (view s u f e q) = V3 (dot3 s (minus3 p q)) (dot3 u (minus3 p q)) (- dot3 f (minus3 p q)).
Proof. rewrite <- !(minus_dot _ p q e). unfold view. cbv [minus3 x3 y3 z3]. eq3; ring. Qed.
Lemma view_rigid m s u f e : frame s u f -> (forall p, moves m p (view s u f e p)) -> rigid m.
Proof.
  intros F M. exists (view s u f e). split; [exact M|]. split.
  - intros p q r. rewrite !view_minus, <- (frame_dot s u f (minus3 p r) (minus3 q r) F). generalize (minus3 p r) (minus3 q r). intros a b. destruct s, u, f, a, b. uf. cbn. ring.
  - intros p q r t. rewrite !view_minus. now apply frame_det.
Qed.

Lemma cross_nonzero a b u : direction a u -> cross3 a b <> zero3 -> cross3 u b <> zero3.
Proof. intros [_ (k & K & E)] N Z. apply N. rewrite E. destruct u as [a1 a2 a3], b as [b1 b2 b3]. uf. cbn in *. injection Z as Z1 Z2 Z3. eq3; [transitivity (k * (a2 * b3 - a3 * b2))|transitivity (k * (a3 * b1 - a1 * b3))|transitivity (k * (a1 * b2 - a2 * b1))]; (ring || (rewrite ?Z1, ?Z2, ?Z3; ring)). Qed.
Lemma cross_nonzero' a b u : direction a u -> cross3 b a <> zero3 -> cross3 b u <> zero3.
Proof. intros [_ (k & K & E)] N Z. apply N. rewrite E. destruct u as [a1 a2 a3], b as [b1 b2 b3]. uf. cbn in *. injection Z as Z1 Z2 Z3. eq3; [transitivity (k * (b2 * a3 - b3 * a2))|transitivity (k * (b3 * a1 - b1 * a3))|transitivity (k * (b1 * a2 - b2 * a1))]; (ring || (rewrite ?Z1, ?Z2, ?Z3; ring)). Qed.
Lemma cross_norm_perp u v s : direction (cross3 u v) s -> dot3 s u = 0 /\ dot3 s v = 0 /\ exists k, 0 < k /\ cross3 u v = scale3 k s.
Proof.
  intros [_ (k & K & E)]. assert (P : dot3 (cross3 u v) u = 0 /\ dot3 (cross3 u v) v = 0) by (destruct u, v; uf; cbn; split; ring). rewrite E in P. destruct P as [P Q]. split; [|split].
  - destruct s, u. uf. cbn in *. nra.
  - destruct s, v. uf. cbn in *. nra.
  - eauto.
Qed.
Lemma sub_eq a b : vec3_sub a b = minus3 a b. Proof. destruct a, b. uf. reflexivity. Qed.
Lemma cross_eq a b : vec3_cross a b = cross3 a b. Proof. destruct a, b. uf. reflexivity. Qed.

(** zpl_mat4_look_at: a rigid motion that brings the eye to the origin, the centre straight ahead on the negative z axis
    at its distance, and up into the plane x = 0, upwards. *)
Theorem C97_look_at (eye centre up : vec3 R) : minus3 centre eye <> zero3 -> cross3 (minus3 centre eye) up <> zero3 ->
  let m := look_at eye centre up in
  rigid m /\ moves m eye zero3 /\
  (exists d, 0 < d /\ d * d = dot3 (minus3 centre eye) (minus3 centre eye) /\ moves m centre (V3 0 0 (- d))) /\
  (exists y z, 0 < y /\ moves m (plus3 eye up) (V3 0 y z)).
Proof.
  intros N C m. subst m. unfold look_at. cbv zeta. rewrite sub_eq, cross_eq. pose proof (norm_direction _ N) as F. set (f := vec3_norm (minus3 centre eye)) in *. clearbody f. pose proof (norm_direction _ (cross_nonzero _ up _ F C)) as S. set (s := vec3_norm (cross3 f up)) in *. clearbody s.
  destruct (cross_norm_perp _ _ _ S) as (P1 & P2 & k & K & E). destruct F as [F (d & D & EF)]. destruct S as [S _]. assert (Fr : frame s (cross3 s f) f) by (unfold frame; auto).
  assert (M : forall p, moves (mat4_look_at f s eye) p (view s (cross3 s f) f eye p)) by (intros p; unfold moves, view; clear; destruct s, f, eye, p; uf; cbn; eq4; ring).
  split; [now apply (view_rigid _ s (cross3 s f) f eye)|]. split; [|split].
  - replace zero3 with (view s (cross3 s f) f eye eye); [apply M|]. unfold view. clear. destruct s, f, eye. uf. cbn. eq3; ring.
  - exists d. split; [exact D|]. split; [rewrite EF; clear - F; destruct f; uf; cbn -[Rmult] in *; nsatz|]. replace (V3 0 0 (- d)) with (view s (cross3 s f) f eye centre); [apply M|]. unfold view. rewrite EF. clear - F P1. destruct s, f. uf. cbn -[Rmult] in *. eq3; nsatz.
  - exists k, (- dot3 f up). split; [exact K|]. replace (V3 0 k (- dot3 f up)) with (view s (cross3 s f) f eye (plus3 eye up)); [apply M|]. unfold view. replace (minus3 (plus3 eye up) eye) with up by (destruct eye, up; uf; eq3; ring).
    rewrite P2. f_equal. transitivity (dot3 s (cross3 f up)); [clear; destruct s, f, up; uf; cbn; ring|]. rewrite E. clear - S. destruct s. uf. cbn -[Rmult] in *. nsatz.
Qed.
(** zpl_mat4_look_at_lh: the same with the centre on the positive z axis. *)
Theorem C97_look_at_lh (eye centre up : vec3 R) : minus3 centre eye <> zero3 -> cross3 up (minus3 centre eye) <> zero3 ->
  let m := look_at_lh eye centre up in
  rigid m /\ moves m eye zero3 /\
  (exists d, 0 < d /\ d * d = dot3 (minus3 centre eye) (minus3 centre eye) /\ moves m centre (V3 0 0 d)) /\
  (exists y z, 0 < y /\ moves m (plus3 eye up) (V3 0 y z)).
Proof.
  intros N C m. subst m. unfold look_at_lh. cbv zeta. rewrite sub_eq, !cross_eq. pose proof (norm_direction _ N) as F. set (f := vec3_norm (minus3 centre eye)) in *. clearbody f. pose proof (norm_direction _ (cross_nonzero' _ up _ F C)) as S. set (s := vec3_norm (cross3 up f)) in *. clearbody s.
  destruct (cross_norm_perp _ _ _ S) as (P2 & P1 & k & K & E). destruct F as [F (d & D & EF)]. destruct S as [S _]. set (g := scale3 (-1) f).
  assert (Fr : frame s (cross3 f s) g). { unfold frame, g. split; [exact S|]. clear - F P1. destruct s, f. uf. cbn -[Rmult] in *. split; [nsatz|]. split; [nsatz|]. eq3; ring. }
  match goal with |- rigid ?m /\ _ => set (mm := m) end.
  assert (M : forall p, moves mm p (view s (cross3 f s) g eye p)) by (intros p; unfold moves, view, mm, g; clear; destruct s, f, eye, p; uf; cbn; eq4; ring). clearbody mm.
  split; [now apply (view_rigid _ s (cross3 f s) g eye)|]. split; [|split].
  - replace zero3 with (view s (cross3 f s) g eye eye); [apply M|]. unfold view, g. clear. destruct s, f, eye. uf. cbn. eq3; ring.
  - exists d. split; [exact D|]. split; [rewrite EF; clear - F; destruct f; uf; cbn -[Rmult] in *; nsatz|]. replace (V3 0 0 d) with (view s (cross3 f s) g eye centre); [apply M|]. unfold view, g. rewrite EF. clear - F P1. destruct s, f. uf. cbn -[Rmult] in *. eq3; nsatz.
  - exists k, (- dot3 g up). split; [exact K|]. replace (V3 0 k (- dot3 g up)) with (view s (cross3 f s) g eye (plus3 eye up)); [apply M|]. unfold view. replace (minus3 (plus3 eye up) eye) with up by (destruct eye, up; uf; eq3; ring).
    rewrite P2. f_equal. transitivity (dot3 s (cross3 up f)); [clear; destruct s, f, up; uf; cbn; ring|]. rewrite E. clear - S. destruct s. uf. cbn -[Rmult] in *. nsatz.
Qed.
Example C97_look_ex : minus3 (V3 0 0 0) (V3 1 2 3) <> zero3 /\ cross3 (minus3 (V3 0 0 0) (V3 1 2 3)) (V3 0 1 0) <> zero3.
Proof. uf. cbn. split; intros E; injection E; lra. Qed.

(** ** Boxes *)
(** zpl_mat4_ortho3d: the box from left to right, bottom to top and -near to -far goes to the cube from -1 to 1 *)
Theorem C97_ortho3d (l r b t n f : R) (p : vec3 R) : l <> r -> b <> t -> n <> f -> exists q, moves (ortho3d l r b t n f) p q /\
  same_place l r (x3 p) (-1) 1 (x3 q) /\ same_place b t (y3 p) (-1) 1 (y3 q) /\ same_place (- n) (- f) (z3 p) (-1) 1 (z3 q).
Proof.
  intros L B N. destruct p as [x y z]. exists (V3 ((2 * x - (r + l)) / (r - l)) ((2 * y - (t + b)) / (t - b)) ((-2 * z - (f + n)) / (f - n))). unfold same_place. split; [|split; [|split]]; [unfold ortho3d; uf; eq4; field; lra|cbn; field; lra..].
Qed.
(** zpl_mat4_ortho3d_dx: depth from 0 to 1 *)
Theorem C97_ortho3d_dx (l r b t n f : R) (p : vec3 R) : l <> r -> b <> t -> n <> f -> exists q, moves (ortho3d_dx l r b t n f) p q /\
  same_place l r (x3 p) (-1) 1 (x3 q) /\ same_place b t (y3 p) (-1) 1 (y3 q) /\ same_place (- n) (- f) (z3 p) 0 1 (z3 q).
Proof.
  intros L B N. destruct p as [x y z]. exists (V3 ((2 * x - (r + l)) / (r - l)) ((2 * y - (t + b)) / (t - b)) ((- z - n) / (f - n))). unfold same_place. split; [|split; [|split]]; [unfold ortho3d_dx; uf; eq4; field; lra|cbn; field; lra..].
Qed.
(** zpl_mat4_ortho2d (and _dx): the depth changes its sign *)
Theorem C97_ortho2d (l r b t : R) (p : vec3 R) : l <> r -> b <> t -> exists q, moves (ortho2d l r b t) p q /\
  same_place l r (x3 p) (-1) 1 (x3 q) /\ same_place b t (y3 p) (-1) 1 (y3 q) /\ z3 q = - z3 p.
Proof.
  intros L B. destruct p as [x y z]. exists (V3 ((2 * x - (r + l)) / (r - l)) ((2 * y - (t + b)) / (t - b)) (- z)). unfold same_place. split; [|split; [|split]]; [unfold ortho2d; uf; eq4; field; lra|cbn; field; lra|cbn; field; lra|reflexivity].
Qed.
Example C97_ortho_ex : moves (ortho3d 0 640 480 0 1 101) (V3 320 120 (-51)) (V3 0 (1 / 2) 0).
Proof. unfold ortho3d. uf. eq4; field. Qed.

(** ** Perspective *)
(** At the distance d in front of the eye the picture is d * tan(fovy/2) high and aspect times as wide, up and down,
    left and right; its edges go to -1 and 1. *)
Definition lens (fovy aspect : R) (p q : vec3 R) : Prop :=
  let d := - z3 p in let h := d * tan (fovy / 2) in let w := aspect * h in
  same_place (- w) w (x3 p) (-1) 1 (x3 q) /\ same_place (- h) h (y3 p) (-1) 1 (y3 q).
Definition good_lens (fovy aspect : R) : Prop := 0 < fovy < PI /\ 0 < aspect.
Lemma tan_half fovy : 0 < fovy < PI -> 0 < tan (1 / 2 * fovy).
Proof. intros H. apply tan_gt_0; lra. Qed.
Definition at_depth (x y d : R) : vec3 R := V3 x y (- d).

(** zpl_mat4_perspective: the near plane to -1, the far plane to 1, increasing in between *)
Theorem C97_perspective (fovy aspect n f x y d : R) : good_lens fovy aspect -> 0 < n < f -> 0 < d ->
  exists q, projects (perspective fovy aspect n f) (at_depth x y d) q /\ lens fovy aspect (at_depth x y d) q /\
    (d = n -> z3 q = -1) /\ (d = f -> z3 q = 1) /\
    forall x' y' d' q', d < d' -> projects (perspective fovy aspect n f) (at_depth x' y' d') q' -> z3 q < z3 q'.
Proof.
  intros [L A] N D. pose proof (tan_half fovy L) as T. unfold perspective, lens, at_depth, projects. replace (fovy / 2) with (1 / 2 * fovy) by field. set (t := tan _) in *. clearbody t. uf. cbv zeta.
  eexists. split; [split; [|reflexivity]; lra|]. cbn [x3 y3 z3]. split; [unfold same_place; split; field; repeat split; lra|]. split; [intros ->; field; lra|]. split; [intros ->; field; lra|].
  intros x' y' d' q' D' [_ ->]. cbn [x3 y3 z3].
  assert (E : forall x y d, 0 < d -> (0 * x + 0 * y + - (f + n) / (f - n) * - d + -2 * f * n / (f - n)) / (0 * x + 0 * y + -1 * - d + 0) = (f + n) / (f - n) - (2 * f * n / (f - n)) * / d) by (intros; field; lra).
  rewrite !E by lra. assert (I : / d' < / d) by (apply Rinv_lt_contravar; nra). assert (K : 0 < 2 * f * n / (f - n)) by (apply Rdiv_lt_0_compat; nra). nra.
Qed.
Example C97_perspective_ex : good_lens (PI / 2) 2 /\ projects (perspective (PI / 2) 2 1 3) (at_depth 4 (-2) 2) (V3 1 (-1) (1 / 2)).
Proof.
  pose proof PI_RGT_0. split; [unfold good_lens; lra|]. unfold perspective, at_depth, projects. replace (1 / 2 * (PI / 2)) with (PI / 4) by field. rewrite tan_PI4. uf. split; [lra|]. eq3; field.
Qed.
(** zpl_mat4_infinite_perspective: the same without a far plane; the depth stays below 1 *)
Theorem C97_infinite_perspective (fovy aspect n x y d : R) : good_lens fovy aspect -> 0 < n -> 0 < d ->
  exists q, projects (infinite_perspective fovy aspect n) (at_depth x y d) q /\ lens fovy aspect (at_depth x y d) q /\
    (d = n -> z3 q = -1) /\ z3 q < 1 /\ (forall e, 0 < e -> 2 * n / e < d -> 1 - e < z3 q) /\
    forall x' y' d' q', d < d' -> projects (infinite_perspective fovy aspect n) (at_depth x' y' d') q' -> z3 q < z3 q'.
Proof.
  intros [L A] N D. pose proof (tan_half fovy L) as T. unfold infinite_perspective, lens, at_depth, projects. replace (fovy / 2) with (1 / 2 * fovy) by field. set (t := tan _) in *. clearbody t. uf. cbv zeta.
  assert (TN : 0 < t * n) by nra. assert (TNA : 0 < t * n * aspect) by nra.
  eexists. split; [split; [|reflexivity]; lra|]. cbn [x3 y3 z3]. split; [unfold same_place; split; field; repeat split; nra|]. split; [intros ->; field; lra|].
  assert (E : forall x y d, 0 < d -> (0 * x + 0 * y + -1 * - d + -2 * n) / (0 * x + 0 * y + -1 * - d + 0) = 1 - 2 * n * / d) by (intros; field; lra).
  rewrite !E by lra. assert (P : 0 < / d) by now apply Rinv_0_lt_compat. split; [nra|]. split.
  - intros e He H. assert (G : 2 * n * / d < e); [|lra]. apply (Rmult_lt_reg_r d); [lra|]. rewrite Rmult_assoc, Rinv_l, Rmult_1_r by lra. apply (Rmult_lt_compat_r e) in H; [|lra]. unfold Rdiv in H. rewrite Rmult_assoc, Rinv_l, Rmult_1_r in H by lra. lra.
  - intros x' y' d' q' D' [_ ->]. cbn [x3 y3 z3]. rewrite !E by lra. assert (I : / d' < / d) by (apply Rinv_lt_contravar; nra). nra.
Qed.
(** zpl_mat4_infinite_perspective_dx: depth from 0 *)
Theorem C97_infinite_perspective_dx (fovy aspect n x y d : R) : good_lens fovy aspect -> 0 < n -> 0 < d ->
  exists q, projects (infinite_perspective_dx fovy aspect n) (at_depth x y d) q /\ lens fovy aspect (at_depth x y d) q /\
    (d = n -> z3 q = 0) /\ z3 q < 1 /\ (forall e, 0 < e -> n / e < d -> 1 - e < z3 q) /\
    forall x' y' d' q', d < d' -> projects (infinite_perspective_dx fovy aspect n) (at_depth x' y' d') q' -> z3 q < z3 q'.
Proof.
  intros [L A] N D. pose proof (tan_half fovy L) as T. unfold infinite_perspective_dx, lens, at_depth, projects. replace (fovy / 2) with (1 / 2 * fovy) by field. set (t := tan _) in *. clearbody t. uf. cbv zeta.
  eexists. split; [split; [|reflexivity]; lra|]. cbn [x3 y3 z3]. split; [unfold same_place; split; field; repeat split; lra|]. split; [intros ->; field; lra|].
  assert (E : forall x y d, 0 < d -> (0 * x + 0 * y + -1 * - d + - n) / (0 * x + 0 * y + -1 * - d + 0) = 1 - n * / d) by (intros; field; lra).
  rewrite !E by lra. assert (P : 0 < / d) by now apply Rinv_0_lt_compat. split; [nra|]. split.
  - intros e He H. assert (G : n * / d < e); [|lra]. apply (Rmult_lt_reg_r d); [lra|]. rewrite Rmult_assoc, Rinv_l, Rmult_1_r by lra. apply (Rmult_lt_compat_r e) in H; [|lra]. unfold Rdiv in H. rewrite Rmult_assoc, Rinv_l, Rmult_1_r in H by lra. lra.
  - intros x' y' d' q' D' [_ ->]. cbn [x3 y3 z3]. rewrite !E by lra. assert (I : / d' < / d) by (apply Rinv_lt_contravar; nra). nra.
Qed.
(** zpl_mat4_perspective_dx: the lens is right, the depth is not, as the last column lacks the factor far: the near plane goes to
    (far-1)/(far-near), so that depth runs from 0 to 1 only if far is 1. *)
Theorem C97_perspective_dx (fovy aspect n f x y d : R) : good_lens fovy aspect -> 0 < n < f -> 0 < d ->
  exists q, projects (perspective_dx fovy aspect n f) (at_depth x y d) q /\ lens fovy aspect (at_depth x y d) q /\
    z3 q = (f * d - n) / (d * (f - n)) /\ (d = n -> (z3 q = 0 <-> f = 1)) /\ (d = f -> (z3 q = 1 <-> f = 1)).
Proof.
  intros [L A] N D. pose proof (tan_half fovy L) as T. unfold perspective_dx, lens, at_depth, projects. replace (fovy / 2) with (1 / 2 * fovy) by field. set (t := tan _) in *. clearbody t. uf. cbv zeta.
  eexists. split; [split; [|reflexivity]; lra|]. cbn [x3 y3 z3]. split; [unfold same_place; split; field; repeat split; lra|].
  assert (E : (0 * x + 0 * y + - f / (f - n) * - d + - n / (f - n)) / (0 * x + 0 * y + -1 * - d + 0) = (f * d - n) / (d * (f - n))) by (field; lra). rewrite E. clear E. split; [reflexivity|]. split.
  - intros ->. split; [|intros ->; field; lra]. intros H. assert (G : f * n - n = 0) by (transitivity ((f * n - n) / (n * (f - n)) * (n * (f - n))); [field; lra|rewrite H; ring]). nra.
  - intros ->. split; [|intros ->; field; lra]. intros H. assert (G : f * f - n = f * (f - n)) by (transitivity ((f * f - n) / (f * (f - n)) * (f * (f - n))); [field; lra|rewrite H; ring]). nra.
Qed.
Theorem C97_perspective_dx_refuted : exists fovy aspect n f q, good_lens fovy aspect /\ 0 < n < f /\
  projects (perspective_dx fovy aspect n f) (at_depth 0 0 n) q /\ 49 / 50 < z3 q.
Proof.
  pose proof PI_RGT_0. assert (G : good_lens (PI / 2) 1) by (unfold good_lens; lra). destruct (C97_perspective_dx (PI / 2) 1 (1 / 10) 100 0 0 (1 / 10) G) as (q & P & _ & E & _); [lra|lra|].
  exists (PI / 2), 1, (1 / 10), 100, q. split; [exact G|]. split; [lra|]. split; [exact P|]. rewrite E. match goal with |- _ < ?v => replace v with (990 / 999) by field end. lra.
Qed.

Print Assumptions C97_look_at. Print Assumptions C97_look_at_lh. Print Assumptions C97_perspective. Print Assumptions C97_infinite_perspective.
Print Assumptions C97_perspective_dx. Print Assumptions C97_perspective_dx_refuted. Print Assumptions C97_ortho3d.
