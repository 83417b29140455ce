(** C104: lengths, directions, sides and interpolation of vectors, in exact arithmetic. *)
From Coq Require Import Reals Psatz Lra Nsatz.
From Coquelicot Require Import Coquelicot.
From Verif Require Import Base Vec Rot Plane.
Local Open Scope R_scope.

(** ** What is meant *)
(** the coordinates of a vector *)
Definition coords2 (v : vec2 R) : list R := [x2 v; y2 v].
Definition coords3 (v : vec3 R) : list R := [x3 v; y3 v; z3 v].
Definition coords4 (v : vec4 R) : list R := [x4 v; y4 v; z4 v; w4 v].
Definition sum (l : list R) : R := fold_right Rplus 0 l.
Definition prod (a b : list R) : list R := map (fun p => fst p * snd p) (combine a b).
(** the inner product and the length of lists of coordinates *)
Definition inner (a b : list R) : R := sum (prod a b).
Definition len (l : list R) : R := sqrt (inner l l).
Definition plus (a b : list R) : list R := map (fun p => fst p + snd p) (combine a b).
Definition times (s : R) (a : list R) : list R := map (Rmult s) a.
(** u has length one and the direction of v *)
Definition direction (u v : list R) : Prop := len u = 1 /\ exists s, 0 < s /\ u = times s v.
Definition zero (v : list R) : Prop := Forall (eq 0) v.

(** ** Facts about lists *)
Lemma inner_nonneg l : 0 <= inner l l.
Proof. induction l as [|a l IH]; [unfold inner; cbn; lra|]. change (0 <= a * a + inner l l). pose proof (Rle_0_sqr a) as Q. unfold Rsqr in Q. lra. Qed.
Lemma inner_zero l : inner l l = 0 <-> zero l.
Proof.
  induction l as [|a l IH]. { split; intros _; [constructor|reflexivity]. } change (inner (a :: l) (a :: l)) with (a * a + inner l l). pose proof (inner_nonneg l) as N. split.
  - intros H. assert (A : a = 0) by nra. constructor; [now symmetry|]. apply IH. nra.
  - intros H. inversion H as [|? ? <- Z]; subst. rewrite (proj2 IH Z). ring.
Qed.
Lemma inner_times s l m : inner (times s l) m = s * inner l m.
Proof.
  revert m. induction l as [|a l IH]; intros [|b m]; try (unfold inner, times; cbn; ring). change (inner (times s (a :: l)) (b :: m)) with (s * a * b + inner (times s l) m). change (inner (a :: l) (b :: m)) with (a * b + inner l m). rewrite IH. ring.
Qed.
Lemma inner_sym l m : inner l m = inner m l.
Proof.
  revert m. induction l as [|a l IH]; intros [|b m]; try reflexivity. change (inner (a :: l) (b :: m)) with (a * b + inner l m). change (inner (b :: m) (a :: l)) with (b * a + inner m l). rewrite IH. ring.
Qed.
Lemma inner_plus l m k : length l = length m -> inner (plus l m) k = inner l k + inner m k.
Proof.
  revert m k. induction l as [|a l IH]; intros [|b m] [|c k] L; try discriminate L; try (unfold inner; cbn; ring). change (inner (plus (a :: l) (b :: m)) (c :: k)) with ((a + b) * c + inner (plus l m) k). change (inner (a :: l) (c :: k)) with (a * c + inner l k). change (inner (b :: m) (c :: k)) with (b * c + inner m k). rewrite IH by (injection L; auto). ring.
Qed.
Lemma len_nonneg l : 0 <= len l.
Proof. apply sqrt_pos. Qed.
Lemma len_sqr l : len l * len l = inner l l.
Proof. apply sqrt_sqrt, inner_nonneg. Qed.
Lemma len_zero l : len l = 0 <-> zero l.
Proof.
  rewrite <- inner_zero. split; intros H; [rewrite <- len_sqr, H; ring|]. unfold len. rewrite H. apply sqrt_0.
Qed.
Lemma len_times s l : len (times s l) = Rabs s * len l.
Proof.
  unfold len. rewrite inner_times, inner_sym, inner_times. replace (s * (s * inner l l)) with (Rsqr s * inner l l) by (unfold Rsqr; ring). rewrite sqrt_mult; [now rewrite sqrt_Rsqr_abs|apply Rle_0_sqr|apply inner_nonneg].
Qed.
Lemma length_plus l m : length l = length m -> length (plus l m) = length l.
Proof. intros H. unfold plus. rewrite map_length, combine_length. lia. Qed.
Lemma length_times s l : length (times s l) = length l.
Proof. apply map_length. Qed.
(** the inequality of Cauchy and Schwarz *)
Lemma cauchy l m : length l = length m -> Rsqr (inner l m) <= inner l l * inner m m.
Proof.
  intros L. destruct (Req_dec (inner m m) 0) as [Z|Z].
  - (* m is zero *)
    assert (E : inner l m = 0). { rewrite inner_sym. apply inner_zero in Z. clear L. revert l. induction m as [|b m IH]; intros [|a l]; try reflexivity. inversion Z as [|? ? <- Z']; subst. change (0 * a + inner m l = 0). rewrite IH by exact Z'. ring. }
    rewrite E, Z. unfold Rsqr. lra.
  - pose proof (inner_nonneg m) as P. set (c := inner l m / inner m m).
    pose proof (inner_nonneg (plus l (times (- c) m))) as Q. rewrite inner_plus in Q by now rewrite length_times. rewrite inner_times in Q. rewrite (inner_sym l), (inner_sym m) in Q. rewrite !inner_plus in Q by now rewrite length_times. rewrite !inner_times in Q. rewrite (inner_sym m l) in Q.
    assert (C : c * inner m m = inner l m) by (unfold c; field; exact Z). unfold Rsqr. nra.
Qed.
Lemma cauchy_len l m : length l = length m -> Rabs (inner l m) <= len l * len m.
Proof.
  intros L. apply Rsqr_incr_0_var; [|apply Rmult_le_pos; apply len_nonneg]. rewrite <- Rsqr_abs. unfold Rsqr at 2. replace (len l * len m * (len l * len m)) with ((len l * len l) * (len m * len m)) by ring. rewrite !len_sqr. now apply cauchy.
Qed.
Lemma triangle l m : length l = length m -> len (plus l m) <= len l + len m.
Proof.
  intros L. pose proof (len_nonneg l). pose proof (len_nonneg m). apply Rsqr_incr_0_var; [|lra]. unfold Rsqr. rewrite len_sqr, inner_plus by exact L. rewrite (inner_sym l), (inner_sym m), !inner_plus by exact L. rewrite (inner_sym m l). pose proof (cauchy_len l m L) as C. pose proof (Rle_abs (inner l m)). pose proof (len_sqr l). pose proof (len_sqr m). nra.
Qed.

Ltac coords := unfold inner, plus, times, prod, coords2, coords3, coords4; cbn; unfold vec2_dot, vec3_dot, vec4_dot; cbn.
Lemma dot2 a b : vec2_dot a b = inner (coords2 a) (coords2 b).
Proof. coords. ring. Qed.
Lemma dot3 a b : vec3_dot a b = inner (coords3 a) (coords3 b).
Proof. coords. ring. Qed.
Lemma dot4 a b : vec4_dot a b = inner (coords4 a) (coords4 b).
Proof. coords. ring. Qed.

(** ** Lengths *)
Theorem C104_mag (a : vec2 R) (b : vec3 R) (c : vec4 R) :
  vec2_mag a = len (coords2 a) /\ vec3_mag b = len (coords3 b) /\ vec4_mag c = len (coords4 c) /\
  vec2_mag2 a = vec2_mag a * vec2_mag a /\ vec3_mag2 b = vec3_mag b * vec3_mag b /\ vec4_mag2 c = vec4_mag c * vec4_mag c.
Proof.
  unfold vec2_mag2, vec3_mag2, vec4_mag2, vec2_mag, vec3_mag, vec4_mag. rewrite dot2, dot3, dot4. repeat split; try reflexivity; symmetry; apply sqrt_sqrt, inner_nonneg.
Qed.
(** length is zero for the zero vector only, scales with the vector and satisfies the triangle inequality; the inner product is bounded by the lengths *)
Theorem C104_mag2d (a b : vec2 R) (s : R) : (vec2_mag a = 0 <-> a = V2 0 0) /\ vec2_mag (vec2_mul a s) = Rabs s * vec2_mag a /\ vec2_mag (vec2_add a b) <= vec2_mag a + vec2_mag b /\ Rabs (vec2_dot a b) <= vec2_mag a * vec2_mag b.
Proof.
  unfold vec2_mag. rewrite !dot2. fold (len (coords2 a)) (len (coords2 b)) (len (coords2 (vec2_mul a s))) (len (coords2 (vec2_add a b))). split; [|split; [|split]].
  - rewrite len_zero. destruct a as [x y]. split; [intros H; inversion H as [|? ? <- H']; inversion H' as [|? ? <- _]; reflexivity|intros [= -> ->]; repeat constructor].
  - rewrite <- len_times. f_equal. coords. now rewrite !(Rmult_comm s).
  - exact (triangle (coords2 a) (coords2 b) eq_refl).
  - now apply cauchy_len.
Qed.
Theorem C104_mag3d (a b : vec3 R) (s : R) : (vec3_mag a = 0 <-> a = V3 0 0 0) /\ vec3_mag (vec3_mul a s) = Rabs s * vec3_mag a /\ vec3_mag (vec3_add a b) <= vec3_mag a + vec3_mag b /\ Rabs (vec3_dot a b) <= vec3_mag a * vec3_mag b.
Proof.
  unfold vec3_mag. rewrite !dot3. fold (len (coords3 a)) (len (coords3 b)) (len (coords3 (vec3_mul a s))) (len (coords3 (vec3_add a b))). split; [|split; [|split]].
  - rewrite len_zero. destruct a as [x y z]. split; [intros H; inversion H as [|? ? <- H']; inversion H' as [|? ? <- H'']; inversion H'' as [|? ? <- _]; reflexivity|intros [= -> -> ->]; repeat constructor].
  - rewrite <- len_times. f_equal. coords. now rewrite !(Rmult_comm s).
  - exact (triangle (coords3 a) (coords3 b) eq_refl).
  - now apply cauchy_len.
Qed.
Theorem C104_mag4d (a b : vec4 R) (s : R) : (vec4_mag a = 0 <-> a = V4 0 0 0 0) /\ vec4_mag (vec4_mul a s) = Rabs s * vec4_mag a /\ vec4_mag (vec4_add a b) <= vec4_mag a + vec4_mag b /\ Rabs (vec4_dot a b) <= vec4_mag a * vec4_mag b.
Proof.
  unfold vec4_mag. rewrite !dot4. fold (len (coords4 a)) (len (coords4 b)) (len (coords4 (vec4_mul a s))) (len (coords4 (vec4_add a b))). split; [|split; [|split]].
  - rewrite len_zero. destruct a as [x y z w]. split; [intros H; inversion H as [|? ? <- H']; inversion H' as [|? ? <- H'']; inversion H'' as [|? ? <- K3]; inversion K3 as [|? ? <- _]; reflexivity|intros [= -> -> -> ->]; repeat constructor].
  - rewrite <- len_times. f_equal. coords. now rewrite !(Rmult_comm s).
  - exact (triangle (coords4 a) (coords4 b) eq_refl).
  - now apply cauchy_len.
Qed.

(** ** Directions *)
Lemma direction_of v : ~ zero v -> direction (times (/ len v) v) v.
Proof.
  intros Z. assert (L : 0 < len v) by (destruct (len_nonneg v) as [|E]; [assumption|destruct Z; apply len_zero; now symmetry]). split; [|exists (/ len v); split; [now apply Rinv_0_lt_compat|reflexivity]]. rewrite len_times, Rabs_right by (apply Rle_ge; left; now apply Rinv_0_lt_compat). field. lra.
Qed.
Lemma not_zero_pos v : ~ zero v -> 0 < inner v v.
Proof. intros Z. destruct (inner_nonneg v) as [|E]; [assumption|]. destruct Z. apply inner_zero. now symmetry. Qed.
(** zpl_vec2_norm gives the direction of any vector but zero, for which it gives NaN; zpl_vec2_norm0 gives zero for zero. *)
Theorem C104_norm (a : vec2 R) (b : vec3 R) (c : vec4 R) :
  (~ zero (coords2 a) -> exists u, vec2_norm a = Some u /\ direction (coords2 u) (coords2 a)) /\ (zero (coords2 a) -> vec2_norm a = None) /\
  (~ zero (coords3 b) -> exists u, vec3_norm b = Some u /\ direction (coords3 u) (coords3 b)) /\ (zero (coords3 b) -> vec3_norm b = None) /\
  (~ zero (coords4 c) -> exists u, vec4_norm c = Some u /\ direction (coords4 u) (coords4 c)) /\ (zero (coords4 c) -> vec4_norm c = None).
Proof.
  assert (G : forall v, ~ zero v -> rsqrt (inner v v) = Some (/ len v)). { intros v Z. unfold rsqrt. destruct (Rlt_dec 0 (inner v v)) as [_|N]; [|destruct N; now apply not_zero_pos]. unfold len. f_equal. unfold Rdiv. ring. }
  assert (H : forall v, zero v -> rsqrt (inner v v) = None). { intros v Z. apply inner_zero in Z. unfold rsqrt. rewrite Z. destruct (Rlt_dec 0 0); [lra|reflexivity]. }
  unfold vec2_norm, vec3_norm, vec4_norm. rewrite dot2, dot3, dot4. repeat split; intros Z; (rewrite (H _ Z) by exact Z; reflexivity) || (rewrite (G _ Z); cbn [obind]; eexists; split; [reflexivity|]).
  - replace (coords2 _) with (times (/ len (coords2 a)) (coords2 a)) by (coords; now rewrite !(Rmult_comm (/ _))). now apply direction_of.
  - replace (coords3 _) with (times (/ len (coords3 b)) (coords3 b)) at 1 by (coords; now rewrite !(Rmult_comm (/ _))). now apply direction_of.
  - replace (coords4 _) with (times (/ len (coords4 c)) (coords4 c)) at 1 by (coords; now rewrite !(Rmult_comm (/ _))). now apply direction_of.
Qed.
Theorem C104_norm0 (a : vec2 R) (b : vec3 R) (c : vec4 R) :
  (~ zero (coords2 a) -> direction (coords2 (vec2_norm0 a)) (coords2 a)) /\ (zero (coords2 a) -> vec2_norm0 a = V2 0 0) /\
  (~ zero (coords3 b) -> direction (coords3 (vec3_norm0 b)) (coords3 b)) /\ (zero (coords3 b) -> vec3_norm0 b = V3 0 0 0) /\
  (~ zero (coords4 c) -> direction (coords4 (vec4_norm0 c)) (coords4 c)) /\ (zero (coords4 c) -> vec4_norm0 c = V4 0 0 0 0).
Proof.
  unfold vec2_norm0, vec3_norm0, vec4_norm0, vec2_mag, vec3_mag, vec4_mag. rewrite dot2, dot3, dot4. fold (len (coords2 a)) (len (coords3 b)) (len (coords4 c)).
  assert (G : forall v, ~ zero v -> 0 < len v) by (intros v Z; destruct (len_nonneg v) as [|E]; [assumption|destruct Z; apply len_zero; now symmetry]).
  split; [|split; [|split; [|split; [|split]]]]; intros Z;
    match goal with |- context [Rlt_dec 0 (len ?v)] => destruct (Rlt_dec 0 (len v)) as [P|P] end;
    try (exfalso; apply len_zero in Z; lra); try reflexivity; try (exfalso; apply P; now apply G).
  all: match type of Z with ~ zero ?v => replace (direction _ v) with (direction (times (/ len v) v) v); [now apply direction_of|] end; f_equal; coords; unfold Rdiv; now rewrite !(Rmult_comm (/ _)).
Qed.

(** ** The larger coordinate *)
Lemma maxr_spec a b : (maxr a b = a \/ maxr a b = b) /\ a <= maxr a b /\ b <= maxr a b.
Proof. unfold maxr. destruct (Rgt_dec a b); split; auto; lra. Qed.
Theorem C104_max (a : vec2 R) (b : vec3 R) : In (vec2_max a) (coords2 a) /\ Forall (fun x => x <= vec2_max a) (coords2 a) /\ In (vec3_max b) (coords3 b) /\ Forall (fun x => x <= vec3_max b) (coords3 b).
Proof.
  unfold vec2_max, vec3_max, coords2, coords3. destruct (maxr_spec (x2 a) (y2 a)) as (A & B & C). destruct (maxr_spec (x3 b) (y3 b)) as (D & E & F). set (m := maxr (x3 b) (y3 b)) in *. destruct (maxr_spec m (z3 b)) as (G & H & I). split; [|split; [|split]].
  - destruct A as [->| ->]; cbn; auto.
  - repeat (apply Forall_cons; [lra|]); apply Forall_nil.
  - cbn. destruct G as [->| ->]; [|auto]. destruct D as [->| ->]; auto.
  - repeat (apply Forall_cons; [lra|]); apply Forall_nil.
Qed.

(** ** Sides *)
(** r is on the line through p and q *)
Definition on_line (p q r : vec2 R) : Prop := exists t, r = vec2_add p (vec2_mul (vec2_sub q p) t).
(** the image under turning by the angle with this cosine and sine, then moving by m *)
Definition moved (c s : R) (m v : vec2 R) : vec2 R := V2 (c * x2 v - s * y2 v + x2 m) (s * x2 v + c * y2 v + y2 m).
Theorem C104_side (p q r : vec2 R) : vec2_side p q r = vec2_side q r p /\ vec2_side q p r = - vec2_side p q r /\ (p <> q -> (vec2_side p q r = 0 <-> on_line p q r)).
Proof.
  destruct p as [px py], q as [qx qy], r as [rx ry]. unfold vec2_side, on_line, vec2_add, vec2_mul, vec2_sub. cbn. split; [ring|]. split; [ring|]. intros N. split.
  - intros H. destruct (Req_dec qx px) as [E|E].
    + assert (qy <> py) by (intros F; apply N; now rewrite E, F). exists ((ry - py) / (qy - py)). subst qx. assert (rx = px) by (assert (K : (rx - px) * (qy - py) = 0) by lra; apply Rmult_integral in K; lra). f_equal; [subst; ring|field; lra].
    + exists ((rx - px) / (qx - px)). f_equal; [field; lra|]. apply Rmult_eq_reg_r with (qx - px); [|lra]. field_simplify; [nra|lra].
  - intros (t & [= -> ->]). ring.
Qed.
(** the side is the distance from the line, times the distance of the points, and positive to the left, where y is to the left of x; turning and moving keeps it *)
Theorem C104_side_left (p q : vec2 R) (t d : R) : vec2_side p q (V2 (x2 p + t * (x2 q - x2 p) - d * (y2 q - y2 p)) (y2 p + t * (y2 q - y2 p) + d * (x2 q - x2 p))) = d * vec2_mag2 (vec2_sub q p).
Proof. unfold vec2_side, vec2_mag2, vec2_dot, vec2_sub. cbn. ring. Qed.
Theorem C104_side_moved (c s : R) (m p q r : vec2 R) : c * c + s * s = 1 -> vec2_side (moved c s m p) (moved c s m q) (moved c s m r) = vec2_side p q r.
Proof.
  intros H. unfold vec2_side, moved. cbn. transitivity ((c * c + s * s) * ((x2 q - x2 p) * (y2 r - y2 p) - (x2 r - x2 p) * (y2 q - y2 p))); [ring|]. rewrite H. ring.
Qed.
(** all points between two on the same side are on that side *)
Theorem C104_side_between (p q a b : vec2 R) (t : R) : 0 <= t <= 1 -> 0 < vec2_side p q a -> 0 < vec2_side p q b -> 0 < vec2_side p q (vec2_lerp a b t).
Proof.
  intros T A B. assert (E : vec2_side p q (vec2_lerp a b t) = (1 - t) * vec2_side p q a + t * vec2_side p q b) by (unfold vec2_side, vec2_lerp, vec2_add, vec2_mul, vec2_sub; cbn; ring). rewrite E. nra.
Qed.
(** zpl_vec2_cross *)
Theorem C104_cross (a b : vec2 R) : vec2_cross a b = vec2_side (V2 0 0) a b /\ vec2_cross a b * vec2_cross a b + vec2_dot a b * vec2_dot a b = vec2_mag2 a * vec2_mag2 b.
Proof. unfold vec2_cross, vec2_side, vec2_dot, vec2_mag2, vec2_dot. cbn. split; ring. Qed.

(** ** Reflection and refraction *)
Theorem C104_reflect (i j n : vec2 R) : vec2_dot n n = 1 -> vec2_dot (vec2_reflect i n) (vec2_reflect j n) = vec2_dot i j /\ vec2_dot n (vec2_reflect i n) = - vec2_dot n i /\ vec2_cross n (vec2_reflect i n) = vec2_cross n i /\ vec2_reflect (vec2_reflect i n) n = i.
Proof.
  destruct i as [a b], j as [c d], n as [x y]. unfold vec2_reflect, vec2_dot, vec2_cross, vec2_sub, vec2_mul. cbn. intros H. repeat split.
  - nsatz.
  - nsatz.
  - ring.
  - f_equal; nsatz.
Qed.
(** the part along the surface is scaled by eta; the part along the normal is not what it should be: - sqrt k. Where there is no refracted ray the result is NaN, not zero *)
Theorem C104_refract (i n : vec2 R) (eta : R) : vec2_dot n n = 1 ->
  (0 <= refract2_k i n eta -> exists d, vec2_refract i n eta = Some d /\ vec2_cross n d = eta * vec2_cross n i /\ vec2_dot n d = eta * vec2_dot n i * (1 - sqrt (refract2_k i n eta))) /\
  (refract2_k i n eta < 0 -> vec2_refract i n eta = None).
Proof.
  intros H. unfold vec2_refract. set (k := refract2_k i n eta). set (s := sqrt k). clearbody s. destruct (Rlt_dec k 0) as [K|K]; (split; intros P; [|try lra; try reflexivity]); [lra|]. eexists. split; [reflexivity|]. revert H. destruct i as [a b], n as [x y]. unfold vec2_dot, vec2_cross, vec2_sub, vec2_mul. cbn. intros H. split; [ring|nsatz].
Qed.
(** Snell's law: a unit vector whose part along the surface is eta times that of i, on the other side of it *)
Definition refracted (d i n : vec2 R) (eta : R) : Prop := vec2_dot d d = 1 /\ vec2_cross n d = eta * vec2_cross n i /\ vec2_dot n d <= 0.
Theorem C104_refract_refuted (i n : vec2 R) (eta : R) : vec2_dot n n = 1 -> vec2_dot i i = 1 -> vec2_dot n i < 0 -> 0 <= refract2_k i n eta ->
  exists d, vec2_refract i n eta = Some d /\ (refracted d i n eta <-> eta * vec2_dot n i * (1 - sqrt (refract2_k i n eta)) = - sqrt (refract2_k i n eta)).
Proof.
  intros N I S K. destruct (proj1 (C104_refract i n eta N) K) as (d & -> & T & D). exists d. split; [reflexivity|]. rewrite <- D. pose proof (sqrt_pos (refract2_k i n eta)) as SP. pose proof (sqrt_sqrt _ K) as SS. set (s := sqrt (refract2_k i n eta)) in *.
  assert (L : vec2_dot d d = vec2_cross n d * vec2_cross n d + vec2_dot n d * vec2_dot n d). { clear - N. revert N. destruct d as [a b], n as [x y]. unfold vec2_dot, vec2_cross. cbn. intros N. nsatz. }
  assert (L' : 1 = vec2_cross n i * vec2_cross n i + vec2_dot n i * vec2_dot n i). { rewrite <- I. clear - N. revert N. destruct i as [a b], n as [x y]. unfold vec2_dot, vec2_cross. cbn. intros N. nsatz. }
  (* the length is one iff the normal part has square k *)
  assert (Q : refract2_k i n eta = 1 - vec2_cross n d * vec2_cross n d). { rewrite T. unfold refract2_k. cbn. rewrite L' at 2. ring. }
  unfold refracted. rewrite L. split.
  - intros (A & _ & B). assert (E : vec2_dot n d * vec2_dot n d = s * s) by lra. assert (F : (vec2_dot n d - s) * (vec2_dot n d + s) = 0) by lra. apply Rmult_integral in F. destruct F as [F|F]; lra.
  - intros E. split; [|split; [exact T|lra]]. rewrite E. lra.
Qed.
(** straight through: the result is the zero vector *)
Theorem C104_refract_straight_refuted (n : vec2 R) (eta : R) : vec2_dot n n = 1 -> vec2_refract (vec2_mul n (-1)) n eta = Some (V2 0 0).
Proof.
  intros H. unfold vec2_refract, refract2_k. assert (D : vec2_dot n (vec2_mul n (-1)) = -1). { revert H. unfold vec2_dot, vec2_mul. cbn. intros H. lra. } rewrite D. replace (1 - eta * eta * (1 - -1 * -1)) with 1 by ring. destruct (Rlt_dec 1 0) as [K|_]; [lra|]. rewrite sqrt_1. f_equal. unfold vec2_sub, vec2_mul. cbn. f_equal; ring.
Qed.
Theorem C104_refract_three (i n : vec3 R) (eta : R) : vec3_dot n n = 1 ->
  let k := 1 - eta * eta * (1 - vec3_dot n i * vec3_dot n i) in
  (0 <= k -> exists d, vec3_refract_real i n eta = Some d /\ vec3_cross n d = vec3_mul (vec3_cross n i) eta /\ vec3_dot n d = eta * vec3_dot n i * (1 - sqrt k)) /\ (k < 0 -> vec3_refract_real i n eta = None).
Proof.
  intros H k. unfold vec3_refract_real. fold k. set (s := sqrt k). clearbody s. destruct (Rlt_dec k 0) as [K|K]; (split; intros P; [|try lra; try reflexivity]); [lra|]. eexists. split; [reflexivity|]. clear k K P. revert H. destruct i as [a b c], n as [x y z]. unfold vec3_dot, vec3_cross, vec3_sub, vec3_mul. cbn. intros H. split; [f_equal; ring|nsatz].
Qed.

(** ** Ratios of width and height *)
Theorem C104_aspect_ratio (w h : R) : (h < aspect_eps -> vec2_aspect_ratio (V2 w h) = 0) /\ (aspect_eps <= h -> vec2_aspect_ratio (V2 w h) * h = w).
Proof.
  unfold vec2_aspect_ratio. cbn. split; intros H; destruct (Rlt_dec h aspect_eps); try lra. unfold aspect_eps in H. field. lra.
Qed.

(** ** Interpolation *)
Theorem C104_lerp2 (a b : vec2 R) (t : R) : vec2_lerp a b 0 = a /\ vec2_lerp a b 1 = b /\ vec2_lerp a b t = vec2_lerp b a (1 - t) /\
  vec2_mag (vec2_sub (vec2_lerp a b t) a) = Rabs t * vec2_mag (vec2_sub b a) /\ vec2_mag (vec2_sub b (vec2_lerp a b t)) = Rabs (1 - t) * vec2_mag (vec2_sub b a).
Proof.
  destruct (C104_mag2d (vec2_sub b a) a t) as (_ & A & _). destruct (C104_mag2d (vec2_sub b a) a (1 - t)) as (_ & B & _). rewrite <- A, <- B. destruct a as [x y], b as [z w]. unfold vec2_lerp, vec2_add, vec2_mul, vec2_sub. cbn. repeat split; f_equal; try ring; f_equal; ring.
Qed.
Theorem C104_lerp3 (a b : vec3 R) (t : R) : vec3_lerp a b 0 = a /\ vec3_lerp a b 1 = b /\ vec3_lerp a b t = vec3_lerp b a (1 - t) /\
  vec3_mag (vec3_sub (vec3_lerp a b t) a) = Rabs t * vec3_mag (vec3_sub b a) /\ vec3_mag (vec3_sub b (vec3_lerp a b t)) = Rabs (1 - t) * vec3_mag (vec3_sub b a).
Proof.
  destruct (C104_mag3d (vec3_sub b a) a t) as (_ & A & _). destruct (C104_mag3d (vec3_sub b a) a (1 - t)) as (_ & B & _). rewrite <- A, <- B. destruct a as [x y z], b as [p q r]. unfold vec3_lerp, vec3_add, vec3_mul, vec3_sub. cbn. repeat split; f_equal; try ring; f_equal; ring.
Qed.
Theorem C104_lerp4 (a b : vec4 R) (t : R) : quat_lerp a b 0 = a /\ quat_lerp a b 1 = b /\ quat_lerp a b t = quat_lerp b a (1 - t) /\
  vec4_mag (vec4_sub (quat_lerp a b t) a) = Rabs t * vec4_mag (vec4_sub b a) /\ vec4_mag (vec4_sub b (quat_lerp a b t)) = Rabs (1 - t) * vec4_mag (vec4_sub b a).
Proof.
  destruct (C104_mag4d (vec4_sub b a) a t) as (_ & A & _). destruct (C104_mag4d (vec4_sub b a) a (1 - t)) as (_ & B & _). rewrite <- A, <- B. destruct a as [x y z w], b as [p q r s]. unfold quat_lerp, vec4_add, vec4_mul, vec4_sub. cbn. repeat split; f_equal; try ring; f_equal; ring.
Qed.
(** the curve starts at a, ends at b, and zpl_vec2_dcslerp is its speed, v0 at the start and v1 at the end *)
Theorem C104_curve (a v0 b v1 : vec2 R) (t : R) : vec2_cslerp a v0 b v1 0 = a /\ vec2_cslerp a v0 b v1 1 = b /\ vec2_dcslerp a v0 b v1 0 = v0 /\ vec2_dcslerp a v0 b v1 1 = v1 /\
  derivable_pt_lim (fun t => x2 (vec2_cslerp a v0 b v1 t)) t (x2 (vec2_dcslerp a v0 b v1 t)) /\ derivable_pt_lim (fun t => y2 (vec2_cslerp a v0 b v1 t)) t (y2 (vec2_dcslerp a v0 b v1 t)).
Proof.
  assert (D : forall a v0 b v1, derivable_pt_lim (fun t => (1 + 2 * t) * ((t - 1) * (t - 1)) * a + t * ((t - 1) * (t - 1)) * v0 + t * t * (3 - 2 * t) * b + t * t * (t - 1) * v1) t ((6 * (t * t) - 6 * t) * a + (3 * (t * t) - 4 * t + 1) * v0 + (- (6) * (t * t) + 6 * t) * b + (3 * (t * t) - 2 * t) * v1)).
  { clear. intros a v0 b v1. apply -> is_derive_Reals. auto_derive; [exact I|ring]. }
  destruct a as [a a'], b as [b b'], v0 as [v v'], v1 as [w w']. split; [unfold vec2_cslerp; cbn; f_equal; ring|]. split; [unfold vec2_cslerp; cbn; f_equal; ring|]. split; [unfold vec2_dcslerp; cbn; f_equal; ring|]. split; [unfold vec2_dcslerp; cbn; f_equal; ring|]. split; apply D.
Qed.

(** ** Examples *)
Example C104_ex : vec2_mag (V2 3 4) = 5 /\ vec2_max (V2 3 4) = 4 /\ vec2_side (V2 0 0) (V2 1 0) (V2 3 2) = 2 /\ vec2_lerp (V2 0 0) (V2 3 4) (1 / 2) = V2 (3 / 2) 2.
Proof.
  unfold vec2_mag, vec2_dot, vec2_max, maxr, vec2_side, vec2_lerp, vec2_add, vec2_mul, vec2_sub. cbn. repeat split; try lra.
  - replace (3 * 3 + 4 * 4) with (5 * 5) by ring. apply sqrt_square. lra.
  - destruct (Rgt_dec 3 4); lra.
  - f_equal; lra.
Qed.
Example C104_norm_ex : ~ zero (coords2 (V2 3 4)) /\ ~ zero (coords3 (V3 0 2 0)) /\ zero (coords4 (V4 0 0 0 0)).
Proof. split; [|split]; [intros H; inversion H; lra|intros H; inversion H as [|? ? _ H']; inversion H'; lra|repeat constructor]. Qed.
Example C104_refract_ex : vec2_dot (V2 0 1) (V2 0 1) = 1 /\ vec2_dot (V2 (3 / 5) (- (4 / 5))) (V2 (3 / 5) (- (4 / 5))) = 1 /\ vec2_dot (V2 0 1) (V2 (3 / 5) (- (4 / 5))) < 0 /\ 0 <= refract2_k (V2 (3 / 5) (- (4 / 5))) (V2 0 1) (1 / 2) /\ refract2_k (V2 (3 / 5) (- (4 / 5))) (V2 0 1) 2 < 0.
Proof. unfold refract2_k, vec2_dot. cbn. lra. Qed.
Example C104_side_ex : (0 < vec2_side (V2 0 0) (V2 1 0) (V2 0 1) /\ 0 < vec2_side (V2 0 0) (V2 1 0) (V2 3 1)) /\ V2 0 0 <> V2 1 0 /\ (3 / 5) * (3 / 5) + (4 / 5) * (4 / 5) = 1.
Proof. unfold vec2_side. cbn. split; [lra|]. split; [intros [=]; lra|lra]. Qed.
Print Assumptions C104_mag.
Print Assumptions C104_mag2d.
Print Assumptions C104_mag3d.
Print Assumptions C104_mag4d.
Print Assumptions C104_norm.
Print Assumptions C104_norm0.
Print Assumptions C104_max.
Print Assumptions C104_side.
Print Assumptions C104_side_left.
Print Assumptions C104_side_moved.
Print Assumptions C104_side_between.
Print Assumptions C104_cross.
Print Assumptions C104_reflect.
Print Assumptions C104_refract.
Print Assumptions C104_refract_refuted.
Print Assumptions C104_refract_straight_refuted.
Print Assumptions C104_refract_three.
Print Assumptions C104_aspect_ratio.
Print Assumptions C104_lerp2.
Print Assumptions C104_lerp3.
Print Assumptions C104_lerp4.
Print Assumptions C104_curve.
