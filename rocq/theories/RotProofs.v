(** Lemmas on rotations, quaternions and arctan2. *)
From Verif Require Import RotModel.
From Coq Require Import Lra.
Open Scope R_scope.

Ltac mcbn := cbv beta iota delta [mmul mapply madd mscale transpose eye det m00 m01 m02 m10 m11 m12 m20 m21 m22 v0 v1 v2 vadd vsub vscale vdiv vdot cross skew qw qx qy qz qmul qdiv rot_of].
Ltac mcbn_in H := cbv beta iota delta [mmul mapply madd mscale transpose eye det m00 m01 m02 m10 m11 m12 m20 m21 m22 v0 v1 v2 vadd vsub vscale vdiv vdot cross skew qw qx qy qz qmul qdiv rot_of] in H.
Ltac mat_ring := mcbn; f_equal; ring.

Lemma mmul_assoc a b c : mmul a (mmul b c) = mmul (mmul a b) c.
Proof. destruct a, b, c. mat_ring. Qed.
Lemma mmul_eye_l a : mmul eye a = a.
Proof. destruct a. mat_ring. Qed.
Lemma mmul_eye_r a : mmul a eye = a.
Proof. destruct a. mat_ring. Qed.
Lemma transpose_mmul a b : transpose (mmul a b) = mmul (transpose b) (transpose a).
Proof. destruct a, b. mat_ring. Qed.
Lemma transpose_transpose a : transpose (transpose a) = a.
Proof. destruct a. reflexivity. Qed.
Lemma det_mmul a b : det (mmul a b) = det a * det b.
Proof. destruct a, b. mcbn. ring. Qed.
Lemma det_transpose a : det (transpose a) = det a.
Proof. destruct a. mcbn. ring. Qed.
Lemma mapply_mmul a b x : mapply (mmul a b) x = mapply a (mapply b x).
Proof. destruct a, b, x. mat_ring. Qed.
Lemma mapply_eye x : mapply eye x = x.
Proof. destruct x. mat_ring. Qed.

Definition adj (a : mat) : mat :=
  MAT (m11 a * m22 a - m12 a * m21 a) (m02 a * m21 a - m01 a * m22 a) (m01 a * m12 a - m02 a * m11 a)
      (m12 a * m20 a - m10 a * m22 a) (m00 a * m22 a - m02 a * m20 a) (m02 a * m10 a - m00 a * m12 a)
      (m10 a * m21 a - m11 a * m20 a) (m01 a * m20 a - m00 a * m21 a) (m00 a * m11 a - m01 a * m10 a).
Lemma adj_mul a : mmul (adj a) a = mscale (det a) eye.
Proof. destruct a. unfold adj. mat_ring. Qed.
Lemma rotation_adj a : rotation a -> transpose a = adj a.
Proof.
  intros (H & D). transitivity (mmul (adj a) (mmul a (transpose a))).
  - rewrite mmul_assoc, adj_mul, D. replace (mscale 1 eye) with eye by (mat_ring). symmetry. apply mmul_eye_l.
  - rewrite H. apply mmul_eye_r.
Qed.
Lemma rotation_left a : rotation a -> mmul (transpose a) a = eye.
Proof. intros H. rewrite (rotation_adj a H), adj_mul. destruct H as (_ & ->). mat_ring. Qed.
Lemma rotation_transpose a : rotation a -> rotation (transpose a).
Proof. intros H. split; [rewrite transpose_transpose; apply rotation_left; exact H|]. rewrite det_transpose. apply H. Qed.
Lemma rotation_mmul a b : rotation a -> rotation b -> rotation (mmul a b).
Proof.
  intros Ha Hb. split; [|rewrite det_mmul; destruct Ha as (_ & ->), Hb as (_ & ->); ring].
  rewrite transpose_mmul. rewrite mmul_assoc, <- (mmul_assoc a b (transpose b)). destruct Hb as (-> & _). rewrite mmul_eye_r. apply Ha.
Qed.
Lemma rotation_eye : rotation eye.
Proof. split; mcbn; [f_equal; ring|ring]. Qed.
(* the fifteen equations *)
Lemma rotation_eqs a : rotation a ->
  (m00 a * m00 a + m01 a * m01 a + m02 a * m02 a = 1 /\ m10 a * m10 a + m11 a * m11 a + m12 a * m12 a = 1 /\ m20 a * m20 a + m21 a * m21 a + m22 a * m22 a = 1) /\
  (m00 a * m10 a + m01 a * m11 a + m02 a * m12 a = 0 /\ m00 a * m20 a + m01 a * m21 a + m02 a * m22 a = 0 /\ m10 a * m20 a + m11 a * m21 a + m12 a * m22 a = 0) /\
  (m00 a * m00 a + m10 a * m10 a + m20 a * m20 a = 1 /\ m01 a * m01 a + m11 a * m11 a + m21 a * m21 a = 1 /\ m02 a * m02 a + m12 a * m12 a + m22 a * m22 a = 1) /\
  (m00 a * m01 a + m10 a * m11 a + m20 a * m21 a = 0 /\ m00 a * m02 a + m10 a * m12 a + m20 a * m22 a = 0 /\ m01 a * m02 a + m11 a * m12 a + m21 a * m22 a = 0) /\
  (m00 a = m11 a * m22 a - m12 a * m21 a /\ m10 a = m02 a * m21 a - m01 a * m22 a /\ m20 a = m01 a * m12 a - m02 a * m11 a) /\
  (m01 a = m12 a * m20 a - m10 a * m22 a /\ m11 a = m00 a * m22 a - m02 a * m20 a /\ m21 a = m02 a * m10 a - m00 a * m12 a) /\
  (m02 a = m10 a * m21 a - m11 a * m20 a /\ m12 a = m01 a * m20 a - m00 a * m21 a /\ m22 a = m00 a * m11 a - m01 a * m10 a).
Proof.
  intros H. pose proof (proj1 H) as H1. pose proof (rotation_left a H) as H2. pose proof (rotation_adj a H) as H3. destruct a as [a b c d e f g h i].
  unfold adj in H3. cbn [mmul transpose eye m00 m01 m02 m10 m11 m12 m20 m21 m22] in *.
  injection H1 as A1 A2 A3 A4 A5 A6 A7 A8 A9. injection H2 as B1 B2 B3 B4 B5 B6 B7 B8 B9. injection H3 as C1 C2 C3 C4 C5 C6 C7 C8 C9.
  repeat split; lra.
Qed.

(** entries are between -1 and 1 *)
Lemma clip_id x : x * x <= 1 -> clip x = x.
Proof.
  intros H. unfold clip. assert (-1 <= x <= 1) by (split; nra). rewrite Rmax_right by lra. apply Rmin_right. lra.
Qed.

(** ** arctan2 *)
Lemma cos_atan_pos t : cos (atan t) = / sqrt (1 + t * t).
Proof. rewrite cos_atan. unfold Rsqr. unfold Rdiv. ring. Qed.
Lemma sin_atan_eq t : sin (atan t) = t * / sqrt (1 + t * t).
Proof. rewrite sin_atan. unfold Rsqr. reflexivity. Qed.
Lemma sqrt_ratio x y r : 0 < r -> x <> 0 -> x * x + y * y = r * r -> sqrt (1 + y / x * (y / x)) = r / Rabs x.
Proof.
  intros Hr Hx H. replace (1 + y / x * (y / x)) with ((r / Rabs x) * (r / Rabs x)).
  - apply sqrt_square. apply Rmult_le_pos; [lra|]. apply Rlt_le, Rinv_0_lt_compat, Rabs_pos_lt. exact Hx.
  - assert (Ha : Rabs x <> 0) by (apply Rabs_no_R0; exact Hx). replace (r / Rabs x * (r / Rabs x)) with (r * r / (Rabs x * Rabs x)) by (field; exact Ha).
    rewrite <- Rabs_mult, Rabs_right by nra. rewrite <- H. field. exact Hx.
Qed.
Lemma arctan2_spec y x r : 0 < r -> x * x + y * y = r * r -> cos (arctan2 y x) = x / r /\ sin (arctan2 y x) = y / r.
Proof.
  intros Hr H. unfold arctan2. destruct (Rlt_dec 0 x) as [Hx|Hx].
  - rewrite cos_atan_pos, sin_atan_eq, (sqrt_ratio x y r Hr ltac:(lra) H), Rabs_right by lra. split; field; lra.
  - destruct (Rlt_dec x 0) as [Hx'|Hx'].
    + assert (K : cos (atan (y / x)) = - (x / r) /\ sin (atan (y / x)) = - (y / r)).
      { rewrite cos_atan_pos, sin_atan_eq, (sqrt_ratio x y r Hr ltac:(lra) H), Rabs_left by lra. split; field; lra. }
      destruct K as (K1 & K2). destruct (Rle_dec 0 y).
      * rewrite neg_cos, neg_sin, K1, K2. lra.
      * replace (atan (y / x) - PI) with (- (PI - atan (y / x))) by ring. rewrite cos_neg, sin_neg, Rtrigo_facts.cos_pi_minus, Rtrigo_facts.sin_pi_minus, K1, K2. lra.
    + assert (x = 0) by lra. subst x. assert (y * y = r * r) by lra. destruct (Rlt_dec 0 y).
      * assert (y = r) by nra. subst y. rewrite cos_PI2, sin_PI2. split; field; lra.
      * destruct (Rlt_dec y 0); [|exfalso; nra]. assert (y = - r) by nra. subst y. replace (- PI / 2) with (- (PI / 2)) by field. rewrite cos_neg, sin_neg, cos_PI2, sin_PI2. split; field; lra.
Qed.
Lemma arctan2_unit y x : x * x + y * y = 1 -> cos (arctan2 y x) = x /\ sin (arctan2 y x) = y.
Proof. intros H. destruct (arctan2_spec y x 1 ltac:(lra) ltac:(lra)) as (A & B). rewrite A, B. split; field. Qed.
Lemma arctan2_range y x : - PI < arctan2 y x <= PI.
Proof.
  pose proof PI_RGT_0. unfold arctan2. pose proof (atan_bound (y / x)) as B. destruct (Rlt_dec 0 x); [lra|]. destruct (Rlt_dec x 0).
  - destruct (Rle_dec 0 y).
    + assert (y / x <= 0). { unfold Rdiv. assert (/ x < 0) by (apply Rinv_lt_0_compat; assumption). nra. }
      assert (atan (y / x) <= 0). { rewrite <- atan_0. destruct (Rle_lt_or_eq_dec _ _ H0); [apply Rlt_le, atan_increasing; assumption|]. right. congruence. }
      lra.
    + assert (0 < y / x). { unfold Rdiv. assert (/ x < 0) by (apply Rinv_lt_0_compat; assumption). nra. }
      assert (0 < atan (y / x)) by (rewrite <- atan_0; apply atan_increasing; assumption). lra.
  - destruct (Rlt_dec 0 y); [lra|]. destruct (Rlt_dec y 0); lra.
Qed.

(** ** elementary rotations *)
Lemma sc1 t : sin t * sin t + cos t * cos t = 1.
Proof. pose proof (sin2_cos2 t) as H. unfold Rsqr in H. exact H. Qed.
Lemma rotation_e t a u : rotation (e_rot t a u).
Proof. unfold e_rot. pose proof (sc1 (rad u t)) as H. destruct a; split; mcbn; try (f_equal; lra); lra. Qed.

(** ** quaternions: the homogeneous form of the matrix *)
Definition n2 (q : quat) : R := qw q * qw q + qx q * qx q + qy q * qy q + qz q * qz q.
Definition hom (q : quat) : mat :=
  let '(QUAT w x y z) := q in
  MAT (w * w + x * x - y * y - z * z) (2 * (x * y - z * w)) (2 * (x * z + y * w))
      (2 * (x * y + z * w)) (w * w - x * x + y * y - z * z) (2 * (y * z - x * w))
      (2 * (x * z - y * w)) (2 * (y * z + x * w)) (w * w - x * x - y * y + z * z).
Lemma rot_of_hom q : n2 q = 1 -> rot_of q = hom q.
Proof. destruct q as [w x y z]. unfold n2, rot_of, hom. cbn [qw qx qy qz]. intros H. f_equal; lra. Qed.
Lemma hom_orth q : mmul (hom q) (transpose (hom q)) = mscale (n2 q * n2 q) eye.
Proof. destruct q as [w x y z]. unfold hom, n2. mat_ring. Qed.
Lemma hom_det q : det (hom q) = n2 q * n2 q * n2 q.
Proof. destruct q as [w x y z]. unfold hom, n2. mcbn. ring. Qed.
Lemma hom_qmul p q : hom (qmul p q) = mmul (hom p) (hom q).
Proof. destruct p, q. unfold hom, qmul. mat_ring. Qed.
Lemma n2_qmul p q : n2 (qmul p q) = n2 p * n2 q.
Proof. destruct p as [a b c d], q as [e f g h]. unfold n2. mcbn. ring. Qed.
Lemma rotation_unit q : n2 q = 1 -> rotation (rot_of q).
Proof. intros H. rewrite (rot_of_hom q H). split; [rewrite hom_orth, H; mat_ring|rewrite hom_det, H; ring]. Qed.
Lemma rot_of_qmul p q : n2 p = 1 -> n2 q = 1 -> rot_of (qmul p q) = mmul (rot_of p) (rot_of q).
Proof. intros Hp Hq. rewrite !rot_of_hom by (rewrite ?n2_qmul, ?Hp, ?Hq; ring). apply hom_qmul. Qed.
Lemma qnorm_n2 q : qnorm q = sqrt (n2 q).
Proof. reflexivity. Qed.
Lemma n2_pos q : 0 <= n2 q.
Proof. unfold n2. pose proof (Rle_0_sqr (qw q)). pose proof (Rle_0_sqr (qx q)). pose proof (Rle_0_sqr (qy q)). pose proof (Rle_0_sqr (qz q)). unfold Rsqr in *. lra. Qed.
Lemma qnorm_sq q : qnorm q * qnorm q = n2 q.
Proof. rewrite qnorm_n2. apply sqrt_sqrt, n2_pos. Qed.
Lemma n2_qdiv q c : c <> 0 -> n2 (qdiv q c) = n2 q / (c * c).
Proof. intros H. destruct q as [w x y z]. unfold n2. mcbn. field. exact H. Qed.
Lemma unit_qdiv q : qnorm q <> 0 -> n2 (qdiv q (qnorm q)) = 1.
Proof. intros H. rewrite n2_qdiv by exact H. rewrite qnorm_sq, <- qnorm_sq. field. exact H. Qed.

(** ** axis and angle as a quaternion *)
Lemma norm_sq a : norm a * norm a = vdot a a.
Proof. unfold norm, vdot. apply sqrt_sqrt. pose proof (Rle_0_sqr (v0 a)). pose proof (Rle_0_sqr (v1 a)). pose proof (Rle_0_sqr (v2 a)). unfold Rsqr in *. lra. Qed.
Lemma norm_pos a : 0 <= norm a.
Proof. apply sqrt_pos. Qed.
Lemma vdot_unit a : norm a <> 0 -> vdot (vdiv a (norm a)) (vdiv a (norm a)) = 1.
Proof. intros H. pose proof (norm_sq a) as E. unfold vdot, vdiv in *. cbn [v0 v1 v2]. replace (_ + _ + _) with ((v0 a * v0 a + v1 a * v1 a + v2 a * v2 a) / (norm a * norm a)) by (field; exact H). rewrite <- E. field. exact H. Qed.
Definition rodrigues (s c : R) (k : vec) : mat := madd (madd eye (mscale s (skew k))) (mscale (1 - c) (mmul (skew k) (skew k))).
Lemma rodrigues_quat s c k : vdot k k = 1 -> s * s + c * c = 1 -> rodrigues (2 * s * c) (c * c - s * s) k = rot_of (QUAT c (s * v0 k) (s * v1 k) (s * v2 k)).
Proof.
  intros Hk Hs. destruct k as [x y z]. unfold vdot in Hk. cbn [v0 v1 v2] in *. unfold rodrigues. mcbn.
  replace (1 - (c * c - s * s)) with (2 * (s * s)) by lra. f_equal; ring.
Qed.
Lemma quat_unit s c k : vdot k k = 1 -> s * s + c * c = 1 -> n2 (QUAT c (s * v0 k) (s * v1 k) (s * v2 k)) = 1.
Proof. intros Hk Hs. unfold n2. cbn [qw qx qy qz]. unfold vdot in Hk. replace (_ + _ + _ + _) with (c * c + s * s * (v0 k * v0 k + v1 k * v1 k + v2 k * v2 k)) by ring. rewrite Hk. lra. Qed.
Lemma rodrigues_angle t k : vdot k k = 1 -> rodrigues (sin t) (cos t) k = rot_of (QUAT (cos (t / 2)) (sin (t / 2) * v0 k) (sin (t / 2) * v1 k) (sin (t / 2) * v2 k)).
Proof.
  intros Hk. rewrite <- rodrigues_quat by (try exact Hk; apply sc1). f_equal.
  - replace t with (2 * (t / 2)) at 1 by field. apply sin_2a.
  - replace t with (2 * (t / 2)) at 1 by field. apply cos_2a.
Qed.
Lemma rodrigues_rotation t k : vdot k k = 1 -> rotation (rodrigues (sin t) (cos t) k).
Proof. intros Hk. rewrite rodrigues_angle by exact Hk. apply rotation_unit. apply quat_unit; [exact Hk|apply sc1]. Qed.
Lemma wxyz2rot_rodrigues t v u : wxyz2rot t v u = rodrigues (sin (rad u t)) (cos (rad u t)) (vdiv v (norm v)).
Proof. reflexivity. Qed.
Lemma rodrigues_apply s c k x : vdot k k = 1 -> mapply (rodrigues s c k) x = vadd (vadd (vscale c x) (vscale s (cross k x))) (vscale ((1 - c) * vdot k x) k).
Proof.
  intros Hk. destruct k as [a b e], x as [x y z]. unfold vdot, rodrigues in *. cbn [v0 v1 v2] in *. mcbn.
  assert (E : a * a = 1 - b * b - e * e) by lra.
  f_equal; ring_simplify; replace (a ^ 2) with (a * a) by ring; rewrite ?E; try ring.
Qed.
