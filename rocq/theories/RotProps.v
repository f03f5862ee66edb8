(** C19: the constructors of viscid.rotation return rotations; C21: quaternions agree with matrices. *)
From Verif Require Import RotModel RotProofs.
From Coq Require Import Lra Bool.
Open Scope R_scope.

(** * C19 *)
Lemma rad_add u s t : rad u (s + t) = rad u s + rad u t.
Proof. destruct u; cbn [rad]; ring. Qed.
Lemma rad_neg u t : rad u (- t) = - rad u t.
Proof. destruct u; cbn [rad]; ring. Qed.
Lemma e_transpose t a u : transpose (e_rot t a u) = e_rot (- t) a u.
Proof. unfold e_rot. rewrite rad_neg, cos_neg, sin_neg. destruct a; unfold transpose; cbn [m00 m01 m02 m10 m11 m12 m20 m21 m22]; f_equal; ring. Qed.
(** Every elementary rotation is a rotation, its direction cosine matrix is the transpose ... *)
Theorem C19_elementary : forall t a u, rotation (e_rot t a u) /\ e_dcm t a u = transpose (e_rot t a u).
Proof. intros t a u. split; [apply rotation_e|]. rewrite e_transpose. reflexivity. Qed.
Print Assumptions C19_elementary.
(** ... angles about one axis add ... *)
Theorem C19_add : forall s t a u, mmul (e_rot s a u) (e_rot t a u) = e_rot (s + t) a u.
Proof. intros s t a u. unfold e_rot. rewrite rad_add, cos_plus, sin_plus. destruct a; mcbn; f_equal; ring. Qed.
Print Assumptions C19_add.
(** ... and they turn counter-clockwise: x towards y about z, y towards z about x, z towards x
    about y; the axis itself stays. *)
Definition basis (a : axis) : vec := match a with AX => VEC 1 0 0 | AY => VEC 0 1 0 | AZ => VEC 0 0 1 end.
Definition next (a : axis) : axis := match a with AX => AY | AY => AZ | AZ => AX end.
Theorem C19_handed : forall t a u,
  mapply (e_rot t a u) (basis a) = basis a /\
  mapply (e_rot t a u) (basis (next a)) = vadd (vscale (cos (rad u t)) (basis (next a))) (vscale (sin (rad u t)) (basis (next (next a)))).
Proof. intros t a u. unfold e_rot. destruct a; cbn [basis next]; mcbn; split; f_equal; ring. Qed.
Print Assumptions C19_handed.

(** Products of three elementary rotations, for any axes and either unit. *)
Theorem C19_euler : forall t axes u, rotation (angle2rot t axes u) /\ rotation (eul2rot t axes u).
Proof.
  assert (A : forall t axes u, rotation (angle2rot t axes u)).
  { intros [[t0 t1] t2] [[a0 a1] a2] u. cbn [angle2rot]. repeat apply rotation_mmul; apply rotation_e. }
  intros. split; apply A.
Qed.
Print Assumptions C19_euler.
(** The first angle given to angle2rot is applied first; that given to eul2rot last. *)
Theorem C19_order : forall t0 t1 t2 a0 a1 a2 u x,
  mapply (angle2rot (t0, t1, t2) (a0, a1, a2) u) x = mapply (e_rot t2 a2 u) (mapply (e_rot t1 a1 u) (mapply (e_rot t0 a0 u) x)) /\
  mapply (eul2rot (t0, t1, t2) (a0, a1, a2) u) x = mapply (e_rot t0 a0 u) (mapply (e_rot t1 a1 u) (mapply (e_rot t2 a2 u) x)).
Proof.
  intros. assert (E : forall t a, e_rot (rad u t) a Rad = e_rot t a u) by (intros; reflexivity).
  split; cbn [eul2rot rev3 angle2rot]; rewrite !E, !mapply_mmul; reflexivity.
Qed.
Print Assumptions C19_order.
(** The direction cosine versions with the same angles and axes are the transposes (of the matrix for
    the other convention: the order of multiplication is reversed too). *)
Theorem C19_dcm : forall t axes u,
  angle2dcm t axes u = transpose (eul2rot t axes u) /\ eul2dcm t axes u = transpose (angle2rot t axes u).
Proof.
  assert (A : forall t axes u, angle2dcm t axes u = transpose (eul2rot t axes u)).
  { intros [[t0 t1] t2] [[a0 a1] a2] u. cbn [eul2rot rev3 angle2dcm angle2rot]. rewrite !transpose_mmul, !e_transpose, <- mmul_assoc.
    assert (E : forall x, rad u (-1 * x) = - rad u x) by (intros; destruct u; cbn [rad]; ring). rewrite !E. reflexivity. }
  intros t axes u. split; [apply A|]. unfold eul2dcm. rewrite A. unfold eul2rot. destruct t as [[t0 t1] t2], axes as [[a0 a1] a2]. reflexivity.
Qed.
Print Assumptions C19_dcm.

(** rotmul of rotations is a rotation that applies the last one first. *)
Lemma rotmul_cons acc l : fold_left mmul l acc = mmul acc (rotmul l).
Proof.
  revert acc. induction l as [|r l IH]; intros acc; cbn [fold_left]; [unfold rotmul; cbn [fold_left]; rewrite mmul_eye_r; reflexivity|].
  unfold rotmul. cbn [fold_left]. rewrite !IH, mmul_eye_l, mmul_assoc. reflexivity.
Qed.
Theorem C19_rotmul : forall l, Forall rotation l ->
  rotation (rotmul l) /\ forall x, rotate x l = fold_right mapply x l.
Proof.
  induction l as [|r l IH]; intros H.
  - split; [apply rotation_eye|]. intros x. unfold rotate, rotmul. cbn [fold_left fold_right]. apply mapply_eye.
  - apply Forall_cons_iff in H. destruct H as (Hr & Hl). destruct (IH Hl) as (A & B).
    assert (E : rotmul (r :: l) = mmul r (rotmul l)) by (unfold rotmul at 1; cbn [fold_left]; rewrite rotmul_cons, mmul_eye_l; reflexivity).
    unfold rotate in *. rewrite E. split; [apply rotation_mmul; assumption|]. intros x. rewrite mapply_mmul, B. reflexivity.
Qed.
Print Assumptions C19_rotmul.
(** Rotations preserve scalar products, so lengths and angles. *)
Theorem C19_isometry : forall r x y, rotation r -> vdot (mapply r x) (mapply r y) = vdot x y.
Proof.
  intros r x y Hr. pose proof (rotation_left r Hr) as E. destruct r as [a b c d e f g h i], x as [x0 x1 x2], y as [y0 y1 y2]. mcbn. mcbn_in E. injection E as E0 E1 E2 E3 E4 E5 E6 E7 E8.
  replace (_ + _ + _) with (x0 * y0 * (a * a + d * d + g * g) + x1 * y1 * (b * b + e * e + h * h) + x2 * y2 * (c * c + f * f + i * i) + (x0 * y1 + x1 * y0) * (a * b + d * e + g * h) + (x0 * y2 + x2 * y0) * (a * c + d * f + g * i) + (x1 * y2 + x2 * y1) * (b * c + e * f + h * i)) by ring.
  rewrite E0, E1, E2, E4, E5, E8. ring.
Qed.
Print Assumptions C19_isometry.

(** A rotation about any axis of non-zero length: a rotation, given by Rodrigues' formula, fixing the
    axis; angles add. *)
Lemma unit_axis v : norm v <> 0 -> vdot (unitv v) (unitv v) = 1.
Proof. exact (vdot_unit v). Qed.
Theorem C19_axis : forall t v u, norm v <> 0 ->
  rotation (wxyz2rot t v u) /\
  (forall x, let k := vdiv v (norm v) in let a := rad u t in
     mapply (wxyz2rot t v u) x = vadd (vadd (vscale (cos a) x) (vscale (sin a) (cross k x))) (vscale ((1 - cos a) * vdot k x) k)) /\
  mapply (wxyz2rot t v u) v = v.
Proof.
  intros t v u Hv. pose proof (vdot_unit v Hv) as Hk. rewrite wxyz2rot_rodrigues. split; [|split].
  - apply rodrigues_rotation. exact Hk.
  - intros x k a. apply rodrigues_apply. exact Hk.
  - rewrite rodrigues_apply by exact Hk. pose proof (norm_sq v) as N. set (n := norm v) in *. destruct v as [x y z]. unfold vdot in N. mcbn. cbn [v0 v1 v2] in N.
    assert (D : x / n * x + y / n * y + z / n * z = n) by (replace (x / n * x + y / n * y + z / n * z) with ((x * x + y * y + z * z) / n) by (field; exact Hv); rewrite <- N; field; exact Hv).
    rewrite D. f_equal; field; exact Hv.
Qed.
Print Assumptions C19_axis.
Theorem C19_axis_add : forall s t v u, norm v <> 0 -> mmul (wxyz2rot s v u) (wxyz2rot t v u) = wxyz2rot (s + t) v u.
Proof.
  intros s t v u Hv. rewrite !wxyz2rot_rodrigues. pose proof (vdot_unit v Hv) as Hk. set (k := vdiv v (norm v)) in *. rewrite !rodrigues_angle by exact Hk.
  rewrite <- rot_of_qmul by (apply quat_unit; [exact Hk|apply sc1]). f_equal. rewrite rad_add. replace ((rad u s + rad u t) / 2) with (rad u s / 2 + rad u t / 2) by field. rewrite cos_plus, sin_plus.
  set (a := rad u s / 2). set (b := rad u t / 2). destruct k as [x y z]. unfold vdot in Hk. mcbn. cbn [v0 v1 v2] in Hk. f_equal; try ring.
  transitivity (cos a * cos b - sin a * sin b * (x * x + y * y + z * z)); [ring|]. rewrite Hk. ring.
Qed.
Print Assumptions C19_axis_add.
(* the three elementary rotations are the cases of the unit axes *)
Theorem C19_axis_elementary : forall t a u, wxyz2rot t (basis a) u = e_rot t a u.
Proof.
  intros t a u. rewrite wxyz2rot_rodrigues. assert (N : norm (basis a) = 1) by (unfold norm; transitivity (sqrt 1); [f_equal; destruct a; cbn [basis v0 v1 v2]; ring|apply sqrt_1]).
  rewrite N. unfold rodrigues, e_rot. destruct a; cbn [basis]; mcbn; f_equal; field.
Qed.
Print Assumptions C19_axis_elementary.

(** ** quaternions *)
(** quat2rot normalises its argument unless the norm is within 1e-8 + 1e-5 of 1 or 1e-8 of 0. *)
Definition good (q : quat) : Prop :=
  qnorm q = 1 \/ (1 / 10 ^ 8 < qnorm q /\ 1 / 10 ^ 8 + 1 / 10 ^ 5 < Rabs (qnorm q - 1)).
(** The rotation meant by a quaternion. *)
Definition turn (q : quat) : mat := mscale (/ n2 q) (hom q).
Lemma isclose_0 n : 0 <= n -> isclose n 0 = if Rle_dec n (1 / 10 ^ 8) then true else false.
Proof. intros H. unfold isclose. rewrite Rminus_0_r, Rabs_R0, Rmult_0_r, Rplus_0_r, Rabs_right by lra. reflexivity. Qed.
Lemma isclose_1 n : isclose n 1 = if Rle_dec (Rabs (n - 1)) (1 / 10 ^ 8 + 1 / 10 ^ 5) then true else false.
Proof. unfold isclose. rewrite Rabs_R1, Rmult_1_r. reflexivity. Qed.
Lemma qnorm_pos q : 0 <= qnorm q.
Proof. apply sqrt_pos. Qed.
Lemma turn_unit q : n2 q = 1 -> rot_of q = turn q.
Proof. intros H. rewrite rot_of_hom by exact H. unfold turn. rewrite H, Rinv_1. destruct (hom q). mat_ring. Qed.
Lemma turn_scale q c : c <> 0 -> n2 q <> 0 -> turn (qdiv q c) = turn q.
Proof.
  intros Hc Hq. unfold turn. rewrite n2_qdiv by exact Hc. destruct q as [w x y z]. unfold hom, n2 in *. cbn [qw qx qy qz] in Hq. mcbn.
  f_equal; field; split; assumption.
Qed.
Lemma good_n2 q : good q -> n2 q <> 0.
Proof.
  intros H. rewrite <- qnorm_sq. assert (0 < qnorm q) by (destruct H as [-> | (H & _)]; [lra|]; assert (0 < 1 / 10 ^ 8) by (cbn [pow]; lra); lra).
  apply Rmult_integral_contrapositive. split; lra.
Qed.
Lemma quat2rot_good q : good q -> quat2rot q = turn q.
Proof.
  intros H. pose proof (good_n2 q H) as Hn. unfold quat2rot. rewrite isclose_0, isclose_1 by apply qnorm_pos.
  assert (T8 : 0 < 1 / 10 ^ 8) by (cbn [pow]; lra). assert (T5 : 0 < 1 / 10 ^ 5) by (cbn [pow]; lra).
  destruct H as [E | (H1 & H2)].
  - rewrite E, Rminus_eq_0, Rabs_R0. destruct (Rle_dec 0 (1 / 10 ^ 8 + 1 / 10 ^ 5)) as [_|]; [|lra]. rewrite orb_true_r. cbn [negb]. apply turn_unit. rewrite <- qnorm_sq, E. ring.
  - destruct (Rle_dec (qnorm q) (1 / 10 ^ 8)) as [|_]; [lra|]. destruct (Rle_dec (Rabs (qnorm q - 1)) (1 / 10 ^ 8 + 1 / 10 ^ 5)) as [|_]; [lra|]. cbn [orb negb].
    rewrite turn_unit by (apply unit_qdiv; lra). apply turn_scale; [lra|exact Hn].
Qed.
Lemma turn_rotation q : n2 q <> 0 -> rotation (turn q).
Proof.
  intros H. assert (N : qnorm q <> 0) by (intros E; apply H; rewrite <- qnorm_sq, E; ring).
  rewrite <- (turn_scale q (qnorm q)) by assumption. rewrite <- turn_unit by (apply unit_qdiv; exact N). apply rotation_unit, unit_qdiv, N.
Qed.
Theorem C19_quat : forall q, good q -> rotation (quat2rot q) /\ quat2dcm q = transpose (quat2rot q).
Proof. intros q H. split; [|reflexivity]. rewrite quat2rot_good by exact H. apply turn_rotation, good_n2, H. Qed.
Print Assumptions C19_quat.
Definition near (e : R) (a b : mat) : Prop :=
  Rabs (m00 a - m00 b) <= e /\ Rabs (m01 a - m01 b) <= e /\ Rabs (m02 a - m02 b) <= e /\
  Rabs (m10 a - m10 b) <= e /\ Rabs (m11 a - m11 b) <= e /\ Rabs (m12 a - m12 b) <= e /\
  Rabs (m20 a - m20 b) <= e /\ Rabs (m21 a - m21 b) <= e /\ Rabs (m22 a - m22 b) <= e.
Lemma abs_le_inv a e : Rabs a <= e -> - e <= a <= e.
Proof. unfold Rabs. destruct (Rcase_abs a); lra. Qed.
Lemma small_prod a b e m : Rabs a <= e -> Rabs b <= m -> 0 <= m -> Rabs (a * b) <= e * m.
Proof. intros A B M. rewrite Rabs_mult. apply Rmult_le_compat; auto using Rabs_pos. Qed.
Lemma abs_2xy x y s : x * x + y * y <= s -> Rabs (2 * (x * y)) <= s.
Proof. intros H. pose proof (Rle_0_sqr (x - y)). pose proof (Rle_0_sqr (x + y)). unfold Rsqr in *. apply Rabs_le. split; lra. Qed.
(** Quaternions with a norm near 1 are used as they are: the matrix is within 5e-5 of the rotation
    meant ... *)
Theorem C19_quat_near_unit : forall q, Rabs (qnorm q - 1) <= 1 / 10 ^ 8 + 1 / 10 ^ 5 ->
  exists r, rotation r /\ near (5 / 10 ^ 5) (quat2rot q) r.
Proof.
  intros q H. assert (T : 1 / 10 ^ 8 + 1 / 10 ^ 5 <= 11 / 10 ^ 6 ) by (cbn [pow]; lra). assert (T1 : 11 / 10 ^ 6 <= 1 / 100) by (cbn [pow]; lra).
  assert (B : - (11 / 10 ^ 6) <= qnorm q - 1 <= 11 / 10 ^ 6) by (apply abs_le_inv; lra).
  assert (Hn : n2 q <> 0) by (rewrite <- qnorm_sq; apply Rmult_integral_contrapositive; split; lra).
  exists (turn q). split; [apply turn_rotation; exact Hn|]. unfold quat2rot. rewrite isclose_1. destruct (Rle_dec (Rabs (qnorm q - 1)) (1 / 10 ^ 8 + 1 / 10 ^ 5)) as [_|]; [|lra]. rewrite orb_true_r. cbn [negb].
  assert (N0 : qnorm q <> 0) by lra. rewrite <- (turn_scale q (qnorm q)) by assumption. rewrite <- turn_unit by (apply unit_qdiv; exact N0).
  pose proof (unit_qdiv q N0) as U. set (n := qnorm q) in *. set (p := qdiv q n) in *. assert (E : q = qdiv p (/ n)) by (unfold p; destruct q as [w x y z]; mcbn; f_equal; field; exact N0).
  rewrite E. clearbody p n. clear E q Hn. destruct p as [w x y z]. unfold n2 in U. cbn [qw qx qy qz] in U.
  assert (M : Rabs (n * n - 1) <= 25 / 10 ^ 6).
  { assert (Q : n * n - 1 = (n - 1) * (n + 1)) by ring. rewrite Q. eapply Rle_trans; [apply (small_prod (n - 1) (n + 1) (11 / 10 ^ 6) (201 / 100)); [apply Rabs_le; lra|apply Rabs_le; lra|lra]|]. cbn [pow]. lra. }
  assert (P : forall a b c, a - b = (n * n - 1) * c -> Rabs c <= 2 -> Rabs (a - b) <= 5 / 10 ^ 5).
  { intros a b c -> Hc. eapply Rle_trans; [apply (small_prod _ _ _ 2 M Hc); lra|]. cbn [pow]. lra. }
  pose proof (Rle_0_sqr w). pose proof (Rle_0_sqr x). pose proof (Rle_0_sqr y). pose proof (Rle_0_sqr z). unfold Rsqr in *.
  assert (XY : Rabs (2 * (x * y)) <= 1) by (apply abs_2xy; lra). assert (XZ : Rabs (2 * (x * z)) <= 1) by (apply abs_2xy; lra). assert (YZ : Rabs (2 * (y * z)) <= 1) by (apply abs_2xy; lra).
  assert (XW : Rabs (2 * (x * w)) <= 1) by (apply abs_2xy; lra). assert (YW : Rabs (2 * (y * w)) <= 1) by (apply abs_2xy; lra). assert (ZW : Rabs (2 * (z * w)) <= 1) by (apply abs_2xy; lra).
  apply abs_le_inv in XY, XZ, YZ, XW, YW, ZW.
  unfold near. mcbn. repeat split.
  1: apply (P _ _ (- 2 * (y * y + z * z))); [field; exact N0|apply Rabs_le; lra].
  1: apply (P _ _ (2 * (x * y - z * w))); [field; exact N0|apply Rabs_le; lra].
  1: apply (P _ _ (2 * (x * z + y * w))); [field; exact N0|apply Rabs_le; lra].
  1: apply (P _ _ (2 * (x * y + z * w))); [field; exact N0|apply Rabs_le; lra].
  1: apply (P _ _ (- 2 * (x * x + z * z))); [field; exact N0|apply Rabs_le; lra].
  1: apply (P _ _ (2 * (y * z - x * w))); [field; exact N0|apply Rabs_le; lra].
  1: apply (P _ _ (2 * (x * z - y * w))); [field; exact N0|apply Rabs_le; lra].
  1: apply (P _ _ (2 * (y * z + x * w))); [field; exact N0|apply Rabs_le; lra].
  1: apply (P _ _ (- 2 * (x * x + y * y))); [field; exact N0|apply Rabs_le; lra].
Qed.
Print Assumptions C19_quat_near_unit.
(** ... but need not be a rotation: "every non-zero quaternion" is too much. *)
Theorem C19_quat_refuted : exists q, qnorm q <> 0 /\ ~ rotation (quat2rot q).
Proof.
  set (e := 5 / 10 ^ 6). assert (He : 0 < e <= 1 / 10 ^ 5) by (unfold e; cbn [pow]; lra). exists (QUAT 0 (1 + e) 0 0).
  assert (N : qnorm (QUAT 0 (1 + e) 0 0) = 1 + e) by (unfold qnorm; cbn [qw qx qy qz]; replace (_ + _ + _ + _) with ((1 + e) * (1 + e)) by ring; apply sqrt_square; lra).
  split; [rewrite N; lra|]. unfold quat2rot. rewrite N, isclose_1. destruct (Rle_dec (Rabs (1 + e - 1)) (1 / 10 ^ 8 + 1 / 10 ^ 5)) as [_|D].
  - rewrite orb_true_r. cbn [negb]. intros (_ & D). mcbn_in D. set (k := 1 - 2 * ((1 + e) * (1 + e) + 0 * 0)) in *. assert (K : k < -1) by (unfold k; nra). assert (D' : k * k = 1) by (rewrite <- D; unfold k; ring). nra.
  - exfalso. apply D. replace (1 + e - 1) with e by ring. rewrite Rabs_right by lra. assert (0 < 1 / 10 ^ 8) by (cbn [pow]; lra). lra.
Qed.
Print Assumptions C19_quat_refuted.

(** * C21 *)
Lemma turn_qmul p q : n2 p <> 0 -> n2 q <> 0 -> turn (qmul p q) = mmul (turn p) (turn q).
Proof. intros Hp Hq. unfold turn. rewrite n2_qmul, hom_qmul. rewrite Rinv_mult. destruct (hom p), (hom q). mat_ring. Qed.
Lemma n2_one : n2 (QUAT 1 0 0 0) = 1.
Proof. unfold n2. cbn [qw qx qy qz]. ring. Qed.
Lemma turn_fold l : forall acc, n2 acc <> 0 -> Forall (fun q => n2 q <> 0) l ->
  n2 (fold_left qmul l acc) <> 0 /\ turn (fold_left qmul l acc) = fold_left mmul (map turn l) (turn acc).
Proof.
  induction l as [|q l IH]; intros acc Ha Hl; cbn [fold_left map]; [split; [exact Ha|reflexivity]|]. apply Forall_cons_iff in Hl. destruct Hl as (Hq & Hl).
  destruct (IH (qmul acc q)) as (A & B); [rewrite n2_qmul; apply Rmult_integral_contrapositive; split; assumption|exact Hl|]. split; [exact A|]. rewrite B, turn_qmul by assumption. reflexivity.
Qed.
(** quatmul is multiplication of the matrices, for any number of factors ... *)
Theorem C21_product : forall l, Forall good l -> good (quatmul l) ->
  quat2rot (quatmul l) = rotmul (map quat2rot l).
Proof.
  intros l Hl Hp. rewrite quat2rot_good by exact Hp. unfold quatmul, rotmul.
  destruct (turn_fold l (QUAT 1 0 0 0)) as (_ & ->); [rewrite n2_one; lra|revert Hl; apply Forall_impl; intros q; apply good_n2|].
  assert (E : turn (QUAT 1 0 0 0) = eye) by (unfold turn; rewrite n2_one, Rinv_1; unfold hom; mat_ring). rewrite E. f_equal.
  clear Hp E. induction l as [|q l IH]; [reflexivity|]. apply Forall_cons_iff in Hl. destruct Hl as (Hq & Hl). cbn [map]. rewrite IH, quat2rot_good by assumption. reflexivity.
Qed.
Print Assumptions C21_product.
(* the norm of the product is the product of the norms *)
Theorem C21_norm : forall p q, qnorm (qmul p q) = qnorm p * qnorm q.
Proof. intros p q. rewrite !qnorm_n2, n2_qmul. apply sqrt_mult; apply n2_pos. Qed.
Print Assumptions C21_norm.
(** ... quat_rotate is application of the matrix ... *)
Theorem C21_rotate : forall x l, good (quatmul l) -> quat_rotate x l = mapply (quat2rot (quatmul l)) x.
Proof.
  intros x l H. rewrite quat2rot_good by exact H. pose proof (good_n2 _ H) as N. unfold quat_rotate. set (q := quatmul l) in *. clearbody q. unfold turn. destruct q as [w a b c], x as [x y z]. unfold n2, hom, quatmul in *. cbn [qw qx qy qz fold_left] in *. mcbn.
  f_equal; field; try (intros E; apply N; rewrite <- E; ring).
Qed.
Print Assumptions C21_rotate.
(** ... for every non-zero quaternion, without the exception for norms near 1: *)
Theorem C21_rotate_all : forall x q, qnorm q <> 0 -> quat_rotate x [q] = mapply (rot_of (qdiv q (qnorm q))) x.
Proof.
  intros x q H. rewrite turn_unit by (apply unit_qdiv; exact H). assert (N : n2 q <> 0) by (rewrite <- qnorm_sq; apply Rmult_integral_contrapositive; split; exact H). rewrite turn_scale by assumption.
  unfold quat_rotate, turn. destruct q as [w a b c], x as [x y z]. unfold n2, hom, quatmul in *. cbn [qw qx qy qz fold_left] in *. mcbn. clear H.
  f_equal; field; try (intros E; apply N; rewrite <- E; ring); repeat split; intros E; apply N; rewrite <- E; ring.
Qed.
Print Assumptions C21_rotate_all.
(** ... scaling does not change the rotation ... *)
Theorem C21_scale : forall q c, c <> 0 -> good q -> good (qdiv q c) -> quat2rot (qdiv q c) = quat2rot q.
Proof. intros q c Hc Hq Hd. rewrite !quat2rot_good by assumption. apply turn_scale; [exact Hc|apply good_n2, Hq]. Qed.
Print Assumptions C21_scale.
(** ... and a rotation about an axis is the same through the quaternion. *)
Lemma wxyz2quat_unit t v u : norm v <> 0 -> n2 (wxyz2quat t v u) = 1 /\ qnorm (wxyz2quat t v u) = 1.
Proof.
  intros H. assert (E : n2 (wxyz2quat t v u) = 1).
  { pose proof (quat_unit (sin (rad u t / 2)) (cos (rad u t / 2)) (vdiv v (norm v)) (vdot_unit v H) (sc1 _)) as Q. rewrite <- Q. unfold wxyz2quat. unfold n2, vscale, vdiv. cbn [v0 v1 v2 qw qx qy qz]. unfold Rdiv. ring. }
  split; [exact E|]. rewrite qnorm_n2, E. apply sqrt_1.
Qed.
Theorem C21_axis : forall t v u, norm v <> 0 ->
  qnorm (wxyz2quat t v u) = 1 /\ quat2rot (wxyz2quat t v u) = wxyz2rot t v u.
Proof.
  intros t v u H. destruct (wxyz2quat_unit t v u H) as (A & B). split; [exact B|]. rewrite quat2rot_good by (left; exact B). rewrite <- turn_unit by exact A.
  rewrite wxyz2rot_rodrigues, rodrigues_angle by (apply vdot_unit; exact H). f_equal. unfold wxyz2quat, vscale, vdiv. cbn [v0 v1 v2]. f_equal; unfold Rdiv; ring.
Qed.
Print Assumptions C21_axis.
(** quat2wxyz gives a unit axis, and the angle and axis give back the normalised quaternion (when
    the vector part is zero or not tiny). *)
Lemma unrad_half u t : rad u (unrad u t) = t.
Proof. destruct u; [reflexivity|]. cbn [rad unrad]. pose proof PI_RGT_0. field. lra. Qed.
Theorem C21_to_axis : forall q u, qnorm q <> 0 ->
  let n := norm (VEC (qx q) (qy q) (qz q)) / qnorm q in
  n = 0 \/ 1 / 10 ^ 8 < n ->
  let '(t, v) := quat2wxyz q u in
  vdot v v = 1 /\ wxyz2quat t v u = qdiv q (qnorm q) /\ 0 <= rad u t <= 2 * PI.
Proof.
  intros q u H. cbv zeta. intros Hn. unfold quat2wxyz.
  assert (NP : 0 < qnorm q) by (pose proof (qnorm_pos q); lra).
  assert (E : norm (VEC (qx q) (qy q) (qz q)) / qnorm q = norm (VEC (qx (qdiv q (qnorm q))) (qy (qdiv q (qnorm q))) (qz (qdiv q (qnorm q))))).
  { set (c := qnorm q) in *. unfold norm, qdiv. cbn [v0 v1 v2 qx qy qz]. rewrite <- (sqrt_square c) at 1 by lra. rewrite <- sqrt_div_alt by (apply Rmult_lt_0_compat; lra). f_equal. field. lra. }
  rewrite E in Hn. clear E. pose proof (unit_qdiv q H) as U. set (p := qdiv q (qnorm q)) in *. clearbody p. clear H NP q.
  destruct p as [w x y z]. unfold n2 in U. cbn [qw qx qy qz] in *. set (n := norm (VEC x y z)) in *.
  assert (N2 : n * n = x * x + y * y + z * z) by (unfold n; rewrite norm_sq; reflexivity). assert (N0 : 0 <= n) by apply norm_pos.
  assert (S1 : w * w + n * n = 1) by lra. destruct (arctan2_unit n w S1) as (Ec & Es). pose proof (arctan2_range n w) as Rg.
  rewrite isclose_0 by exact N0. rewrite unrad_half. replace (2 * arctan2 n w / 2) with (arctan2 n w) by field.
  assert (T8 : 0 < 1 / 10 ^ 8) by (cbn [pow]; lra).
  assert (Hr : 0 <= arctan2 n w <= PI).
  { clear - Rg Es N0 S1. clearbody n. split; [|lra]. destruct (Rle_dec 0 (arctan2 n w)) as [|L]; [assumption|]. exfalso. assert (B : sin (arctan2 n w) <= 0). { destruct (Req_dec (arctan2 n w) (- PI)) as [Z|Z]; [rewrite Z, sin_neg, sin_PI; lra|]. left. apply sin_lt_0_var; lra. } assert (n = 0) by lra. subst n. unfold arctan2 in L. pose proof PI_RGT_0. unfold Rdiv in L. rewrite Rmult_0_l, atan_0 in L. destruct (Rlt_dec 0 w); [lra|]. destruct (Rlt_dec w 0); [destruct (Rle_dec 0 0); lra|]. destruct (Rlt_dec 0 0); lra. }
  destruct (Rle_dec n (1 / 10 ^ 8)) as [L|L].
  - assert (Z : n = 0) by lra. unfold wxyz2quat. rewrite unrad_half. replace (2 * arctan2 n w / 2) with (arctan2 n w) by field.
    assert (Zn : norm (VEC 0 0 1) = 1) by (unfold norm; transitivity (sqrt 1); [f_equal; cbn [v0 v1 v2]; ring|apply sqrt_1]). rewrite Zn, Ec, Es. split; [unfold vdot; cbn [v0 v1 v2]; ring|split; [|lra]].
    rewrite Z in *. pose proof (Rle_0_sqr x). pose proof (Rle_0_sqr y). pose proof (Rle_0_sqr z). assert (x = 0) by (apply Rsqr_0_uniq; unfold Rsqr in *; lra). assert (y = 0) by (apply Rsqr_0_uniq; unfold Rsqr in *; lra). assert (z = 0) by (apply Rsqr_0_uniq; unfold Rsqr in *; lra). subst x y z.
    unfold vscale, vdiv. cbn [v0 v1 v2]. f_equal; field.
  - assert (Nz : n <> 0) by lra. assert (V : vdot (vdiv (VEC x y z) n) (vdiv (VEC x y z) n) = 1) by (apply vdot_unit; exact Nz). split; [exact V|]. split; [|lra].
    unfold wxyz2quat. rewrite unrad_half. replace (2 * arctan2 n w / 2) with (arctan2 n w) by field. rewrite Ec, Es.
    assert (Zn : norm (vdiv (VEC x y z) n) = 1) by (unfold norm; unfold vdot in V; rewrite V; apply sqrt_1). rewrite Zn. unfold vscale, vdiv. cbn [v0 v1 v2]. f_equal; field; exact Nz.
Qed.
Print Assumptions C21_to_axis.
