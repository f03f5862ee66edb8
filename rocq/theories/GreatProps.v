(** C62: great circles go from the first point to the second along the sphere. *)
From Verif Require Import GreatModel RotProofs RotProps AxisProps.
From Verif Require MapPtsProps.
From Coq Require Import Lra Lia.
Open Scope R_scope.

(** * helpers *)
Lemma radius_float q : radius Float q = norm q.
Proof. unfold radius, cart2sph. cbn [put]. reflexivity. Qed.
Lemma equator_eq r f : equator (r, f) = VEC (r * cos f) (r * sin f) 0.
Proof. unfold equator, sph2cart. cbn [fst snd put]. rewrite Rmult_1_r, sin_PI2, cos_PI2. f_equal; ring. Qed.
Lemma rotation_y m : rotation m -> mapply m (VEC 0 1 0) = cross (mapply m (VEC 0 0 1)) (mapply m (VEC 1 0 0)).
Proof.
  intros H. assert (I : forall x y, vdot (mapply m x) (mapply m y) = vdot x y) by (intros x y; apply C19_isometry; exact H). set (X := mapply m (VEC 1 0 0)). set (Y := mapply m (VEC 0 1 0)). set (Z := mapply m (VEC 0 0 1)).
  assert (D : vdot Y (cross Z X) = 1). { destruct H as (_ & D). rewrite <- D. unfold X, Y, Z. destruct m as [a b c d e f g h i]. unfold vdot, cross, mapply, det. cbn [v0 v1 v2 m00 m01 m02 m10 m11 m12 m20 m21 m22]. ring. }
  rewrite (basis3 Z X Y); [|unfold Z; rewrite I; unfold vdot; cbn [v0 v1 v2]; ring|unfold X; rewrite I; unfold vdot; cbn [v0 v1 v2]; ring|unfold Z, X; rewrite I; unfold vdot; cbn [v0 v1 v2]; ring].
  assert (YZ : vdot Y Z = 0) by (unfold Y, Z; rewrite I; unfold vdot; cbn [v0 v1 v2]; ring). assert (YX : vdot Y X = 0) by (unfold Y, X; rewrite I; unfold vdot; cbn [v0 v1 v2]; ring). rewrite YZ, YX, D. clearbody X Y Z. unfold vadd, vscale. cbn [v0 v1 v2]. destruct (cross Z X) as [x y z]. cbn [v0 v1 v2]. f_equal; ring.
Qed.
Lemma mapply_xy m x y : mapply m (VEC x y 0) = vadd (vscale x (mapply m (VEC 1 0 0))) (vscale y (mapply m (VEC 0 1 0))).
Proof. destruct m as [a b c d e f g h i]. unfold mapply, vadd, vscale. cbn [v0 v1 v2 m00 m01 m02 m10 m11 m12 m20 m21 m22]. f_equal; ring. Qed.
Lemma nth_combine {A B} (l : list A) (m : list B) i a b : nth_error l i = Some a -> nth_error m i = Some b -> nth_error (combine l m) i = Some (a, b).
Proof. revert m i. induction l as [|x l IH]; intros m i H K; [destruct i; discriminate|]. destruct m as [|y m]; [destruct i; discriminate|]. destruct i as [|i]; cbn [nth_error combine] in *; [congruence|]. apply IH; assumption. Qed.
Lemma nth_linspace a b n i : (i < n)%nat -> nth_error (linspace a b n) i = Some (a + INR i * ((b - a) / INR (n - 1))).
Proof. intros H. unfold linspace. rewrite nth_error_map. assert (S : forall s k m, (k < m)%nat -> nth_error (seq s m) k = Some (s + k)%nat). { intros s k m. revert s k. induction m as [|m IH]; intros s k K; [lia|]. destruct k as [|k]; cbn [seq nth_error]; [f_equal; lia|]. rewrite IH by lia. f_equal. lia. } rewrite S by exact H. reflexivity. Qed.
(* the point i for any rotation *)
Lemma point d1 d2 p1 p2 o n i : (i < n)%nat ->
  let q1 := vsub p1 o in let q2 := vsub p2 o in
  let m := a2b_rot_x (VEC 0 0 1) (pole_of q1 q2) q1 RotModel.Rad in
  let r := radius d1 q1 + INR i * ((radius d2 q2 - radius d1 q1) / INR (n - 1)) in
  let f := 0 + INR i * ((arctan2 (norm (cross q1 q2)) (vdot q1 q2) - 0) / INR (n - 1)) in
  nth_error (great_circle d1 d2 p1 p2 o n) i = Some (vadd (mapply m (VEC (r * cos f) (r * sin f) 0)) o).
Proof.
  intros H. cbv zeta. unfold great_circle. rewrite nth_error_map. erewrite nth_combine by (apply nth_linspace; exact H). cbn [option_map]. rewrite equator_eq. reflexivity.
Qed.
Lemma length_great d1 d2 p1 p2 o n : length (great_circle d1 d2 p1 p2 o n) = n.
Proof. unfold great_circle, linspace. rewrite map_length, combine_length, !map_length, !seq_length. lia. Qed.
Lemma vdot_sym a b : vdot a b = vdot b a.
Proof. unfold vdot. ring. Qed.
(* the rotation of two points that are not colinear *)
Definition plain (q1 q2 : vec) : Prop :=
  1 / 10 ^ 8 < norm q1 /\ 1 / 10 ^ 8 < norm (cross q1 q2) /\ clear_pair (VEC 0 0 1) (unitv (cross q1 q2)) /\
  mapply (a2b_rot (VEC 0 0 1) (cross q1 q2) 0 RotModel.Rad) xhat <> vscale (-1) (unitv q1).
Lemma vdiv_scale a c : vdiv a c = vscale (/ c) a.
Proof. unfold vdiv, vscale. f_equal; unfold Rdiv; apply Rmult_comm. Qed.
Lemma plain_rot q1 q2 : plain q1 q2 -> let m := a2b_rot_x (VEC 0 0 1) (pole_of q1 q2) q1 RotModel.Rad in
  rotation m /\ mapply m (VEC 1 0 0) = unitv q1 /\ mapply m (VEC 0 1 0) = cross (unitv (cross q1 q2)) (unitv q1).
Proof.
  intros (N1 & Np & C & O). cbv zeta. assert (P : pole_of q1 q2 = cross q1 q2). { unfold pole_of. rewrite isclose_0 by apply norm_pos. destruct (Rle_dec _ _); [lra|reflexivity]. } rewrite P. set (b := cross q1 q2) in *. assert (T8 : 0 < 1 / 10 ^ 8) by (cbn [pow]; lra).
  assert (Nz : norm (VEC 0 0 1) = 1) by (apply norm_1; unfold vdot; cbn [v0 v1 v2]; ring). assert (Uz : unitv (VEC 0 0 1) = VEC 0 0 1) by (unfold unitv; rewrite Nz; apply vdiv_1).
  assert (Q : vdot q1 (unitv b) = 0). { unfold unitv. rewrite vdiv_scale. unfold b, vdot, vscale, cross. cbn [v0 v1 v2]. ring. }
  assert (Y : vsub q1 (vscale (vdot q1 (unitv b)) (unitv b)) = q1). { rewrite Q. unfold vsub, vscale. destruct q1 as [a0 a1 a2]. cbn [v0 v1 v2]. f_equal; ring. }
  assert (Wn : wanted b q1 = unitv q1) by (unfold wanted; rewrite Y; reflexivity).
  destruct (C51_new_x (VEC 0 0 1) b q1 RotModel.Rad) as (R & Rz & Rx); [rewrite Nz; lra|lra|reflexivity|rewrite Uz; exact C|rewrite Y; exact N1|rewrite Wn; exact O|].
  rewrite Uz in Rz. rewrite Wn in Rx. split; [exact R|]. split; [exact Rx|]. rewrite rotation_y by exact R. rewrite Rz. f_equal. exact Rx.
Qed.

(** * theorem *)
(** Between two points whose directions from the origin are neither equal nor opposite: n points,
    from p1 to p2, in the plane of the two, with the distance from the origin and the angle from p1
    growing linearly; the angle at p2 is the smaller one between the two directions. *)
Theorem C62_great_circle : forall p1 p2 o n, (2 <= n)%nat ->
  let q1 := vsub p1 o in let q2 := vsub p2 o in plain q1 q2 ->
  let path := great_circle Float Float p1 p2 o n in
  length path = n /\ nth_error path 0 = Some p1 /\ nth_error path (n - 1) = Some p2 /\
  exists a, 0 <= a <= PI /\ vdot q1 q2 = norm q1 * norm q2 * cos a /\
    forall i p, nth_error path i = Some p -> let t := INR i / INR (n - 1) in let q := vsub p o in
      norm q = (1 - t) * norm q1 + t * norm q2 /\ vdot q (cross q1 q2) = 0 /\
      vdot q q1 = norm q * norm q1 * cos (t * a) /\ vdot q q2 = norm q * norm q2 * cos ((1 - t) * a).
Proof.
  intros p1 p2 o n Hn q1 q2 PL path. destruct (plain_rot q1 q2 PL) as (R & Rx & Ry). set (m := a2b_rot_x _ _ _ _) in *. destruct PL as (N1 & Np & _). assert (T8 : 0 < 1 / 10 ^ 8) by (cbn [pow]; lra).
  set (w := cross q1 q2) in *. set (u := unitv q1) in *. set (y := cross (unitv w) u) in *.
  assert (N2 : 0 < norm q2). { destruct (norm_pos q2) as [L|E]; [exact L|]. exfalso. symmetry in E. apply norm_0 in E. assert (norm w = 0); [|lra]. unfold w. rewrite E. unfold norm, cross. cbn [v0 v1 v2]. transitivity (sqrt 0); [f_equal; ring|apply sqrt_0]. }
  assert (Uu : vdot u u = 1) by (apply unit_axis; lra). assert (Uw : vdot (unitv w) (unitv w) = 1) by (apply unit_axis; lra).
  assert (Pw : vdot u w = 0). { unfold u, unitv. rewrite vdiv_scale. unfold w, vdot, vscale, cross. cbn [v0 v1 v2]. ring. } assert (Pw' : vdot (unitv w) u = 0) by (unfold unitv; rewrite vdiv_scale; transitivity (/ norm w * vdot u w); [unfold vdot, vscale; cbn [v0 v1 v2]; ring|rewrite Pw; ring]).
  assert (Uy : vdot y y = 1) by (unfold y; pose proof (cross_sq (unitv w) u) as K; rewrite Uw, Uu, Pw' in K; lra). assert (Yu : vdot y u = 0) by (unfold y, vdot, cross; cbn [v0 v1 v2]; ring). assert (Yw : vdot y w = 0) by (unfold y, unitv; rewrite vdiv_scale; unfold vdot, cross, vscale; cbn [v0 v1 v2]; ring).
  set (a := arctan2 (norm w) (vdot q1 q2)).
  assert (P12 : 0 < norm q1 * norm q2) by (apply Rmult_lt_0_compat; lra).
  destruct (arctan2_spec (norm w) (vdot q1 q2) (norm q1 * norm q2) P12) as (Ca & Sa). { rewrite norm_sq. pose proof (cross_sq q1 q2) as K. fold w in K. rewrite <- !norm_sq in K. rewrite (norm_sq w) in K. replace (norm q1 * norm q2 * (norm q1 * norm q2)) with (norm q1 * norm q1 * (norm q2 * norm q2)) by ring. rewrite <- K. ring. } fold a in Ca, Sa.
  assert (A : 0 <= a <= PI). { pose proof (arctan2_range (norm w) (vdot q1 q2)) as B. fold a in B. split; [|lra]. apply Rnot_lt_le. intros L. assert (sin (- a) > 0) by (apply sin_gt_0; lra). rewrite sin_neg in *. assert (0 < norm w / (norm q1 * norm q2)) by (apply Rmult_lt_0_compat; [lra|apply Rinv_0_lt_compat; exact P12]). lra. }
  assert (E1 : q1 = vscale (norm q1) u). { unfold u, unitv. rewrite vdiv_scale. destruct q1 as [a0 a1 a2]. set (k := norm _) in *. unfold vscale. cbn [v0 v1 v2]. f_equal; field; lra. }
  assert (E2 : q2 = vscale (norm q2) (vadd (vscale (cos a) u) (vscale (sin a) y))).
  { rewrite Ca, Sa. assert (Ey : y = vscale (/ (norm w * norm q1)) (vsub (vscale (vdot q1 q1) q2) (vscale (vdot q1 q2) q1))). { unfold y, u, unitv. rewrite !vdiv_scale. assert (Kw : norm w <> 0) by lra. assert (K1 : norm q1 <> 0) by lra. set (kw := norm w) in *. set (k1 := norm q1) in *. clearbody kw k1. unfold w. unfold vscale, vsub, cross, vdot. cbn [v0 v1 v2]. clear - Kw K1. f_equal; field; split; assumption. }
    rewrite Ey. rewrite <- (norm_sq q1). unfold u, unitv. rewrite vdiv_scale. set (d := vdot q1 q2). clearbody d. set (k1 := norm q1) in *. set (k2 := norm q2) in *. set (kw := norm w) in *. clearbody k1 k2 kw. clear - N1 N2 Np T8. destruct q1 as [a0 a1 a2], q2 as [b0 b1 b2]. unfold vscale, vadd, vsub. cbn [v0 v1 v2]. f_equal; field; repeat split; lra. }
  assert (Hn1 : INR (n - 1) <> 0) by (apply not_0_INR; lia).
  assert (Pt : forall i, (i < n)%nat -> let t := INR i / INR (n - 1) in nth_error path i = Some (vadd (vscale ((1 - t) * norm q1 + t * norm q2) (vadd (vscale (cos (t * a)) u) (vscale (sin (t * a)) y))) o)).
  { intros i Hi t. unfold path. rewrite point by exact Hi. fold q1 q2 m w a. rewrite (radius_float q1), (radius_float q2). do 2 f_equal. rewrite mapply_xy, Rx, Ry. set (r := norm q1 + _). set (f := 0 + _). assert (Er : r = (1 - t) * norm q1 + t * norm q2) by (unfold r, t; field; exact Hn1). assert (Ef : f = t * a) by (unfold f, t; field; exact Hn1). rewrite Er, Ef. unfold vadd, vscale. cbn [v0 v1 v2]. f_equal; ring. }
  assert (Back : forall p o', vadd (vsub p o') o' = p) by (intros p o'; destruct p as [c0 c1 c2], o' as [d0 d1 d2]; unfold vadd, vsub; cbn [v0 v1 v2]; f_equal; ring).
  split; [apply length_great|]. split; [|split].
  - rewrite (Pt 0%nat) by lia. cbn [INR]. unfold Rdiv. rewrite !Rmult_0_l, cos_0, sin_0. f_equal. rewrite <- (Back p1 o). fold q1. f_equal. rewrite E1 at 2. unfold vadd, vscale. cbn [v0 v1 v2]. f_equal; ring.
  - rewrite (Pt (n - 1)%nat) by lia. replace (INR (n - 1) / INR (n - 1)) with 1 by (field; exact Hn1). rewrite !Rmult_1_l. f_equal. rewrite <- (Back p2 o). fold q2. f_equal. symmetry. rewrite E2 at 1. unfold vadd, vscale. cbn [v0 v1 v2]. f_equal; ring.
  - exists a. split; [exact A|]. split; [rewrite Ca; field; lra|]. intros i p E t q. assert (Hi : (i < n)%nat) by (rewrite <- (length_great Float Float p1 p2 o n); apply nth_error_Some; fold path; congruence). rewrite (Pt i Hi) in E. injection E as E. fold t in E. set (r := (1 - t) * norm q1 + t * norm q2) in *.
    assert (T : 0 <= t <= 1). { unfold t. assert (0 < INR (n - 1)) by (apply lt_0_INR; lia). assert (0 <= INR i) by apply pos_INR. assert (INR i <= INR (n - 1)) by (apply le_INR; lia). split; [apply Rmult_le_pos; [assumption|left; apply Rinv_0_lt_compat; assumption]|]. apply (Rmult_le_reg_r (INR (n - 1))); [assumption|]. unfold Rdiv. rewrite Rmult_assoc, Rinv_l by exact Hn1. lra. }
    assert (Hr : 0 <= r) by (unfold r; apply Rplus_le_le_0_compat; apply Rmult_le_pos; lra).
    assert (Eq : q = vscale r (vadd (vscale (cos (t * a)) u) (vscale (sin (t * a)) y))) by (unfold q; rewrite <- E; clear; destruct o as [o0 o1 o2], u as [u0 u1 u2], y as [y0 y1 y2]; unfold vadd, vsub, vscale; cbn [v0 v1 v2]; f_equal; ring).
    assert (Lin : forall c s x, vdot (vscale r (vadd (vscale c u) (vscale s y))) x = r * (c * vdot u x + s * vdot y x)) by (intros; unfold vdot, vscale, vadd; cbn [v0 v1 v2]; ring).
    assert (Nq : norm q = r). { apply MapPtsProps.square_inj; [apply norm_pos|exact Hr|]. rewrite norm_sq. rewrite Eq at 1. rewrite Lin, Eq. rewrite (vdot_sym u), (vdot_sym y), !Lin. rewrite Uu, Uy, Yu, (vdot_sym u y), Yu. pose proof (sin2_cos2 (t * a)) as K. unfold Rsqr in K. transitivity (r * r * (sin (t * a) * sin (t * a) + cos (t * a) * cos (t * a))); [ring|rewrite K; ring]. }
    rewrite Nq. split; [reflexivity|]. rewrite Eq. split; [rewrite Lin, Pw, Yw; ring|]. split.
    + rewrite Lin. rewrite E1 at 1 2. assert (S : forall x, vdot x (vscale (norm q1) u) = norm q1 * vdot x u) by (intros x; unfold vdot, vscale; cbn [v0 v1 v2]; ring). rewrite !S, Uu, Yu. ring.
    + rewrite Lin. rewrite E2 at 1 2. assert (S : forall x, vdot x (vscale (norm q2) (vadd (vscale (cos a) u) (vscale (sin a) y))) = norm q2 * (cos a * vdot x u + sin a * vdot x y)) by (intros x; unfold vdot, vscale, vadd; cbn [v0 v1 v2]; ring). rewrite !S, Uu, Uy, Yu, (vdot_sym u y), Yu. replace ((1 - t) * a) with (a - t * a) by ring. rewrite cos_minus. ring.
Qed.
Print Assumptions C62_great_circle.

(** * where it fails *)
Lemma unit_of_len x c : 0 < c -> norm x = c -> unitv x = vscale (/ c) x.
Proof. intros H E. unfold unitv. rewrite E. apply vdiv_scale. Qed.
Lemma norm_is x c : 0 <= c -> vdot x x = c * c -> norm x = c.
Proof. intros H E. unfold norm. unfold vdot in E. rewrite E. apply sqrt_square. exact H. Qed.
Lemma noroll_zz : mapply (a2b_noroll (VEC 0 0 1) (VEC 0 0 1)) xhat = xhat.
Proof.
  assert (B : vdot (VEC 0 0 1) (VEC 0 0 1) = 1) by (unfold vdot; cbn [v0 v1 v2]; ring). unfold a2b_noroll. assert (C : cross (VEC 0 0 1) (VEC 0 0 1) = VEC 0 0 0) by (unfold cross; cbn [v0 v1 v2]; f_equal; ring). assert (N0 : norm (VEC 0 0 0) = 0) by (apply norm_is; [lra|unfold vdot; cbn [v0 v1 v2]; ring]).
  rewrite C, N0, B. assert (T : arctan2 0 1 = 0) by (unfold arctan2; destruct (Rlt_dec 0 1); [unfold Rdiv; rewrite Rmult_0_l; apply atan_0|lra]). rewrite T. destruct (a2b_axis_perp _ (VEC 0 0 1) B) as (_ & N). rewrite wxyz2rot_0 by exact N. apply mapply_eye.
Qed.
Lemma unit_z k : 0 < k -> unitv (VEC 0 0 k) = VEC 0 0 1.
Proof. intros H. rewrite (unit_of_len _ k H) by (apply norm_is; [lra|unfold vdot; cbn [v0 v1 v2]; ring]). unfold vscale. cbn [v0 v1 v2]. f_equal; field; lra. Qed.
Lemma rot_zz k : 0 < k -> mapply (a2b_rot (VEC 0 0 1) (VEC 0 0 k) 0 RotModel.Rad) xhat = xhat.
Proof. intros H. unfold a2b_rot, rolled. rewrite (unit_z 1), (unit_z k) by lra. destruct (Req_EM_T 0 0); [|congruence]. apply noroll_zz. Qed.
Lemma clear_z k : 0 < k -> clear_pair (VEC 0 0 1) (unitv (VEC 0 0 k)).
Proof. intros H. left. rewrite unit_z by exact H. unfold cross. cbn [v0 v1 v2]. f_equal; ring. Qed.
Lemma isclose_far n : 1 <= n -> isclose n 0 = false.
Proof. intros H. rewrite isclose_0 by lra. destruct (Rle_dec _ _) as [L|]; [|reflexivity]. exfalso. cbn [pow] in L. lra. Qed.
Lemma first d1 d2 p1 p2 o n : (1 <= n)%nat -> let q1 := vsub p1 o in let q2 := vsub p2 o in
  nth_error (great_circle d1 d2 p1 p2 o n) 0 = Some (vadd (vscale (radius d1 q1) (mapply (a2b_rot_x (VEC 0 0 1) (pole_of q1 q2) q1 RotModel.Rad) xhat)) o).
Proof.
  intros H. cbv zeta. rewrite point by lia. cbn [INR]. rewrite !Rmult_0_l, !Rplus_0_r, cos_0, sin_0, Rmult_0_r, Rmult_1_r, mapply_xy. do 2 f_equal. unfold xhat. unfold vadd, vscale. cbn [v0 v1 v2]. f_equal; ring.
Qed.
Lemma minus_0 p : vsub p (VEC 0 0 0) = p.
Proof. destruct p as [x y z]. unfold vsub. cbn [v0 v1 v2]. f_equal; ring. Qed.

(** Not proved because false: every great circle starts at p1.  From -x towards -y it starts at +x. *)
Theorem C62_opposite_refuted : forall n, (1 <= n)%nat ->
  nth_error (great_circle Float Float (VEC (-1) 0 0) (VEC 0 (-1) 0) (VEC 0 0 0) n) 0 = Some (VEC 1 0 0).
Proof.
  intros n H. rewrite first by exact H. rewrite !minus_0. assert (P : pole_of (VEC (-1) 0 0) (VEC 0 (-1) 0) = VEC 0 0 1).
  { unfold pole_of. assert (C : cross (VEC (-1) 0 0) (VEC 0 (-1) 0) = VEC 0 0 1) by (unfold cross; cbn [v0 v1 v2]; f_equal; ring). rewrite C, isclose_far; [reflexivity|]. rewrite (norm_is _ 1); [lra|lra|unfold vdot; cbn [v0 v1 v2]; ring]. }
  rewrite P. destruct C51_new_x_refuted as (_ & E). rewrite E. rewrite radius_float, (norm_is _ 1) by (try lra; unfold vdot; cbn [v0 v1 v2]; ring). unfold vadd, vscale. cbn [v0 v1 v2]. do 2 f_equal; ring.
Qed.
Print Assumptions C62_opposite_refuted.

(** Nor for points in the same direction: from (1, 1, 0) to (2, 2, 0) it starts on the x axis. *)
Theorem C62_colinear_refuted : forall n, (1 <= n)%nat ->
  nth_error (great_circle Float Float (VEC 1 1 0) (VEC 2 2 0) (VEC 0 0 0) n) 0 = Some (VEC (sqrt 2) 0 0).
Proof.
  intros n H. rewrite first by exact H. rewrite !minus_0. assert (P : pole_of (VEC 1 1 0) (VEC 2 2 0) = VEC 0 (-1) 0).
  { unfold pole_of. assert (C : cross (VEC 1 1 0) (VEC 2 2 0) = VEC 0 0 0) by (unfold cross; cbn [v0 v1 v2]; f_equal; ring). rewrite C, isclose_0 by apply norm_pos. rewrite (norm_is _ 0) by (try lra; unfold vdot; cbn [v0 v1 v2]; ring). destruct (Rle_dec _ _) as [_|F]; [|exfalso; apply F; cbn [pow]; lra].
    assert (C' : cross (VEC 0 (-1) 0) (VEC 1 1 0) = VEC 0 0 1) by (unfold cross; cbn [v0 v1 v2]; f_equal; ring). rewrite C', isclose_far; [reflexivity|]. rewrite (norm_is _ 1); [lra|lra|unfold vdot; cbn [v0 v1 v2]; ring]. }
  rewrite P. assert (N1 : forall x y z, x * x + y * y + z * z = 1 -> norm (VEC x y z) = 1) by (intros; apply norm_is; [lra|unfold vdot; cbn [v0 v1 v2]; lra]). assert (U1 : forall x y z, x * x + y * y + z * z = 1 -> unitv (VEC x y z) = VEC x y z) by (intros; unfold unitv; rewrite N1 by assumption; apply vdiv_1).
  assert (Ub : unitv (VEC 0 (-1) 0) = VEC 0 (-1) 0) by (apply U1; ring). assert (Uz : unitv (VEC 0 0 1) = VEC 0 0 1) by (apply U1; ring).
  assert (Y : vsub (VEC 1 1 0) (vscale (vdot (VEC 1 1 0) (VEC 0 (-1) 0)) (VEC 0 (-1) 0)) = VEC 1 0 0) by (unfold vsub, vscale, vdot; cbn [v0 v1 v2]; f_equal; ring).
  assert (W : wanted (VEC 0 (-1) 0) (VEC 1 1 0) = VEC 1 0 0) by (unfold wanted; rewrite Ub, Y; apply U1; ring).
  assert (Cz : cross (VEC 0 0 1) (VEC 0 (-1) 0) = xhat) by (unfold cross, xhat; cbn [v0 v1 v2]; f_equal; ring). assert (Nx : norm xhat = 1) by (apply N1; ring).
  destruct (C51_new_x (VEC 0 0 1) (VEC 0 (-1) 0) (VEC 1 1 0) RotModel.Rad) as (_ & _ & E).
  - rewrite N1 by ring. lra.
  - rewrite N1 by ring. lra.
  - reflexivity.
  - rewrite Ub, Uz. right. rewrite Cz, Nx. cbn [pow]. lra.
  - rewrite Ub, Y, N1 by ring. cbn [pow]. lra.
  - rewrite W. unfold a2b_rot, rolled. rewrite Ub, Uz. destruct (Req_EM_T 0 0) as [_|]; [|congruence]. unfold a2b_noroll, a2b_axis. rewrite Cz, Nx, isclose_far by lra. destruct (C19_axis (arctan2 1 (vdot (VEC 0 0 1) (VEC 0 (-1) 0))) xhat RotModel.Rad) as (_ & _ & F); [rewrite Nx; lra|]. rewrite F. unfold xhat, vscale. cbn [v0 v1 v2]. intros K. injection K as K _. lra.
  - rewrite E, W. rewrite radius_float. assert (N2 : norm (VEC 1 1 0) = sqrt 2) by (unfold norm; cbn [v0 v1 v2]; f_equal; ring). rewrite N2. unfold vadd, vscale. cbn [v0 v1 v2]. do 2 f_equal; ring.
Qed.
Print Assumptions C62_colinear_refuted.

(** Nor for integer points: the distance of (1, 1, 0) is cut to 1. *)
Lemma plain_diag : plain (VEC 1 1 0) (VEC (-1) 1 0).
Proof.
  assert (C : cross (VEC 1 1 0) (VEC (-1) 1 0) = VEC 0 0 2) by (unfold cross; cbn [v0 v1 v2]; f_equal; ring). unfold plain. rewrite C. assert (N2 : norm (VEC 1 1 0) = sqrt 2) by (unfold norm; cbn [v0 v1 v2]; f_equal; ring). assert (S2 : 1 < sqrt 2) by (rewrite <- sqrt_1 at 1; apply sqrt_lt_1; lra).
  split; [rewrite N2; cbn [pow]; lra|]. split; [rewrite (norm_is _ 2); [cbn [pow]; lra|lra|unfold vdot; cbn [v0 v1 v2]; ring]|]. split; [apply clear_z; lra|]. rewrite rot_zz by lra. rewrite (unit_of_len (VEC 1 1 0) (sqrt 2)) by (first [exact N2 | lra]). unfold xhat, vscale. cbn [v0 v1 v2]. intros K. injection K as _ K _. assert (0 < / sqrt 2) by (apply Rinv_0_lt_compat; lra). lra.
Qed.
Theorem C62_integers_refuted : forall n, (1 <= n)%nat -> exists p,
  nth_error (great_circle Int Int (VEC 1 1 0) (VEC (-1) 1 0) (VEC 0 0 0) n) 0 = Some p /\ norm p = 1 /\ norm (VEC 1 1 0) = sqrt 2.
Proof.
  intros n H. eexists. split; [apply first; exact H|]. rewrite !minus_0. destruct (plain_rot _ _ plain_diag) as (_ & E & _). change xhat with (VEC 1 0 0). rewrite E.
  assert (N2 : norm (VEC 1 1 0) = sqrt 2) by (unfold norm; cbn [v0 v1 v2]; f_equal; ring). assert (S2 : 1 < sqrt 2) by (rewrite <- sqrt_1 at 1; apply sqrt_lt_1; lra). split; [|exact N2].
  assert (R : radius Int (VEC 1 1 0) = 1). { unfold radius, cart2sph. cbn [put v0 v1 v2]. replace (1 * 1 + 1 * 1 + 0 * 0) with 2 by ring. apply (MapPtsProps.trunc_at (sqrt 2) 1); [lia|]. split; [lra|]. assert (sqrt 2 < 2); [|lra]. apply Rsqr_incrst_0; unfold Rsqr; try rewrite sqrt_sqrt; lra. }
  rewrite R. apply norm_is; [lra|]. rewrite (unit_of_len (VEC 1 1 0) (sqrt 2)) by (first [exact N2 | lra]). unfold vdot, vadd, vscale. cbn [v0 v1 v2]. transitivity (2 * (/ sqrt 2 * / sqrt 2)); [ring|]. rewrite <- Rinv_mult, sqrt_sqrt by lra. field.
Qed.
Print Assumptions C62_integers_refuted.

(** the hypotheses are met *)
Example C62_nonvacuous : plain (vsub (VEC 2 1 5) (VEC 1 0 5)) (vsub (VEC 0 1 5) (VEC 1 0 5)).
Proof. replace (vsub (VEC 2 1 5) (VEC 1 0 5)) with (VEC 1 1 0) by (unfold vsub; cbn [v0 v1 v2]; f_equal; ring). replace (vsub (VEC 0 1 5) (VEC 1 0 5)) with (VEC (-1) 1 0) by (unfold vsub; cbn [v0 v1 v2]; f_equal; ring). exact plain_diag. Qed.
Print Assumptions C62_nonvacuous.
