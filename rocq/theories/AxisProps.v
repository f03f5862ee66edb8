(** C50: extraction of quaternions and axes inverts their construction; C51: a2b_rot maps a onto b. *)
From Verif Require Import RotModel RotProofs RotProps.
From Coq Require Import Lra Bool.
Open Scope R_scope.

Ltac sqs l := lazymatch l with (?l, ?x) => sqs l; pose proof (Rle_0_sqr x) | ?x => pose proof (Rle_0_sqr x) end.
Lemma sq_0 x : x * x = 0 -> x = 0.
Proof. intros H. apply Rmult_integral in H. lra. Qed.

(** ** every rotation belongs to a unit quaternion *)
Lemma rotation_quat r : rotation r -> exists q, n2 q = 1 /\ r = rot_of q.
Proof.
  intros Hr. pose proof (rotation_eqs r Hr) as ((A1 & A2 & A3) & (A4 & A5 & A6) & (B1 & B2 & B3) & (B4 & B5 & B6) & (C1 & C2 & C3) & (C4 & C5 & C6) & (C7 & C8 & C9)).
  destruct r as [a b c d e f g h i]. cbn [m00 m01 m02 m10 m11 m12 m20 m21 m22] in *. clear Hr.
  set (W := 1 + a + e + i). set (X := 1 + a - e - i). set (Y := 1 - a + e - i). set (Z := 1 - a - e + i).
  set (wx := h - f). set (wy := c - g). set (wz := d - b). set (xy := b + d). set (xz := c + g). set (yz := f + h).
  assert (S : W + X + Y + Z = 4) by (unfold W, X, Y, Z; ring).
  assert (key : forall p p0 p1 p2 p3, 0 < p -> p0 * p0 = W * p -> p1 * p1 = X * p -> p2 * p2 = Y * p -> p3 * p3 = Z * p ->
    p0 * p1 = wx * p -> p0 * p2 = wy * p -> p0 * p3 = wz * p -> p1 * p2 = xy * p -> p1 * p3 = xz * p -> p2 * p3 = yz * p ->
    exists q, n2 q = 1 /\ MAT a b c d e f g h i = rot_of q).
  { intros p p0 p1 p2 p3 Hp H00 H11 H22 H33 H01 H02 H03 H12 H13 H23. set (k := 2 * sqrt p).
    assert (K : k * k = 4 * p) by (unfold k; replace (2 * sqrt p * (2 * sqrt p)) with (4 * (sqrt p * sqrt p)) by ring; rewrite sqrt_sqrt by lra; reflexivity).
    assert (K0 : k <> 0) by (intros E; rewrite E in K; lra).
    assert (Q : forall x y m, x * y = m * p -> x / k * (y / k) = m / 4) by (intros x y m E; replace (x / k * (y / k)) with (x * y / (k * k)) by (field; exact K0); rewrite E, K; field; lra).
    exists (QUAT (p0 / k) (p1 / k) (p2 / k) (p3 / k)). unfold n2, rot_of. cbn [qw qx qy qz].
    rewrite (Q _ _ _ H00), (Q _ _ _ H11), (Q _ _ _ H22), (Q _ _ _ H33), (Q _ _ _ H12), (Q _ _ _ H13), (Q _ _ _ H23).
    rewrite !(Rmult_comm (_ / k) (p0 / k)), (Q _ _ _ H01), (Q _ _ _ H02), (Q _ _ _ H03). unfold W, X, Y, Z, wx, wy, wz, xy, xz, yz. split; [field|]. f_equal; field. }
  assert (D : 0 < W \/ 0 < X \/ 0 < Y \/ 0 < Z) by (destruct (Rlt_dec 0 W); [tauto|]; destruct (Rlt_dec 0 X); [tauto|]; destruct (Rlt_dec 0 Y); [tauto|]; right; right; right; lra).
  destruct D as [D|[D|[D|D]]].
  - apply (key W W wx wy wz D); unfold W, X, Y, Z, wx, wy, wz, xy, xz, yz; lra.
  - apply (key X wx X xy xz D); unfold W, X, Y, Z, wx, wy, wz, xy, xz, yz; lra.
  - apply (key Y wy xy Y yz D); unfold W, X, Y, Z, wx, wy, wz, xy, xz, yz; lra.
  - apply (key Z wz xz yz Z D); unfold W, X, Y, Z, wx, wy, wz, xy, xz, yz; lra.
Qed.

(** ** what np.linalg.eigh returns *)
Definition dot4 (a b : vec4) : R := e0 a * e0 b + e1 a * e1 b + e2 a * e2 b + e3 a * e3 b.
Definition apply4 (m : mat4) (x : vec4) : vec4 := V4 (dot4 (r0 m) x) (dot4 (r1 m) x) (dot4 (r2 m) x) (dot4 (r3 m) x).
Definition scale4 (c : R) (x : vec4) : vec4 := V4 (c * e0 x) (c * e1 x) (c * e2 x) (c * e3 x).
Definition sum {A} (f : A -> R) (l : list A) : R := fold_right (fun x acc => f x + acc) 0 l.
(** eigenvectors of length one which form an orthonormal basis (Parseval) *)
Definition eigen4 (m : mat4) (l : list (R * vec4)) : Prop :=
  (forall t v, In (t, v) l -> apply4 m v = scale4 t v /\ dot4 v v = 1) /\
  forall x, sum (fun p => dot4 x (snd p) * dot4 x (snd p)) l = dot4 x x.
Definition eigen3 (m : mat) (l : list (R * vec)) : Prop :=
  (forall t v, In (t, v) l -> mapply m v = vscale t v /\ vdot v v = 1) /\
  forall x, sum (fun p => vdot x (snd p) * vdot x (snd p)) l = vdot x x.
Lemma pick_spec {A} (key : A -> R) l d : l <> [] -> In (pick key l d) l /\ forall x, In x l -> key x <= key (pick key l d).
Proof.
  intros H. destruct l as [|a l]; [congruence|]. clear H. unfold pick. cbn [tl hd].
  assert (G : forall l a, In (fold_left (fun best x => if Rlt_dec (key best) (key x) then x else best) l a) (a :: l) /\
    forall x, In x (a :: l) -> key x <= key (fold_left (fun best x => if Rlt_dec (key best) (key x) then x else best) l a)).
  { clear. induction l as [|b l IH]; intros a.
    - cbn [fold_left]. split; [left; reflexivity|]. intros x [->|[]]. lra.
    - cbn [fold_left]. destruct (Rlt_dec (key a) (key b)) as [L|L].
      + destruct (IH b) as (P & Q). split; [right; exact P|]. intros x [->|I]; [|apply Q; exact I]. apply Rle_trans with (key b); [lra|]. apply Q. left. reflexivity.
      + destruct (IH a) as (P & Q). split; [destruct P as [P|P]; [left; exact P|right; right; exact P]|]. intros x [->|[->|I]]; [apply Q; left; reflexivity| |apply Q; right; exact I]. apply Rle_trans with (key a); [lra|]. apply Q. left. reflexivity. }
  apply G.
Qed.
Lemma sum_nonzero {A} (f : A -> R) l : sum f l <> 0 -> exists x, In x l /\ f x <> 0.
Proof.
  induction l as [|a l IH]; cbn [sum fold_right]; intros H; [congruence|]. destruct (Req_dec (f a) 0) as [E|E].
  - destruct IH as (x & I & F); [fold (sum f l) in H; lra|]. exists x. split; [right; exact I|exact F].
  - exists a. split; [left; reflexivity|exact E].
Qed.

(** * C50 *)
Lemma k3_quat w x y z v : n2 (QUAT w x y z) = 1 ->
  apply4 (k3 (rot_of (QUAT w x y z))) v = let c := 4 * dot4 (V4 (- x) (- y) (- z) w) v in
  V4 ((c * - x - e0 v) / 3) ((c * - y - e1 v) / 3) ((c * - z - e2 v) / 3) ((c * w - e3 v) / 3).
Proof.
  unfold n2. cbn [qw qx qy qz]. intros H. destruct v as [a b c d]. unfold apply4, k3, rot_of, dot4. cbn [e0 e1 e2 e3 r0 r1 r2 r3 m00 m01 m02 m10 m11 m12 m20 m21 m22]. cbv zeta.
  f_equal; try (field; fail). assert (E : x * x + y * y + z * z = 1 - w * w) by lra.
  transitivity ((4 * (- x * a + - y * b + - z * c) * w + (3 - 4 * (x * x + y * y + z * z)) * d) / 3); [field|]. rewrite E. field.
Qed.
(** The quaternion extracted from a rotation is a unit quaternion whose matrix is the rotation. *)
Theorem C50_quat : forall eigh r, rotation r -> eigen4 (k3 r) (eigh (k3 r)) ->
  qnorm (rot2quat eigh r) = 1 /\ quat2rot (rot2quat eigh r) = r.
Proof.
  intros eigh r Hr (He & Hp). destruct (rotation_quat r Hr) as ([w x y z] & U & E). set (l := eigh (k3 r)) in *.
  set (q' := V4 (- x) (- y) (- z) w).
  assert (Uq : dot4 q' q' = 1) by (unfold dot4, q'; cbn [e0 e1 e2 e3]; unfold n2 in U; cbn [qw qx qy qz] in U; lra).
  assert (Ln : l <> []) by (intros L; specialize (Hp q'); rewrite L in Hp; cbn [sum fold_right] in Hp; lra).
  (* some eigenvalue is 1 *)
  assert (Hd : forall t v, In (t, v) l -> dot4 q' v * (t - 1) = 0).
  { intros t v I. destruct (He t v I) as (A & B). rewrite E, k3_quat in A by exact U. cbv zeta in A. fold q' in A. unfold scale4 in A. injection A as A0 A1 A2 A3.
    set (s := dot4 q' v) in *. assert (S : s = - x * e0 v + - y * e1 v + - z * e2 v + w * e3 v) by (unfold s, dot4, q'; cbn [e0 e1 e2 e3]; ring).
    assert (Q : s * t = - x * (t * e0 v) + - y * (t * e1 v) + - z * (t * e2 v) + w * (t * e3 v)) by (rewrite S; ring).
    rewrite <- A0, <- A1, <- A2, <- A3 in Q. unfold dot4, q' in Uq. cbn [e0 e1 e2 e3] in Uq.
    replace (_ + _ + _ + _) with ((4 * s * (- x * - x + - y * - y + - z * - z + w * w) - s) / 3) in Q by (rewrite S at 2; field). rewrite Uq in Q. lra. }
  destruct (sum_nonzero _ l (fun Z => R1_neq_R0 (eq_trans (eq_sym Uq) (eq_trans (eq_sym (Hp q')) Z)))) as ((t1 & v1) & I1 & N1). cbn [snd] in N1.
  assert (T1 : t1 = 1) by (specialize (Hd t1 v1 I1); apply Rmult_integral in Hd; destruct Hd as [Hd|Hd]; [rewrite Hd in N1; exfalso; apply N1; ring|lra]).
  (* so the one picked has eigenvalue 1 *)
  unfold rot2quat. fold l. destruct (pick_spec fst l (0, V4 0 0 0 0) Ln) as (Ip & Mp). destruct (pick fst l (0, V4 0 0 0 0)) as (t & v). cbn [fst snd] in *. specialize (Mp _ I1). cbn [fst] in Mp.
  destruct (He t v Ip) as (A & B). rewrite E, k3_quat in A by exact U. cbv zeta in A. fold q' in A. unfold scale4 in A. injection A as A0 A1 A2 A3. set (s := dot4 q' v) in *.
  assert (V : e0 v = s * - x /\ e1 v = s * - y /\ e2 v = s * - z /\ e3 v = s * w /\ s * s = 1).
  { destruct (Req_dec s 0) as [Z|Z].
    - exfalso. rewrite Z in *. unfold dot4 in B. destruct (Req_dec (e0 v) 0); [|nra]. destruct (Req_dec (e1 v) 0); [|nra]. destruct (Req_dec (e2 v) 0); [|nra]. destruct (Req_dec (e3 v) 0); [|nra]. nra.
    - assert (t = 1) by (specialize (Hd t v Ip); fold s in Hd; apply Rmult_integral in Hd; lra). subst t.
      assert (F0 : e0 v = s * - x) by lra. assert (F1 : e1 v = s * - y) by lra. assert (F2 : e2 v = s * - z) by lra. assert (F3 : e3 v = s * w) by lra. repeat split; try assumption.
      unfold dot4 in B. rewrite F0, F1, F2, F3 in B. unfold dot4, q' in Uq. cbn [e0 e1 e2 e3] in Uq. rewrite <- B. transitivity (s * s * (- x * - x + - y * - y + - z * - z + w * w)); [rewrite Uq; ring|ring]. }
  destruct V as (F0 & F1 & F2 & F3 & SS). rewrite F0, F1, F2, F3. set (q := QUAT (s * w) (- (s * - x)) (- (s * - y)) (- (s * - z))).
  assert (Nq : n2 q = 1) by (unfold q, n2 in *; cbn [qw qx qy qz] in *; transitivity (s * s * (w * w + x * x + y * y + z * z)); [ring|rewrite SS, U; ring]).
  assert (Qq : qnorm q = 1) by (rewrite qnorm_n2, Nq; apply sqrt_1). rewrite Qq. assert (Dq : qdiv q 1 = q) by (unfold qdiv; destruct q as [a b c d]; cbn [qw qx qy qz]; f_equal; field). rewrite Dq. split; [exact Qq|].
  rewrite quat2rot_good by (left; exact Qq). rewrite <- turn_unit by exact Nq. rewrite E. clear - SS. clearbody s. unfold q, rot_of.
  assert (D : s = 1 \/ s = -1) by (assert (Z : (s - 1) * (s + 1) = 0) by lra; apply Rmult_integral in Z; lra). destruct D as [-> | ->]; f_equal; ring.
Qed.
Print Assumptions C50_quat.

(** The axis and angle. *)
Lemma norm_1 a : vdot a a = 1 -> norm a = 1.
Proof. unfold norm, vdot. intros ->. apply sqrt_1. Qed.
Lemma norm_0 a : norm a = 0 -> a = VEC 0 0 0.
Proof. intros H. pose proof (norm_sq a) as E. rewrite H in E. destruct a as [x y z]. unfold vdot in E. cbn [v0 v1 v2] in E. sqs (x, y, z). unfold Rsqr in *. rewrite (sq_0 x), (sq_0 y), (sq_0 z) by lra. reflexivity. Qed.
Lemma vdiv_1 a : vdiv a 1 = a.
Proof. destruct a as [x y z]. unfold vdiv. cbn [v0 v1 v2]. f_equal; field. Qed.
Lemma clip_le c : -1 <= c <= 1 -> clip c = c.
Proof. intros H. unfold clip. rewrite Rmax_right, Rmin_right by lra. reflexivity. Qed.
Lemma cross_perp a k : vdot (cross a k) k = 0.
Proof. unfold vdot, cross. cbn [v0 v1 v2]. ring. Qed.
Lemma vdot_div a b c : c <> 0 -> vdot (vdiv a c) b = vdot a b / c.
Proof. intros H. unfold vdot, vdiv. cbn [v0 v1 v2]. field. exact H. Qed.
Lemma rodrigues_neg s c k : rodrigues (- s) c (vscale (-1) k) = rodrigues s c k.
Proof. destruct k as [x y z]. unfold rodrigues. mcbn. f_equal; ring. Qed.
Lemma angle_about_ok r s c k : vdot k k = 1 -> s * s + c * c = 1 -> r = rodrigues s c k ->
  let '(t, k') := angle_about r k in
  rodrigues (sin t) (cos t) k' = r /\ vdot k' k' = 1 /\ 0 <= t <= PI.
Proof.
  intros Hk Hs Er. unfold angle_about. set (d := norm (vsub xhat k)). set (a := if Rlt_dec d (1 / 10) then yhat else if Rlt_dec (19 / 10) d then yhat else xhat).
  assert (Hn : norm (cross a k) <> 0).
  { intros Z. apply norm_0 in Z. assert (Hd : d * d = 2 - 2 * v0 k) by (unfold d; rewrite norm_sq; unfold vdot, vsub, xhat in *; cbn [v0 v1 v2]; lra). assert (D0 : 0 <= d) by apply norm_pos.
    destruct k as [x y z]. unfold vdot in Hk. cbn [v0 v1 v2] in *. clearbody d. subst a. destruct (Rlt_dec d (1 / 10)) as [L|L].
    - unfold cross, yhat in Z. cbn [v0 v1 v2] in Z. injection Z as Z1 Z2 Z3. assert (x = 0) by lra. subst x. nra.
    - destruct (Rlt_dec (19 / 10) d) as [M|M].
      + unfold cross, yhat in Z. cbn [v0 v1 v2] in Z. injection Z as Z1 Z2 Z3. assert (x = 0) by lra. subst x. nra.
      + unfold cross, xhat in Z. cbn [v0 v1 v2] in Z. injection Z as Z1 Z2. assert (y = 0) by lra. assert (z = 0) by lra. subst y z. assert (X : (x - 1) * (x + 1) = 0) by lra. apply Rmult_integral in X. assert (x = 1 \/ x = -1) as [-> | ->] by lra; nra. }
  set (b1 := vdiv (cross a k) (norm (cross a k))). assert (U1 : vdot b1 b1 = 1) by (apply vdot_unit; exact Hn). assert (P1 : vdot b1 k = 0) by (unfold b1; rewrite vdot_div, cross_perp by exact Hn; field; exact Hn). clearbody b1. clear Hn a d.
  assert (B2 : mapply r b1 = vadd (vscale c b1) (vscale s (cross k b1))).
  { rewrite Er, rodrigues_apply by exact Hk. assert (P : vdot k b1 = 0) by (rewrite <- P1; unfold vdot; ring). rewrite P. unfold vadd, vscale. cbn [v0 v1 v2]. f_equal; ring. }
  assert (L : vdot (cross k b1) (cross k b1) = 1).
  { transitivity (vdot k k * vdot b1 b1 - vdot b1 k * vdot b1 k); [unfold vdot, cross; cbn [v0 v1 v2]; ring|]. rewrite Hk, U1, P1. ring. }
  assert (U2 : vdot (mapply r b1) (mapply r b1) = 1).
  { rewrite B2. transitivity (c * c * vdot b1 b1 + s * s * vdot (cross k b1) (cross k b1)); [unfold vdot, cross, vadd, vscale; cbn [v0 v1 v2]; ring|]. rewrite U1, L. lra. }
  rewrite (norm_1 _ U2), vdiv_1, B2.
  assert (C : vdot b1 (vadd (vscale c b1) (vscale s (cross k b1))) = c).
  { transitivity (c * vdot b1 b1); [unfold vdot, cross, vadd, vscale; cbn [v0 v1 v2]; ring|]. rewrite U1. ring. }
  assert (S : vdot (cross b1 (vadd (vscale c b1) (vscale s (cross k b1)))) k = s).
  { transitivity (s * (vdot k k * vdot b1 b1 - vdot b1 k * vdot b1 k)); [unfold vdot, cross, vadd, vscale; cbn [v0 v1 v2]; ring|]. rewrite U1, Hk, P1. ring. }
  rewrite C, S. sqs (s, c). unfold Rsqr in *. assert (Cb : -1 <= c <= 1) by (split; nra). rewrite clip_le by exact Cb. rewrite cos_acos by exact Cb. rewrite sin_acos by exact Cb. replace (1 - c²) with (s * s) by (unfold Rsqr; lra).
  pose proof (acos_bound c) as Bd. destruct (Rlt_dec s 0) as [N|N].
  - replace (s * s) with (- s * - s) by ring. rewrite sqrt_square by lra. rewrite rodrigues_neg. split; [symmetry; exact Er|]. split; [|lra]. rewrite <- Hk. unfold vdot, vscale. cbn [v0 v1 v2]. ring.
  - rewrite sqrt_square by lra. split; [symmetry; exact Er|]. split; [exact Hk|lra].
Qed.
(** when the rotation is not close to a half turn (or none at all), or is exactly one of these *)
Definition clear_axis (eigh : mat -> list (R * vec)) (r : mat) : Prop :=
  1 / 10 ^ 8 < norm (axial r) \/ (axial r = VEC 0 0 0 /\ eigen3 (lower r) (eigh (lower r))).
Lemma axis_ok eigh r : rotation r -> clear_axis eigh r ->
  let k := rot_axis eigh r true in vdot k k = 1 /\ exists s c, s * s + c * c = 1 /\ r = rodrigues s c k.
Proof.
  intros Hr Hc. destruct (rotation_quat r Hr) as ([w x y z] & U & E). cbv zeta. unfold rot_axis. rewrite isclose_0 by apply norm_pos.
  assert (Ea : axial r = vscale (4 * w) (VEC x y z)) by (rewrite E; unfold axial, rot_of, vscale; cbn [m00 m01 m02 m10 m11 m12 m20 m21 m22 v0 v1 v2]; f_equal; ring).
  assert (T8 : 0 < 1 / 10 ^ 8) by (cbn [pow]; lra).
  assert (G : forall k e, vdot k k = 1 -> VEC x y z = vscale e k -> exists s c, s * s + c * c = 1 /\ r = rodrigues s c k).
  { intros [k0 k1 k2] e Hk Ev. unfold vscale in Ev. cbn [v0 v1 v2] in Ev. injection Ev as -> -> ->. unfold n2 in U. unfold vdot in Hk. cbn [v0 v1 v2 qw qx qy qz] in *.
    assert (S : e * e + w * w = 1) by (rewrite <- U; transitivity (e * e * (k0 * k0 + k1 * k1 + k2 * k2) + w * w); [rewrite Hk; ring|ring]).
    exists (2 * e * w), (w * w - e * e). split; [transitivity ((e * e + w * w) * (e * e + w * w)); [ring|rewrite S; ring]|]. rewrite E, rodrigues_quat by (try exact S; exact Hk). reflexivity. }
  destruct Hc as [Hn | (Hz & He & Hp)].
  - destruct (Rle_dec (norm (axial r)) (1 / 10 ^ 8)) as [L|_]; [lra|]. assert (N0 : norm (axial r) <> 0) by lra. split; [apply vdot_unit; exact N0|].
    assert (W0 : w <> 0) by (intros ->; apply N0; rewrite Ea; unfold norm, vscale; cbn [v0 v1 v2]; transitivity (sqrt 0); [f_equal; ring|apply sqrt_0]).
    apply (G _ (norm (axial r) / (4 * w)) (vdot_unit _ N0)). rewrite Ea at 2. unfold vscale, vdiv. cbn [v0 v1 v2]. f_equal; field; split; assumption.
  - assert (N0 : norm (axial r) = 0) by (rewrite Hz; unfold norm; cbn [v0 v1 v2]; transitivity (sqrt 0); [f_equal; ring|apply sqrt_0]). rewrite N0. destruct (Rle_dec 0 (1 / 10 ^ 8)) as [_|]; [|lra].
    set (l := eigh (lower r)) in *. assert (Ln : l <> []) by (intros L; specialize (Hp xhat); rewrite L in Hp; unfold vdot, xhat in Hp; cbn [sum fold_right v0 v1 v2] in Hp; lra).
    destruct (pick_spec (fun p : R * vec => - Rabs (fst p - 1)) l (0, VEC 0 0 0) Ln) as (Ip & Mp). destruct (pick _ l (0, VEC 0 0 0)) as (t & v). cbn [fst snd] in *. destruct (He t v Ip) as (A & B). rewrite (norm_1 v B), vdiv_1. split; [exact B|].
    assert (Lo : lower r = r) by (unfold axial in Hz; injection Hz as H1 H2 H3; destruct r as [a b c d e f g h i]; unfold lower; cbn [m00 m01 m02 m10 m11 m12 m20 m21 m22] in *; f_equal; lra).
    rewrite Lo in *. assert (Wv : w = 0 \/ VEC x y z = VEC 0 0 0).
    { rewrite Ea in Hz. unfold vscale in Hz. cbn [v0 v1 v2] in Hz. injection Hz as H1 H2 H3. destruct (Req_dec w 0) as [W|W]; [left; exact W|right]. f_equal; nra. }
    destruct Wv as [W|W]; [|apply (G v 0 B); rewrite W; unfold vscale; f_equal; ring]. subst w.
    set (u := VEC x y z) in *. assert (Uu : vdot u u = 1) by (unfold n2 in U; unfold vdot, u; cbn [v0 v1 v2 qw qx qy qz] in *; lra).
    assert (Ap : forall b, mapply r b = vsub (vscale (2 * vdot u b) u) b).
    { intros [b0 b1 b2]. rewrite E. unfold vdot, u in Uu |- *. cbn [v0 v1 v2] in Uu. unfold vsub. mcbn. assert (E0 : x * x = 1 - y * y - z * z) by lra. f_equal.
      - transitivity ((1 - 2 * (y * y + z * z)) * b0 + 2 * (x * y) * b1 + 2 * (x * z) * b2); [ring|]. replace (1 - 2 * (y * y + z * z)) with (2 * (x * x) - 1) by lra. ring.
      - transitivity (2 * (x * y) * b0 + (1 - 2 * (x * x + z * z)) * b1 + 2 * (y * z) * b2); [ring|]. replace (1 - 2 * (x * x + z * z)) with (2 * (y * y) - 1) by lra. ring.
      - transitivity (2 * (x * z) * b0 + 2 * (y * z) * b1 + (1 - 2 * (x * x + y * y)) * b2); [ring|]. replace (1 - 2 * (x * x + y * y)) with (2 * (z * z) - 1) by lra. ring. }
    assert (Hd : forall t v, In (t, v) l -> vdot u v * (t - 1) = 0).
    { intros t' v' I. destruct (He t' v' I) as (A' & _). rewrite Ap in A'. assert (Q : vdot u (vsub (vscale (2 * vdot u v') u) v') = vdot u (vscale t' v')) by (rewrite A'; reflexivity).
      assert (Q1 : vdot u (vsub (vscale (2 * vdot u v') u) v') = 2 * vdot u v' * vdot u u - vdot u v') by (unfold vdot, vsub, vscale; cbn [v0 v1 v2]; ring). assert (Q2 : vdot u (vscale t' v') = t' * vdot u v') by (unfold vdot, vscale; cbn [v0 v1 v2]; ring). rewrite Q1, Q2, Uu in Q. lra. }
    destruct (sum_nonzero _ l (fun Z => R1_neq_R0 (eq_trans (eq_sym Uu) (eq_trans (eq_sym (Hp u)) Z)))) as ((t1 & w1) & I1 & N1). cbn [snd] in N1.
    assert (T1 : t1 = 1) by (specialize (Hd t1 w1 I1); apply Rmult_integral in Hd; destruct Hd as [Hd|Hd]; [rewrite Hd in N1; exfalso; apply N1; ring|lra]).
    specialize (Mp _ I1). cbn [fst] in Mp. rewrite T1, Rminus_eq_0, Rabs_R0 in Mp. assert (T : t = 1) by (pose proof (Rabs_pos (t - 1)); destruct (Req_dec (t - 1) 0) as [|D]; [lra|]; apply Rabs_pos_lt in D; lra). subst t.
    rewrite Ap in A. set (e := vdot u v) in *. assert (V : v = vscale e u) by (clearbody e; destruct v as [p0 p1 p2]; unfold vsub, vscale, u in *; cbn [v0 v1 v2] in *; injection A as A0 A1 A2; f_equal; lra).
    assert (Ee : e * e = 1) by (rewrite <- B, V; transitivity (e * e * vdot u u); [rewrite Uu; ring|unfold vdot, vscale; cbn [v0 v1 v2]; ring]).
    apply (G v e B). rewrite V. unfold vscale. cbn [v0 v1 v2]. unfold u. cbn [v0 v1 v2]. f_equal; rewrite <- Rmult_assoc, Ee; ring.
Qed.
(** The angle and axis extracted from a rotation give it back; the axis has length one and the angle
    is in [0, pi]. *)
Theorem C50_axis : forall eigh r u, rotation r -> clear_axis eigh r ->
  let '(t, k) := rot2wxyz eigh r true u in
  wxyz2rot t k u = r /\ vdot k k = 1 /\ 0 <= rad u t <= PI.
Proof.
  intros eigh r u Hr Hc. destruct (axis_ok eigh r Hr Hc) as (Hk & s & c & Hs & E). unfold rot2wxyz. pose proof (angle_about_ok r s c _ Hk Hs E) as A. destruct (angle_about r (rot_axis eigh r true)) as (t & k). destruct A as (A & B & C).
  rewrite wxyz2rot_rodrigues, unrad_half, (norm_1 k B), vdiv_1. auto.
Qed.
Print Assumptions C50_axis.
(** Without the quick method the axis comes from eigh of a matrix that is not symmetric (eigh reads
    the lower triangle), and is wrong, whatever eigenvectors are returned. *)
Definition turn3 : mat := MAT 0 0 1 1 0 0 0 1 0.
Theorem C50_slow_refuted : rotation turn3 /\ forall eigh u, eigen3 (lower turn3) (eigh (lower turn3)) ->
  let '(t, k) := rot2wxyz eigh turn3 false u in norm k <> 0 -> wxyz2rot t k u <> turn3.
Proof.
  split; [split; unfold turn3; mcbn; [f_equal; ring|ring]|]. intros eigh u (He & Hp). unfold rot2wxyz, rot_axis. set (l := eigh (lower turn3)) in *.
  assert (N0 : norm (VEC 0 0 0) = 0) by (unfold norm; cbn [v0 v1 v2]; transitivity (sqrt 0); [f_equal; ring|apply sqrt_0]). rewrite isclose_0, N0 by apply norm_pos. destruct (Rle_dec 0 (1 / 10 ^ 8)) as [_|L]; [|exfalso; apply L; cbn [pow]; lra].
  assert (Ln : l <> []) by (intros L; specialize (Hp xhat); rewrite L in Hp; unfold vdot, xhat in Hp; cbn [sum fold_right v0 v1 v2] in Hp; lra).
  destruct (pick_spec (fun p : R * vec => - Rabs (fst p - 1)) l (0, VEC 0 0 0) Ln) as (Ip & _). destruct (pick _ l (0, VEC 0 0 0)) as (t & v). cbn [fst snd] in *. destruct (He t v Ip) as (A & B). rewrite (norm_1 v B), vdiv_1.
  unfold angle_about. set (k := if Rlt_dec _ 0 then _ else _). set (ang := acos _). intros Nk E. destruct (C19_axis (unrad u ang) k u Nk) as (_ & _ & F). rewrite E in F.
  assert (K : exists e, e <> 0 /\ k = vscale e v) by (unfold k; destruct (Rlt_dec _ 0); [exists (-1); split; [lra|reflexivity]|exists 1; split; [lra|unfold vscale; destruct v as [x y z]; cbn [v0 v1 v2]; f_equal; ring]]).
  destruct K as (e & He0 & K). rewrite K in F. clear - He0 A B F. destruct v as [x y z]. unfold lower, turn3, vdot in *. mcbn_in F. mcbn_in A. cbn [v0 v1 v2] in *. injection F as F0 F1 F2. injection A as A0 A1 A2.
  assert (X : x = z) by (apply (Rmult_eq_reg_l e); lra). assert (Y : y = x) by (apply (Rmult_eq_reg_l e); lra). subst y z. assert (x * (t - 1) = 0) by lra. assert (x * (t - 2) = 0) by lra. assert (x = 0) by lra. subst x. lra.
Qed.
Print Assumptions C50_slow_refuted.

(** * C51 *)
Lemma cross_sq a b : vdot (cross a b) (cross a b) + vdot a b * vdot a b = vdot a a * vdot b b.
Proof. unfold vdot, cross. cbn [v0 v1 v2]. ring. Qed.
Lemma norm_cross a b : vdot a a = 1 -> vdot b b = 1 -> vdot a b * vdot a b + norm (cross a b) * norm (cross a b) = 1.
Proof. intros A B. rewrite norm_sq. pose proof (cross_sq a b) as E. rewrite A, B in E. lra. Qed.
Lemma a2b_axis_perp a b : vdot a a = 1 -> vdot a (a2b_axis a b) = 0 /\ norm (a2b_axis a b) <> 0.
Proof.
  intros A. assert (P : forall c, vdot a (cross a c) = 0) by (intros c; unfold vdot, cross; cbn [v0 v1 v2]; ring). assert (T8 : 0 < 1 / 10 ^ 8 < 1 / 10) by (cbn [pow]; lra).
  unfold a2b_axis. rewrite !isclose_0 by apply norm_pos. destruct (Rle_dec (norm (cross a b)) (1 / 10 ^ 8)) as [L|L]; [|split; [apply P|lra]].
  destruct (Rle_dec (norm (cross a xhat)) (1 / 10 ^ 8)) as [M|M]; [|split; [apply P|lra]]. split; [apply P|]. intros Z. apply norm_0 in Z. pose proof (norm_sq (cross a xhat)) as N. pose proof (norm_pos (cross a xhat)) as N0.
  destruct a as [x y z]. unfold vdot, cross, xhat, yhat in *. cbn [v0 v1 v2] in *. injection Z as Z0 Z2. assert (z = 0) by lra. assert (x = 0) by lra. subst x z. set (n := norm _) in *. nra.
Qed.
(** a and b in the same or opposite directions, or further than 1e-8 from that *)
Definition clear_pair (a b : vec) : Prop := cross a b = VEC 0 0 0 \/ 1 / 10 ^ 8 < norm (cross a b).
Lemma a2b_noroll_ok a b : vdot a a = 1 -> vdot b b = 1 -> rotation (a2b_noroll a b) /\ (clear_pair a b -> mapply (a2b_noroll a b) a = b).
Proof.
  intros A B. destruct (a2b_axis_perp a b A) as (P & N). unfold a2b_noroll. destruct (C19_axis (arctan2 (norm (cross a b)) (vdot a b)) (a2b_axis a b) Rad N) as (R1 & R2 & _). split; [exact R1|]. intros Hc.
  rewrite R2. cbn [rad]. destruct (arctan2_unit (norm (cross a b)) (vdot a b) (norm_cross a b A B)) as (Ec & Es). rewrite Ec, Es. set (k := a2b_axis a b) in *.
  assert (Kd : vdot (vdiv k (norm k)) a = 0) by (rewrite vdot_div by exact N; replace (vdot k a) with (vdot a k) by (unfold vdot; ring); rewrite P; field; exact N). rewrite Kd.
  destruct Hc as [Z|L].
  - rewrite Z. assert (N0 : norm (VEC 0 0 0) = 0) by (unfold norm; cbn [v0 v1 v2]; transitivity (sqrt 0); [f_equal; ring|apply sqrt_0]). rewrite N0. pose proof (cross_sq a b) as S. rewrite Z, A, B in S.
    destruct a as [x y z], b as [p q r]. unfold vdot, cross, vadd, vscale in *. cbn [v0 v1 v2] in *. injection Z as Z0 Z1 Z2.
    set (c := x * p + y * q + z * r) in *. assert (D : c * c = 1) by lra.
    assert (E0 : p = c * x) by (unfold c; transitivity (p * (x * x + y * y + z * z) + (y * (x * q - y * p) - z * (z * p - x * r))); [rewrite A, Z1, Z2; ring|ring]).
    assert (E1 : q = c * y) by (unfold c; transitivity (q * (x * x + y * y + z * z) + (z * (y * r - z * q) - x * (x * q - y * p))); [rewrite A, Z0, Z2; ring|ring]).
    assert (E2 : r = c * z) by (unfold c; transitivity (r * (x * x + y * y + z * z) + (x * (z * p - x * r) - y * (y * r - z * q))); [rewrite A, Z0, Z1; ring|ring]).
    clearbody c. rewrite E0, E1, E2. f_equal; ring.
  - assert (K : k = cross a b) by (unfold k, a2b_axis; rewrite !isclose_0 by apply norm_pos; destruct (Rle_dec (norm (cross a b)) (1 / 10 ^ 8)); [lra|reflexivity]). rewrite K. rewrite K in N. set (n := norm (cross a b)) in *. clearbody n. clear - A N.
    destruct a as [x y z], b as [p q r]. unfold vdot, cross, vadd, vscale, vdiv in *. cbn [v0 v1 v2] in *.
    f_equal.
    + transitivity ((x * p + y * q + z * r) * x + ((z * p - x * r) * z - (x * q - y * p) * y)); [field; exact N|]. transitivity (p * (x * x + y * y + z * z)); [ring|rewrite A; ring].
    + transitivity ((x * p + y * q + z * r) * y + ((x * q - y * p) * x - (y * r - z * q) * z)); [field; exact N|]. transitivity (q * (x * x + y * y + z * z)); [ring|rewrite A; ring].
    + transitivity ((x * p + y * q + z * r) * z + ((y * r - z * q) * y - (z * p - x * r) * x)); [field; exact N|]. transitivity (r * (x * x + y * y + z * z)); [ring|rewrite A; ring].
Qed.
Lemma rolled_ok t u b r : vdot b b = 1 -> rotation r -> rotation (rolled t u b r) /\ forall x, mapply r x = b -> mapply (rolled t u b r) x = b.
Proof.
  intros B Hr. unfold rolled. destruct (Req_EM_T t 0) as [E|E]; [split; auto|]. assert (N : norm b <> 0) by (rewrite (norm_1 b B); lra). destruct (C19_axis (rad u t) b Rad N) as (R1 & _ & R3).
  split; [apply rotation_mmul; assumption|]. intros x Hx. rewrite mapply_mmul, Hx. exact R3.
Qed.
(** a2b_rot returns a rotation for any non-zero a and b, and turns the direction of a into that of b
    (unless they are within 1e-8 of parallel without being so), for any roll. *)
Theorem C51_a2b : forall a b t u, norm a <> 0 -> norm b <> 0 ->
  rotation (a2b_rot a b t u) /\
  (clear_pair (unitv a) (unitv b) -> mapply (a2b_rot a b t u) (unitv a) = unitv b).
Proof.
  intros a b t u Ha Hb. pose proof (unit_axis a Ha) as A. pose proof (unit_axis b Hb) as B. unfold a2b_rot. destruct (a2b_noroll_ok _ _ A B) as (R1 & R2). destruct (rolled_ok t u _ _ B R1) as (S1 & S2).
  split; [exact S1|]. intros H. apply S2, R2, H.
Qed.
Print Assumptions C51_a2b.
(** Closer to parallel than that the directions agree within 2e-8. *)
Lemma comp_le a n : vdot a a <= n * n -> 0 <= n -> Rabs (v0 a) <= n /\ Rabs (v1 a) <= n /\ Rabs (v2 a) <= n.
Proof. intros H N. unfold vdot in H. sqs (v0 a, v1 a, v2 a). unfold Rsqr in *. repeat split; apply Rabs_le; split; nra. Qed.
Theorem C51_a2b_close : forall a b u, norm a <> 0 -> norm b <> 0 ->
  let d := vsub (mapply (a2b_rot a b 0 u) (unitv a)) (unitv b) in
  Rabs (v0 d) <= 2 / 10 ^ 8 /\ Rabs (v1 d) <= 2 / 10 ^ 8 /\ Rabs (v2 d) <= 2 / 10 ^ 8.
Proof.
  intros a b u Ha Hb. cbv zeta. pose proof (unit_axis a Ha) as A. pose proof (unit_axis b Hb) as B. unfold a2b_rot. set (a' := unitv a) in *. set (b' := unitv b) in *. clearbody a' b'. clear Ha Hb a b. rename a' into a, b' into b.
  unfold rolled. destruct (Req_EM_T 0 0) as [_|]; [|congruence]. destruct (Rle_dec (norm (cross a b)) (1 / 10 ^ 8)) as [L|L].
  - destruct (a2b_axis_perp a b A) as (P & N). unfold a2b_noroll. destruct (C19_axis (arctan2 (norm (cross a b)) (vdot a b)) (a2b_axis a b) Rad N) as (_ & R2 & _). rewrite R2. cbn [rad].
    destruct (arctan2_unit (norm (cross a b)) (vdot a b) (norm_cross a b A B)) as (Ec & Es). rewrite Ec, Es. pose proof (vdot_unit _ N) as U. 
    assert (Kd : vdot (vdiv (a2b_axis a b) (norm (a2b_axis a b))) a = 0) by (rewrite vdot_div by exact N; replace (vdot (a2b_axis a b) a) with (vdot a (a2b_axis a b)) by (unfold vdot; ring); rewrite P; field; exact N). rewrite Kd.
    set (k := vdiv (a2b_axis a b) (norm (a2b_axis a b))) in *. clearbody k. set (n := norm (cross a b)) in *. assert (N0 : 0 <= n) by apply norm_pos.
    assert (Q1 : vdot (cross k a) (cross k a) = 1) by (pose proof (cross_sq k a) as E; rewrite U, A, Kd in E; lra).
    assert (Q2 : vdot (cross (cross a b) a) (cross (cross a b) a) = n * n).
    { pose proof (cross_sq (cross a b) a) as E. assert (Z : vdot (cross a b) a = 0) by (unfold vdot, cross; cbn [v0 v1 v2]; ring). rewrite Z, A in E. unfold n. rewrite norm_sq. lra. }
    assert (Db : b = vadd (vscale (vdot a b) a) (cross (cross a b) a)).
    { transitivity (vscale (vdot a a) b); [rewrite A; destruct b as [x y z]; unfold vscale; cbn [v0 v1 v2]; f_equal; ring|]. unfold vdot, cross, vadd, vscale. cbn [v0 v1 v2]. f_equal; ring. }
    destruct (comp_le (cross k a) 1) as (C0 & C1 & C2); [lra|lra|]. destruct (comp_le (cross (cross a b) a) n) as (D0 & D1 & D2); [lra|exact N0|].
    set (p := cross k a) in *. set (q := cross (cross a b) a) in *. set (c := vdot a b) in *. pose proof (f_equal v0 Db) as Db0. pose proof (f_equal v1 Db) as Db1. pose proof (f_equal v2 Db) as Db2. unfold vadd, vscale in Db0, Db1, Db2. cbn [v0 v1 v2] in Db0, Db1, Db2. clearbody p q n c. clear - C0 C1 C2 D0 D1 D2 N0 L Db0 Db1 Db2.
    assert (G : forall x y z w, Rabs x <= 1 -> Rabs y <= n -> z = n * x - y + w * 0 -> Rabs z <= 2 / 10 ^ 8).
    { intros x y z w Hx Hy ->. apply abs_le_inv in Hx, Hy. apply Rle_trans with (2 * n); [|lra]. apply Rabs_le. split; nra. }
    unfold vsub, vadd, vscale. cbn [v0 v1 v2]. repeat split.
    + apply (G (v0 p) (v0 q) _ 0 C0 D0). lra.
    + apply (G (v1 p) (v1 q) _ 0 C1 D1). lra.
    + apply (G (v2 p) (v2 q) _ 0 C2 D2). lra.
  - destruct (a2b_noroll_ok a b A B) as (_ & E). rewrite E by (right; lra). unfold vsub. cbn [v0 v1 v2]. rewrite !Rminus_eq_0, Rabs_R0. assert (0 <= 2 / 10 ^ 8) by (cbn [pow]; lra). auto.
Qed.
Print Assumptions C51_a2b_close.

(** ** a given direction for the x axis *)
Lemma wxyz2rot_0 b : norm b <> 0 -> wxyz2rot 0 b Rad = eye.
Proof. intros _. rewrite wxyz2rot_rodrigues. cbn [rad]. rewrite sin_0, cos_0. unfold rodrigues. mat_ring. Qed.
Lemma rolled_eq t u b r : norm b <> 0 -> rolled t u b r = mmul (wxyz2rot (rad u t) b Rad) r.
Proof.
  intros H. unfold rolled. destruct (Req_EM_T t 0) as [->|]; [|reflexivity]. assert (E : rad u 0 = 0) by (destruct u; cbn [rad]; ring). rewrite E, wxyz2rot_0 by exact H. rewrite mmul_eye_l. reflexivity.
Qed.
Lemma basis3 p q x : vdot p p = 1 -> vdot q q = 1 -> vdot p q = 0 ->
  x = vadd (vadd (vscale (vdot x p) p) (vscale (vdot x q) q)) (vscale (vdot x (cross p q)) (cross p q)).
Proof.
  intros P Q O. set (s := cross p q). pose proof (cross_sq p q) as S. rewrite P, Q, O in S. fold s in S.
  assert (Ps : vdot p s = 0) by (unfold s, vdot, cross; cbn [v0 v1 v2]; ring). assert (Qs : vdot q s = 0) by (unfold s, vdot, cross; cbn [v0 v1 v2]; ring).
  assert (D : v0 p * (v1 q * v2 s - v2 q * v1 s) - v1 p * (v0 q * v2 s - v2 q * v0 s) + v2 p * (v0 q * v1 s - v1 q * v0 s) = 1) by (transitivity (vdot s s); [unfold s, vdot, cross; cbn [v0 v1 v2]; ring|lra]).
  clearbody s. destruct p as [p0 p1 p2], q as [q0 q1 q2], s as [s0 s1 s2], x as [x y z]. unfold vdot in *. cbn [v0 v1 v2] in *.
  assert (Ro : rotation (MAT p0 p1 p2 q0 q1 q2 s0 s1 s2)) by (split; mcbn; [f_equal; lra|lra]).
  pose proof (rotation_left _ Ro) as E. mcbn_in E. injection E as E0 E1 E2 E3 E4 E5 E6 E7 E8. unfold vadd, vscale, vdot. cbn [v0 v1 v2]. f_equal.
  - transitivity (x * (p0 * p0 + q0 * q0 + s0 * s0) + y * (p0 * p1 + q0 * q1 + s0 * s1) + z * (p0 * p2 + q0 * q2 + s0 * s2)); [rewrite E0, E1, E2; ring|ring].
  - transitivity (x * (p0 * p1 + q0 * q1 + s0 * s1) + y * (p1 * p1 + q1 * q1 + s1 * s1) + z * (p1 * p2 + q1 * q2 + s1 * s2)); [rewrite E1, E4, E5; ring|ring].
  - transitivity (x * (p0 * p2 + q0 * q2 + s0 * s2) + y * (p1 * p2 + q1 * q2 + s1 * s2) + z * (p2 * p2 + q2 * q2 + s2 * s2)); [rewrite E2, E5, E8; ring|ring].
Qed.
(** the part of new_x perpendicular to b, normalised *)
Definition wanted (b x : vec) : vec := unitv (vsub x (vscale (vdot x (unitv b)) (unitv b))).
(** With [new_x] the x axis is turned to the direction of the part of new_x perpendicular to b
    (for a perpendicular to x, such as the z axis) ... *)
Theorem C51_new_x : forall a b x u, norm a <> 0 -> norm b <> 0 -> v0 a = 0 ->
  clear_pair (unitv a) (unitv b) ->
  1 / 10 ^ 8 < norm (vsub x (vscale (vdot x (unitv b)) (unitv b))) ->
  mapply (a2b_rot a b 0 u) xhat <> vscale (-1) (wanted b x) ->
  let r := a2b_rot_x a b x u in
  rotation r /\ mapply r (unitv a) = unitv b /\ mapply r xhat = wanted b x.
Proof.
  intros a b x u Ha Hb A0 Hc Hn Hop. cbv zeta. pose proof (unit_axis a Ha) as A. pose proof (unit_axis b Hb) as B. unfold a2b_rot in Hop. unfold rolled in Hop. destruct (Req_EM_T 0 0) as [_|]; [|congruence].
  unfold wanted in *. unfold a2b_rot_x. assert (A0' : v0 (unitv a) = 0) by (unfold unitv, vdiv; cbn [v0]; rewrite A0; field; exact Ha). set (a' := unitv a) in *. set (b' := unitv b) in *. clearbody a' b'. clear Ha Hb a b A0. rename a' into a, b' into b, A0' into A0.
  destruct (a2b_noroll_ok a b A B) as (R1 & R2). specialize (R2 Hc). set (r := a2b_noroll a b) in *. clearbody r.
  assert (Nb : norm b <> 0) by (rewrite (norm_1 b B); lra).
  destruct (rolled_ok (roll_for r b x u) u b r B R1) as (S1 & S2). split; [exact S1|]. split; [apply S2; exact R2|].
  unfold roll_for in *. set (y := vsub x (vscale (vdot x b) b)) in *. rewrite isclose_0 by apply norm_pos. destruct (Rle_dec (norm y) (1 / 10 ^ 8)) as [|_]; [lra|].
  assert (T8 : 0 < 1 / 10 ^ 8) by (cbn [pow]; lra). assert (Ny : norm y <> 0) by lra. fold (unitv y).
  set (cx := mapply r xhat) in *. assert (Uc : vdot cx cx = 1) by (unfold cx; rewrite C19_isometry by exact R1; unfold vdot, xhat; cbn [v0 v1 v2]; ring).
  assert (Cb : vdot cx b = 0) by (unfold cx; rewrite <- R2, C19_isometry by exact R1; unfold vdot, xhat; cbn [v0 v1 v2]; rewrite A0; ring).
  pose proof (unit_axis y Ny) as Ux. assert (Xb : vdot (unitv y) b = 0).
  { unfold unitv. rewrite vdot_div by exact Ny. assert (Z : vdot y b = 0) by (unfold y; transitivity (vdot x b - vdot x b * vdot b b); [unfold vdot, vsub, vscale; cbn [v0 v1 v2]; ring|rewrite B; ring]). rewrite Z. field. exact Ny. }
  set (nx := unitv y) in *. clearbody nx. clear Hn Ny y S1 S2. rewrite (norm_1 cx Uc), vdiv_1. rewrite rolled_eq by exact Nb. rewrite mapply_mmul. fold cx.
  set (s := vdot (cross cx nx) b). set (c := vdot cx nx).
  assert (Bc : vdot b cx = 0) by (rewrite <- Cb; unfold vdot; ring).
  assert (E : nx = vadd (vscale c cx) (vscale s (cross b cx))).
  { rewrite (basis3 b cx nx B Uc Bc) at 1. rewrite Xb. replace (vdot nx cx) with c by (unfold c, vdot; ring). replace (vdot nx (cross b cx)) with s by (unfold s, vdot, cross; cbn [v0 v1 v2]; ring). unfold vadd, vscale. cbn [v0 v1 v2]. f_equal; ring. }
  assert (Q : c * c + s * s = 1).
  { pose proof (cross_sq b cx) as K. rewrite B, Uc, Bc in K. rewrite <- Ux, E. transitivity (c * c * vdot cx cx + s * s * vdot (cross b cx) (cross b cx)); [rewrite Uc; replace (vdot (cross b cx) (cross b cx)) with 1 by lra; ring|]. unfold vdot, vadd, vscale, cross. cbn [v0 v1 v2]. ring. }
  assert (Nn : norm (cross cx nx) = Rabs s).
  { pose proof (norm_sq (cross cx nx)) as K. pose proof (cross_sq cx nx) as K2. rewrite Uc, Ux in K2. fold c in K2. pose proof (norm_pos (cross cx nx)) as K3. rewrite <- (Rabs_right (norm (cross cx nx))) by lra. apply Rsqr_eq_abs_0. unfold Rsqr. lra. }
  rewrite Nn. assert (As : c * c + Rabs s * Rabs s = 1) by (rewrite <- Q; f_equal; rewrite <- Rabs_mult; apply Rabs_right; pose proof (Rle_0_sqr s); unfold Rsqr in *; lra).
  destruct (arctan2_unit (Rabs s) c As) as (Ec & Es). set (th := arctan2 (Rabs s) c) in *.
  assert (Tr : rad u (unrad u th * sign s) = th * sign s) by (rewrite <- (unrad_half u th) at 2; destruct u; cbn [rad unrad]; ring). rewrite Tr.
  assert (F : cos (th * sign s) = c /\ sin (th * sign s) = s).
  { unfold sign. destruct (Rlt_dec 0 s) as [P|P].
    - rewrite Rmult_1_r, Ec, Es, Rabs_right by lra. auto.
    - destruct (Rlt_dec s 0) as [M|M].
      + replace (th * -1) with (- th) by ring. rewrite cos_neg, sin_neg, Ec, Es, Rabs_left by lra. split; [reflexivity|ring].
      + assert (Z : s = 0) by lra. rewrite Rmult_0_r, cos_0, sin_0, Z. split; [|reflexivity]. assert (C2 : (c - 1) * (c + 1) = 0) by (rewrite Z in Q; lra). apply Rmult_integral in C2. destruct C2 as [C2|C2]; [lra|].
        exfalso. apply Hop. rewrite E, Z. replace c with (-1) by lra. unfold vadd, vscale. destruct cx as [x0 x1 x2]. cbn [v0 v1 v2]. f_equal; ring. }
  destruct F as (Fc & Fs). destruct (C19_axis (th * sign s) b Rad Nb) as (_ & Ap & _). rewrite Ap. cbn [rad]. rewrite Fc, Fs, (norm_1 b B), vdiv_1, Bc. rewrite E. unfold vadd, vscale. cbn [v0 v1 v2]. f_equal; ring.
Qed.
Print Assumptions C51_new_x.
(** ... but when that is exactly opposite to where the x axis goes without a roll, no roll is made
    (np.sign(0) is 0) and the x axis ends up pointing the wrong way. *)
Theorem C51_new_x_refuted : let z := VEC 0 0 1 in let x := VEC (-1) 0 0 in
  wanted z x = VEC (-1) 0 0 /\ mapply (a2b_rot_x z z x Rad) xhat = VEC 1 0 0.
Proof.
  cbv zeta. assert (Nz : norm (VEC 0 0 1) = 1) by (unfold norm; transitivity (sqrt 1); [f_equal; cbn [v0 v1 v2]; ring|apply sqrt_1]).
  assert (Nx : norm (VEC (-1) 0 0) = 1) by (unfold norm; transitivity (sqrt 1); [f_equal; cbn [v0 v1 v2]; ring|apply sqrt_1]).
  assert (Uz : unitv (VEC 0 0 1) = VEC 0 0 1) by (unfold unitv; rewrite Nz; apply vdiv_1).
  assert (Y : vsub (VEC (-1) 0 0) (vscale (vdot (VEC (-1) 0 0) (VEC 0 0 1)) (VEC 0 0 1)) = VEC (-1) 0 0) by (unfold vsub, vscale, vdot; cbn [v0 v1 v2]; f_equal; ring).
  split; [unfold wanted; rewrite Uz, Y; unfold unitv; rewrite Nx; apply vdiv_1|].
  assert (B : vdot (VEC 0 0 1) (VEC 0 0 1) = 1) by (unfold vdot; cbn [v0 v1 v2]; ring).
  unfold a2b_rot_x. rewrite Uz. assert (R : mapply (a2b_noroll (VEC 0 0 1) (VEC 0 0 1)) xhat = xhat).
  { unfold a2b_noroll. assert (C : cross (VEC 0 0 1) (VEC 0 0 1) = VEC 0 0 0) by (unfold cross; cbn [v0 v1 v2]; f_equal; ring). assert (N0 : norm (VEC 0 0 0) = 0) by (unfold norm; cbn [v0 v1 v2]; transitivity (sqrt 0); [f_equal; ring|apply sqrt_0]).
    rewrite C, N0, B. assert (T : arctan2 0 1 = 0) by (unfold arctan2; destruct (Rlt_dec 0 1); [unfold Rdiv; rewrite Rmult_0_l; apply atan_0|lra]). rewrite T. destruct (a2b_axis_perp _ (VEC 0 0 1) B) as (_ & N). rewrite wxyz2rot_0 by exact N. apply mapply_eye. }
  unfold roll_for. rewrite Y, R. fold (unitv xhat). assert (Nh : norm xhat = 1) by (unfold norm, xhat; transitivity (sqrt 1); [f_equal; cbn [v0 v1 v2]; ring|apply sqrt_1]). unfold unitv. rewrite Nx, Nh, !vdiv_1.
  assert (S : sign (vdot (cross xhat (VEC (-1) 0 0)) (VEC 0 0 1)) = 0) by (replace (vdot _ _) with 0 by (unfold vdot, cross, xhat; cbn [v0 v1 v2]; ring); unfold sign; destruct (Rlt_dec 0 0); [lra|reflexivity]). rewrite S, Rmult_0_r.
  destruct (isclose 1 0); unfold rolled; (destruct (Req_EM_T 0 0); [exact R|congruence]).
Qed.
Print Assumptions C51_new_x_refuted.

(** ** non-trivial cases *)
(* what eigh returns for a turn about z whose half angle has cosine 3/5 *)
Definition turn_z : mat := MAT (- (7 / 25)) (- (24 / 25)) 0 (24 / 25) (- (7 / 25)) 0 0 0 1.
Example C50_ex_quat : rotation turn_z /\
  eigen4 (k3 turn_z) [(-1 / 3, V4 1 0 0 0); (-1 / 3, V4 0 1 0 0); (-1 / 3, V4 0 0 (3 / 5) (4 / 5)); (1, V4 0 0 (- (4 / 5)) (3 / 5))].
Proof.
  split; [split; unfold turn_z; mcbn; [f_equal; field|field]|]. split.
  - intros t v H. cbn [In] in H. repeat (destruct H as [H|H]; [injection H as <- <-; unfold apply4, k3, turn_z, dot4, scale4; cbn [e0 e1 e2 e3 r0 r1 r2 r3 m00 m01 m02 m10 m11 m12 m20 m21 m22]; split; [f_equal; field|field]|]). destruct H.
  - intros [a b c d]. unfold sum, dot4. cbn [fold_right snd e0 e1 e2 e3]. field.
Qed.
(* a half turn about z, where the eigenvectors are needed *)
Example C50_ex_half : let r := MAT (-1) 0 0 0 (-1) 0 0 0 1 in
  rotation r /\ clear_axis (fun _ => [(-1, VEC 1 0 0); (-1, VEC 0 1 0); (1, VEC 0 0 1)]) r.
Proof.
  cbv zeta. split; [split; mcbn; [f_equal; ring|ring]|]. right. split; [unfold axial; cbn [m00 m01 m02 m10 m11 m12 m20 m21 m22]; f_equal; ring|]. split.
  - intros t v H. cbn [In] in H. repeat (destruct H as [H|H]; [injection H as <- <-; unfold lower, vdot; mcbn; split; [f_equal; ring|ring]|]). destruct H.
  - intros [a b c]. unfold sum, vdot. cbn [fold_right snd v0 v1 v2]. ring.
Qed.
Example C50_ex_axis : forall eigh, clear_axis eigh turn_z.
Proof.
  intros eigh. left. apply Rlt_le_trans with 1; [cbn [pow]; lra|]. apply Rsqr_incr_0_var; [|apply norm_pos]. unfold Rsqr. rewrite norm_sq. unfold vdot, axial, turn_z. cbn [m00 m01 m02 m10 m11 m12 m20 m21 m22 v0 v1 v2]. lra.
Qed.
Example C51_ex : clear_pair (unitv (VEC 0 0 2)) (unitv (VEC 0 0 (-3))) /\ clear_pair (VEC 0 0 1) (VEC (3 / 5) 0 (4 / 5)).
Proof.
  split.
  - left. unfold unitv, vdiv, cross. cbn [v0 v1 v2]. f_equal; unfold Rdiv; ring.
  - right. apply Rlt_le_trans with (3 / 5); [cbn [pow]; lra|]. apply Rsqr_incr_0_var; [|apply norm_pos]. unfold Rsqr. rewrite norm_sq. unfold vdot, cross. cbn [v0 v1 v2]. lra.
Qed.
(* quaternions of length 5, 1 and 1/2 *)
Example C21_ex : good (QUAT 4 0 3 0) /\ good (QUAT (3 / 5) 0 0 (4 / 5)) /\ good (QUAT 0 (1 / 2) 0 0).
Proof.
  assert (A : qnorm (QUAT 4 0 3 0) = 5) by (unfold qnorm; cbn [qw qx qy qz]; transitivity (sqrt (5 * 5)); [f_equal; ring|apply sqrt_square; lra]).
  assert (B : qnorm (QUAT (3 / 5) 0 0 (4 / 5)) = 1) by (unfold qnorm; cbn [qw qx qy qz]; transitivity (sqrt 1); [f_equal; field|apply sqrt_1]).
  assert (C : qnorm (QUAT 0 (1 / 2) 0 0) = 1 / 2) by (unfold qnorm; cbn [qw qx qy qz]; transitivity (sqrt (1 / 2 * (1 / 2))); [f_equal; field|apply sqrt_square; lra]).
  unfold good. rewrite A, B, C. split; [right|split; [left; reflexivity|right]].
  - replace (5 - 1) with 4 by ring. rewrite Rabs_right by lra. cbn [pow]. lra.
  - replace (1 / 2 - 1) with (- (1 / 2)) by field. rewrite Rabs_left by lra. cbn [pow]. lra.
Qed.
Example C51_ex_new_x : let z := VEC 0 0 1 in let y := VEC 0 1 0 in
  norm z <> 0 /\ v0 z = 0 /\ clear_pair (unitv z) (unitv z) /\ 1 / 10 ^ 8 < norm (vsub y (vscale (vdot y (unitv z)) (unitv z))) /\
  mapply (a2b_rot z z 0 Rad) xhat <> vscale (-1) (wanted z y).
Proof.
  cbv zeta. assert (Nz : norm (VEC 0 0 1) = 1) by (unfold norm; transitivity (sqrt 1); [f_equal; cbn [v0 v1 v2]; ring|apply sqrt_1]).
  assert (Ny : norm (VEC 0 1 0) = 1) by (unfold norm; transitivity (sqrt 1); [f_equal; cbn [v0 v1 v2]; ring|apply sqrt_1]).
  assert (Uz : unitv (VEC 0 0 1) = VEC 0 0 1) by (unfold unitv; rewrite Nz; apply vdiv_1).
  assert (Y : vsub (VEC 0 1 0) (vscale (vdot (VEC 0 1 0) (VEC 0 0 1)) (VEC 0 0 1)) = VEC 0 1 0) by (unfold vsub, vscale, vdot; cbn [v0 v1 v2]; f_equal; ring).
  assert (B : vdot (VEC 0 0 1) (VEC 0 0 1) = 1) by (unfold vdot; cbn [v0 v1 v2]; ring).
  assert (Cz : cross (VEC 0 0 1) (VEC 0 0 1) = VEC 0 0 0) by (unfold cross; cbn [v0 v1 v2]; f_equal; ring).
  assert (R : mapply (a2b_rot (VEC 0 0 1) (VEC 0 0 1) 0 Rad) xhat = xhat).
  { unfold a2b_rot, rolled. rewrite Uz. destruct (Req_EM_T 0 0) as [_|]; [|congruence]. unfold a2b_noroll. assert (N0 : norm (VEC 0 0 0) = 0) by (unfold norm; cbn [v0 v1 v2]; transitivity (sqrt 0); [f_equal; ring|apply sqrt_0]).
    rewrite Cz, N0, B. assert (T : arctan2 0 1 = 0) by (unfold arctan2; destruct (Rlt_dec 0 1); [unfold Rdiv; rewrite Rmult_0_l; apply atan_0|lra]). rewrite T. destruct (a2b_axis_perp _ (VEC 0 0 1) B) as (_ & N). rewrite wxyz2rot_0 by exact N. apply mapply_eye. }
  unfold wanted. rewrite R, Uz, Y, Ny, Nz. unfold unitv. rewrite Ny, vdiv_1. split; [lra|]. split; [reflexivity|]. split; [left; exact Cz|]. split; [cbn [pow]; lra|]. unfold xhat, vscale. cbn [v0 v1 v2]. intros E. injection E as E0 E1. lra.
Qed.
