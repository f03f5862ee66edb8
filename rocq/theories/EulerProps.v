(** C20: angle2rot inverts rot2angle for every rotation matrix and each of the twelve orders. *)
From Verif Require Import RotModel RotProofs.
From Coq Require Import Lra.
Open Scope R_scope.

(** ** specification *)
(** the cosine (three different axes) or sine (first and last axis the same) of the middle angle *)
Definition middle (r : mat) (axes : triple axis) : R :=
  let e i j := match i, j with
    | AX, AX => m00 r | AX, AY => m01 r | AX, AZ => m02 r
    | AY, AX => m10 r | AY, AY => m11 r | AY, AZ => m12 r
    | AZ, AX => m20 r | AZ, AY => m21 r | AZ, AZ => m22 r end in
  let '(a0, a1, a2) := axes in sqrt (1 - e a2 a0 * e a2 a0).
(** the orders for which angles are defined: no two neighbours the same *)
Definition valid (axes : triple axis) : Prop := let '(a0, a1, a2) := axes in a0 <> a1 /\ a1 <> a2.

(** ** cyclic change of axes *)
Definition cyc (r : mat) : mat := MAT (m22 r) (m20 r) (m21 r) (m02 r) (m00 r) (m01 r) (m12 r) (m10 r) (m11 r).
Definition nxt (a : axis) : axis := match a with AX => AY | AY => AZ | AZ => AX end.
Lemma cyc3 r : cyc (cyc (cyc r)) = r.
Proof. destruct r. reflexivity. Qed.
Lemma cyc_mmul a b : cyc (mmul a b) = mmul (cyc a) (cyc b).
Proof. destruct a, b. unfold cyc. mat_ring. Qed.
Lemma cyc_e t a u : cyc (e_rot t a u) = e_rot t (nxt a) u.
Proof. destruct a; reflexivity. Qed.
Lemma cyc_rotation a : rotation a -> rotation (cyc a).
Proof.
  intros (H & D). split.
  - transitivity (cyc (mmul a (transpose a))); [rewrite cyc_mmul; destruct a; reflexivity|]. rewrite H. reflexivity.
  - rewrite <- D. destruct a. unfold cyc. mcbn. ring.
Qed.
Lemma cyc_angle2rot t axes u : cyc (angle2rot t axes u) = angle2rot t (map3 nxt axes) u.
Proof. destruct t as [[t0 t1] t2], axes as [[a0 a1] a2]. cbn [map3 angle2rot]. rewrite !cyc_mmul, !cyc_e. reflexivity. Qed.
Lemma cyc_rot2angle r axes : rot2angle_rad (cyc r) (map3 nxt axes) = rot2angle_rad r axes.
Proof. destruct axes as [[[] []] []]; reflexivity. Qed.
Lemma cyc_middle r axes : middle (cyc r) (map3 nxt axes) = middle r axes.
Proof. destruct axes as [[[] []] []]; reflexivity. Qed.

(** ** solving for the entries that are not read *)
Lemma solve2 c s a b p q : c * c + s * s = 1 -> c * a - s * b = p -> s * a + c * b = q -> a = c * p + s * q /\ b = c * q - s * p.
Proof.
  intros H <- <-. split.
  - replace (c * (c * a - s * b) + s * (s * a + c * b)) with (a * (c * c + s * s)) by ring. rewrite H. ring.
  - replace (c * (s * a + c * b) - s * (c * a - s * b)) with (b * (c * c + s * s)) by ring. rewrite H. ring.
Qed.
Lemma cancel k x y : k <> 0 -> k * x = k * y -> x = y.
Proof. intros H E. apply (Rmult_eq_reg_l k); assumption. Qed.

Lemma some_inj {A} (x y : A) : Some x = Some y -> x = y.
Proof. congruence. Qed.
Lemma sq_pos x : 0 <= x * x.
Proof. apply Rle_0_sqr. Qed.
Lemma sq_zero x y : x * x + y * y = 0 -> x = 0 /\ y = 0.
Proof. intros H. pose proof (sq_pos x). pose proof (sq_pos y). split; apply Rsqr_0_uniq; unfold Rsqr; lra. Qed.
Lemma tiny : 0 < 1 / 10 ^ 10.
Proof. apply Rmult_lt_0_compat; [lra|]. apply Rinv_0_lt_compat. apply pow_lt. lra. Qed.
Ltac squares l := lazymatch l with (?a, ?b) => squares a; squares b | ?x => pose proof (sq_pos x) end.

(* what the three angles are, in terms of the eight values *)
Lemma tait_cases s1 c0c1 s0c1 s2c1 c2c1 s0p2 c0p2 : let c1 := sqrt (c0c1 * c0c1 + s0c1 * s0c1) in
  s1 * s1 + c1 * c1 = 1 -> c2c1 * c2c1 + s2c1 * s2c1 = c1 * c1 -> (c1 = 0 -> s0p2 * s0p2 + c0p2 * c0p2 = 1) -> s0p2 * s0p2 <= 1 -> c0p2 * c0p2 <= 1 ->
  (c1 = 0 \/ 1 / 10 ^ 10 <= c1) ->
  let '(t0, t1, t2) := tait s1 c0c1 s0c1 s2c1 c2c1 s0p2 c0p2 in
  cos t1 = c1 /\ sin t1 = s1 /\ cos t0 * cos t0 + sin t0 * sin t0 = 1 /\
  (c1 <> 0 -> c0c1 = cos t0 * c1 /\ s0c1 = sin t0 * c1 /\ c2c1 = cos t2 * c1 /\ s2c1 = sin t2 * c1) /\
  (c1 = 0 -> c0c1 = 0 /\ s0c1 = 0 /\ c2c1 = 0 /\ s2c1 = 0 /\ cos t0 = 1 /\ sin t0 = 0 /\ cos t2 = c0p2 /\ sin t2 = s0p2).
Proof.
  intros c1 H1 H2 H3 H4 H5 Hs. pose proof (sqrt_pos (c0c1 * c0c1 + s0c1 * s0c1)) as Hp. fold c1 in Hp.
  squares (s1, c0c1, s0c1, s2c1, c2c1, s0p2, c0p2, c1).
  assert (Q : c1 * c1 = c0c1 * c0c1 + s0c1 * s0c1) by (unfold c1; apply sqrt_sqrt; lra).
  unfold tait. fold c1. rewrite (clip_id c1), (clip_id s1), (clip_id c0c1), (clip_id s0c1), (clip_id s2c1), (clip_id c2c1), (clip_id s0p2), (clip_id c0p2) by lra.
  assert (T : cos (arctan2 s1 c1) = c1 /\ sin (arctan2 s1 c1) = s1) by (apply arctan2_unit; lra).
  rewrite (Rabs_right c1) by lra. destruct (Rlt_dec c1 (1 / 10 ^ 10)) as [Hlt|Hge].
  - destruct Hs as [Hs|Hs]; [|lra]. destruct T as (T1 & T2). clearbody c1. subst c1. rewrite cos_0, sin_0.
    destruct (arctan2_unit s0p2 c0p2) as (U1 & U2); [specialize (H3 eq_refl); lra|]. split; [assumption|]. split; [assumption|]. split; [lra|]. split; [intros N; exfalso; apply N; reflexivity|]. intros _. destruct (sq_zero c0c1 s0c1) as (X1 & X2); [lra|]. destruct (sq_zero c2c1 s2c1) as (X3 & X4); [lra|]. split; [exact X1|]. split; [exact X2|]. split; [exact X3|]. split; [exact X4|]. split; [reflexivity|]. split; [reflexivity|]. split; assumption.
  - destruct T as (T1 & T2). assert (Hc : 0 < c1) by (pose proof tiny; lra).
    destruct (arctan2_unit (s0c1 / c1) (c0c1 / c1)) as (U1 & U2).
    { replace (c0c1 / c1 * (c0c1 / c1) + s0c1 / c1 * (s0c1 / c1)) with ((c0c1 * c0c1 + s0c1 * s0c1) / (c1 * c1)) by (field; lra). rewrite <- Q. field. lra. }
    destruct (arctan2_unit (s2c1 / c1) (c2c1 / c1)) as (V1 & V2).
    { replace (c2c1 / c1 * (c2c1 / c1) + s2c1 / c1 * (s2c1 / c1)) with ((c2c1 * c2c1 + s2c1 * s2c1) / (c1 * c1)) by (field; lra). rewrite H2. field. lra. }
    rewrite U1, U2, V1, V2, T1, T2. split; [reflexivity|]. split; [reflexivity|]. split.
    { replace (c0c1 / c1 * (c0c1 / c1) + s0c1 / c1 * (s0c1 / c1)) with ((c0c1 * c0c1 + s0c1 * s0c1) / (c1 * c1)) by (field; lra). rewrite <- Q. field. lra. }
    split; [intros _; repeat split; field; lra|]. intros E0. lra.
Qed.
Lemma proper_cases c1 s0s1 c0s1 s1s2 s1c2 s0p2 c0p2 : let s1 := sqrt (s0s1 * s0s1 + c0s1 * c0s1) in
  s1 * s1 + c1 * c1 = 1 -> s1s2 * s1s2 + s1c2 * s1c2 = s1 * s1 -> (s1 = 0 -> s0p2 * s0p2 + c0p2 * c0p2 = 1) -> s0p2 * s0p2 <= 1 -> c0p2 * c0p2 <= 1 ->
  (s1 = 0 \/ 1 / 10 ^ 10 <= s1) ->
  let '(t0, t1, t2) := proper c1 s0s1 c0s1 s1s2 s1c2 s0p2 c0p2 in
  cos t1 = c1 /\ sin t1 = s1 /\ cos t0 * cos t0 + sin t0 * sin t0 = 1 /\
  (s1 <> 0 -> c0s1 = cos t0 * s1 /\ s0s1 = sin t0 * s1 /\ s1c2 = cos t2 * s1 /\ s1s2 = sin t2 * s1) /\
  (s1 = 0 -> c0s1 = 0 /\ s0s1 = 0 /\ s1c2 = 0 /\ s1s2 = 0 /\ cos t0 = 1 /\ sin t0 = 0 /\ cos t2 = c0p2 /\ sin t2 = s0p2).
Proof.
  intros s1 H1 H2 H3 H4 H5 Hs. pose proof (sqrt_pos (s0s1 * s0s1 + c0s1 * c0s1)) as Hp. fold s1 in Hp.
  squares (c1, s0s1, c0s1, s1s2, s1c2, s0p2, c0p2, s1).
  assert (Q : s1 * s1 = s0s1 * s0s1 + c0s1 * c0s1) by (unfold s1; apply sqrt_sqrt; lra).
  unfold proper. fold s1. rewrite (clip_id c1), (clip_id s1), (clip_id s0s1), (clip_id c0s1), (clip_id s1s2), (clip_id s1c2), (clip_id s0p2), (clip_id c0p2) by lra.
  assert (T : cos (arctan2 s1 c1) = c1 /\ sin (arctan2 s1 c1) = s1) by (apply arctan2_unit; lra).
  rewrite (Rabs_right s1) by lra. destruct (Rlt_dec s1 (1 / 10 ^ 10)) as [Hlt|Hge].
  - destruct Hs as [Hs|Hs]; [|lra]. destruct T as (T1 & T2). clearbody s1. subst s1. rewrite cos_0, sin_0.
    destruct (arctan2_unit s0p2 c0p2) as (U1 & U2); [specialize (H3 eq_refl); lra|]. split; [assumption|]. split; [assumption|]. split; [lra|]. split; [intros N; exfalso; apply N; reflexivity|]. intros _. destruct (sq_zero c0s1 s0s1) as (X1 & X2); [lra|]. destruct (sq_zero s1c2 s1s2) as (X3 & X4); [lra|]. split; [exact X1|]. split; [exact X2|]. split; [exact X3|]. split; [exact X4|]. split; [reflexivity|]. split; [reflexivity|]. split; assumption.
  - destruct T as (T1 & T2). assert (Hc : 0 < s1) by (pose proof tiny; lra).
    destruct (arctan2_spec s0s1 c0s1 s1 Hc ltac:(lra)) as (U1 & U2). destruct (arctan2_spec s1s2 s1c2 s1 Hc ltac:(lra)) as (V1 & V2).
    rewrite U1, U2, V1, V2, T1, T2. split; [reflexivity|]. split; [reflexivity|]. split.
    { replace (c0s1 / s1 * (c0s1 / s1) + s0s1 / s1 * (s0s1 / s1)) with ((s0s1 * s0s1 + c0s1 * c0s1) / (s1 * s1)) by (field; lra). rewrite <- Q. field. lra. }
    split; [intros _; repeat split; field; lra|]. intros E0. lra.
Qed.

Ltac use_eqs r Hr :=
  destruct (rotation_eqs r Hr) as ((A1 & A2 & A3) & (B1 & B2 & B3) & (C1 & C2 & C3) & (D1 & D2 & D3) & (E1 & E2 & E3) & (F1 & F2 & F3) & (G1 & G2 & G3));
  apply Rminus_diag_eq in E1, E2, E3, F1, F2, F3, G1, G2, G3.

Lemma zyx_ok r t0 t1 t2 : rotation r -> (middle r (AZ, AY, AX) = 0 \/ 1 / 10 ^ 10 <= middle r (AZ, AY, AX)) ->
  rot2angle_rad r (AZ, AY, AX) = Some (t0, t1, t2) -> angle2rot (t0, t1, t2) (AZ, AY, AX) Rad = r.
Proof.
  intros Hr Hm Ht. use_eqs r Hr. squares (m00 r, m01 r, m02 r, m10 r, m11 r, m12 r, m20 r, m21 r, m22 r). cbn [rot2angle_rad] in Ht. cbn [middle] in Hm.
  assert (S : sqrt (1 - m02 r * m02 r) = sqrt (m00 r * m00 r + (- m01 r) * (- m01 r))) by (f_equal; lra). rewrite S in Hm. clear S.
  pose proof (tait_cases (m02 r) (m00 r) (- m01 r) (- m12 r) (m22 r) (m21 r) (m11 r)) as K. cbv zeta in K. set (c1 := sqrt (m00 r * m00 r + (- m01 r) * (- m01 r))) in *.
  assert (Q : c1 * c1 = m00 r * m00 r + m01 r * m01 r) by (unfold c1; rewrite sqrt_sqrt; [ring|lra]).
  specialize (K ltac:(lra) ltac:(lra) ltac:(intros Z; rewrite Z in Q; lra) ltac:(lra) ltac:(lra) Hm).
  apply some_inj in Ht. rewrite Ht in K. clearbody c1. destruct K as (K1 & K2 & K3 & K4 & K5). cbn [angle2rot]. unfold e_rot, rad. cbn [fst snd].
  rewrite K1, K2. clear K1 K2. set (c0 := cos t0) in *. set (s0 := sin t0) in *. set (c2 := cos t2) in *. set (s2 := sin t2) in *. clearbody c0 s0 c2 s2.
  destruct r as [a b c d e f g h i]. cbn [m00 m01 m02 m10 m11 m12 m20 m21 m22] in *.
  destruct (Req_dec c1 0) as [Z|NZ].
  - destruct (K5 Z) as (L1 & L2 & L3 & L4 & L5 & L6 & L7 & L8). subst c1 c0 s0 c2 s2. assert (b = 0) by lra. assert (f = 0) by lra. subst a b f i. mcbn. f_equal; lra.
  - destruct (K4 NZ) as (L1 & L2 & L3 & L4). assert (b = - (s0 * c1)) by lra. assert (f = - (s2 * c1)) by lra. subst a b f i.
    assert (P1 : d = c0 * (c * s2) + s0 * c2 /\ e = c0 * c2 - s0 * (c * s2)) by (apply solve2; [exact K3|apply (cancel c1); [exact NZ|lra]..]).
    assert (P2 : g = c0 * (- (c * c2)) + s0 * s2 /\ h = c0 * s2 - s0 * (- (c * c2))) by (apply solve2; [exact K3|apply (cancel c1); [exact NZ|lra]..]).
    destruct P1 as (-> & ->), P2 as (-> & ->). mat_ring.
Qed.
Lemma xyz_ok r t0 t1 t2 : rotation r -> (middle r (AX, AY, AZ) = 0 \/ 1 / 10 ^ 10 <= middle r (AX, AY, AZ)) ->
  rot2angle_rad r (AX, AY, AZ) = Some (t0, t1, t2) -> angle2rot (t0, t1, t2) (AX, AY, AZ) Rad = r.
Proof.
  intros Hr Hm Ht. use_eqs r Hr. squares (m00 r, m01 r, m02 r, m10 r, m11 r, m12 r, m20 r, m21 r, m22 r). cbn [rot2angle_rad] in Ht. cbn [middle] in Hm.
  assert (S : sqrt (1 - m20 r * m20 r) = sqrt (m22 r * m22 r + m21 r * m21 r)) by (f_equal; lra). rewrite S in Hm. clear S.
  pose proof (tait_cases (- m20 r) (m22 r) (m21 r) (m10 r) (m00 r) (- m01 r) (m11 r)) as K. cbv zeta in K. set (c1 := sqrt (m22 r * m22 r + m21 r * m21 r)) in *.
  assert (Q : c1 * c1 = m22 r * m22 r + m21 r * m21 r) by (unfold c1; rewrite sqrt_sqrt; [ring|lra]).
  specialize (K ltac:(lra) ltac:(lra) ltac:(intros Z; rewrite Z in Q; lra) ltac:(lra) ltac:(lra) Hm).
  apply some_inj in Ht. rewrite Ht in K. clearbody c1. destruct K as (K1 & K2 & K3 & K4 & K5). cbn [angle2rot]. unfold e_rot, rad.
  rewrite K1, K2. clear K1 K2. set (c0 := cos t0) in *. set (s0 := sin t0) in *. set (c2 := cos t2) in *. set (s2 := sin t2) in *. clearbody c0 s0 c2 s2.
  destruct r as [a b c d e f g h i]. cbn [m00 m01 m02 m10 m11 m12 m20 m21 m22] in *.
  destruct (Req_dec c1 0) as [Z|NZ].
  - destruct (K5 Z) as (L1 & L2 & L3 & L4 & L5 & L6 & L7 & L8). subst c1 c0 s0 c2 s2. subst i h a d. mcbn. f_equal; lra.
  - destruct (K4 NZ) as (L1 & L2 & L3 & L4). subst i h a d.
    assert (P1 : c = c0 * (- (g * c2)) + s0 * s2 /\ - b = c0 * s2 - s0 * (- (g * c2))) by (apply solve2; [exact K3|apply (cancel c1); [exact NZ|lra]..]).
    assert (P2 : f = c0 * (- (g * s2)) + s0 * (- c2) /\ - e = c0 * (- c2) - s0 * (- (g * s2))) by (apply solve2; [exact K3|apply (cancel c1); [exact NZ|lra]..]).
    destruct P1 as (-> & Pb), P2 as (-> & Pe). assert (b = - (c0 * s2 - s0 * (- (g * c2)))) by lra. assert (e = - (c0 * (- c2) - s0 * (- (g * s2)))) by lra. subst b e. mat_ring.
Qed.
Lemma zyz_ok r t0 t1 t2 : rotation r -> (middle r (AZ, AY, AZ) = 0 \/ 1 / 10 ^ 10 <= middle r (AZ, AY, AZ)) ->
  rot2angle_rad r (AZ, AY, AZ) = Some (t0, t1, t2) -> angle2rot (t0, t1, t2) (AZ, AY, AZ) Rad = r.
Proof.
  intros Hr Hm Ht. use_eqs r Hr. squares (m00 r, m01 r, m02 r, m10 r, m11 r, m12 r, m20 r, m21 r, m22 r). cbn [rot2angle_rad] in Ht. cbn [middle] in Hm.
  assert (S : sqrt (1 - m22 r * m22 r) = sqrt (m21 r * m21 r + - m20 r * - m20 r)) by (f_equal; lra). rewrite S in Hm. clear S.
  pose proof (proper_cases (m22 r) (m21 r) (- m20 r) (m12 r) (m02 r) (- m01 r) (m11 r)) as K. cbv zeta in K. set (s1 := sqrt (m21 r * m21 r + - m20 r * - m20 r)) in *.
  assert (Q : s1 * s1 = m21 r * m21 r + m20 r * m20 r) by (unfold s1; rewrite sqrt_sqrt; [ring|lra]).
  specialize (K ltac:(lra) ltac:(lra) ltac:(intros Z; rewrite Z in Q; lra) ltac:(lra) ltac:(lra) Hm).
  apply some_inj in Ht. rewrite Ht in K. clearbody s1. destruct K as (K1 & K2 & K3 & K4 & K5). cbn [angle2rot]. unfold e_rot, rad.
  rewrite K1, K2. clear K1 K2. set (c0 := cos t0) in *. set (s0 := sin t0) in *. set (c2 := cos t2) in *. set (s2 := sin t2) in *. clearbody c0 s0 c2 s2.
  destruct r as [a b c d e f g h i]. cbn [m00 m01 m02 m10 m11 m12 m20 m21 m22] in *.
  destruct (Req_dec s1 0) as [Z|NZ].
  - destruct (K5 Z) as (L1 & L2 & L3 & L4 & L5 & L6 & L7 & L8). subst s1 c0 s0 c2 s2. assert (g = 0) by lra. subst g h f c. squares i. assert (i * i = 1) by lra. mcbn. f_equal; lra.
  - destruct (K4 NZ) as (L1 & L2 & L3 & L4). assert (g = - (c0 * s1)) by lra. subst g h f c.
    assert (P1 : a = c0 * (i * c2) + s0 * (- s2) /\ b = c0 * (- s2) - s0 * (i * c2)) by (apply solve2; [exact K3|apply (cancel s1); [exact NZ|lra]..]).
    assert (P2 : d = c0 * (i * s2) + s0 * c2 /\ e = c0 * c2 - s0 * (i * s2)) by (apply solve2; [exact K3|apply (cancel s1); [exact NZ|lra]..]).
    destruct P1 as (-> & ->), P2 as (-> & ->). mat_ring.
Qed.
Lemma zxz_ok r t0 t1 t2 : rotation r -> (middle r (AZ, AX, AZ) = 0 \/ 1 / 10 ^ 10 <= middle r (AZ, AX, AZ)) ->
  rot2angle_rad r (AZ, AX, AZ) = Some (t0, t1, t2) -> angle2rot (t0, t1, t2) (AZ, AX, AZ) Rad = r.
Proof.
  intros Hr Hm Ht. use_eqs r Hr. squares (m00 r, m01 r, m02 r, m10 r, m11 r, m12 r, m20 r, m21 r, m22 r). cbn [rot2angle_rad] in Ht. cbn [middle] in Hm.
  assert (S : sqrt (1 - m22 r * m22 r) = sqrt (m20 r * m20 r + m21 r * m21 r)) by (f_equal; lra). rewrite S in Hm. clear S.
  pose proof (proper_cases (m22 r) (m20 r) (m21 r) (m02 r) (- m12 r) (m10 r) (m00 r)) as K. cbv zeta in K. set (s1 := sqrt (m20 r * m20 r + m21 r * m21 r)) in *.
  assert (Q : s1 * s1 = m21 r * m21 r + m20 r * m20 r) by (unfold s1; rewrite sqrt_sqrt; [ring|lra]).
  specialize (K ltac:(lra) ltac:(lra) ltac:(intros Z; rewrite Z in Q; lra) ltac:(lra) ltac:(lra) Hm).
  apply some_inj in Ht. rewrite Ht in K. clearbody s1. destruct K as (K1 & K2 & K3 & K4 & K5). cbn [angle2rot]. unfold e_rot, rad.
  rewrite K1, K2. clear K1 K2. set (c0 := cos t0) in *. set (s0 := sin t0) in *. set (c2 := cos t2) in *. set (s2 := sin t2) in *. clearbody c0 s0 c2 s2.
  destruct r as [a b c d e f g h i]. cbn [m00 m01 m02 m10 m11 m12 m20 m21 m22] in *.
  destruct (Req_dec s1 0) as [Z|NZ].
  - destruct (K5 Z) as (L1 & L2 & L3 & L4 & L5 & L6 & L7 & L8). subst s1 c0 s0 c2 s2. assert (f = 0) by lra. subst g h f c. assert (i * i = 1) by lra. mcbn. f_equal; lra.
  - destruct (K4 NZ) as (L1 & L2 & L3 & L4). assert (f = - (c2 * s1)) by lra. subst g h f c.
    assert (P1 : a = c0 * c2 + s0 * (- (i * s2)) /\ b = c0 * (- (i * s2)) - s0 * c2) by (apply solve2; [exact K3|apply (cancel s1); [exact NZ|lra]..]).
    assert (P2 : d = c0 * s2 + s0 * (i * c2) /\ e = c0 * (i * c2) - s0 * s2) by (apply solve2; [exact K3|apply (cancel s1); [exact NZ|lra]..]).
    destruct P1 as (-> & ->), P2 as (-> & ->). mat_ring.
Qed.

(** ** all twelve orders *)
Definition exact_at (r : mat) (axes : triple axis) : Prop := middle r axes = 0 \/ 1 / 10 ^ 10 <= middle r axes.
Definition inverts (r : mat) (axes : triple axis) : Prop := forall t, rot2angle_rad r axes = Some t -> angle2rot t axes Rad = r.
Lemma transport r axes : (rotation (cyc r) -> exact_at (cyc r) (map3 nxt axes) -> inverts (cyc r) (map3 nxt axes)) -> rotation r -> exact_at r axes -> inverts r axes.
Proof.
  intros H Hr Hm t Ht. unfold exact_at in *. rewrite <- (cyc_middle r axes) in Hm. rewrite <- (cyc_rot2angle r axes) in Ht. specialize (H (cyc_rotation r Hr) Hm t Ht).
  rewrite <- cyc_angle2rot in H. rewrite <- (cyc3 r), <- H, cyc3. reflexivity.
Qed.
Lemma inverts_all axes : valid axes -> forall r, rotation r -> exact_at r axes -> inverts r axes.
Proof.
  assert (Z1 : forall r, rotation r -> exact_at r (AZ, AY, AX) -> inverts r (AZ, AY, AX)) by (intros r A B [[t0 t1] t2] C; apply zyx_ok; assumption).
  assert (Z2 : forall r, rotation r -> exact_at r (AX, AY, AZ) -> inverts r (AX, AY, AZ)) by (intros r A B [[t0 t1] t2] C; apply xyz_ok; assumption).
  assert (Z3 : forall r, rotation r -> exact_at r (AZ, AY, AZ) -> inverts r (AZ, AY, AZ)) by (intros r A B [[t0 t1] t2] C; apply zyz_ok; assumption).
  assert (Z4 : forall r, rotation r -> exact_at r (AZ, AX, AZ) -> inverts r (AZ, AX, AZ)) by (intros r A B [[t0 t1] t2] C; apply zxz_ok; assumption).
  intros Hv r. destruct axes as [[[] []] []]; cbn [valid] in Hv; destruct Hv as (N1 & N2); try (exfalso; congruence); try (auto; fail).
  all: apply transport; cbn [map3 nxt]; try (auto; fail); apply transport; cbn [map3 nxt]; auto.
Qed.
Lemma rot2angle_some r axes : valid axes -> exists t, rot2angle_rad r axes = Some t.
Proof. destruct axes as [[[] []] []]; cbn [valid]; intros (N1 & N2); try (exfalso; congruence); eexists; reflexivity. Qed.
Lemma rad_unrad u t : rad u (unrad u t) = t.
Proof. destruct u; [reflexivity|]. cbn [rad unrad]. pose proof PI_RGT_0. field. lra. Qed.
Lemma angle2rot_units t axes u : angle2rot (map3 (unrad u) t) axes u = angle2rot t axes Rad.
Proof. destruct t as [[t0 t1] t2], axes as [[a0 a1] a2]. cbn [map3 angle2rot]. rewrite !rad_unrad. reflexivity. Qed.

(** ** theorems *)
Theorem C20_angle : forall r axes u, rotation r -> valid axes -> exact_at r axes ->
  exists t, rot2angle r axes u = Some t /\ angle2rot t axes u = r.
Proof.
  intros r axes u Hr Hv Hm. destruct (rot2angle_some r axes Hv) as (t & Ht). exists (map3 (unrad u) t). unfold rot2angle. rewrite Ht. split; [reflexivity|].
  rewrite angle2rot_units. apply inverts_all; assumption.
Qed.
Print Assumptions C20_angle.

Lemma rev3_rev3 {A} (t : triple A) : rev3 (rev3 t) = t.
Proof. destruct t as [[a b] c]. reflexivity. Qed.
Lemma valid_rev axes : valid axes -> valid (rev3 axes).
Proof. destruct axes as [[a b] c]. cbn. intros (H1 & H2). split; congruence. Qed.
(** The same for angles in the order of multiplication ... *)
Theorem C20_eul : forall r axes u, rotation r -> valid axes -> exact_at r (rev3 axes) ->
  exists t, rot2eul r axes u = Some t /\ eul2rot t axes u = r.
Proof.
  intros r axes u Hr Hv Hm. destruct (C20_angle r (rev3 axes) u Hr (valid_rev _ Hv) Hm) as (t & Ht & E). exists (rev3 t). unfold rot2eul, eul2rot. rewrite Ht, rev3_rev3. split; [reflexivity|exact E].
Qed.
Print Assumptions C20_eul.
(** ... and for direction cosine matrices. *)
Lemma transpose_e t a u : transpose (e_rot t a u) = e_rot (- t) a u.
Proof.
  unfold e_rot. assert (E : rad u (- t) = - rad u t) by (destruct u; cbn [rad]; ring). rewrite E, cos_neg, sin_neg. destruct a; unfold transpose; cbn [m00 m01 m02 m10 m11 m12 m20 m21 m22]; f_equal; ring.
Qed.
Lemma dcm_transpose t axes u : angle2dcm t axes u = transpose (angle2rot (rev3 t) (rev3 axes) u).
Proof.
  destruct t as [[t0 t1] t2], axes as [[a0 a1] a2]. cbn [rev3 angle2dcm angle2rot]. rewrite !transpose_mmul, !transpose_e, <- mmul_assoc.
  assert (E : forall x, rad u (-1 * x) = - rad u x) by (intros; destruct u; cbn [rad]; ring). rewrite !E. reflexivity.
Qed.
Lemma middle_transpose r axes : middle (transpose r) (rev3 axes) = middle r axes.
Proof. destruct axes as [[[] []] []]; reflexivity. Qed.
Theorem C20_dcm : forall r axes u, rotation r -> valid axes -> exact_at r axes ->
  exists t, dcm2angle r axes u = Some t /\ angle2dcm t axes u = r.
Proof.
  intros r axes u Hr Hv Hm. assert (Hm' : exact_at (transpose r) (rev3 axes)) by (unfold exact_at in *; rewrite middle_transpose; exact Hm).
  destruct (C20_angle (transpose r) (rev3 axes) u (rotation_transpose r Hr) (valid_rev _ Hv) Hm') as (t & Ht & E). exists (rev3 t). unfold dcm2angle. rewrite Ht. split; [reflexivity|].
  rewrite dcm_transpose, rev3_rev3, E. apply transpose_transpose.
Qed.
Print Assumptions C20_dcm.
Theorem C20_dcm_eul : forall r axes u, rotation r -> valid axes -> exact_at r (rev3 axes) ->
  exists t, dcm2eul r axes u = Some t /\ eul2dcm t axes u = r.
Proof.
  intros r axes u Hr Hv Hm. destruct (C20_dcm r (rev3 axes) u Hr (valid_rev _ Hv) Hm) as (t & Ht & E). exists (rev3 t). unfold dcm2eul, eul2dcm. rewrite Ht, rev3_rev3. split; [reflexivity|exact E].
Qed.
Print Assumptions C20_dcm_eul.
(** Other orders raise. *)
Theorem C20_invalid : forall r axes u, ~ valid axes -> rot2angle r axes u = None.
Proof. intros r axes u H. destruct axes as [[[] []] []]; try reflexivity; exfalso; apply H; cbn; split; congruence. Qed.
Print Assumptions C20_invalid.

(** ** close to gimbal lock the result is off by no more than twice the distance *)
Definition near (eps : R) (a b : mat) : Prop :=
  (Rabs (m00 a - m00 b) <= eps /\ Rabs (m01 a - m01 b) <= eps /\ Rabs (m02 a - m02 b) <= eps) /\
  (Rabs (m10 a - m10 b) <= eps /\ Rabs (m11 a - m11 b) <= eps /\ Rabs (m12 a - m12 b) <= eps) /\
  (Rabs (m20 a - m20 b) <= eps /\ Rabs (m21 a - m21 b) <= eps /\ Rabs (m22 a - m22 b) <= eps).
Lemma near_refl eps a : 0 <= eps -> near eps a a.
Proof. intros H. unfold near. rewrite !Rminus_diag_eq, Rabs_R0 by reflexivity. repeat split; exact H. Qed.
Lemma near_cyc eps a b : near eps a b -> near eps (cyc a) (cyc b).
Proof. unfold near, cyc. cbn [m00 m01 m02 m10 m11 m12 m20 m21 m22]. tauto. Qed.

Lemma abs_le_sq x k : 0 <= k -> x * x <= k * k -> Rabs x <= k.
Proof. intros Hk H. apply Rsqr_le_abs_0 in H. rewrite (Rabs_right k) in H by lra. exact H. Qed.
Lemma abs_diff x y k : Rabs x <= k -> Rabs y <= k -> Rabs (x - y) <= 2 * k.
Proof. intros. unfold Rminus. eapply Rle_trans; [apply Rabs_triang|]. rewrite Rabs_Ropp. lra. Qed.
Lemma abs_mul_1 x y k : Rabs x <= 1 -> Rabs y <= k -> Rabs (x * y) <= k.
Proof. intros. rewrite Rabs_mult. pose proof (Rabs_pos x). pose proof (Rabs_pos y). nra. Qed.
(* dividing by a length close to one *)
Lemma rescale x y c s rho k : 0 <= k -> k <= 1 -> 0 < rho -> x * x + y * y = rho * rho -> 1 - k * k <= rho * rho -> rho * rho <= 1 -> x = c * rho -> y = s * rho ->
  Rabs (c - x) <= k * k /\ Rabs (s - y) <= k * k /\ Rabs c <= 1 /\ Rabs s <= 1.
Proof.
  intros Hk Hk1 Hr H1 H2 H3 Ex Ey. assert (rho <= 1) by nra. assert (D : 0 <= 1 - rho <= k * k) by (split; nra).
  assert (U : c * c + s * s = 1). { apply (Rmult_eq_reg_l (rho * rho)); [|nra]. rewrite Ex, Ey in H1. lra. }
  assert (Hc : Rabs c <= 1) by (apply abs_le_sq; [lra|pose proof (sq_pos s); lra]). assert (Hs : Rabs s <= 1) by (apply abs_le_sq; [lra|pose proof (sq_pos c); lra]).
  repeat split; try assumption.
  - replace (c - x) with (c * (1 - rho)) by (rewrite Ex; ring). apply abs_mul_1; [exact Hc|]. rewrite Rabs_right by lra. lra.
  - replace (s - y) with (s * (1 - rho)) by (rewrite Ey; ring). apply abs_mul_1; [exact Hs|]. rewrite Rabs_right by lra. lra.
Qed.
Lemma mix u v w p q k : 0 <= k -> k <= 1 -> Rabs u <= 1 -> Rabs (v - w) <= k * k -> Rabs p <= k -> Rabs q <= k -> Rabs (u * v - (u * w - p * q)) <= 2 * k.
Proof.
  intros Hk Hk1 Hu Hv Hp Hq. replace (u * v - (u * w - p * q)) with (u * (v - w) + p * q) by ring. eapply Rle_trans; [apply Rabs_triang|].
  assert (Rabs (u * (v - w)) <= k * k) by (apply abs_mul_1; assumption). assert (Rabs (p * q) <= k * k) by (rewrite Rabs_mult; pose proof (Rabs_pos p); pose proof (Rabs_pos q); nra). nra.
Qed.
(* the angles in the band *)
Lemma tait_band s1 c0c1 s0c1 s2c1 c2c1 s0p2 c0p2 : let c1 := sqrt (c0c1 * c0c1 + s0c1 * s0c1) in
  s1 * s1 + c1 * c1 = 1 -> c2c1 * c2c1 + s2c1 * s2c1 <= 1 -> s0p2 * s0p2 <= 1 -> c0p2 * c0p2 <= 1 -> 1 - c1 * c1 <= s0p2 * s0p2 + c0p2 * c0p2 <= 1 ->
  c1 < 1 / 10 ^ 10 ->
  let '(t0, t1, t2) := tait s1 c0c1 s0c1 s2c1 c2c1 s0p2 c0p2 in
  cos t1 = c1 /\ sin t1 = s1 /\ t0 = 0 /\ Rabs (cos t2 - c0p2) <= c1 * c1 /\ Rabs (sin t2 - s0p2) <= c1 * c1 /\ Rabs (cos t2) <= 1 /\ Rabs (sin t2) <= 1.
Proof.
  intros c1 H1 H2 H4 H5 H6 Hlt. pose proof (sqrt_pos (c0c1 * c0c1 + s0c1 * s0c1)) as Hp. fold c1 in Hp. squares (s1, c0c1, s0c1, s2c1, c2c1, s0p2, c0p2, c1).
  assert (Q : c1 * c1 = c0c1 * c0c1 + s0c1 * s0c1) by (unfold c1; apply sqrt_sqrt; lra).
  unfold tait. fold c1. rewrite (clip_id c1), (clip_id s1), (clip_id c0c1), (clip_id s0c1), (clip_id s2c1), (clip_id c2c1), (clip_id s0p2), (clip_id c0p2) by lra.
  destruct (arctan2_unit s1 c1) as (T1 & T2); [lra|]. rewrite (Rabs_right c1) by lra. destruct (Rlt_dec c1 (1 / 10 ^ 10)) as [_|Hge]; [|contradiction].
  assert (B : 1 / 10 ^ 10 <= 1 / 2) by (cbn [pow]; lra).
  clearbody c1. assert (c1 * c1 <= 1 / 4) by nra. set (rho := sqrt (c0p2 * c0p2 + s0p2 * s0p2)). assert (Hrr : rho * rho = c0p2 * c0p2 + s0p2 * s0p2) by (unfold rho; apply sqrt_sqrt; lra).
  assert (Hr : 0 < rho) by (unfold rho; apply sqrt_lt_R0; lra). clearbody rho.
  destruct (arctan2_spec s0p2 c0p2 rho Hr ltac:(lra)) as (U1 & U2). rewrite T1, T2. split; [reflexivity|]. split; [reflexivity|]. split; [reflexivity|].
  apply (rescale c0p2 s0p2 _ _ rho c1); try lra; [rewrite U1|rewrite U2]; field; lra.
Qed.
Lemma proper_band c1 s0s1 c0s1 s1s2 s1c2 s0p2 c0p2 : let s1 := sqrt (s0s1 * s0s1 + c0s1 * c0s1) in
  s1 * s1 + c1 * c1 = 1 -> s1s2 * s1s2 + s1c2 * s1c2 <= 1 -> s0p2 * s0p2 <= 1 -> c0p2 * c0p2 <= 1 -> 1 - s1 * s1 <= s0p2 * s0p2 + c0p2 * c0p2 <= 1 ->
  s1 < 1 / 10 ^ 10 ->
  let '(t0, t1, t2) := proper c1 s0s1 c0s1 s1s2 s1c2 s0p2 c0p2 in
  cos t1 = c1 /\ sin t1 = s1 /\ t0 = 0 /\ Rabs (cos t2 - c0p2) <= s1 * s1 /\ Rabs (sin t2 - s0p2) <= s1 * s1 /\ Rabs (cos t2) <= 1 /\ Rabs (sin t2) <= 1.
Proof.
  intros s1 H1 H2 H4 H5 H6 Hlt. pose proof (sqrt_pos (s0s1 * s0s1 + c0s1 * c0s1)) as Hp. fold s1 in Hp. squares (c1, s0s1, c0s1, s1s2, s1c2, s0p2, c0p2, s1).
  assert (Q : s1 * s1 = s0s1 * s0s1 + c0s1 * c0s1) by (unfold s1; apply sqrt_sqrt; lra).
  unfold proper. fold s1. rewrite (clip_id c1), (clip_id s1), (clip_id s0s1), (clip_id c0s1), (clip_id s1s2), (clip_id s1c2), (clip_id s0p2), (clip_id c0p2) by lra.
  destruct (arctan2_unit s1 c1) as (T1 & T2); [lra|]. rewrite (Rabs_right s1) by lra. destruct (Rlt_dec s1 (1 / 10 ^ 10)) as [_|Hge]; [|contradiction].
  assert (B : 1 / 10 ^ 10 <= 1 / 2) by (cbn [pow]; lra).
  clearbody s1. assert (s1 * s1 <= 1 / 4) by nra. set (rho := sqrt (c0p2 * c0p2 + s0p2 * s0p2)). assert (Hrr : rho * rho = c0p2 * c0p2 + s0p2 * s0p2) by (unfold rho; apply sqrt_sqrt; lra).
  assert (Hr : 0 < rho) by (unfold rho; apply sqrt_lt_R0; lra). clearbody rho.
  destruct (arctan2_spec s0p2 c0p2 rho Hr ltac:(lra)) as (U1 & U2). rewrite T1, T2. split; [reflexivity|]. split; [reflexivity|]. split; [reflexivity|].
  apply (rescale c0p2 s0p2 _ _ rho s1); try lra; [rewrite U1|rewrite U2]; field; lra.
Qed.

Lemma abs_0 k : 0 <= k -> Rabs 0 <= k.
Proof. rewrite Rabs_R0. trivial. Qed.
Lemma abs_opp x k : Rabs x <= k -> Rabs (- x) <= k.
Proof. rewrite Rabs_Ropp. trivial. Qed.
Lemma kk k : 0 <= k -> k <= 1 -> k * k <= 2 * k.
Proof. intros. nra. Qed.

Lemma zyx_band r t0 t1 t2 : rotation r -> middle r (AZ, AY, AX) < 1 / 10 ^ 10 ->
  rot2angle_rad r (AZ, AY, AX) = Some (t0, t1, t2) -> near (2 * middle r (AZ, AY, AX)) (angle2rot (t0, t1, t2) (AZ, AY, AX) Rad) r.
Proof.
  intros Hr Hm Ht. use_eqs r Hr. squares (m00 r, m01 r, m02 r, m10 r, m11 r, m12 r, m20 r, m21 r, m22 r). cbn [rot2angle_rad] in Ht. cbn [middle] in *.
  assert (S : sqrt (1 - m02 r * m02 r) = sqrt (m00 r * m00 r + (- m01 r) * (- m01 r))) by (f_equal; lra). rewrite S in *. clear S.
  pose proof (tait_band (m02 r) (m00 r) (- m01 r) (- m12 r) (m22 r) (m21 r) (m11 r)) as K. cbv zeta in K. pose proof (sqrt_pos (m00 r * m00 r + (- m01 r) * (- m01 r))) as Hp. set (k := sqrt (m00 r * m00 r + (- m01 r) * (- m01 r))) in *.
  assert (Q : k * k = m00 r * m00 r + m01 r * m01 r) by (unfold k; rewrite sqrt_sqrt; [ring|lra]). clearbody k. specialize (K ltac:(lra) ltac:(lra) ltac:(lra) ltac:(lra) ltac:(lra) Hm).
  apply some_inj in Ht. rewrite Ht in K. destruct K as (K1 & K2 & -> & K3 & K4 & K5 & K6). cbn [angle2rot]. unfold e_rot, rad. rewrite K1, K2, cos_0, sin_0. set (c2 := cos t2) in *. set (s2 := sin t2) in *. clearbody c2 s2.
  assert (Hk : k <= 1) by (assert (1 / 10 ^ 10 <= 1) by (cbn [pow]; lra); lra).
  destruct r as [a b c d e f g h i]. cbn [m00 m01 m02 m10 m11 m12 m20 m21 m22] in *.
  assert (Ra : Rabs a <= k) by (apply abs_le_sq; lra). assert (Rb : Rabs b <= k) by (apply abs_le_sq; lra). assert (Rf : Rabs f <= k) by (apply abs_le_sq; lra). assert (Ri : Rabs i <= k) by (apply abs_le_sq; lra).
  assert (Rc : Rabs c <= 1) by (apply abs_le_sq; lra). assert (Rk : Rabs k <= k) by (rewrite Rabs_right; lra). pose proof (kk k Hp Hk) as KK.
  unfold near. mcbn. split; [split; [|split]|split; split; try split].
  - replace (1 * _ + _ + _ - a) with (k - a) by ring. apply abs_diff; assumption.
  - replace (1 * _ + _ + _ - b) with (0 - b) by ring. apply abs_diff; [apply abs_0; lra|assumption].
  - replace (1 * _ + _ + _ - c) with 0 by ring. apply abs_0. lra.
  - replace (0 * _ + _ + _ - d) with (c * s2 - (c * h - b * i)) by lra. apply mix; assumption.
  - replace (0 * _ + _ + _ - e) with (c2 - e) by ring. lra.
  - replace (0 * _ + _ + _ - f) with (- (s2 * k) - f) by ring. apply abs_diff; [apply abs_opp, abs_mul_1; assumption|assumption].
  - replace (0 * _ + _ + _ - g) with (- (c * c2 - (c * e - b * f))) by lra. apply abs_opp. apply mix; assumption.
  - replace (0 * _ + _ + _ - h) with (s2 - h) by ring. lra.
  - replace (0 * _ + _ + _ - i) with (c2 * k - i) by ring. apply abs_diff; [apply abs_mul_1; assumption|assumption].
Qed.
Lemma xyz_band r t0 t1 t2 : rotation r -> middle r (AX, AY, AZ) < 1 / 10 ^ 10 ->
  rot2angle_rad r (AX, AY, AZ) = Some (t0, t1, t2) -> near (2 * middle r (AX, AY, AZ)) (angle2rot (t0, t1, t2) (AX, AY, AZ) Rad) r.
Proof.
  intros Hr Hm Ht. use_eqs r Hr. squares (m00 r, m01 r, m02 r, m10 r, m11 r, m12 r, m20 r, m21 r, m22 r). cbn [rot2angle_rad] in Ht. cbn [middle] in *.
  assert (S : sqrt (1 - m20 r * m20 r) = sqrt (m22 r * m22 r + m21 r * m21 r)) by (f_equal; lra). rewrite S in *. clear S.
  pose proof (tait_band (- m20 r) (m22 r) (m21 r) (m10 r) (m00 r) (- m01 r) (m11 r)) as K. cbv zeta in K. pose proof (sqrt_pos (m22 r * m22 r + m21 r * m21 r)) as Hp. set (k := sqrt (m22 r * m22 r + m21 r * m21 r)) in *.
  assert (Q : k * k = m22 r * m22 r + m21 r * m21 r) by (unfold k; rewrite sqrt_sqrt; [ring|lra]). clearbody k. specialize (K ltac:(lra) ltac:(lra) ltac:(lra) ltac:(lra) ltac:(lra) Hm).
  apply some_inj in Ht. rewrite Ht in K. destruct K as (K1 & K2 & -> & K3 & K4 & K5 & K6). cbn [angle2rot]. unfold e_rot, rad. rewrite K1, K2, cos_0, sin_0. set (c2 := cos t2) in *. set (s2 := sin t2) in *. clearbody c2 s2.
  assert (Hk : k <= 1) by (assert (1 / 10 ^ 10 <= 1) by (cbn [pow]; lra); lra).
  destruct r as [a b c d e f g h i]. cbn [m00 m01 m02 m10 m11 m12 m20 m21 m22] in *.
  assert (Ra : Rabs a <= k) by (apply abs_le_sq; lra). assert (Rd : Rabs d <= k) by (apply abs_le_sq; lra). assert (Rh : Rabs h <= k) by (apply abs_le_sq; lra). assert (Ri : Rabs i <= k) by (apply abs_le_sq; lra).
  assert (Rg : Rabs (- g) <= 1) by (apply abs_opp, abs_le_sq; lra). assert (Rk : Rabs k <= k) by (rewrite Rabs_right; lra). pose proof (kk k Hp Hk) as KK.
  unfold near. mcbn. split; [split; [|split]|split; split; try split].
  - replace (_ - a) with (c2 * k - a) by ring. apply abs_diff; [apply abs_mul_1; assumption|assumption].
  - replace (_ - b) with (- (s2 - - b)) by ring. apply abs_opp. lra.
  - replace (_ - c) with (- g * c2 - (- g * e - - d * h)) by lra. apply mix; try assumption. apply abs_opp. assumption.
  - replace (_ - d) with (s2 * k - d) by ring. apply abs_diff; [apply abs_mul_1; assumption|assumption].
  - replace (_ - e) with (c2 - e) by ring. lra.
  - replace (_ - f) with (- g * s2 - (- g * - b - a * h)) by lra. apply mix; assumption.
  - replace (_ - g) with 0 by ring. apply abs_0. lra.
  - replace (_ - h) with (0 - h) by ring. apply abs_diff; [apply abs_0; lra|assumption].
  - replace (_ - i) with (k - i) by ring. apply abs_diff; assumption.
Qed.
Lemma zyz_band r t0 t1 t2 : rotation r -> middle r (AZ, AY, AZ) < 1 / 10 ^ 10 ->
  rot2angle_rad r (AZ, AY, AZ) = Some (t0, t1, t2) -> near (2 * middle r (AZ, AY, AZ)) (angle2rot (t0, t1, t2) (AZ, AY, AZ) Rad) r.
Proof.
  intros Hr Hm Ht. use_eqs r Hr. squares (m00 r, m01 r, m02 r, m10 r, m11 r, m12 r, m20 r, m21 r, m22 r). cbn [rot2angle_rad] in Ht. cbn [middle] in *.
  assert (S : sqrt (1 - m22 r * m22 r) = sqrt (m21 r * m21 r + - m20 r * - m20 r)) by (f_equal; lra). rewrite S in *. clear S.
  pose proof (proper_band (m22 r) (m21 r) (- m20 r) (m12 r) (m02 r) (- m01 r) (m11 r)) as K. cbv zeta in K. pose proof (sqrt_pos (m21 r * m21 r + - m20 r * - m20 r)) as Hp. set (k := sqrt (m21 r * m21 r + - m20 r * - m20 r)) in *.
  assert (Q : k * k = m21 r * m21 r + m20 r * m20 r) by (unfold k; rewrite sqrt_sqrt; [ring|lra]). clearbody k. specialize (K ltac:(lra) ltac:(lra) ltac:(lra) ltac:(lra) ltac:(lra) Hm).
  apply some_inj in Ht. rewrite Ht in K. destruct K as (K1 & K2 & -> & K3 & K4 & K5 & K6). cbn [angle2rot]. unfold e_rot, rad. rewrite K1, K2, cos_0, sin_0. set (c2 := cos t2) in *. set (s2 := sin t2) in *. clearbody c2 s2.
  assert (Hk : k <= 1) by (assert (1 / 10 ^ 10 <= 1) by (cbn [pow]; lra); lra).
  destruct r as [a b c d e f g h i]. cbn [m00 m01 m02 m10 m11 m12 m20 m21 m22] in *.
  assert (Rc : Rabs c <= k) by (apply abs_le_sq; lra). assert (Rf : Rabs f <= k) by (apply abs_le_sq; lra). assert (Rh : Rabs h <= k) by (apply abs_le_sq; lra). assert (Rg : Rabs g <= k) by (apply abs_le_sq; lra).
  assert (Ri : Rabs i <= 1) by (apply abs_le_sq; lra). assert (Rk : Rabs k <= k) by (rewrite Rabs_right; lra). pose proof (kk k Hp Hk) as KK.
  unfold near. mcbn. split; [split; [|split]|split; split; try split].
  - replace (_ - a) with (i * c2 - (i * e - f * h)) by lra. apply mix; assumption.
  - replace (_ - b) with (- (s2 - - b)) by ring. apply abs_opp. lra.
  - replace (_ - c) with (c2 * k - c) by ring. apply abs_diff; [apply abs_mul_1; assumption|assumption].
  - replace (_ - d) with (i * s2 - (i * - b - - c * h)) by lra. apply mix; try assumption. apply abs_opp. assumption.
  - replace (_ - e) with (c2 - e) by ring. lra.
  - replace (_ - f) with (s2 * k - f) by ring. apply abs_diff; [apply abs_mul_1; assumption|assumption].
  - replace (_ - g) with (- k - g) by ring. apply abs_diff; [apply abs_opp|]; assumption.
  - replace (_ - h) with (0 - h) by ring. apply abs_diff; [apply abs_0; lra|assumption].
  - replace (_ - i) with 0 by ring. apply abs_0. lra.
Qed.
Lemma zxz_band r t0 t1 t2 : rotation r -> middle r (AZ, AX, AZ) < 1 / 10 ^ 10 ->
  rot2angle_rad r (AZ, AX, AZ) = Some (t0, t1, t2) -> near (2 * middle r (AZ, AX, AZ)) (angle2rot (t0, t1, t2) (AZ, AX, AZ) Rad) r.
Proof.
  intros Hr Hm Ht. use_eqs r Hr. squares (m00 r, m01 r, m02 r, m10 r, m11 r, m12 r, m20 r, m21 r, m22 r). cbn [rot2angle_rad] in Ht. cbn [middle] in *.
  assert (S : sqrt (1 - m22 r * m22 r) = sqrt (m20 r * m20 r + m21 r * m21 r)) by (f_equal; lra). rewrite S in *. clear S.
  pose proof (proper_band (m22 r) (m20 r) (m21 r) (m02 r) (- m12 r) (m10 r) (m00 r)) as K. cbv zeta in K. pose proof (sqrt_pos (m20 r * m20 r + m21 r * m21 r)) as Hp. set (k := sqrt (m20 r * m20 r + m21 r * m21 r)) in *.
  assert (Q : k * k = m21 r * m21 r + m20 r * m20 r) by (unfold k; rewrite sqrt_sqrt; [ring|lra]). clearbody k. specialize (K ltac:(lra) ltac:(lra) ltac:(lra) ltac:(lra) ltac:(lra) Hm).
  apply some_inj in Ht. rewrite Ht in K. destruct K as (K1 & K2 & -> & K3 & K4 & K5 & K6). cbn [angle2rot]. unfold e_rot, rad. rewrite K1, K2, cos_0, sin_0. set (c2 := cos t2) in *. set (s2 := sin t2) in *. clearbody c2 s2.
  assert (Hk : k <= 1) by (assert (1 / 10 ^ 10 <= 1) by (cbn [pow]; lra); lra).
  destruct r as [a b c d e f g h i]. cbn [m00 m01 m02 m10 m11 m12 m20 m21 m22] in *.
  assert (Rc : Rabs c <= k) by (apply abs_le_sq; lra). assert (Rf : Rabs f <= k) by (apply abs_le_sq; lra). assert (Rh : Rabs h <= k) by (apply abs_le_sq; lra). assert (Rg : Rabs g <= k) by (apply abs_le_sq; lra).
  assert (Ri : Rabs i <= 1) by (apply abs_le_sq; lra). assert (Rk : Rabs k <= k) by (rewrite Rabs_right; lra). pose proof (kk k Hp Hk) as KK.
  unfold near. mcbn. split; [split; [|split]|split; split; try split].
  - replace (_ - a) with (c2 - a) by ring. lra.
  - replace (_ - b) with (- (i * s2 - (i * d - f * g))) by lra. apply abs_opp. apply mix; assumption.
  - replace (_ - c) with (s2 * k - c) by ring. apply abs_diff; [apply abs_mul_1; assumption|assumption].
  - replace (_ - d) with (s2 - d) by ring. lra.
  - replace (_ - e) with (i * c2 - (i * a - c * g)) by lra. apply mix; assumption.
  - replace (_ - f) with (- (c2 * k) - f) by ring. apply abs_diff; [apply abs_opp, abs_mul_1; assumption|assumption].
  - replace (_ - g) with (0 - g) by ring. apply abs_diff; [apply abs_0; lra|assumption].
  - replace (_ - h) with (k - h) by ring. apply abs_diff; assumption.
  - replace (_ - i) with 0 by ring. apply abs_0. lra.
Qed.

Definition near_inverts (r : mat) (axes : triple axis) : Prop := forall t, rot2angle_rad r axes = Some t -> near (2 * middle r axes) (angle2rot t axes Rad) r.
Lemma transport_band r axes : (rotation (cyc r) -> middle (cyc r) (map3 nxt axes) < 1 / 10 ^ 10 -> near_inverts (cyc r) (map3 nxt axes)) -> rotation r -> middle r axes < 1 / 10 ^ 10 -> near_inverts r axes.
Proof.
  intros H Hr Hm t Ht. rewrite <- (cyc_middle r axes) in Hm. rewrite <- (cyc_rot2angle r axes) in Ht. specialize (H (cyc_rotation r Hr) Hm t Ht).
  rewrite cyc_middle, <- cyc_angle2rot in H. apply near_cyc, near_cyc in H. rewrite !cyc3 in H. exact H.
Qed.
Lemma band_all axes : valid axes -> forall r, rotation r -> middle r axes < 1 / 10 ^ 10 -> near_inverts r axes.
Proof.
  assert (Z1 : forall r, rotation r -> middle r (AZ, AY, AX) < 1 / 10 ^ 10 -> near_inverts r (AZ, AY, AX)) by (intros r A B [[t0 t1] t2] C; apply zyx_band; assumption).
  assert (Z2 : forall r, rotation r -> middle r (AX, AY, AZ) < 1 / 10 ^ 10 -> near_inverts r (AX, AY, AZ)) by (intros r A B [[t0 t1] t2] C; apply xyz_band; assumption).
  assert (Z3 : forall r, rotation r -> middle r (AZ, AY, AZ) < 1 / 10 ^ 10 -> near_inverts r (AZ, AY, AZ)) by (intros r A B [[t0 t1] t2] C; apply zyz_band; assumption).
  assert (Z4 : forall r, rotation r -> middle r (AZ, AX, AZ) < 1 / 10 ^ 10 -> near_inverts r (AZ, AX, AZ)) by (intros r A B [[t0 t1] t2] C; apply zxz_band; assumption).
  intros Hv r. destruct axes as [[[] []] []]; cbn [valid] in Hv; destruct Hv as (N1 & N2); try (exfalso; congruence); try (auto; fail).
  all: apply transport_band; cbn [map3 nxt]; try (auto; fail); apply transport_band; cbn [map3 nxt]; auto.
Qed.
(** For every rotation and every order the entries come back within 2e-10 ... *)
Theorem C20_all_rotations : forall r axes u, rotation r -> valid axes ->
  exists t, rot2angle r axes u = Some t /\ near (2 / 10 ^ 10) (angle2rot t axes u) r.
Proof.
  intros r axes u Hr Hv. destruct (Rle_dec (1 / 10 ^ 10) (middle r axes)) as [Hm|Hm].
  - destruct (C20_angle r axes u Hr Hv (or_intror Hm)) as (t & A & B). exists t. split; [exact A|]. rewrite B. apply near_refl. cbn [pow]. lra.
  - destruct (rot2angle_some r axes Hv) as (t & Ht). exists (map3 (unrad u) t). unfold rot2angle. rewrite Ht. split; [reflexivity|]. rewrite angle2rot_units.
    pose proof (band_all axes Hv r Hr ltac:(lra) t Ht) as N. assert (L : 2 * middle r axes <= 2 / 10 ^ 10) by lra. unfold near in *. repeat split; (eapply Rle_trans; [apply N|exact L]).
Qed.
Print Assumptions C20_all_rotations.
(** ... but not exactly: closer to gimbal lock than 1e-10 (without being there) the first angle is
    dropped. *)
Theorem C20_near_lock_refuted : forall r t, rotation r -> 0 < middle r (AZ, AY, AX) < 1 / 10 ^ 10 -> m01 r <> 0 ->
  rot2angle r (AZ, AY, AX) Rad = Some t -> angle2rot t (AZ, AY, AX) Rad <> r.
Proof.
  intros r t Hr (_ & Hm) Hn Ht E. unfold rot2angle in Ht. cbn [rot2angle_rad option_map] in Ht. apply some_inj in Ht. use_eqs r Hr. squares (m00 r, m01 r, m02 r, m10 r, m11 r, m12 r, m20 r, m21 r, m22 r). cbn [middle] in *.
  assert (S : sqrt (1 - m02 r * m02 r) = sqrt (m00 r * m00 r + (- m01 r) * (- m01 r))) by (f_equal; lra). rewrite S in *. clear S.
  pose proof (tait_band (m02 r) (m00 r) (- m01 r) (- m12 r) (m22 r) (m21 r) (m11 r)) as K. cbv zeta in K. set (k := sqrt (m00 r * m00 r + (- m01 r) * (- m01 r))) in *.
  assert (Q : k * k = m00 r * m00 r + m01 r * m01 r) by (unfold k; rewrite sqrt_sqrt; [ring|lra]). specialize (K ltac:(lra) ltac:(lra) ltac:(lra) ltac:(lra) ltac:(lra) Hm).
  destruct (tait (m02 r) (m00 r) (- m01 r) (- m12 r) (m22 r) (m21 r) (m11 r)) as [[t0 t1] t2]. destruct K as (_ & _ & -> & _). cbn [map3 unrad] in Ht. subst t. apply Hn. rewrite <- E. cbn [angle2rot]. unfold e_rot, rad. rewrite cos_0, sin_0. mcbn. ring.
Qed.
Print Assumptions C20_near_lock_refuted.

(** ** non-trivial cases *)
(* a rotation by an arbitrary angle about x is met by every order *)
Example C20_ex_generic : let r := MAT (3 / 5) 0 (4 / 5) 0 1 0 (- (4 / 5)) 0 (3 / 5) in rotation r /\ exact_at r (AZ, AY, AX) /\ exact_at r (AX, AZ, AX).
Proof.
  assert (S3 : sqrt (1 - 4 / 5 * (4 / 5)) = 3 / 5) by (replace (1 - 4 / 5 * (4 / 5)) with (3 / 5 * (3 / 5)) by lra; apply sqrt_square; lra).
  assert (S4 : sqrt (1 - 3 / 5 * (3 / 5)) = 4 / 5) by (replace (1 - 3 / 5 * (3 / 5)) with (4 / 5 * (4 / 5)) by lra; apply sqrt_square; lra).
  cbv zeta. split; [split; mcbn; [f_equal; lra|lra]|]. unfold exact_at, middle. cbn [m00 m02]. rewrite S3, S4. cbn [pow]. split; right; lra.
Qed.
(* gimbal lock *)
Example C20_ex_lock : let r := MAT 0 0 1 (3 / 5) (4 / 5) 0 (- (4 / 5)) (3 / 5) 0 in rotation r /\ exact_at r (AZ, AY, AX).
Proof. cbv zeta. split; [split; mcbn; [f_equal; lra|lra]|]. unfold exact_at, middle. cbn [m02]. left. replace (1 - 1 * 1) with 0 by ring. apply sqrt_0. Qed.
(* close to it *)
Example C20_ex_near : exists r, rotation r /\ 0 < middle r (AZ, AY, AX) < 1 / 10 ^ 10 /\ m01 r <> 0.
Proof.
  set (k := 1 / 10 ^ 11). assert (Hk : 0 < k < 1 / 10 ^ 10) by (unfold k; cbn [pow]; lra). assert (Hk1 : k <= 1) by (assert (1 / 10 ^ 10 <= 1) by (cbn [pow]; lra); lra).
  assert (Hs : 0 <= 1 - k * k) by nra. set (s := sqrt (1 - k * k)). assert (Hss : s * s = 1 - k * k) by (apply sqrt_sqrt; exact Hs). clearbody k s.
  exists (MAT 0 (- k) s 1 0 0 0 s k). split; [split; mcbn; [f_equal; lra|lra]|]. unfold middle. cbn [m01 m02]. replace (1 - s * s) with (k * k) by lra. rewrite sqrt_square by lra. split; [exact Hk|lra].
Qed.
