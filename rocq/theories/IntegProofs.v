(** Lemmas for C13: one step of each streamline integrator. *)
From Verif Require Import IntegModel IntegSpec IntegOrder.
From Coq Require Import Lra Lia Arith.
Open Scope R_scope.

(** * lengths *)
Definition dp (a b : vec) : R := v0 a * v0 b + v1 a * v1 b + v2 a * v2 b.
Lemma dp_pos a : 0 <= dp a a.
Proof. unfold dp. pose proof (Rle_0_sqr (v0 a)). pose proof (Rle_0_sqr (v1 a)). pose proof (Rle_0_sqr (v2 a)). unfold Rsqr in *. lra. Qed.
Lemma norm_dp a : norm a = sqrt (dp a a).
Proof. reflexivity. Qed.
Lemma norm_sq a : norm a * norm a = dp a a.
Proof. rewrite norm_dp. apply sqrt_sqrt, dp_pos. Qed.
Lemma norm_pos a : 0 <= norm a.
Proof. apply sqrt_pos. Qed.
Lemma norm_scale c a : norm (vscale c a) = Rabs c * norm a.
Proof.
  rewrite !norm_dp. replace (dp (vscale c a) (vscale c a)) with (Rsqr c * dp a a) by (unfold dp, vscale, Rsqr; cbn [v0 v1 v2]; ring). rewrite sqrt_mult; [|apply Rle_0_sqr|apply dp_pos]. rewrite sqrt_Rsqr_abs. reflexivity.
Qed.
Lemma cauchy a b : dp a b <= norm a * norm b.
Proof.
  destruct (Rle_lt_dec (dp a b) 0) as [N|P]; [apply Rle_trans with 0; [exact N|apply Rmult_le_pos; apply norm_pos]|].
  apply Rsqr_incr_0_var; [|apply Rmult_le_pos; apply norm_pos]. unfold Rsqr. replace (norm a * norm b * (norm a * norm b)) with ((norm a * norm a) * (norm b * norm b)) by ring. rewrite !norm_sq.
  destruct a as [a0 a1 a2], b as [b0 b1 b2]. unfold dp. cbn [v0 v1 v2].
  pose proof (Rle_0_sqr (a0 * b1 - a1 * b0)) as A. pose proof (Rle_0_sqr (a1 * b2 - a2 * b1)) as B. pose proof (Rle_0_sqr (a2 * b0 - a0 * b2)) as C. unfold Rsqr in *. lra.
Qed.
Lemma norm_add a b : norm (vadd a b) <= norm a + norm b.
Proof.
  pose proof (norm_pos a) as A. pose proof (norm_pos b) as B. apply Rsqr_incr_0_var; [|lra]. unfold Rsqr. rewrite norm_sq. replace ((norm a + norm b) * (norm a + norm b)) with (norm a * norm a + norm b * norm b + 2 * (norm a * norm b)) by ring. rewrite !norm_sq.
  pose proof (cauchy a b) as C. replace (dp (vadd a b) (vadd a b)) with (dp a a + dp b b + 2 * dp a b) by (unfold dp, vadd; cbn [v0 v1 v2]; ring). lra.
Qed.
Lemma norm_zero : norm (VEC 0 0 0) = 0.
Proof. unfold norm. cbn [v0 v1 v2]. replace (_ + _ + _) with 0 by ring. apply sqrt_0. Qed.
Lemma vadd_vsub a b : vsub (vadd a b) a = b.
Proof. destruct a as [a0 a1 a2], b as [b0 b1 b2]. unfold vsub, vadd. cbn [v0 v1 v2]. f_equal; ring. Qed.
Lemma vec_eq a b : v0 a = v0 b -> v1 a = v1 b -> v2 a = v2 b -> a = b.
Proof. destruct a as [a0 a1 a2], b as [b0 b1 b2]. cbn [v0 v1 v2]. congruence. Qed.

(** * samples of the field *)
Lemma sample_dir fld vs x : match sample fld vs x with
  | None => unit_dir fld vs x = None
  | Some s => unit_dir fld vs x = Some (vdiv (fst s) (snd s)) /\ snd s = speed fld vs x /\ 0 < snd s /\ snd s = norm (fst s) /\ (forall h, kstep h s = vscale h (vdiv (fst s) (snd s))) /\ (forall h, norm (kstep h s) = Rabs h)
  end.
Proof.
  unfold sample, unit_dir, speed. destruct (fld x) as [v|]; [|reflexivity]. destruct (Req_EM_T (norm (vmul vs v)) 0) as [E|N]; [reflexivity|]. cbn [fst snd]. set (w := vmul vs v) in *. pose proof (norm_pos w) as P.
  assert (W : norm w * norm w = dp w w) by apply norm_sq.
  repeat split; try lra.
  - intros h. unfold kstep, vscale, vdiv. cbn [fst snd v0 v1 v2]. f_equal; field; exact N.
  - intros h. unfold kstep. cbn [fst snd]. rewrite norm_scale. unfold Rdiv. rewrite Rabs_mult, Rabs_inv, (Rabs_right (norm w)) by lra. rewrite Rmult_assoc, Rinv_l by exact N. apply Rmult_1_r.
Qed.

(** * the steps are Runge-Kutta steps along the unit direction *)
Ltac stage vs fld x s := pose proof (sample_dir fld vs x); destruct (sample fld vs x) as [s|].
Ltac vring := apply vec_eq; unfold kstep, lin6, lin5, lin4, lin3, lin2, comb, vadd, vscale, vdiv, vsub; cbn [v0 v1 v2 fst snd]; field; lra.
(* where the method takes a step of length h: the point it reaches *)
Definition rk_of (m : method) : list (list R) * list R :=
  match m with
  | EULER1 | EULER1A => (euler_rows, [1])
  | RK2 => (midpoint_rows, [0; 1])
  | RK12 => (midpoint_rows, [1; 0])
  | RK4 => (kutta_rows, kutta_b)
  | RK45 => (fehlberg_rows, fehlberg_b4)
  end.
Definition moved (r : step_result) : option vec := match r with Stopped _ => None | Moved x _ _ => Some x end.
Lemma euler1_rk fld vs x ds dt : moved (euler1 fld vs x ds dt) = rk_step (unit_dir fld vs) ds x euler_rows [1].
Proof.
  unfold euler1, rk_step, euler_rows. cbn [stages comb]. replace (vadd x (vscale ds (VEC 0 0 0))) with x by vring. stage vs fld x s; [destruct H as (-> & _ & P & _); destruct s as (w, m); cbn [fst snd app] in *|rewrite H; reflexivity].
  cbn [moved]. f_equal. vring.
Qed.
Lemma rk2_rk fld vs x ds dt : moved (rk2 fld vs x ds dt) = rk_step (unit_dir fld vs) ds x midpoint_rows [0; 1].
Proof.
  unfold rk2, rk_step, midpoint_rows. cbn [stages]. replace (vadd x (vscale ds (comb [] []))) with x by vring.
  stage vs fld x s1; [destruct H as (-> & _ & P1 & _ & K1 & _); cbn [app]|rewrite H; reflexivity].
  replace (vadd x (vscale ds (comb [1 / 2] [vdiv (fst s1) (snd s1)]))) with (vadd x (vscale (1 / 2) (kstep ds s1))) by vring.
  stage vs fld (vadd x (vscale (1 / 2) (kstep ds s1))) s2; [destruct H as (-> & _ & P2 & _ & K2 & _); cbn [app]|rewrite H; reflexivity].
  cbn [moved]. f_equal. vring.
Qed.
Lemma rk4_rk fld vs x ds dt : moved (rk4 fld vs x ds dt) = rk_step (unit_dir fld vs) ds x kutta_rows kutta_b.
Proof.
  unfold rk4, rk_step, kutta_rows. cbn [stages]. replace (vadd x (vscale ds (comb [] []))) with x by vring.
  stage vs fld x s1; [destruct H as (-> & _ & P1 & _ & K1 & _); cbn [app]|rewrite H; reflexivity].
  replace (vadd x (vscale ds (comb [1 / 2] [vdiv (fst s1) (snd s1)]))) with (vadd x (vscale (1 / 2) (kstep ds s1))) by vring.
  stage vs fld (vadd x (vscale (1 / 2) (kstep ds s1))) s2; [destruct H as (-> & _ & P2 & _ & K2 & _); cbn [app]|rewrite H; reflexivity].
  replace (vadd x (vscale ds (comb [0; 1 / 2] _))) with (vadd x (lin2 0 (kstep ds s1) (1 / 2) (kstep ds s2))) by vring.
  stage vs fld (vadd x (lin2 0 (kstep ds s1) (1 / 2) (kstep ds s2))) s3; [destruct H as (-> & _ & P3 & _ & K3 & _); cbn [app]|rewrite H; reflexivity].
  replace (vadd x (vscale ds (comb [0; 0; 1] _))) with (vadd x (lin3 0 (kstep ds s1) 0 (kstep ds s2) 1 (kstep ds s3))) by vring.
  stage vs fld (vadd x (lin3 0 (kstep ds s1) 0 (kstep ds s2) 1 (kstep ds s3))) s4; [destruct H as (-> & _ & P4 & _ & K4 & _); cbn [app]|rewrite H; reflexivity].
  cbn [moved]. unfold kutta_b. f_equal. vring.
Qed.
(* point and error estimate of one pass *)
Definition estimate (h : R) (lo hi : option vec) : option (vec * R) :=
  match lo, hi with Some a, Some b => Some (a, norm (vsub b a) / h) | _, _ => None end.
Definition outcome (a : option (vec * R * R)) : option (vec * R) := match a with None => None | Some (x, e, _) => Some (x, e) end.
Lemma rk12_rk fld vs x h : outcome (rk12_try fld vs x h) = estimate h (rk_step (unit_dir fld vs) h x midpoint_rows [1; 0]) (rk_step (unit_dir fld vs) h x midpoint_rows [0; 1]).
Proof.
  unfold rk12_try, rk_step, midpoint_rows. cbn [stages]. replace (vadd x (vscale h (comb [] []))) with x by vring.
  stage vs fld x s1; [destruct H as (-> & _ & P1 & _ & K1 & _); cbn [app]|rewrite H; reflexivity].
  replace (vadd x (vscale h (comb [1 / 2] [vdiv (fst s1) (snd s1)]))) with (vadd x (vscale (1 / 2) (kstep h s1))) by vring.
  stage vs fld (vadd x (vscale (1 / 2) (kstep h s1))) s2; [destruct H as (-> & _ & P2 & _ & K2 & _); cbn [app]|rewrite H; reflexivity].
  cbn [outcome estimate]. replace (vadd x (vscale h (comb [1; 0] _))) with (vadd x (lin2 1 (kstep h s1) 0 (kstep h s2))) by vring. replace (vadd x (vscale h (comb [0; 1] _))) with (vadd x (lin2 0 (kstep h s1) 1 (kstep h s2))) by vring. reflexivity.
Qed.
Lemma rk45_rk fld vs x h : outcome (rk45_try fld vs x h) = estimate h (rk_step (unit_dir fld vs) h x fehlberg_rows fehlberg_b4) (rk_step (unit_dir fld vs) h x fehlberg_rows fehlberg_b5).
Proof.
  unfold rk45_try, rk_step, fehlberg_rows. cbn [stages]. replace (vadd x (vscale h (comb [] []))) with x by vring.
  stage vs fld x s1; [destruct H as (-> & _ & P1 & _ & K1 & _); cbn [app]|rewrite H; reflexivity].
  replace (vadd x (vscale h (comb [1 / 4] _))) with (vadd x (vscale (1 / 4) (kstep h s1))) by vring. set (y2 := vadd x (vscale (1 / 4) (kstep h s1))).
  stage vs fld y2 s2; [destruct H as (-> & _ & P2 & _ & K2 & _); cbn [app]|rewrite H; reflexivity].
  replace (vadd x (vscale h (comb [3 / 32; _] _))) with (vadd x (lin2 (3 / 32) (kstep h s1) (9 / 32) (kstep h s2))) by vring. set (y3 := vadd x (lin2 (3 / 32) _ _ _)).
  stage vs fld y3 s3; [destruct H as (-> & _ & P3 & _ & K3 & _); cbn [app]|rewrite H; reflexivity].
  replace (vadd x (vscale h (comb [1932 / 2197; _; _] _))) with (vadd x (lin3 (1932 / 2197) (kstep h s1) (- (7200 / 2197)) (kstep h s2) (7296 / 2197) (kstep h s3))) by vring. set (y4 := vadd x (lin3 (1932 / 2197) _ _ _ _ _)).
  stage vs fld y4 s4; [destruct H as (-> & _ & P4 & _ & K4 & _); cbn [app]|rewrite H; reflexivity].
  replace (vadd x (vscale h (comb [439 / 216; _; _; _] _))) with (vadd x (lin4 (439 / 216) (kstep h s1) (- 8) (kstep h s2) (3680 / 513) (kstep h s3) (- (845 / 4104)) (kstep h s4))) by vring. set (y5 := vadd x (lin4 (439 / 216) _ _ _ _ _ _ _)).
  stage vs fld y5 s5; [destruct H as (-> & _ & P5 & _ & K5 & _); cbn [app]|rewrite H; reflexivity].
  replace (vadd x (vscale h (comb [- 8 / 27; _; _; _; _] _))) with (vadd x (lin5 (- (8 / 27)) (kstep h s1) 2 (kstep h s2) (- (3544 / 2565)) (kstep h s3) (1859 / 4104) (kstep h s4) (- (11 / 40)) (kstep h s5))) by vring. set (y6 := vadd x (lin5 (- (8 / 27)) _ _ _ _ _ _ _ _ _)).
  stage vs fld y6 s6; [destruct H as (-> & _ & P6 & _ & K6 & _); cbn [app]|rewrite H; reflexivity].
  cbn [outcome estimate]. unfold fehlberg_b4, fehlberg_b5.
  replace (vadd x (vscale h (comb [25 / 216; _; _; _; _; _] _))) with (vadd x (lin6 (25 / 216) (kstep h s1) 0 (kstep h s2) (1408 / 2565) (kstep h s3) (2197 / 4104) (kstep h s4) (- (1 / 5)) (kstep h s5) 0 (kstep h s6))) by vring.
  replace (vadd x (vscale h (comb [16 / 135; _; _; _; _; _] _))) with (vadd x (lin6 (16 / 135) (kstep h s1) 0 (kstep h s2) (6656 / 12825) (kstep h s3) (28561 / 56430) (kstep h s4) (- (9 / 50)) (kstep h s5) (2 / 55) (kstep h s6))) by vring. reflexivity.
Qed.
