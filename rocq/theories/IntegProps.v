(** C13: one step of each streamline integrator. *)
From Verif Require Import IntegModel IntegSpec IntegOrder IntegProofs.
From Coq Require Import Lra Lia Arith.
Open Scope R_scope.

(** * the methods are the Runge-Kutta methods of their names, on the unit direction of the field *)
Theorem C13_fixed : forall fld vs x ds dt,
  moved (euler1 fld vs x ds dt) = rk_step (unit_dir fld vs) ds x euler_rows [1] /\ order 1 euler_rows [1] /\
  moved (rk2 fld vs x ds dt) = rk_step (unit_dir fld vs) ds x midpoint_rows [0; 1] /\ order 2 midpoint_rows [0; 1] /\
  moved (rk4 fld vs x ds dt) = rk_step (unit_dir fld vs) ds x kutta_rows kutta_b /\ order 4 kutta_rows kutta_b.
Proof. intros fld vs x ds dt. repeat split; auto using euler1_rk, rk2_rk, rk4_rk, euler_order, midpoint_order, kutta_order. Qed.
Print Assumptions C13_fixed.
Lemma midpoint_1 : order 1 midpoint_rows [1; 0].
Proof. unfold midpoint_rows. check_order 0%nat. Qed.
(** The adaptive ones estimate their error by a method of the next order, per unit length. *)
Theorem C13_embedded : forall fld vs x h,
  outcome (rk12_try fld vs x h) = estimate h (rk_step (unit_dir fld vs) h x midpoint_rows [1; 0]) (rk_step (unit_dir fld vs) h x midpoint_rows [0; 1]) /\
  order 1 midpoint_rows [1; 0] /\ order 2 midpoint_rows [0; 1] /\
  outcome (rk45_try fld vs x h) = estimate h (rk_step (unit_dir fld vs) h x fehlberg_rows fehlberg_b4) (rk_step (unit_dir fld vs) h x fehlberg_rows fehlberg_b5) /\
  order 4 fehlberg_rows fehlberg_b4 /\ order 5 fehlberg_rows fehlberg_b5.
Proof. intros fld vs x h. repeat split; auto using rk12_rk, rk45_rk, midpoint_1, midpoint_order, fehlberg_order4, fehlberg_order5. Qed.
Print Assumptions C13_embedded.
(** euler1a compares an Euler step with the step back from its end. *)
Theorem C13_euler1a : forall fld vs x h, h <> 0 ->
  outcome (euler1a_try fld vs x h) = match rk_step (unit_dir fld vs) h x euler_rows [1] with
  | None => None
  | Some y => match rk_step (unit_dir fld vs) (- h) y euler_rows [1] with None => None | Some z => Some (y, norm (vsub z x) / h) end
  end.
Proof.
  intros fld vs x h Hh. unfold euler1a_try, rk_step, euler_rows. cbn [stages]. replace (vadd x (vscale h (comb [] []))) with x by vring.
  stage vs fld x s1; [destruct H as (-> & _ & P1 & _ & K1 & _); cbn [app]|rewrite H; reflexivity].
  replace (vadd x (vscale h (comb [1] _))) with (vadd x (kstep h s1)) by vring. set (y := vadd x (kstep h s1)). replace (vadd y (vscale (- h) (comb [] []))) with y by vring.
  stage vs fld y s2; [destruct H as (-> & _ & P2 & _ & K2 & _); cbn [app]|rewrite H; reflexivity].
  cbn [outcome]. do 3 f_equal. f_equal. unfold y. vring.
Qed.
Print Assumptions C13_euler1a.

(** * uniform fields *)
Lemma zero_err ds e e0 sm lg : e0 <> 0 -> e = 0 -> ts_ctrl ds (e / ds) e0 sm lg = (false, ds).
Proof. intros H0 ->. unfold ts_ctrl. replace (Rabs (0 / ds) / e0) with 0 by (unfold Rdiv; rewrite Rmult_0_l, Rabs_R0; ring). destruct (Req_EM_T 0 0); [reflexivity|congruence]. Qed.
(** Every method follows a uniform field exactly: it moves by ds along the field, keeps the step and
    adds the time ds / speed. *)
Theorem C13_uniform : forall m fuel c vs x ds dt max_error smallest largest, norm (vmul vs c) <> 0 -> ds <> 0 -> max_error <> 0 ->
  integrate m (S fuel) (fun _ => Some c) vs x ds dt max_error smallest largest =
  Some (Moved (vadd x (vscale ds (vdiv (vmul vs c) (norm (vmul vs c))))) ds (Some (dt + ds / norm (vmul vs c)))).
Proof.
  intros m fuel c vs x ds dt e0 sm lg N Hd He. set (w := vmul vs c) in *. set (n := norm w) in *.
  assert (S : forall y, sample (fun _ => Some c) vs y = Some (w, n)) by (intros y; unfold sample; fold w; fold n; destruct (Req_EM_T n 0); [congruence|reflexivity]).
  assert (T : forall d, d = n -> add_time dt ds d = Some (dt + ds / n)) by (intros d ->; unfold add_time; destruct (Req_EM_T n 0); [congruence|reflexivity]).
  assert (V : forall v, v = VEC 0 0 0 -> norm v = 0) by (intros v ->; apply norm_zero).
  assert (X : forall a b : vec, a = b -> vsub a b = VEC 0 0 0) by (intros a b ->; unfold vsub; f_equal; ring).
  clearbody n w.
  destruct m; cbn [integrate adaptive]; unfold euler1, rk2, rk4, euler1a_try, rk12_try, rk45_try; rewrite !S; cbn [snd].
  - rewrite (T n) by reflexivity. do 2 f_equal. apply vec_eq; unfold vadd, vscale, vdiv; cbn [v0 v1 v2]; field; exact N.
  - rewrite T by ring. do 2 f_equal. apply vec_eq; unfold lin2, kstep, vadd, vscale, vdiv; cbn [v0 v1 v2 fst snd]; field; exact N.
  - rewrite T by field. do 2 f_equal. apply vec_eq; unfold lin4, lin3, lin2, kstep, vadd, vscale, vdiv; cbn [v0 v1 v2 fst snd]; field; exact N.
  - rewrite zero_err; [|exact He|apply V, X; apply vec_eq; unfold vadd, vsub; cbn [v0 v1 v2]; ring]. rewrite T by reflexivity. do 2 f_equal. apply vec_eq; unfold kstep, vadd, vscale, vdiv; cbn [v0 v1 v2 fst snd]; field; exact N.
  - rewrite zero_err; [|exact He|apply V, X; apply vec_eq; unfold lin2, vadd, vscale; cbn [v0 v1 v2]; ring]. rewrite T by ring. do 2 f_equal. apply vec_eq; unfold lin2, kstep, vadd, vscale, vdiv; cbn [v0 v1 v2 fst snd]; field; exact N.
  - rewrite zero_err; [|exact He|apply V, X; apply vec_eq; unfold lin6, lin5, lin4, lin3, lin2, kstep, vadd, vscale; cbn [v0 v1 v2 fst snd]; field; exact N]. rewrite T by field. do 2 f_equal. apply vec_eq; unfold lin6, lin5, lin4, lin3, lin2, kstep, vadd, vscale, vdiv; cbn [v0 v1 v2 fst snd]; field; exact N.
Qed.
Print Assumptions C13_uniform.

(** * step size control *)
Lemma sign_abs d s : d <> 0 -> 0 < s -> Rabs (d / Rabs d * s) = s /\ 0 < d * (d / Rabs d * s).
Proof.
  intros Hd Hs. pose proof (Rabs_pos_lt d Hd) as P. split.
  - unfold Rdiv. rewrite !Rabs_mult, Rabs_inv, Rabs_Rabsolu, (Rabs_right s) by lra. field. lra.
  - replace (d * (d / Rabs d * s)) with (d * d / Rabs d * s) by (field; lra). apply Rmult_lt_0_compat; [|exact Hs]. apply Rdiv_lt_0_compat; [|exact P]. pose proof (Rsqr_pos_lt d Hd) as Q. exact Q.
Qed.
Lemma scale_abs d c : d <> 0 -> 0 < c -> Rabs (9 / 10 * d * c) = 9 / 10 * c * Rabs d /\ 0 < d * (9 / 10 * d * c).
Proof.
  intros Hd Hc. split; [rewrite !Rabs_mult, (Rabs_right (9 / 10)), (Rabs_right c) by lra; ring|].
  replace (d * (9 / 10 * d * c)) with (9 / 10 * (d * d) * c) by ring. pose proof (Rsqr_pos_lt d Hd) as Q. unfold Rsqr in Q. apply Rmult_lt_0_compat; [lra|exact Hc].
Qed.
Lemma rpower_le1 r p : 1 <= r -> 0 < p -> 0 < Rpower r (- p) <= 1.
Proof.
  intros H Hp. split; [unfold Rpower; apply exp_pos|]. rewrite Rpower_Ropp, <- Rinv_1. apply Rinv_le_contravar; [lra|]. replace 1 with (Rpower r 0) by (apply Rpower_O; lra). apply Rle_Rpower; lra.
Qed.
(** What the control may do to the step: keep its direction, repeat only when the error is too large and
    the step is not yet the smallest, and then shrink the step by a tenth at least, or to the smallest. *)
Theorem C13_control : forall ds err max_error smallest largest rep ds',
  ds <> 0 -> 0 < max_error -> 0 < smallest <= largest -> ts_ctrl ds err max_error smallest largest = (rep, ds') ->
  0 < ds * ds' /\
  (rep = true -> max_error <= Rabs err /\ smallest < Rabs ds /\ (Rabs ds' <= 9 / 10 * Rabs ds \/ Rabs ds' = smallest) /\ smallest <= Rabs ds') /\
  (rep = false -> (Rabs err < max_error \/ Rabs ds <= smallest) /\ Rabs ds' <= Rmax (Rabs ds) largest) /\
  (Rabs ds <= largest -> Rabs ds' <= largest).
Proof.
  intros ds err e0 sm lg rep ds' Hd He (Hs & Hl) E. unfold ts_ctrl in E. pose proof (Rabs_pos_lt ds Hd) as P.
  pose proof (Rabs_pos err) as Pe. pose proof (Rmax_l (Rabs ds) lg) as M1. pose proof (Rmax_r (Rabs ds) lg) as M2.
  assert (Rt : forall c, 0 < c -> (c <= Rabs err / e0 -> c * e0 <= Rabs err) /\ (Rabs err / e0 < c -> Rabs err < c * e0)).
  { intros c Hc. split; intros H; [apply Rmult_le_compat_r with (r := e0) in H; [|lra]|apply Rmult_lt_compat_r with (r := e0) in H; [|lra]]; unfold Rdiv in H; rewrite Rmult_assoc, Rinv_l, Rmult_1_r in H by lra; lra. }
  destruct (Rt 1 ltac:(lra)) as (Rt1 & Rt2). set (r := Rabs err / e0) in *.
  destruct (sign_abs ds sm Hd Hs) as (A1 & A2). destruct (sign_abs ds lg Hd ltac:(lra)) as (B1 & B2).
  destruct (Req_EM_T r 0) as [Z|Z].
  { injection E as <- <-. split; [pose proof (Rsqr_pos_lt ds Hd) as Q; exact Q|]. split; [discriminate|]. split; [|auto]. intros _. split; [left; assert (r < 1) by lra; specialize (Rt2 H); lra|lra]. }
  assert (Rp : 0 < r) by (assert (0 <= r) by (unfold r, Rdiv; apply Rmult_le_pos; [exact Pe|left; apply Rinv_0_lt_compat, He]); lra).
  destruct (Rle_dec 1 r) as [G|G].
  - destruct (Rle_dec (Rabs ds) sm) as [S|S].
    + injection E as <- <-. rewrite A1. repeat split; try assumption; try discriminate; try lra.
    + destruct (rpower_le1 r (1 / 4) G ltac:(lra)) as (Q0 & Q1). destruct (scale_abs ds _ Hd Q0) as (C1 & C2). set (d' := 9 / 10 * ds * Rpower r (- (1 / 4))) in *.
      assert (D : Rabs d' <= 9 / 10 * Rabs ds) by (rewrite C1; apply Rmult_le_compat_r; lra).
      destruct (Rle_dec (Rabs d') sm); injection E as <- <-; rewrite ?A1; repeat split; try assumption; try discriminate; try lra; try (left; lra); try (right; reflexivity); try (intros _; specialize (Rt1 G); lra); specialize (Rt1 G); lra.
  - specialize (Rt2 ltac:(lra)). destruct (Rle_dec lg (Rabs ds)) as [S|S].
    + injection E as <- <-. rewrite B1. repeat split; try assumption; try discriminate; try lra.
    + assert (Q0 : 0 < Rpower r (- (1 / 5))) by apply exp_pos. destruct (scale_abs ds _ Hd Q0) as (C1 & C2). set (d' := 9 / 10 * ds * Rpower r (- (1 / 5))) in *.
      destruct (Rle_dec lg (Rabs d')); injection E as <- <-; rewrite ?B1; repeat split; try assumption; try discriminate; try lra.
Qed.
Print Assumptions C13_control.

(** * the retry loop *)
(** With a positive smallest step the loop ends, whatever the passes return. *)
Theorem C13_ends : forall try max_error smallest largest ds dt, 0 < max_error -> 0 < smallest <= largest -> ds <> 0 ->
  exists fuel, forall more, adaptive try max_error smallest largest (fuel + more) ds dt <> None.
Proof.
  intros try e0 sm lg ds dt He Hs Hd.
  assert (L : forall n ds, ds <> 0 -> Rabs ds <= sm * (10 / 9) ^ n -> forall more, adaptive try e0 sm lg (S n + more) ds dt <> None).
  { clear ds Hd. induction n as [|n IH]; intros ds Hd B more; cbn [Nat.add adaptive]; (destruct (try ds) as [((y, err), sp)|]; [|discriminate]); destruct (ts_ctrl ds err e0 sm lg) as (rep, ds') eqn:T; (destruct rep; [|discriminate]); destruct (C13_control _ _ _ _ _ _ _ Hd He Hs T) as (Sg & Rp & _); destruct (Rp eq_refl) as (_ & G & Sh & Lo).
    - cbn [pow] in B. lra.
    - assert (Hd' : ds' <> 0) by (intros ->; lra). apply (IH ds' Hd'). assert (1 <= (10 / 9) ^ n) by (apply pow_R1_Rle; lra). destruct Sh as [Sh|Sh].
      + cbn [pow] in B. set (q := (10 / 9) ^ n) in *. lra.
      + rewrite Sh. rewrite <- (Rmult_1_r sm) at 1. apply Rmult_le_compat_l; lra. }
  destruct (Pow_x_infinity (10 / 9) ltac:(rewrite Rabs_right; lra) (Rabs ds / sm)) as (N & HN). exists (S N). intros more. apply (L N ds Hd).
  specialize (HN N (Nat.le_refl N)). rewrite (Rabs_right ((10 / 9) ^ N)) in HN by (apply Rle_ge, pow_le; lra). apply Rge_le in HN. apply Rmult_le_compat_l with (r := sm) in HN; [|lra]. replace (sm * (Rabs ds / sm)) with (Rabs ds) in HN by (field; lra). exact HN.
Qed.
Print Assumptions C13_ends.
(** The step that is taken: it has the direction of ds and is not longer, its estimated error is below
    the tolerance unless it is not longer than the smallest step; and the next step keeps the
    direction and stays within the largest, if ds was. *)
Theorem C13_accepted : forall try max_error smallest largest fuel ds dt x ds' dt', 0 < max_error -> 0 < smallest <= largest -> ds <> 0 ->
  adaptive try max_error smallest largest fuel ds dt = Some (Moved x ds' dt') ->
  exists h err sp, try h = Some (x, err, sp) /\ 0 < ds * h /\ Rabs h <= Rabs ds /\ (Rabs err < max_error \/ Rabs h <= smallest) /\ dt' = add_time dt h sp /\
    0 < ds * ds' /\ (Rabs ds <= largest -> Rabs ds' <= largest) /\ (h = ds \/ smallest <= Rabs h).
Proof.
  intros try e0 sm lg fuel ds dt x ds' dt' He Hs. revert ds. induction fuel as [|fuel IH]; intros ds Hd E; [discriminate|]. cbn [adaptive] in E. destruct (try ds) as [((y, err), sp)|] eqn:T; [|discriminate].
  destruct (ts_ctrl ds err e0 sm lg) as (rep, d1) eqn:Q. destruct (C13_control _ _ _ _ _ _ _ Hd He Hs Q) as (Sg & Rp & Rf & Lg). destruct rep.
  - destruct (Rp eq_refl) as (_ & G & Sh & Lo). assert (H1 : d1 <> 0) by (intros ->; lra). destruct (IH d1 H1 E) as (h & err' & sp' & A & B & C & D & F & G1 & H & I). exists h, err', sp'.
    assert (TR : forall z, 0 < d1 * z -> 0 < ds * z).
    { intros z Hz. assert (P : 0 < (ds * d1) * (d1 * z)) by (apply Rmult_lt_0_compat; assumption). replace (ds * d1 * (d1 * z)) with ((d1 * d1) * (ds * z)) in P by ring. pose proof (Rsqr_pos_lt d1 H1) as S1. unfold Rsqr in S1. apply Rmult_lt_reg_l with (d1 * d1); [exact S1|]. rewrite Rmult_0_r. exact P. }
    assert (Rabs d1 <= Rabs ds) by (pose proof (Rabs_pos ds); destruct Sh; lra). repeat split; auto; try lra. right. destruct I as [->|I]; lra.
  - apply (f_equal (fun o => match o with Some r => r | None => Stopped 0 end)) in E. injection E as <- <- <-. exists ds, err, sp. destruct (Rf eq_refl) as (A & B). pose proof (Rsqr_pos_lt ds Hd) as S1. unfold Rsqr in S1. repeat split; auto; lra.
Qed.
Print Assumptions C13_accepted.
(** The next step can be smaller than the smallest step. *)
Theorem C13_smallest_refuted : exists ds err max_error smallest largest ds', 0 < max_error /\ 0 < smallest <= ds /\ ds <= largest /\
  ts_ctrl ds err max_error smallest largest = (false, ds') /\ 0 < ds' < smallest.
Proof.
  exists 1, (9 / 10), 1, 1, 100, (9 / 10 * 1 * Rpower (9 / 10) (- (1 / 5))). split; [lra|]. split; [lra|]. split; [lra|].
  assert (U : Rpower (9 / 10) (- (1 / 5)) < 10 / 9).
  { replace (9 / 10) with (/ (10 / 9)) by field. unfold Rpower. rewrite ln_Rinv by lra. replace (- (1 / 5) * - ln (10 / 9)) with (1 / 5 * ln (10 / 9)) by ring. rewrite <- (exp_ln (10 / 9)) at 2 by lra. apply exp_increasing. assert (0 < ln (10 / 9)) by (rewrite <- ln_1; apply ln_increasing; lra). lra. }
  assert (P : 0 < Rpower (9 / 10) (- (1 / 5))) by apply exp_pos.
  split; [|lra]. unfold ts_ctrl. rewrite (Rabs_right (9 / 10)), (Rabs_right 1) by lra. replace (9 / 10 / 1) with (9 / 10) by field. destruct (Req_EM_T (9 / 10) 0); [lra|]. destruct (Rle_dec 1 (9 / 10)); [lra|]. destruct (Rle_dec 100 1); [lra|]. rewrite Rabs_right by lra. destruct (Rle_dec 100 _); [lra|reflexivity].
Qed.
Print Assumptions C13_smallest_refuted.

(** * how far a step goes *)
Lemma comb_norm : forall b ks, Forall (fun k => norm k = 1) ks -> norm (comb b ks) <= sum (map Rabs b).
Proof.
  induction b as [|c b IH]; intros ks F; cbn [comb map]; [rewrite norm_zero; cbn; lra|]. destruct ks as [|k ks].
  - rewrite norm_zero. apply Rle_trans with (sum (map Rabs b)); [|unfold sum; cbn; pose proof (Rabs_pos c); fold (sum (map Rabs b)); lra]. specialize (IH [] ltac:(constructor)). pose proof (norm_pos (comb b [])). lra.
  - inversion F as [|? ? F1 F2]; subst. apply Rle_trans with (1 := norm_add _ _). rewrite norm_scale, F1. specialize (IH ks F2). unfold sum in *. cbn [fold_right]. lra.
Qed.
Lemma dir_unit fld vs x k : unit_dir fld vs x = Some k -> norm k = 1.
Proof.
  unfold unit_dir. destruct (fld x) as [v|]; [|discriminate]. destruct (Req_EM_T (norm (vmul vs v)) 0) as [E|N]; [discriminate|]. intros H. apply (f_equal (fun o => match o with Some r => r | None => VEC 0 0 0 end)) in H. cbv beta iota in H. subst k. set (w := vmul vs v) in *.
  replace (vdiv w (norm w)) with (vscale (/ norm w) w) by (unfold vdiv, vscale, Rdiv; f_equal; ring). pose proof (norm_pos w). rewrite norm_scale, Rabs_inv, (Rabs_right (norm w)) by lra. apply Rinv_l. exact N.
Qed.
Lemma stages_unit f h x : (forall y k, f y = Some k -> norm k = 1) -> forall rows ks l, Forall (fun k => norm k = 1) ks -> stages f h x rows ks = Some l -> Forall (fun k => norm k = 1) l.
Proof.
  intros Hf. induction rows as [|row rows IH]; intros ks l F E; cbn [stages] in E; [congruence|]. destruct (f _) as [k|] eqn:K; [|discriminate]. apply IH in E; [exact E|]. apply Forall_app. split; [exact F|]. constructor; [exact (Hf _ _ K)|constructor].
Qed.
Lemma rk_distance fld vs h x rows b y : rk_step (unit_dir fld vs) h x rows b = Some y -> norm (vsub y x) <= sum (map Rabs b) * Rabs h.
Proof.
  unfold rk_step. destruct (stages _ h x rows []) as [ks|] eqn:E; [|discriminate]. intros H. apply (f_equal (fun o => match o with Some r => r | None => VEC 0 0 0 end)) in H. cbv beta iota in H. subst y. apply (stages_unit _ _ _ (dir_unit fld vs) _ [] _ ltac:(constructor)) in E. rewrite vadd_vsub, norm_scale, Rmult_comm. apply Rmult_le_compat_r; [apply Rabs_pos|]. apply comb_norm, E.
Qed.
Definition reach (m : method) : R := match m with RK45 => 1 + 2 / 5 | _ => 1 end.
(** No method goes farther than |ds|, except rk45 which can go 1.4 times as far. *)
Theorem C13_distance : forall m fuel fld vs x ds dt max_error smallest largest y ds' dt', 0 < max_error -> 0 < smallest <= largest -> ds <> 0 ->
  integrate m fuel fld vs x ds dt max_error smallest largest = Some (Moved y ds' dt') -> norm (vsub y x) <= reach m * Rabs ds.
Proof.
  intros m fuel fld vs x ds dt e0 sm lg y ds' dt' He Hs Hd E.
  assert (Mv : forall r, Some r = Some (Moved y ds' dt') -> moved r = Some y) by (intros r H; apply (f_equal (fun o => match o with Some r => r | None => Stopped 0 end)) in H; cbv beta iota in H; subst r; reflexivity).
  assert (Ad : forall try, adaptive try e0 sm lg fuel ds dt = Some (Moved y ds' dt') -> exists h err, outcome (try h) = Some (y, err) /\ Rabs h <= Rabs ds /\ h <> 0).
  { intros try H. destruct (C13_accepted _ _ _ _ _ _ _ _ _ _ He Hs Hd H) as (h & err & sp & A & B & C & _). exists h, err. rewrite A. split; [reflexivity|]. split; [exact C|]. intros ->. lra. }
  assert (Es : forall h lo hi err, estimate h lo hi = Some (y, err) -> lo = Some y) by (intros h [a|] [b|] err H; try discriminate; cbn [estimate] in H; injection H as <- _; reflexivity).
  assert (Fin : forall c d h, 0 <= c -> Rabs h <= Rabs ds -> norm (vsub y x) <= c * Rabs h -> c <= d -> norm (vsub y x) <= d * Rabs ds) by (intros c d h Hc A B C; apply Rle_trans with (1 := B); apply Rmult_le_compat; auto using Rabs_pos).
  destruct m; cbn [integrate reach] in *.
  - apply Mv in E. rewrite euler1_rk in E. apply rk_distance in E. unfold sum in E. cbn [map fold_right] in E. rewrite Rabs_R1 in E. apply (Fin (1 + 0) 1 ds); lra.
  - apply Mv in E. rewrite rk2_rk in E. apply rk_distance in E. unfold sum in E. cbn [map fold_right] in E. rewrite Rabs_R1, Rabs_R0 in E. apply (Fin (0 + (1 + 0)) 1 ds); lra.
  - apply Mv in E. rewrite rk4_rk in E. apply rk_distance in E. unfold kutta_b, sum in E. cbn [map fold_right] in E. rewrite (Rabs_right (1 / 6)), (Rabs_right (1 / 3)) in E by lra. apply (Fin _ 1 ds) in E; lra.
  - destruct (Ad _ E) as (h & err & A & B & N). rewrite C13_euler1a in A by exact N. destruct (rk_step _ h x euler_rows [1]) as [z|] eqn:K; [|discriminate]. destruct (rk_step _ (- h) z _ _) as [w|]; [|discriminate]. injection A as -> _. apply rk_distance in K. unfold sum in K. cbn [map fold_right] in K. rewrite Rabs_R1 in K. apply (Fin (1 + 0) 1 h); lra.
  - destruct (Ad _ E) as (h & err & A & B & N). rewrite rk12_rk in A. apply Es in A. apply rk_distance in A. unfold sum in A. cbn [map fold_right] in A. rewrite Rabs_R1, Rabs_R0 in A. apply (Fin (1 + (0 + 0)) 1 h); lra.
  - destruct (Ad _ E) as (h & err & A & B & N). rewrite rk45_rk in A. apply Es in A. apply rk_distance in A. unfold fehlberg_b4, sum in A. cbn [map fold_right] in A. rewrite Rabs_R0, (Rabs_right (25 / 216)), (Rabs_right (1408 / 2565)), (Rabs_right (2197 / 4104)), (Rabs_left (- 1 / 5)) in A by lra. apply (Fin _ (1 + 2 / 5) h) in A; lra.
Qed.
Print Assumptions C13_distance.
