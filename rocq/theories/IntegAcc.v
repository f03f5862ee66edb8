(** C13: how well the steps follow the lines of the field, and how much time they take. *)
From Verif Require Import IntegModel IntegSpec IntegOrder IntegProofs IntegProps.
From Coq Require Import Lra Lia.
Open Scope R_scope.

(** * Taylor bounds *)
Lemma decreasing (f f' : R -> R) h : 0 < h -> (forall t, 0 <= t <= h -> derivable_pt_lim f t (f' t)) -> (forall t, 0 < t < h -> f' t <= 0) -> f h <= f 0.
Proof.
  intros Hh D N. destruct (MVT_cor2 f f' 0 h Hh D) as (t & E & I). specialize (N t I). assert (f' t * (h - 0) <= 0) by (rewrite Rminus_0_r; rewrite <- (Rmult_0_l h); apply Rmult_le_compat_r; lra). lra.
Qed.
Lemma d_lin a t : derivable_pt_lim (fun t => a * t) t a.
Proof. pose proof (derivable_pt_lim_scal id a t 1 (derivable_pt_lim_id t)) as H. rewrite Rmult_1_r in H. exact H. Qed.
Lemma d_sq a t : derivable_pt_lim (fun t => a * (t * t)) t (2 * a * t).
Proof. pose proof (derivable_pt_lim_scal (id * id)%F a t _ (derivable_pt_lim_mult id id t 1 1 (derivable_pt_lim_id t) (derivable_pt_lim_id t))) as H. unfold id in H. replace (2 * a * t) with (a * (1 * t + t * 1)) by ring. exact H. Qed.
Lemma d_cube a t : derivable_pt_lim (fun t => a * (t * t * t)) t (3 * a * (t * t)).
Proof.
  pose proof (derivable_pt_lim_mult id id t 1 1 (derivable_pt_lim_id t) (derivable_pt_lim_id t)) as S. pose proof (derivable_pt_lim_scal _ a t _ (derivable_pt_lim_mult _ _ t _ _ S (derivable_pt_lim_id t))) as H. unfold id in H. unfold mult_fct in H at 1 2. cbv beta in H.
  replace (3 * a * (t * t)) with (a * ((1 * t + t * 1) * t + (t * t) * 1)) by ring. exact H.
Qed.
Lemma taylor2 (g g1 g2 : R -> R) h M : 0 < h ->
  (forall t, 0 <= t <= h -> derivable_pt_lim g t (g1 t) /\ derivable_pt_lim g1 t (g2 t) /\ g2 t <= M) -> g h - g 0 - h * g1 0 <= M * (h * h) / 2.
Proof.
  intros Hh H. pose proof (decreasing (fun t => g t - (g1 0 * t + M / 2 * (t * t))) (fun t => g1 t - (g1 0 + 2 * (M / 2) * t)) h Hh) as D.
  cut (g h - (g1 0 * h + M / 2 * (h * h)) <= g 0 - (g1 0 * 0 + M / 2 * (0 * 0))); [lra|]. apply D; clear D.
  - intros t I. apply (derivable_pt_lim_minus g); [apply H, I|]. apply (derivable_pt_lim_plus (fun t => g1 0 * t) (fun t => M / 2 * (t * t))); [apply d_lin|apply d_sq].
  - intros t I. destruct (MVT_cor2 g1 g2 0 t (proj1 I)) as (u & E & J); [intros u J; apply H; lra|]. destruct (H u ltac:(lra)) as (_ & _ & B). assert (g2 u * (t - 0) <= M * t) by (rewrite Rminus_0_r; apply Rmult_le_compat_r; lra). lra.
Qed.
Lemma d_fwd (g : R -> R) m t l : derivable_pt_lim g (m + t) l -> derivable_pt_lim (fun t => g (m + t)) t l.
Proof.
  intros H. replace l with (l * 1) by ring. apply (derivable_pt_lim_comp (fun t => m + t) g t 1 l); [|exact H]. replace 1 with (0 + 1) by ring. apply (derivable_pt_lim_plus (fct_cte m) id); [apply derivable_pt_lim_const|apply derivable_pt_lim_id].
Qed.
Lemma d_bwd (g : R -> R) m t l : derivable_pt_lim g (m - t) l -> derivable_pt_lim (fun t => g (m - t)) t (- l).
Proof.
  intros H. replace (- l) with (l * -1) by ring. apply (derivable_pt_lim_comp (fun t => m - t) g t (-1) l); [|exact H]. replace (-1) with (0 - 1) by ring. apply (derivable_pt_lim_minus (fct_cte m) id); [apply derivable_pt_lim_const|apply derivable_pt_lim_id].
Qed.
Lemma midpoint (g g1 g2 g3 : R -> R) h M : 0 < h ->
  (forall t, 0 <= t <= h -> derivable_pt_lim g t (g1 t) /\ derivable_pt_lim g1 t (g2 t) /\ derivable_pt_lim g2 t (g3 t) /\ g3 t <= M) -> g h - g 0 - h * g1 (h / 2) <= M * (h * h * h) / 24.
Proof.
  intros Hh H. set (m := h / 2). assert (Hm : 0 < m) by (unfold m; lra). assert (Em : h = m + m) by (unfold m; lra). clearbody m.
  pose (f := fun t => (g (m + t) - g (m - t)) - (2 * g1 m * t + M / 3 * (t * t * t))).
  pose (f' := fun t => (g1 (m + t) + g1 (m - t)) - (2 * g1 m + M * (t * t))).
  pose (f2 := fun t => (g2 (m + t) - g2 (m - t)) - (0 + 2 * M * t)).
  assert (D1 : forall t, 0 <= t <= m -> derivable_pt_lim f t (f' t)).
  { intros t I. unfold f, f'. apply (derivable_pt_lim_minus (fun t => g (m + t) - g (m - t)) (fun t => 2 * g1 m * t + M / 3 * (t * t * t))).
    - replace (g1 (m + t) + g1 (m - t)) with (g1 (m + t) - - g1 (m - t)) by ring. apply (derivable_pt_lim_minus (fun t => g (m + t)) (fun t => g (m - t))); [apply d_fwd|apply d_bwd]; apply H; lra.
    - apply (derivable_pt_lim_plus (fun t => 2 * g1 m * t) (fun t => M / 3 * (t * t * t))); [apply d_lin|]. replace (M * (t * t)) with (3 * (M / 3) * (t * t)) by field. apply d_cube. }
  assert (D2 : forall t, 0 <= t <= m -> derivable_pt_lim f' t (f2 t)).
  { intros t I. unfold f', f2. apply (derivable_pt_lim_minus (fun t => g1 (m + t) + g1 (m - t)) (fun t => 2 * g1 m + M * (t * t))).
    - replace (g2 (m + t) - g2 (m - t)) with (g2 (m + t) + - g2 (m - t)) by ring. apply (derivable_pt_lim_plus (fun t => g1 (m + t)) (fun t => g1 (m - t))); [apply d_fwd|apply d_bwd]; apply H; lra.
    - apply (derivable_pt_lim_plus (fct_cte (2 * g1 m)) (fun t => M * (t * t))); [apply derivable_pt_lim_const|apply d_sq]. }
  assert (N2 : forall t, 0 < t <= m -> f2 t <= 0).
  { intros t I. unfold f2. destruct (MVT_cor2 g2 g3 (m - t) (m + t) ltac:(lra)) as (u & E & J); [intros u J; apply H; lra|]. destruct (H u ltac:(lra)) as (_ & _ & _ & B). assert (g3 u * (m + t - (m - t)) <= M * (2 * t)) by (replace (m + t - (m - t)) with (2 * t) by ring; apply Rmult_le_compat_r; lra). lra. }
  assert (N1 : forall t, 0 < t < m -> f' t <= 0).
  { intros t I. pose proof (decreasing f' f2 t (proj1 I)) as Q. apply Rle_trans with (f' 0); [apply Q; [intros u J; apply D2; lra|intros u J; apply N2; lra]|]. unfold f'. rewrite Rplus_0_r, Rminus_0_r. lra. }
  pose proof (decreasing f f' m Hm D1 N1) as Q. unfold f in Q. rewrite Rplus_0_r, !Rminus_0_r in Q. replace (m - m) with 0 in Q by ring. rewrite <- Em in Q.
  replace (M * (h * h * h) / 24) with (M / 3 * (m * m * m)) by (rewrite Em; field). replace (h * g1 m) with (2 * g1 m * m) by (rewrite Em; ring). lra.
Qed.

(** * curves *)
Definition vderiv (c : R -> vec) (t : R) (d : vec) : Prop :=
  derivable_pt_lim (fun t => v0 (c t)) t (v0 d) /\ derivable_pt_lim (fun t => v1 (c t)) t (v1 d) /\ derivable_pt_lim (fun t => v2 (c t)) t (v2 d).
Lemma d_dp e c t d : vderiv c t d -> derivable_pt_lim (fun t => dp e (c t)) t (dp e d).
Proof.
  intros (A & B & C). unfold dp. apply (derivable_pt_lim_plus (fun t => v0 e * v0 (c t) + v1 e * v1 (c t)) (fun t => v2 e * v2 (c t))); [apply (derivable_pt_lim_plus (fun t => v0 e * v0 (c t)) (fun t => v1 e * v1 (c t)))|].
  - apply (derivable_pt_lim_scal (fun t => v0 (c t))), A.
  - apply (derivable_pt_lim_scal (fun t => v1 (c t))), B.
  - apply (derivable_pt_lim_scal (fun t => v2 (c t))), C.
Qed.
Lemma norm_by_dp v B : 0 <= B -> (forall e, norm e = 1 -> dp e v <= B) -> norm v <= B.
Proof.
  intros HB H. destruct (Req_EM_T (norm v) 0) as [E|N]; [lra|]. pose proof (norm_pos v) as P. specialize (H (vscale (/ norm v) v)). rewrite norm_scale, Rabs_inv, (Rabs_right (norm v)) in H by lra. specialize (H (Rinv_l _ N)).
  replace (dp (vscale (/ norm v) v) v) with (/ norm v * dp v v) in H by (unfold dp, vscale; cbn [v0 v1 v2]; ring). rewrite <- norm_sq in H. rewrite <- Rmult_assoc, Rinv_l, Rmult_1_l in H by exact N. exact H.
Qed.
Lemma dp_le e v M : norm e = 1 -> norm v <= M -> dp e v <= M.
Proof. intros E H. apply Rle_trans with (1 := cauchy e v). rewrite E. lra. Qed.
(* the unit speed curve of the field through c 0, forwards (sg = 1) or backwards (sg = -1), up to
   length h, with derivatives c1, c2 *)
Definition field_line (fld : field) (vs : vec) (sg h : R) (c c1 c2 : R -> vec) (M2 : R) : Prop :=
  (sg = 1 \/ sg = -1) /\ forall t, 0 <= t <= h -> unit_dir fld vs (c t) = Some (vscale sg (c1 t)) /\ vderiv c t (c1 t) /\ vderiv c1 t (c2 t) /\ norm (c2 t) <= M2.
Lemma curve2 fld vs sg h c c1 c2 M : 0 < h -> field_line fld vs sg h c c1 c2 M -> norm (vsub (vsub (c h) (c 0)) (vscale h (c1 0))) <= M * (h * h) / 2.
Proof.
  intros Hh (_ & H). assert (HM : 0 <= M) by (destruct (H 0 ltac:(lra)) as (_ & _ & _ & B); pose proof (norm_pos (c2 0)); lra). apply norm_by_dp.
  - assert (0 <= h * h) by (apply Rmult_le_pos; lra). assert (0 <= M * (h * h)) by (apply Rmult_le_pos; lra). lra.
  - intros e E. pose proof (taylor2 (fun t => dp e (c t)) (fun t => dp e (c1 t)) (fun t => dp e (c2 t)) h M Hh) as T. cbv beta in T. apply Rle_trans with (2 := T ltac:(intros t I; destruct (H t I) as (_ & A & B & C); repeat split; [apply d_dp, A|apply d_dp, B|apply dp_le; assumption])). unfold dp, vsub, vscale. cbn [v0 v1 v2]. lra.
Qed.
Lemma sg_sg sg v : sg = 1 \/ sg = -1 -> vscale sg (vscale sg v) = v.
Proof. intros [-> | ->]; apply vec_eq; unfold vscale; cbn [v0 v1 v2]; ring. Qed.
Lemma step_first fld vs h x k : unit_dir fld vs x = Some k -> unit_dir fld vs (vadd x (vscale h (comb [] []))) = Some k.
Proof. intros H. replace (vadd x (vscale h (comb [] []))) with x by (apply vec_eq; unfold comb, vadd, vscale; cbn [v0 v1 v2]; ring). exact H. Qed.
(** Euler: the end of the step is within M2 h^2 / 2 of the line of the field, M2 bounding its curvature. *)
Theorem C13_euler_error : forall fld vs sg h c c1 c2 M2 dt, 0 < h -> field_line fld vs sg h c c1 c2 M2 ->
  exists y, moved (euler1 fld vs (c 0) (sg * h) dt) = Some y /\ norm (vsub (c h) y) <= M2 * (h * h) / 2.
Proof.
  intros fld vs sg h c c1 c2 M dt Hh F. pose proof (curve2 _ _ _ _ _ _ _ _ Hh F) as B. destruct F as (S & H). destruct (H 0 ltac:(lra)) as (U & _). rewrite euler1_rk. unfold rk_step, euler_rows. cbn [stages]. rewrite (step_first _ _ _ _ _ U). eexists. split; [reflexivity|].
  replace (vsub (c h) _) with (vsub (vsub (c h) (c 0)) (vscale h (c1 0))); [exact B|]. cbn [app comb]. apply vec_eq; destruct S as [-> | ->]; unfold vsub, vadd, vscale; cbn [v0 v1 v2]; ring.
Qed.
Print Assumptions C13_euler_error.
(** Midpoint: the error is of third order in the step, when the direction is Lipschitz and the line has
    a bounded third derivative. *)
Theorem C13_rk2_error : forall fld vs u sg h c c1 c2 c3 M2 M3 L dt, 0 < h -> field_line fld vs sg h c c1 c2 M2 ->
  (forall t, 0 <= t <= h -> vderiv c2 t (c3 t) /\ norm (c3 t) <= M3) ->
  (forall x, unit_dir fld vs x = Some (u x)) -> (forall x y, norm (vsub (u x) (u y)) <= L * norm (vsub x y)) -> 0 <= L ->
  exists y, moved (rk2 fld vs (c 0) (sg * h) dt) = Some y /\ norm (vsub (c h) y) <= (M3 / 24 + L * M2 / 8) * (h * h * h).
Proof.
  intros fld vs u sg h c c1 c2 c3 M2 M3 L dt Hh F H3 U Lip HL. destruct F as (S & H).
  assert (F2 : field_line fld vs sg (h / 2) c c1 c2 M2) by (split; [exact S|]; intros t I; apply H; lra). assert (Hh2 : 0 < h / 2) by lra. pose proof (curve2 _ _ _ _ _ _ _ _ Hh2 F2) as B2.
  assert (B3 : norm (vsub (vsub (c h) (c 0)) (vscale h (c1 (h / 2)))) <= M3 * (h * h * h) / 24).
  { assert (HM : 0 <= M3) by (destruct (H3 0 ltac:(lra)) as (_ & B); pose proof (norm_pos (c3 0)); lra). apply norm_by_dp.
    - assert (0 <= h * h * h) by (repeat apply Rmult_le_pos; lra). assert (0 <= M3 * (h * h * h)) by (apply Rmult_le_pos; lra). lra.
    - intros e E. pose proof (midpoint (fun t => dp e (c t)) (fun t => dp e (c1 t)) (fun t => dp e (c2 t)) (fun t => dp e (c3 t)) h M3 Hh) as T. cbv beta in T.
      apply Rle_trans with (2 := T ltac:(intros t I; destruct (H t I) as (_ & A & B & _); destruct (H3 t I) as (C & D); repeat split; [apply d_dp, A|apply d_dp, B|apply d_dp, C|apply dp_le; assumption])). unfold dp, vsub, vscale. cbn [v0 v1 v2]. lra. }
  assert (C1 : forall t, 0 <= t <= h -> c1 t = vscale sg (u (c t))).
  { intros t I. destruct (H t I) as (A & _). rewrite U in A. injection A as A. rewrite A, sg_sg; [reflexivity|exact S]. }
  rewrite rk2_rk. unfold rk_step, midpoint_rows. cbn [stages]. rewrite (step_first _ _ _ _ _ (U (c 0))). cbn [app]. rewrite U. eexists. split; [reflexivity|]. cbn [app].
  set (x2 := vadd (c 0) (vscale (sg * h) (comb [1 / 2] [u (c 0)]))).
  assert (X2 : vsub (c (h / 2)) x2 = vsub (vsub (c (h / 2)) (c 0)) (vscale (h / 2) (c1 0))) by (rewrite (C1 0) by lra; unfold x2; apply vec_eq; unfold comb, vsub, vadd, vscale; cbn [v0 v1 v2]; field).
  pose proof (Lip (c (h / 2)) x2) as Lx. rewrite X2 in Lx.
  assert (Sp : vsub (c h) (vadd (c 0) (vscale (sg * h) (comb [0; 1] [u (c 0); u x2]))) = vadd (vsub (vsub (c h) (c 0)) (vscale h (c1 (h / 2)))) (vscale (sg * h) (vsub (u (c (h / 2))) (u x2)))) by (rewrite (C1 (h / 2)) by lra; apply vec_eq; unfold comb, vsub, vadd, vscale; cbn [v0 v1 v2]; ring).
  rewrite Sp. apply Rle_trans with (1 := norm_add _ _). rewrite norm_scale. assert (A : Rabs (sg * h) = h) by (destruct S as [-> | ->]; [rewrite Rmult_1_l; apply Rabs_right; lra|rewrite Rabs_left; lra]). rewrite A.
  assert (Z : h * norm (vsub (u (c (h / 2))) (u x2)) <= h * (L * (M2 * (h / 2 * (h / 2)) / 2))) by (apply Rmult_le_compat_l; [lra|]; apply Rle_trans with (1 := Lx); apply Rmult_le_compat_l; [exact HL|exact B2]).
  replace ((M3 / 24 + L * M2 / 8) * (h * h * h)) with (M3 * (h * h * h) / 24 + h * (L * (M2 * (h / 2 * (h / 2)) / 2))) by field. lra.
Qed.
Print Assumptions C13_rk2_error.

(** * time *)
Lemma time_bounds dt h sp lo hi : 0 < lo -> lo <= sp <= hi -> exists t, add_time dt h sp = Some (dt + t) /\ Rabs h / hi <= Rabs t <= Rabs h / lo /\ (h <> 0 -> 0 < h * t).
Proof.
  intros L B. unfold add_time. destruct (Req_EM_T sp 0) as [|N]; [lra|]. exists (h / sp). split; [reflexivity|]. pose proof (Rabs_pos h) as P. unfold Rdiv. rewrite Rabs_mult, Rabs_inv, (Rabs_right sp) by lra. repeat split.
  - apply Rmult_le_compat_l; [exact P|]. apply Rinv_le_contravar; lra.
  - apply Rmult_le_compat_l; [exact P|]. apply Rinv_le_contravar; lra.
  - intros Hh. rewrite <- Rmult_assoc. apply Rmult_lt_0_compat; [pose proof (Rsqr_pos_lt h Hh) as Q; exact Q|apply Rinv_0_lt_compat; lra].
Qed.
(** Except for rk45, the time added has the sign of ds and is the length of the step over a speed
    between the slowest and the fastest. *)
Theorem C13_time : forall m fuel fld vs x ds dt max_error smallest largest y ds' dt' lo hi, m <> RK45 -> 0 < max_error -> 0 < smallest <= largest -> ds <> 0 ->
  0 < lo -> (forall p, unit_dir fld vs p <> None -> lo <= speed fld vs p <= hi) ->
  integrate m fuel fld vs x ds dt max_error smallest largest = Some (Moved y ds' dt') ->
  exists h t, Rabs h <= Rabs ds /\ 0 < ds * h /\ dt' = Some (dt + t) /\ Rabs h / hi <= Rabs t <= Rabs h / lo /\ 0 < h * t.
Proof.
  intros m fuel fld vs x ds dt e0 sm lg y ds' dt' lo hi Hm He Hs Hd Hlo Hsp E.
  assert (Sm : forall p s, sample fld vs p = Some s -> lo <= snd s <= hi) by (intros p s Es; pose proof (sample_dir fld vs p) as H; rewrite Es in H; destruct H as (A & -> & _); apply Hsp; rewrite A; discriminate).
  assert (Sq : 0 < ds * ds) by (pose proof (Rsqr_pos_lt ds Hd) as Q; exact Q).
  assert (Go : forall h sp, Rabs h <= Rabs ds -> 0 < ds * h -> lo <= sp <= hi -> dt' = add_time dt h sp -> exists h t, Rabs h <= Rabs ds /\ 0 < ds * h /\ dt' = Some (dt + t) /\ Rabs h / hi <= Rabs t <= Rabs h / lo /\ 0 < h * t).
  { intros h sp A B C D. destruct (time_bounds dt h sp lo hi Hlo C) as (t & T1 & T2 & T3). exists h, t. rewrite D, T1. repeat split; try tauto. apply T3. intros ->. lra. }
  destruct m; [| | | | |congruence]; cbn [integrate] in E.
  - unfold euler1 in E. destruct (sample fld vs x) as [(w, n)|] eqn:S1; [|discriminate]. apply (f_equal (fun o => match o with Some (Moved _ _ t) => t | _ => None end)) in E. apply (Go ds n); try lra; [exact (Sm _ _ S1)|congruence].
  - unfold rk2 in E. destruct (sample fld vs x) as [s1|] eqn:S1; [|discriminate]. destruct (sample fld vs (vadd x _)) as [s2|] eqn:S2; [|discriminate]. apply (f_equal (fun o => match o with Some (Moved _ _ t) => t | _ => None end)) in E. apply Sm in S1. apply Sm in S2. apply (Go ds (0 * snd s1 + 1 * snd s2)); try lra; congruence.
  - unfold rk4 in E. destruct (sample fld vs x) as [s1|] eqn:S1; [|discriminate]. destruct (sample fld vs (vadd x (vscale _ _))) as [s2|] eqn:S2; [|discriminate]. destruct (sample fld vs (vadd x (lin2 _ _ _ _))) as [s3|] eqn:S3; [|discriminate]. destruct (sample fld vs (vadd x (lin3 _ _ _ _ _ _))) as [s4|] eqn:S4; [|discriminate].
    apply (f_equal (fun o => match o with Some (Moved _ _ t) => t | _ => None end)) in E. apply Sm in S1, S2, S3, S4. apply (Go ds (1 / 6 * snd s1 + 1 / 3 * snd s2 + 1 / 3 * snd s3 + 1 / 6 * snd s4)); try lra; congruence.
  - destruct (C13_accepted _ _ _ _ _ _ _ _ _ _ He Hs Hd E) as (h & err & sp & A & B & C & _ & D & _). apply (Go h sp); try assumption. unfold euler1a_try in A. destruct (sample fld vs x) as [s1|] eqn:S1; [|discriminate]. destruct (sample fld vs (vadd x _)) as [s2|]; [|discriminate]. injection A as _ _ <-. exact (Sm _ _ S1).
  - destruct (C13_accepted _ _ _ _ _ _ _ _ _ _ He Hs Hd E) as (h & err & sp & A & B & C & _ & D & _). apply (Go h sp); try assumption. unfold rk12_try in A. destruct (sample fld vs x) as [s1|] eqn:S1; [|discriminate]. destruct (sample fld vs (vadd x _)) as [s2|] eqn:S2; [|discriminate]. injection A as _ _ <-. apply Sm in S2. lra.
Qed.
Print Assumptions C13_time.
(** rk45 can go farther than ds, and back in time. *)
Definition jump : field := fun p => Some (if Rlt_dec (v0 p) (99 / 100) then VEC 1 0 0 else VEC (-100) 0 0).
Lemma sample_jump p : sample jump (VEC 1 1 1) p = Some (if Rlt_dec (v0 p) (99 / 100) then (VEC 1 0 0, 1) else (VEC (-100) 0 0, 100)).
Proof.
  unfold sample, jump. assert (N1 : norm (vmul (VEC 1 1 1) (VEC 1 0 0)) = 1) by (unfold norm, vmul; cbn [v0 v1 v2]; transitivity (sqrt 1); [f_equal; ring|apply sqrt_1]). assert (N2 : norm (vmul (VEC 1 1 1) (VEC (-100) 0 0)) = 100) by (unfold norm, vmul; cbn [v0 v1 v2]; transitivity (sqrt (100 * 100)); [f_equal; ring|apply sqrt_square; lra]).
  destruct (Rlt_dec (v0 p) (99 / 100)); rewrite ?N1, ?N2; [destruct (Req_EM_T 1 0)|destruct (Req_EM_T 100 0)]; try lra; do 2 f_equal; unfold vmul; cbn [v0 v1 v2]; f_equal; ring.
Qed.
Theorem C13_rk45_refuted : exists fld vs x y ds' t, integrate RK45 1 fld vs x 1 0 1 1 100 = Some (Moved y ds' (Some t)) /\ 1 < norm (vsub y x) /\ t < 0.
Proof.
  assert (K1 : kstep 1 (VEC 1 0 0, 1) = VEC 1 0 0) by (unfold kstep, vscale; cbn [fst snd v0 v1 v2]; f_equal; field). assert (K2 : kstep 1 (VEC (-100) 0 0, 100) = VEC (-1) 0 0) by (unfold kstep, vscale; cbn [fst snd v0 v1 v2]; f_equal; field).
  exists jump, (VEC 1 1 1), (VEC 0 0 0). cbn [integrate adaptive]. unfold rk45_try.
  rewrite sample_jump. destruct (Rlt_dec (v0 (VEC 0 0 0)) (99 / 100)) as [_|B]; [|cbn [v0] in B; lra]. rewrite K1.
  rewrite sample_jump. destruct (Rlt_dec (v0 (vadd _ _)) (99 / 100)) as [_|B]; [|unfold vadd, vscale in B; cbn [v0] in B; lra]. rewrite K1.
  rewrite sample_jump. destruct (Rlt_dec (v0 (vadd _ _)) (99 / 100)) as [_|B]; [|unfold lin2, vadd, vscale in B; cbn [v0] in B; lra]. rewrite K1.
  rewrite sample_jump. destruct (Rlt_dec (v0 (vadd _ _)) (99 / 100)) as [_|B]; [|unfold lin3, lin2, vadd, vscale in B; cbn [v0] in B; lra]. rewrite K1.
  rewrite sample_jump. destruct (Rlt_dec (v0 (vadd _ _)) (99 / 100)) as [B|_]; [unfold lin4, lin3, lin2, vadd, vscale in B; cbn [v0] in B; lra|]. rewrite K2.
  rewrite sample_jump. destruct (Rlt_dec (v0 (vadd _ _)) (99 / 100)) as [B|_]; [unfold lin5, lin4, lin3, lin2, vadd, vscale in B; cbn [v0] in B; lra|]. rewrite K2. cbn [snd].
  set (err := norm _ / 1). destruct (ts_ctrl 1 err 1 1 100) as (rep, ds') eqn:T. destruct rep.
  { destruct (C13_control 1 err 1 1 100 true ds' ltac:(lra) ltac:(lra) ltac:(lra) T) as (_ & H & _). destruct (H eq_refl) as (_ & H1 & _). rewrite Rabs_R1 in H1. lra. }
  set (y := vadd _ (lin6 (25 / 216) _ _ _ _ _ _ _ _ _ _ _)). unfold add_time. destruct (Req_EM_T _ 0) as [Z|Z]; [lra|]. exists y, ds'. eexists. split; [reflexivity|].
  assert (Y : vsub y (VEC 0 0 0) = vscale (7 / 5) (VEC 1 0 0)) by (unfold y; apply vec_eq; unfold lin6, lin5, lin4, lin3, lin2, vsub, vadd, vscale; cbn [v0 v1 v2]; field). split.
  - rewrite Y, norm_scale, Rabs_right by lra. replace (norm (VEC 1 0 0)) with 1; [lra|]. unfold norm. cbn [v0 v1 v2]. symmetry. transitivity (sqrt 1); [f_equal; ring|apply sqrt_1].
  - set (d := _ + 2 / 55 * 100) in *. assert (D : d < 0) by (unfold d; lra). rewrite Rplus_0_l. unfold Rdiv. rewrite Rmult_1_l. apply Rinv_lt_0_compat, D.
Qed.
Print Assumptions C13_rk45_refuted.

(** * cases that meet the hypotheses *)
(* a helix: neither straight nor flat *)
Definition helix : field := fun p => Some (VEC (cos (v2 p)) (sin (v2 p)) 1).
Definition q2 : R := / sqrt 2.
Lemma q2_sq : q2 * q2 = 1 / 2.
Proof. unfold q2. assert (H : sqrt 2 * sqrt 2 = 2) by (apply sqrt_sqrt; lra). assert (sqrt 2 <> 0) by (intros E; rewrite E in H; lra). replace (/ sqrt 2 * / sqrt 2) with (/ (sqrt 2 * sqrt 2)) by (field; assumption). rewrite H. lra. Qed.
Definition helix_dir (p : vec) : vec := VEC (q2 * cos (v2 p)) (q2 * sin (v2 p)) q2.
Lemma helix_unit p : unit_dir helix (VEC 1 1 1) p = Some (helix_dir p).
Proof.
  unfold unit_dir, helix. set (w := vmul _ _). assert (N : norm w = sqrt 2). { unfold norm, w, vmul. cbn [v0 v1 v2]. f_equal. pose proof (sin2_cos2 (v2 p)) as S. unfold Rsqr in S. lra. }
  assert (S2 : sqrt 2 * sqrt 2 = 2) by (apply sqrt_sqrt; lra). rewrite N. destruct (Req_EM_T (sqrt 2) 0) as [E|E]; [rewrite E in S2; lra|]. f_equal. unfold w, vdiv, vmul, helix_dir, q2. cbn [v0 v1 v2]. f_equal; field; exact E.
Qed.
Lemma d_cos_lin a t : derivable_pt_lim (fun t => cos (a * t)) t (- a * sin (a * t)).
Proof. replace (- a * sin (a * t)) with (- sin (a * t) * a) by ring. apply (derivable_pt_lim_comp (fun t => a * t) cos); [apply d_lin|apply derivable_pt_lim_cos]. Qed.
Lemma d_sin_lin a t : derivable_pt_lim (fun t => sin (a * t)) t (a * cos (a * t)).
Proof. rewrite Rmult_comm. apply (derivable_pt_lim_comp (fun t => a * t) sin); [apply d_lin|apply derivable_pt_lim_sin]. Qed.
Definition hx (t : R) : vec := VEC (sin (q2 * t)) (- cos (q2 * t)) (q2 * t).
Definition hx1 (t : R) : vec := VEC (q2 * cos (q2 * t)) (q2 * sin (q2 * t)) q2.
Definition hx2 (t : R) : vec := VEC (q2 * (- q2 * sin (q2 * t))) (q2 * (q2 * cos (q2 * t))) 0.
Definition hx3 (t : R) : vec := VEC (q2 * (- q2 * (q2 * cos (q2 * t)))) (q2 * (q2 * (- q2 * sin (q2 * t)))) 0.
Lemma norm_le v m : 0 <= m -> dp v v <= m * m -> norm v <= m.
Proof. intros Hm H. rewrite norm_dp. rewrite <- (sqrt_square m) by exact Hm. apply sqrt_le_1_alt, H. Qed.
Example C13_line_ex : forall h, field_line helix (VEC 1 1 1) 1 h hx hx1 hx2 1.
Proof.
  intros h. split; [left; reflexivity|]. intros t _. split; [|split; [|split]].
  - rewrite helix_unit. f_equal. unfold helix_dir, hx, hx1, vscale. cbn [v0 v1 v2]. f_equal; ring.
  - unfold vderiv, hx, hx1. cbn [v0 v1 v2]. repeat split; [apply d_sin_lin| |apply d_lin]. replace (q2 * sin (q2 * t)) with (- (- q2 * sin (q2 * t))) by ring. apply (derivable_pt_lim_opp (fun t => cos (q2 * t))), d_cos_lin.
  - unfold vderiv, hx1, hx2. cbn [v0 v1 v2]. repeat split; [apply (derivable_pt_lim_scal (fun t => cos (q2 * t))), d_cos_lin|apply (derivable_pt_lim_scal (fun t => sin (q2 * t))), d_sin_lin|apply (derivable_pt_lim_const q2)].
  - apply norm_le; [lra|]. unfold dp, hx2. cbn [v0 v1 v2]. pose proof (sin2_cos2 (q2 * t)) as S. unfold Rsqr in S. replace (_ + _ + _) with ((q2 * q2) * (q2 * q2) * (sin (q2 * t) * sin (q2 * t) + cos (q2 * t) * cos (q2 * t))) by ring. rewrite S, q2_sq. lra.
Qed.
Example C13_third_ex : forall h t, 0 <= t <= h -> vderiv hx2 t (hx3 t) /\ norm (hx3 t) <= 1.
Proof.
  intros h t _. split.
  - unfold vderiv, hx2, hx3. cbn [v0 v1 v2]. repeat split; [| |apply (derivable_pt_lim_const 0)].
    + apply (derivable_pt_lim_scal (fun t => - q2 * sin (q2 * t))), (derivable_pt_lim_scal (fun t => sin (q2 * t))), d_sin_lin.
    + apply (derivable_pt_lim_scal (fun t => q2 * cos (q2 * t))), (derivable_pt_lim_scal (fun t => cos (q2 * t))), d_cos_lin.
  - apply norm_le; [lra|]. unfold dp, hx3. cbn [v0 v1 v2]. pose proof (sin2_cos2 (q2 * t)) as S. unfold Rsqr in S. replace (_ + _ + _) with ((q2 * q2) * (q2 * q2) * (q2 * q2) * (sin (q2 * t) * sin (q2 * t) + cos (q2 * t) * cos (q2 * t))) by ring. rewrite S, q2_sq. lra.
Qed.
Lemma sin_abs x : Rabs (sin x) <= Rabs x.
Proof.
  assert (P : forall x, 0 < x -> sin x <= x /\ - sin x <= x).
  { intros y Hy. pose proof (decreasing (fun t => sin (1 * t) - 1 * t) (fun t => 1 * cos (1 * t) - 1) y Hy) as D. pose proof (decreasing (fun t => - sin (1 * t) - 1 * t) (fun t => - (1 * cos (1 * t)) - 1) y Hy) as D'. cbv beta in D, D'. rewrite Rmult_0_r, sin_0, !Rmult_1_l in D, D'. split.
    - cut (sin y - y <= 0 - 0); [lra|]. apply D; [intros t _; apply (derivable_pt_lim_minus (fun t => sin (1 * t)) (fun t => 1 * t)); [apply d_sin_lin|apply d_lin]|]. intros t _. pose proof (COS_bound (1 * t)). lra.
    - cut (- sin y - y <= - 0 - 0); [lra|]. apply D'; [intros t _; apply (derivable_pt_lim_minus (fun t => - sin (1 * t)) (fun t => 1 * t)); [apply (derivable_pt_lim_opp (fun t => sin (1 * t))), d_sin_lin|apply d_lin]|]. intros t _. pose proof (COS_bound (1 * t)). lra. }
  destruct (Rtotal_order x 0) as [L|[->|G]].
  - destruct (P (- x) ltac:(lra)) as (A & B). rewrite sin_neg in A, B. rewrite (Rabs_left x) by exact L. apply Rabs_le. lra.
  - rewrite sin_0. lra.
  - destruct (P x G) as (A & B). rewrite (Rabs_right x) by lra. apply Rabs_le. lra.
Qed.
Example C13_lipschitz_ex : forall x y, norm (vsub (helix_dir x) (helix_dir y)) <= 1 * norm (vsub x y).
Proof.
  intros x y. rewrite Rmult_1_l. apply norm_le; [apply norm_pos|]. rewrite norm_sq. set (a := v2 x). set (b := v2 y).
  assert (E : dp (vsub (helix_dir x) (helix_dir y)) (vsub (helix_dir x) (helix_dir y)) = 1 - cos (a - b)).
  { unfold dp, vsub, helix_dir. cbn [v0 v1 v2]. fold a b. rewrite cos_minus. pose proof (sin2_cos2 a) as S. pose proof (sin2_cos2 b) as T. unfold Rsqr in *. replace (_ + _ + _) with ((q2 * q2) * ((sin a * sin a + cos a * cos a) + (sin b * sin b + cos b * cos b) - 2 * (cos a * cos b + sin a * sin b))) by ring. rewrite S, T, q2_sq. field. }
  rewrite E. assert (C : cos (a - b) = 1 - 2 * (sin ((a - b) / 2) * sin ((a - b) / 2))) by (replace (a - b) with (2 * ((a - b) / 2)) at 1 by field; rewrite cos_2a_sin; ring).
  assert (Q : sin ((a - b) / 2) * sin ((a - b) / 2) <= (a - b) / 2 * ((a - b) / 2)) by (pose proof (Rsqr_le_abs_1 _ _ (sin_abs ((a - b) / 2))) as Q; exact Q).
  unfold dp, vsub. cbn [v0 v1 v2]. fold a b. pose proof (Rle_0_sqr (v0 x - v0 y)). pose proof (Rle_0_sqr (v1 x - v1 y)). pose proof (Rle_0_sqr (a - b)). unfold Rsqr in *. lra.
Qed.
(* 0.0014 off after a step of 0.2, whatever the time *)
Example C13_rk2_ex : forall dt, exists y, moved (rk2 helix (VEC 1 1 1) (hx 0) (1 * (1 / 5)) dt) = Some y /\ norm (vsub (hx (1 / 5)) y) <= 14 / 10000.
Proof.
  intros dt. destruct (C13_rk2_error helix (VEC 1 1 1) helix_dir 1 (1 / 5) hx hx1 hx2 hx3 1 1 1 dt ltac:(lra) (C13_line_ex _) (C13_third_ex _) helix_unit C13_lipschitz_ex ltac:(lra)) as (y & A & B). exists y. split; [exact A|]. lra.
Qed.
