(** C22: coordinate transforms are consistent rotations whatever was asked before; C23: dipole moments
    and transforms; C52: the dipole axis is the z axis of SM and MAG. *)
From Verif Require Import RotProofs RotProps CotrModel.
From Coq Require Import Lra Lia.
Open Scope R_scope.

(** * specification: each system as a rotation from GEI *)
Definition ew (p : params) (m : mat) : mat := if p_notilt p then eye else m.
(* from GEI to GEO: Greenwich sidereal time *)
Definition E1 (p : params) : mat := ew p (make_rotation (100461 / 1000 + 36000770 / 1000 * p_t0 p + 1504107 / 100000 * p_ut p) AZ).
(* from GEI to GSE *)
Definition E2 (p : params) : mat := ew p (mmul (make_rotation (sun_longitude p) AZ) (make_rotation (23439 / 1000 - 13 / 1000 * p_t0 p) AX)).
(* the dipole axis in GSE and its two angles, unless given *)
Definition QE (p : params) : vec := mapply (mmul (E2 p) (transpose (E1 p))) (q_g p).
Definition PSI (p : params) : R := match c_gsm (init p) with Some x => x | None => rad2deg (arctan2 (v1 (QE p)) (v2 (QE p))) end.
Definition MU (p : params) : R :=
  match c_tilt (init p) with Some x => x | None => rad2deg (arctan2 (v0 (QE p)) (sqrt (v1 (QE p) * v1 (QE p) + v2 (QE p) * v2 (QE p)))) end.
Definition E3 (p : params) : mat := make_rotation (- PSI p) AX.
Definition E4 (p : params) : mat := make_rotation (- MU p) AY.
Definition E5 (p : params) : mat := ew p (mmul (make_rotation (rad2deg (geolat p) - 90) AY) (make_rotation (rad2deg (geolon p)) AZ)).
Definition E6 : mat := MAT (-1) 0 0 0 (-1) 0 0 0 1.
Definition frame (p : params) (s : sys) : mat :=
  match s with
  | Gei => eye
  | Geo => E1 p
  | Gse => E2 p
  | Gsm => mmul (E3 p) (E2 p)
  | Sm => mmul (E4 p) (mmul (E3 p) (E2 p))
  | Mag => mmul (E5 p) (E1 p)
  | Mhd => mmul E6 (E2 p)
  end.
Definition between (p : params) (f t : sys) : mat := mmul (frame p t) (transpose (frame p f)).
(** MAG is refused when the dipole was given by hand (except at the special time). *)
Definition refused (p : params) (f t : sys) : bool :=
  xorb (sys_eqb f Mag) (sys_eqb t Mag) && disable_mag p && negb (p_notilt p).

(** * elementary matrices *)
Lemma make_rotation_ok t a : rotation (make_rotation t a).
Proof.
  unfold make_rotation. destruct (Req_EM_T t 0); [apply rotation_eye|]. pose proof (sc1 (deg2rad t)) as H. set (s := sin _) in *. set (c := cos _) in *. clearbody s c.
  destruct a; split; mcbn; [f_equal; lra| |f_equal; lra| |f_equal; lra|]; transitivity (s * s + c * c); (exact H || ring).
Qed.
Lemma ew_ok p m : rotation m -> rotation (ew p m).
Proof. intros H. unfold ew. destruct (p_notilt p); [apply rotation_eye|exact H]. Qed.
Lemma E1_ok p : rotation (E1 p).
Proof. apply ew_ok, make_rotation_ok. Qed.
Lemma E2_ok p : rotation (E2 p).
Proof. apply ew_ok, rotation_mmul; apply make_rotation_ok. Qed.
Lemma E3_ok p : rotation (E3 p).
Proof. apply make_rotation_ok. Qed.
Lemma E4_ok p : rotation (E4 p).
Proof. apply make_rotation_ok. Qed.
Lemma E5_ok p : rotation (E5 p).
Proof. apply ew_ok, rotation_mmul; apply make_rotation_ok. Qed.
Lemma E6_ok : rotation E6.
Proof. split; unfold E6; mcbn; [f_equal; ring|ring]. Qed.
Lemma frame_ok p s : rotation (frame p s).
Proof. destruct s; cbn [frame]; repeat apply rotation_mmul; auto using rotation_eye, E1_ok, E2_ok, E3_ok, E4_ok, E5_ok, E6_ok. Qed.
Definition pos_e (p : params) (w : Z) : mat :=
  (if w =? 1 then E1 p else if w =? 2 then E2 p else if w =? 3 then E3 p else if w =? 4 then E4 p else if w =? 5 then E5 p else if w =? 6 then E6 else eye)%Z.
Definition pure_e (p : params) (w : Z) : mat := if (w <? 0)%Z then transpose (pos_e p (- w)) else pos_e p w.

(** * the invariant of the caches *)
Definition mag_ok (p : params) : Prop := disable_mag p = false \/ p_notilt p = true.
Record ok (p : params) (st : state) : Prop := OK {
  ok_e : forall w m, find_e w st = Some m -> m = pure_e p w /\ (Z.abs w = 5 -> mag_ok p)%Z;
  ok_n : p_notilt p = true -> forall w, (Z.abs w = 1 \/ Z.abs w = 2 \/ Z.abs w = 5)%Z -> find_e w st <> None;
  ok_x : forall f t m, find_x f t st = Some m -> m = between p f t /\ refused p f t = false;
  ok_q : forall q, c_qe st = Some q -> q = QE p;
  ok_g : forall x, c_gsm st = Some x -> x = PSI p;
  ok_g' : disable_mag p || p_notilt p = true -> c_gsm st <> None;
  ok_t : forall x, c_tilt st = Some x -> x = MU p;
  ok_t' : disable_mag p || p_notilt p = true -> c_tilt st <> None
}.
Lemma find_e_cons w m l a b c d w' : find_e w' (STATE ((w, m) :: l) a b c d) = if (w =? w')%Z then Some m else find_e w' (STATE l a b c d).
Proof. unfold find_e. cbn [emats find fst]. destruct (w =? w')%Z; reflexivity. Qed.
Lemma sys_eqb_spec a b : sys_eqb a b = true <-> a = b.
Proof. destruct a, b; cbn; split; congruence. Qed.
Lemma find_x_cons f t m l a b c d f' t' : find_x f' t' (STATE l (((f, t), m) :: a) b c d) = if sys_eqb f f' && sys_eqb t t' then Some m else find_x f' t' (STATE l a b c d).
Proof. unfold find_x. cbn [xforms find fst snd]. destruct (sys_eqb f f' && sys_eqb t t'); reflexivity. Qed.
Lemma init_ok p : ok p (init p).
Proof.
  constructor.
  - intros w m. unfold init. destruct (p_notilt p) eqn:N; [|discriminate]. rewrite !find_e_cons.
    assert (G : (Z.abs w = 1 \/ Z.abs w = 2 \/ Z.abs w = 5)%Z -> pure_e p w = eye).
    { intros V. assert (P : forall v, (v = 1 \/ v = 2 \/ v = 5)%Z -> pos_e p v = eye) by (intros v [->|[->| ->]]; unfold pos_e; cbn [Z.eqb Pos.eqb]; unfold E1, E2, E5, ew; rewrite N; reflexivity).
      unfold pure_e. destruct (Z.ltb_spec w 0); rewrite P by lia; reflexivity. }
    repeat match goal with |- (if (?a =? w)%Z then _ else _) = _ -> _ => destruct (Z.eqb_spec a w) as [<-|]; [intros X; injection X as <-; split; [symmetry; apply G; cbn; lia|intros _; right; exact N]|] end. discriminate.
  - intros N w H. unfold init. rewrite N, !find_e_cons. repeat match goal with |- (if (?a =? w)%Z then _ else _) <> _ => destruct (Z.eqb_spec a w); [discriminate|] end. lia.
  - intros f t m. unfold init. discriminate.
  - discriminate.
  - intros x H. unfold PSI. rewrite H. reflexivity.
  - intros H. unfold init. cbn [c_gsm]. rewrite H. discriminate.
  - intros x H. unfold MU. rewrite H. reflexivity.
  - intros H. unfold init. cbn [c_tilt]. rewrite H. discriminate.
Qed.
Lemma pure_opp p w : transpose (pure_e p (Z.abs w)) = pure_e p (- Z.abs w).
Proof.
  unfold pure_e. destruct (Z.ltb_spec (Z.abs w) 0); [lia|]. destruct (Z.ltb_spec (- Z.abs w) 0); [rewrite Z.opp_involutive; reflexivity|].
  assert (E : Z.abs w = 0%Z) by lia. rewrite E. reflexivity.
Qed.
Lemma remember_ok p st w m : ok p st -> m = pure_e p (Z.abs w) -> (Z.abs w = 5 -> mag_ok p)%Z ->
  exists st', recall w (remember w m st) = (st', Ok (pure_e p w)) /\ ok p st'.
Proof.
  intros [He Hn Hx Hq Hg Hg' Ht Ht'] -> H5. unfold recall, remember, add_e. cbn [emats xforms c_qe c_gsm c_tilt]. rewrite pure_opp.
  set (st' := STATE _ _ _ _ _).
  assert (F : forall v, find_e v st' = if (Z.abs w =? v)%Z then Some (pure_e p (Z.abs w)) else if (- Z.abs w =? v)%Z then Some (pure_e p (- Z.abs w)) else find_e v st).
  { intros v. unfold st'. rewrite !find_e_cons. destruct st. reflexivity. }
  rewrite F. exists st'. split.
  - destruct (Z.eqb_spec (Z.abs w) w) as [E|E]; [rewrite E; reflexivity|]. destruct (Z.eqb_spec (- Z.abs w) w) as [E'|E']; [rewrite E'; reflexivity|lia].
  - constructor; try assumption.
    + intros v m. rewrite F. destruct (Z.eqb_spec (Z.abs w) v) as [<-|]; [intros X; injection X as <-; split; [reflexivity|intros A; apply H5; lia]|]. destruct (Z.eqb_spec (- Z.abs w) v) as [<-|]; [intros X; injection X as <-; split; [reflexivity|intros A; apply H5; lia]|]. apply He.
    + intros N v Hv. rewrite F. destruct (Z.abs w =? v)%Z; [discriminate|]. destruct (- Z.abs w =? v)%Z; [discriminate|]. apply Hn; assumption.
Qed.

Definition gives {A} (p : params) (r : state * res A) (a : A) : Prop := exists st', r = (st', Ok a) /\ ok p st'.
Definition good_on (p : params) (g : getter) (P : Z -> Prop) : Prop := forall st w, ok p st -> P w -> gives p (g st w) (pure_e p w).
Definition easy (w : Z) : Prop := (Z.abs w = 0 \/ Z.abs w = 1 \/ Z.abs w = 2 \/ Z.abs w = 6)%Z.
Ltac zcase w k := replace (Z.abs w =? k)%Z with false by (symmetry; apply Z.eqb_neq; lia).
Lemma pure_abs p w k : Z.abs w = k -> pure_e p (Z.abs w) = pos_e p k.
Proof. intros <-. unfold pure_e. destruct (Z.ltb_spec (Z.abs w) 0); [lia|reflexivity]. Qed.
Lemma emat_easy p n : good_on p (get_emat (S n) p) easy.
Proof.
  intros st w Hs Hw. cbn [get_emat]. destruct (find_e w st) as [m|] eqn:F.
  - exists st. destruct (ok_e p st Hs w m F) as (-> & _). split; [reflexivity|exact Hs].
  - assert (Nt : Z.abs w = 1%Z \/ Z.abs w = 2%Z -> p_notilt p = false) by (intros H; destruct (p_notilt p) eqn:N; [|reflexivity]; exfalso; apply (ok_n p st Hs N w); [lia|exact F]).
    destruct Hw as [E|[E|[E|E]]]; rewrite E; cbn [Z.eqb Pos.eqb].
    + apply remember_ok; [exact Hs|rewrite (pure_abs p w 0 E); reflexivity|lia].
    + apply remember_ok; [exact Hs|rewrite (pure_abs p w 1 E); cbn [pos_e Z.eqb Pos.eqb]; unfold E1, ew; rewrite Nt by tauto; reflexivity|lia].
    + apply remember_ok; [exact Hs|rewrite (pure_abs p w 2 E); cbn [pos_e Z.eqb Pos.eqb]; unfold E2, ew; rewrite Nt by tauto; reflexivity|lia].
    + apply remember_ok; [exact Hs|rewrite (pure_abs p w 6 E); reflexivity|lia].
Qed.
Definition prod (p : params) (l : list Z) (m : mat) : mat := fold_left (fun m w => mmul m (pure_e p w)) l m.
Lemma product_ok p g P l : good_on p g P -> Forall P l -> forall st m, ok p st -> gives p (product g st m l) (prod p l m).
Proof.
  intros Hg. induction l as [|w l IH]; intros Hl st m Hs; cbn [product prod fold_left]; [exists st; auto|].
  apply Forall_cons_iff in Hl. destruct Hl as (Hw & Hl). destruct (Hg st w Hs Hw) as (st' & -> & Hs'). apply IH; assumption.
Qed.
Definition word (f t : sys) : option (list Z) :=
  match xform_lookup f t with Some l => Some l | None => match xform_lookup t f with Some l => Some (map Z.opp (rev l)) | None => None end end.
Lemma word_some f t : exists l, word f t = Some l.
Proof. destruct f, t; eexists; reflexivity. Qed.
Lemma cancel_r m a : rotation a -> mmul (mmul m a) (transpose a) = m.
Proof. intros H. rewrite <- mmul_assoc, (proj1 H), mmul_eye_r. reflexivity. Qed.
Lemma cancel_l m a : rotation a -> mmul (mmul m (transpose a)) a = m.
Proof. intros H. rewrite <- mmul_assoc, (rotation_left a H), mmul_eye_r. reflexivity. Qed.
Lemma cancel_0 a : rotation a -> mmul a (transpose a) = eye.
Proof. intros H. apply H. Qed.
Lemma t_eye : transpose eye = eye.
Proof. reflexivity. Qed.
Lemma t_E6 : transpose E6 = E6.
Proof. reflexivity. Qed.
Lemma E6_E6 : mmul E6 E6 = eye.
Proof. unfold E6. mat_ring. Qed.
Lemma E6_r m : mmul (mmul m E6) E6 = m.
Proof. rewrite <- mmul_assoc, E6_E6, mmul_eye_r. reflexivity. Qed.
Lemma word_prod p f t l : word f t = Some l -> prod p l eye = between p f t.
Proof.
  intros H. pose proof (E1_ok p) as H1. pose proof (E2_ok p) as H2. pose proof (E3_ok p) as H3. pose proof (E4_ok p) as H4. pose proof (E5_ok p) as H5.
  assert (P : forall k, (0 < k)%Z -> pure_e p k = pos_e p k /\ pure_e p (- k) = transpose (pos_e p k)) by (intros k K; unfold pure_e; destruct (Z.ltb_spec k 0); [lia|]; destruct (Z.ltb_spec (- k) 0); [rewrite Z.opp_involutive; auto|lia]).
  destruct (P 1%Z eq_refl) as (A1 & B1). destruct (P 2%Z eq_refl) as (A2 & B2). destruct (P 3%Z eq_refl) as (A3 & B3). destruct (P 4%Z eq_refl) as (A4 & B4). destruct (P 5%Z eq_refl) as (A5 & B5). destruct (P 6%Z eq_refl) as (A6 & B6).
  assert (A0 : pure_e p 0 = eye) by reflexivity.
  cbn [Z.opp] in B1, B2, B3, B4, B5, B6. unfold pos_e in *. cbn [Z.eqb Pos.eqb] in *. clear P. unfold between.
  destruct f, t; unfold word in H; cbn [xform_lookup map rev app Z.opp] in H; injection H as <-; unfold prod; cbn [fold_left frame];
    rewrite ?A0, ?A1, ?A2, ?A3, ?A4, ?A5, ?A6, ?B1, ?B2, ?B3, ?B4, ?B5, ?B6, ?t_E6, ?mmul_eye_l, ?mmul_eye_r, ?transpose_mmul, ?t_E6, ?t_eye, ?mmul_eye_r, ?mmul_assoc;
    repeat first [rewrite E6_r | rewrite cancel_r by assumption | rewrite cancel_0 by assumption | rewrite E6_E6 | rewrite mmul_eye_l]; reflexivity.
Qed.
Lemma between_t p f t : transpose (between p f t) = between p t f.
Proof. unfold between. rewrite transpose_mmul, transpose_transpose. reflexivity. Qed.
Lemma xforms_ok p st f t : ok p st -> refused p f t = false ->
  ok p (add_x t f (transpose (between p f t)) (add_x f t (between p f t) st)).
Proof.
  intros [He Hn Hx Hq Hg Hg' Ht Ht'] R. destruct st as [a b c d e]. unfold add_x. cbn [emats xforms c_qe c_gsm c_tilt]. constructor; try assumption.
  intros f' t' m. rewrite !find_x_cons, between_t. destruct (sys_eqb t f' && sys_eqb f t') eqn:A.
  - apply andb_prop in A. destruct A as (A & B). apply sys_eqb_spec in A, B. subst. intros X. injection X as <-. split; [reflexivity|]. rewrite <- R. unfold refused. f_equal. f_equal. apply xorb_comm.
  - destruct (sys_eqb f f' && sys_eqb t t') eqn:B; [|apply Hx]. apply andb_prop in B. destruct B as (B & C). apply sys_eqb_spec in B, C. subst. intros X. injection X as <-. split; [reflexivity|exact R].
Qed.
Lemma find_added f t m m' st : transpose m = m' -> (f = t -> m' = m) -> find_x f t (add_x t f m' (add_x f t m st)) = Some m.
Proof.
  intros _ H. destruct st as [a b c d e]. unfold add_x. cbn [emats xforms c_qe c_gsm c_tilt]. rewrite !find_x_cons. destruct (sys_eqb t f && sys_eqb f t) eqn:A.
  - apply andb_prop in A. destruct A as (A & _). apply sys_eqb_spec in A. rewrite H by congruence. reflexivity.
  - assert (B : forall s, sys_eqb s s = true) by (intros s; apply sys_eqb_spec; reflexivity). rewrite !B. reflexivity.
Qed.
Lemma matrix_ok p g P f t l st : good_on p g P -> word f t = Some l -> Forall P l -> refused p f t = false -> ok p st ->
  gives p (get_matrix g st f t) (between p f t).
Proof.
  intros Hg W Hl R Hs. unfold get_matrix. destruct (find_x f t st) as [m|] eqn:F.
  - destruct (ok_x p st Hs f t m F) as (-> & _). exists st. auto.
  - fold (word f t). rewrite W. destruct (product_ok p g P l Hg Hl st eye Hs) as (st' & -> & Hs'). rewrite (word_prod p f t l W). cbv zeta.
    rewrite find_added; [|reflexivity|intros ->; apply between_t]. eexists. split; [reflexivity|]. apply xforms_ok; assumption.
Qed.
Lemma qe_ok p g st : good_on p g easy -> ok p st -> gives p (q_e p g st) (QE p).
Proof.
  intros Hg Hs. unfold q_e. destruct (c_qe st) as [q|] eqn:Q; [rewrite (ok_q p st Hs q Q); exists st; auto|]. unfold transform.
  destruct (matrix_ok p g easy Geo Gse [2; -1]%Z st Hg eq_refl) as (st' & -> & [He Hn Hx Hq Hg0 Hg' Ht Ht']); [repeat constructor; unfold easy; cbn; lia|unfold refused; reflexivity|exact Hs|].
  assert (E : mapply (between p Geo Gse) (q_g p) = QE p) by reflexivity. rewrite E. eexists. split; [reflexivity|]. constructor; try assumption. intros q X. injection X as <-. reflexivity.
Qed.
Lemma gsm_ok p g st : good_on p g easy -> ok p st -> gives p (dip_gsm p g st) (PSI p).
Proof.
  intros Hg Hs. unfold dip_gsm. destruct (c_gsm st) as [x|] eqn:C; [rewrite (ok_g p st Hs x C); exists st; auto|].
  assert (G : disable_mag p || p_notilt p = false) by (destruct (disable_mag p || p_notilt p) eqn:D; [|reflexivity]; exfalso; apply (ok_g' p st Hs D); exact C).
  assert (I : PSI p = rad2deg (arctan2 (v1 (QE p)) (v2 (QE p)))) by (unfold PSI, init; cbn [c_gsm]; rewrite G; reflexivity).
  destruct (qe_ok p g st Hg Hs) as (st' & -> & [He Hn Hx Hq Hg0 Hg' Ht Ht']). rewrite <- I. eexists. split; [reflexivity|]. constructor; try assumption; cbn [c_gsm]; [intros x X; injection X as <-; reflexivity|discriminate].
Qed.
Lemma tilt_ok p g st : good_on p g easy -> ok p st -> gives p (dip_tilt p g st) (MU p).
Proof.
  intros Hg Hs. unfold dip_tilt. destruct (c_tilt st) as [x|] eqn:C; [rewrite (ok_t p st Hs x C); exists st; auto|].
  assert (G : disable_mag p || p_notilt p = false) by (destruct (disable_mag p || p_notilt p) eqn:D; [|reflexivity]; exfalso; apply (ok_t' p st Hs D); exact C).
  assert (I : MU p = rad2deg (arctan2 (v0 (QE p)) (sqrt (v1 (QE p) * v1 (QE p) + v2 (QE p) * v2 (QE p))))) by (unfold MU, init; cbn [c_tilt]; rewrite G; reflexivity).
  destruct (qe_ok p g st Hg Hs) as (st' & -> & [He Hn Hx Hq Hg0 Hg' Ht Ht']). rewrite <- I. eexists. split; [reflexivity|]. constructor; try assumption; cbn [c_tilt]; [intros x X; injection X as <-; reflexivity|discriminate].
Qed.
Definition able (p : params) (w : Z) : Prop := (Z.abs w <= 6)%Z /\ (Z.abs w = 5%Z -> mag_ok p).
Lemma emat_able p n : good_on p (get_emat (S (S n)) p) (able p).
Proof.
  intros st w Hs (Hw & H5). assert (D : easy w \/ Z.abs w = 3%Z \/ Z.abs w = 4%Z \/ Z.abs w = 5%Z) by (unfold easy; lia). destruct D as [D|D]; [apply emat_easy; assumption|].
  change (get_emat (S (S n)) p st w) with (match find_e w st with Some m => (st, Ok m) | None => 
          let done (m : mat) (st : state) := recall w (remember w m st) in
          if (Z.abs w =? 0)%Z then done eye st
          else if (Z.abs w =? 1)%Z then
            done (make_rotation (100461 / 1000 + 36000770 / 1000 * p_t0 p + 1504107 / 100000 * p_ut p) AZ) st
          else if (Z.abs w =? 2)%Z then
            done (mmul (make_rotation (sun_longitude p) AZ) (make_rotation (23439 / 1000 - 13 / 1000 * p_t0 p) AX)) st
          else if (Z.abs w =? 3)%Z then
            match dip_gsm p (get_emat (S n) p) st with
            | (st, Ok psi) => done (make_rotation (- psi) AX) st
            | (st, Err e) => (st, Err e)
            end
          else if (Z.abs w =? 4)%Z then
            match dip_tilt p (get_emat (S n) p) st with
            | (st, Ok mu) => done (make_rotation (- mu) AY) st
            | (st, Err e) => (st, Err e)
            end
          else if (Z.abs w =? 5)%Z then
            if disable_mag p then (st, Err RuntimeError)
            else done (mmul (make_rotation (rad2deg (geolat p) - 90) AY) (make_rotation (rad2deg (geolon p)) AZ)) st
          else if (Z.abs w =? 6)%Z then done (MAT (-1) 0 0 0 (-1) 0 0 0 1) st
          else (st, Err ValueError) end).
  destruct (find_e w st) as [m|] eqn:F.
  - exists st. destruct (ok_e p st Hs w m F) as (-> & _). split; [reflexivity|exact Hs].
  - cbv zeta. destruct D as [E|[E|E]]; rewrite E; cbn [Z.eqb Pos.eqb].
    + destruct (gsm_ok p _ st (emat_easy p n) Hs) as (st' & -> & Hs'). apply remember_ok; [exact Hs'|rewrite (pure_abs p w 3 E); reflexivity|lia].
    + destruct (tilt_ok p _ st (emat_easy p n) Hs) as (st' & -> & Hs'). apply remember_ok; [exact Hs'|rewrite (pure_abs p w 4 E); reflexivity|lia].
    + assert (Nt : p_notilt p = false) by (destruct (p_notilt p) eqn:N; [|reflexivity]; exfalso; apply (ok_n p st Hs N w); [lia|exact F]).
      destruct (H5 E) as [H|H]; [|congruence]. rewrite H. apply remember_ok; [exact Hs|rewrite (pure_abs p w 5 E); cbn [pos_e Z.eqb Pos.eqb]; unfold E5, ew; rewrite Nt; reflexivity|intros _; left; exact H].
Qed.
Lemma word_able p f t l : word f t = Some l -> refused p f t = false -> Forall (able p) l.
Proof.
  unfold refused. intros W R. assert (M : xorb (sys_eqb f Mag) (sys_eqb t Mag) = true -> mag_ok p).
  { intros X. rewrite X in R. unfold mag_ok. destruct (disable_mag p), (p_notilt p); cbn in R; auto; discriminate. }
  clear R. destruct f, t; unfold word in W; cbn [xform_lookup map rev app Z.opp] in W; injection W as <-; cbn [sys_eqb xorb] in M; rewrite ?Forall_cons_iff; repeat split; try apply Forall_nil; try (cbn; lia); (intros X; first [exfalso; cbn in X; lia|apply M; reflexivity]).
Qed.
(* refused: MAG needs the matrix 5 *)
Lemma refused_ok p f t st : refused p f t = true -> ok p st -> exists st', get_matrix (get_emat depth p) st f t = (st', Err RuntimeError) /\ ok p st'.
Proof.
  intros R Hs. assert (NM : ~ mag_ok p) by (unfold refused, mag_ok in *; destruct (disable_mag p), (p_notilt p); rewrite ?andb_false_r in R; try discriminate; intros [|]; discriminate).
  unfold get_matrix. destruct (find_x f t st) as [m|] eqn:F; [destruct (ok_x p st Hs f t m F); congruence|]. fold (word f t). destruct (word_some f t) as (l & W). rewrite W.
  assert (G : forall l st m, ok p st -> Forall (fun w => Z.abs w <= 6)%Z l -> Exists (fun w => Z.abs w = 5%Z) l -> exists st', product (get_emat depth p) st m l = (st', Err RuntimeError) /\ ok p st').
  { clear f t l st Hs R F W. induction l as [|w l IH]; intros st m Hs H6 H5; [inversion H5|]. apply Forall_cons_iff in H6. destruct H6 as (Hw & H6). cbn [product]. destruct (Z.eq_dec (Z.abs w) 5) as [E|E].
    - exists st. split; [|exact Hs]. unfold depth. cbn [get_emat]. destruct (find_e w st) as [m'|] eqn:F; [destruct (ok_e p st Hs w m' F) as (_ & M); exfalso; apply NM, M, E|]. rewrite E. cbn [Z.eqb Pos.eqb]. destruct (disable_mag p) eqn:D; [reflexivity|]. exfalso. apply NM. left. exact D.
    - destruct (emat_able p 1 st w Hs (conj Hw (fun X => False_ind _ (E X)))) as (st' & X & Hs'). change (get_emat depth p st w = (st', Ok (pure_e p w))) in X. rewrite X. apply IH; [exact Hs'|exact H6|]. inversion H5; [contradiction|assumption]. }
  destruct (G l st eye Hs) as (st' & -> & Hs').
  - destruct f, t; unfold word in W; cbn [xform_lookup map rev app Z.opp] in W; injection W as <-; repeat constructor; cbn; lia.
  - unfold refused in R. apply andb_prop in R. destruct R as (R & _). apply andb_prop in R. destruct R as (R & _). destruct f, t; cbn [sys_eqb xorb] in R; try discriminate; unfold word in W; cbn [xform_lookup map rev app Z.opp] in W; injection W as <-; rewrite ?Exists_cons; cbn; tauto.
  - exists st'. auto.
Qed.
Lemma top_ok p st f t : ok p st -> exists st', ok p st' /\ get_matrix (get_emat depth p) st f t = (st', if refused p f t then Err RuntimeError else Ok (between p f t)).
Proof.
  intros Hs. destruct (refused p f t) eqn:R.
  - destruct (refused_ok p f t st R Hs) as (st' & A & B). exists st'. auto.
  - destruct (word_some f t) as (l & W). destruct (matrix_ok p _ (able p) f t l st (emat_able p 1) W (word_able p f t l W R) R Hs) as (st' & A & B). exists st'. auto.
Qed.
Lemma step_ok p st c : ok p st -> ok p (step p st c).
Proof.
  intros Hs. destruct c as [f t|f t v| |]; cbn [step].
  - destruct (top_ok p st f t Hs) as (st' & H & ->). exact H.
  - unfold transform. destruct (top_ok p st f t Hs) as (st' & H & ->). destruct (refused p f t); exact H.
  - destruct (tilt_ok p (get_emat depth p) st (emat_easy p 2) Hs) as (st' & -> & H). exact H.
  - destruct (gsm_ok p (get_emat depth p) st (emat_easy p 2) Hs) as (st' & -> & H). exact H.
Qed.
Lemma history_ok p l : ok p (history p l).
Proof. unfold history. generalize (init_ok p). generalize (init p). induction l as [|c l IH]; intros st H; cbn [fold_left]; [exact H|]. apply IH, step_ok, H. Qed.

(** * C22 *)
Definition matrix_after (p : params) (l : list call) (f t : sys) : res mat := snd (get_matrix (get_emat depth p) (history p l) f t).
(** After any calls, the matrix is the one the frames of the two systems determine; only transforms
    to or from MAG are refused when the dipole was given by hand. *)
Theorem C22_history : forall p l f t,
  matrix_after p l f t = if refused p f t then Err RuntimeError else Ok (mmul (frame p t) (transpose (frame p f))).
Proof. intros p l f t. unfold matrix_after. destruct (top_ok p (history p l) f t (history_ok p l)) as (st' & _ & ->). reflexivity. Qed.
Print Assumptions C22_history.
(** So it is the same whatever was asked before ... *)
Theorem C22_independent : forall p l l' f t, matrix_after p l f t = matrix_after p l' f t.
Proof. intros. rewrite !C22_history. reflexivity. Qed.
Print Assumptions C22_independent.
(** ... every matrix is a rotation, the way back is the transpose, which is the inverse, and going
    through another system gives the product. *)
Theorem C22_consistent : forall p l1 l2 l3 l4 l5 a b c ab bc ac ba aa,
  matrix_after p l1 a b = Ok ab -> matrix_after p l2 b c = Ok bc -> matrix_after p l3 a c = Ok ac -> matrix_after p l4 b a = Ok ba -> matrix_after p l5 a a = Ok aa ->
  rotation ab /\ ac = mmul bc ab /\ ba = transpose ab /\ mmul ba ab = eye /\ aa = eye.
Proof.
  intros p l1 l2 l3 l4 l5 a b c ab bc ac ba aa. rewrite !C22_history. repeat match goal with |- (if ?r then _ else _) = _ -> _ => destruct r; [discriminate|]; let E := fresh in intros E; injection E as <- end.
  pose proof (frame_ok p a) as A. pose proof (frame_ok p b) as B. pose proof (frame_ok p c) as C. set (u := frame p a) in *. set (v := frame p b) in *. set (w := frame p c) in *.
  split; [apply rotation_mmul; [exact B|apply rotation_transpose; exact A]|]. split; [rewrite !mmul_assoc, cancel_l by exact B; reflexivity|]. split; [rewrite transpose_mmul, transpose_transpose; reflexivity|].
  split; [rewrite !mmul_assoc, cancel_l by exact B; apply A|apply A].
Qed.
Print Assumptions C22_consistent.
(** Vectors keep their lengths, and angles between them. *)
Theorem C22_lengths : forall p l f t x y x' y',
  snd (transform (get_emat depth p) (history p l) f t x) = Ok x' ->
  snd (transform (get_emat depth p) (history p l) f t y) = Ok y' ->
  vdot x' y' = vdot x y.
Proof.
  intros p l f t x y x' y'. unfold transform. destruct (top_ok p (history p l) f t (history_ok p l)) as (st' & _ & ->). destruct (refused p f t); [discriminate|]. cbn [snd]. intros X Y. injection X as <-. injection Y as <-.
  apply C19_isometry. apply rotation_mmul; [apply frame_ok|apply rotation_transpose, frame_ok].
Qed.
Print Assumptions C22_lengths.
(** What the angles of the dipole are does not depend on earlier calls either. *)
Theorem C22_angles : forall p l, snd (dip_tilt p (get_emat depth p) (history p l)) = Ok (MU p) /\ snd (dip_gsm p (get_emat depth p) (history p l)) = Ok (PSI p).
Proof.
  intros p l. destruct (tilt_ok p (get_emat depth p) _ (emat_easy p 2) (history_ok p l)) as (a & -> & _). destruct (gsm_ok p (get_emat depth p) _ (emat_easy p 2) (history_ok p l)) as (b & -> & _). split; reflexivity.
Qed.
Print Assumptions C22_angles.

(** * the dipole axis *)
Lemma deg_rad t : deg2rad (rad2deg t) = t.
Proof. unfold deg2rad, rad2deg. pose proof PI_RGT_0. field. lra. Qed.
Lemma rot_any t a : make_rotation t a = let s := sin (deg2rad t) in let c := cos (deg2rad t) in
  match a with AX => MAT 1 0 0 0 c s 0 (- s) c | AY => MAT c 0 s 0 1 0 (- s) 0 c | AZ => MAT c s 0 (- s) c 0 0 0 1 end.
Proof.
  unfold make_rotation. destruct (Req_EM_T t 0) as [->|]; [|reflexivity]. assert (E : deg2rad 0 = 0) by (unfold deg2rad; ring). cbv zeta. rewrite E, sin_0, cos_0. destruct a; unfold eye; f_equal; ring.
Qed.
Lemma deg_neg t : deg2rad (- rad2deg t) = - t.
Proof. rewrite <- (deg_rad t) at 2. unfold deg2rad. ring. Qed.
Lemma ang_psi y z : let r := sqrt (y * y + z * z) in let t := arctan2 y z in cos t * y - sin t * z = 0 /\ sin t * y + cos t * z = r.
Proof.
  cbv zeta. pose proof (Rle_0_sqr y) as Hy. pose proof (Rle_0_sqr z) as Hz. unfold Rsqr in *. set (r := sqrt (y * y + z * z)). assert (R2 : r * r = y * y + z * z) by (apply sqrt_sqrt; lra). assert (R0 : 0 <= r) by apply sqrt_pos.
  destruct (Req_dec r 0) as [E|E].
  - rewrite E in R2. assert (y = 0) by (apply Rsqr_0_uniq; unfold Rsqr; lra). assert (z = 0) by (apply Rsqr_0_uniq; unfold Rsqr; lra). rewrite E. subst y z. split; ring.
  - destruct (arctan2_spec y z r) as (C & S); [lra|lra|]. rewrite C, S. split; [field; exact E|]. transitivity ((y * y + z * z) / r); [field; exact E|]. rewrite <- R2. field. exact E.
Qed.
Lemma align_gsm v : mapply (make_rotation (- rad2deg (arctan2 (v1 v) (v2 v))) AX) v = VEC (v0 v) 0 (sqrt (v1 v * v1 v + v2 v * v2 v)).
Proof.
  destruct (ang_psi (v1 v) (v2 v)) as (A & B). rewrite rot_any. cbv zeta. rewrite deg_neg, cos_neg, sin_neg. unfold mapply. cbn [m00 m01 m02 m10 m11 m12 m20 m21 m22]. f_equal; lra.
Qed.
Lemma align v : mapply (mmul (make_rotation (- rad2deg (arctan2 (v0 v) (sqrt (v1 v * v1 v + v2 v * v2 v)))) AY) (make_rotation (- rad2deg (arctan2 (v1 v) (v2 v))) AX)) v = VEC 0 0 (norm v).
Proof.
  rewrite mapply_mmul, align_gsm. set (r := sqrt (v1 v * v1 v + v2 v * v2 v)). destruct (ang_psi (v0 v) r) as (A & B). rewrite rot_any. cbv zeta. rewrite deg_neg, cos_neg, sin_neg. unfold mapply. cbn [m00 m01 m02 m10 m11 m12 m20 m21 m22 v0 v1 v2].
  assert (N : norm v = sqrt (v0 v * v0 v + r * r)) by (unfold norm, r; f_equal; rewrite sqrt_sqrt; [ring|pose proof (Rle_0_sqr (v1 v)); pose proof (Rle_0_sqr (v2 v)); unfold Rsqr in *; lra]). rewrite N. f_equal; lra.
Qed.
Lemma qg_unit p : vdot (q_g p) (q_g p) = 1.
Proof.
  unfold q_g, vdot. cbn [v0 v1 v2]. pose proof (sc1 (geolat p)) as A. pose proof (sc1 (geolon p)) as B. set (c := cos (geolat p)) in *. set (s := sin (geolat p)) in *. set (x := cos (geolon p)) in *. set (y := sin (geolon p)) in *.
  transitivity (c * c * (y * y + x * x) + s * s); [ring|]. rewrite B. lra.
Qed.
Definition plain (p : params) : Prop := p_tilt p = None /\ p_gsm p = None /\ p_notilt p = false.
Lemma plain_facts p : plain p -> E4 p = make_rotation (- rad2deg (arctan2 (v0 (QE p)) (sqrt (v1 (QE p) * v1 (QE p) + v2 (QE p) * v2 (QE p))))) AY /\ E3 p = make_rotation (- rad2deg (arctan2 (v1 (QE p)) (v2 (QE p)))) AX /\ disable_mag p = false /\ p_notilt p = false.
Proof. intros (T & G & N). unfold E4, E3, MU, PSI, init, disable_mag. rewrite T, G, N. cbn [orb c_gsm c_tilt]. auto. Qed.
(** * C52 *)
(** For a time (no angles by hand) the direction of the dipole, given in geographic coordinates by
    its latitude and longitude, is the z axis of SM and of MAG, and lies in the xz plane of GSM,
    pointing to positive z. *)
Theorem C52_axis : forall p l, plain p ->
  let to s := snd (transform (get_emat depth p) (history p l) Geo s (q_g p)) in
  to Sm = Ok (VEC 0 0 1) /\ to Mag = Ok (VEC 0 0 1) /\ (exists x z, to Gsm = Ok (VEC x 0 z) /\ 0 <= z).
Proof.
  intros p l Hp. destruct (plain_facts p Hp) as (F4 & F3 & D & N). cbv beta zeta.
  assert (T : forall s, snd (transform (get_emat depth p) (history p l) Geo s (q_g p)) = Ok (mapply (between p Geo s) (q_g p))).
  { intros s. unfold transform. destruct (top_ok p (history p l) Geo s (history_ok p l)) as (st' & _ & ->). unfold refused. rewrite D, andb_false_r. cbn [andb]. reflexivity. }
  assert (U : norm (QE p) = 1).
  { unfold norm. fold (vdot (QE p) (QE p)). unfold QE. rewrite C19_isometry, qg_unit; [apply sqrt_1|]. apply rotation_mmul; [apply E2_ok|apply rotation_transpose, E1_ok]. }
  rewrite !T. unfold between. cbn [frame]. split; [|split].
  - rewrite <- !mmul_assoc. do 2 rewrite mapply_mmul. fold (QE p). rewrite <- mapply_mmul, F4, F3, align, U. reflexivity.
  - f_equal. rewrite <- mmul_assoc, (proj1 (E1_ok p)), mmul_eye_r. unfold E5, ew. rewrite N, mapply_mmul, !rot_any. cbv zeta. rewrite deg_rad.
    assert (E : deg2rad (rad2deg (geolat p) - 90) = geolat p - PI / 2) by (rewrite <- (deg_rad (geolat p)) at 2; unfold deg2rad; field). rewrite E.
    assert (C : cos (geolat p - PI / 2) = sin (geolat p)) by (rewrite cos_minus, cos_PI2, sin_PI2; ring). assert (S : sin (geolat p - PI / 2) = - cos (geolat p)) by (rewrite sin_minus, cos_PI2, sin_PI2; ring). rewrite C, S.
    pose proof (sc1 (geolat p)) as A. pose proof (sc1 (geolon p)) as B. unfold q_g. mcbn. set (c := cos (geolat p)) in *. set (s := sin (geolat p)) in *. set (x := cos (geolon p)) in *. set (y := sin (geolon p)) in *. clearbody c s x y. f_equal.
    + transitivity (s * c * (y * y + x * x - 1)); [ring|]. rewrite B. ring.
    + ring.
    + transitivity (c * c * (y * y + x * x) + s * s); [ring|]. rewrite B. lra.
  - rewrite <- !mmul_assoc, mapply_mmul. fold (QE p). rewrite F3, align_gsm. do 2 eexists. split; [reflexivity|apply sqrt_pos].
Qed.
Print Assumptions C52_axis.

(** * C23 *)
Lemma vscale_lin m c x : mapply m (vscale c x) = vscale c (mapply m x).
Proof. destruct m, x. unfold mapply, vscale. cbn. f_equal; ring. Qed.
Lemma norm_iso r x : rotation r -> norm (mapply r x) = norm x.
Proof. intros H. unfold norm. fold (vdot (mapply r x) (mapply r x)) (vdot x x). rewrite C19_isometry by exact H. reflexivity. Qed.
(** The round trip gives the opposite moment, for every moment and after any other calls: *)
Theorem C23_opposite : forall m f t0 ut l, f = Gse \/ f = Mhd ->
  exists p, dipole_moment2cotr m f t0 ut = Ok p /\
            snd (get_dipole_moment p (history p l) f (norm m)) = Ok (vscale (-1) m).
Proof.
  intros m f t0 ut l Hf. unfold dipole_moment2cotr. set (p0 := p1967 (Some 0) (Some 0) t0 ut).
  assert (T0 : exists st, transform (get_emat depth p0) (init p0) f Gse m = (st, Ok (mapply (between p0 f Gse) m))).
  { unfold transform. destruct (top_ok p0 (init p0) f Gse (init_ok p0)) as (st' & _ & ->). exists st'. destruct Hf as [-> | ->]; reflexivity. }
  destruct T0 as (st0 & T0). rewrite T0. set (g := mapply (between p0 f Gse) m).
  set (p := p1967 (Some (rad2deg (arctan2 (v0 g) (sqrt (v1 g * v1 g + v2 g * v2 g))))) (Some (rad2deg (arctan2 (v1 g) (v2 g)))) t0 ut).
  assert (X : snd (get_dipole_moment p (history p l) f (norm m)) = Ok (vscale (-1) m)).
  { unfold get_dipole_moment, transform. destruct (top_ok p (history p l) Sm f (history_ok p l)) as (st' & _ & ->). assert (R : refused p Sm f = false) by (destruct Hf as [-> | ->]; reflexivity). rewrite R. cbn [snd]. f_equal.
    assert (Gg : mapply (mmul (E4 p) (E3 p)) g = VEC 0 0 (norm g)) by exact (align g).
    assert (Ro : rotation (mmul (E4 p) (E3 p))) by (apply rotation_mmul; [apply E4_ok|apply E3_ok]).
    assert (Ng : norm g = norm m) by (unfold g; apply norm_iso, rotation_mmul; [apply frame_ok|apply rotation_transpose, frame_ok]).
    assert (B : mapply (transpose (mmul (E4 p) (E3 p))) (VEC 0 0 (- norm m)) = vscale (-1) g).
    { assert (V : VEC 0 0 (- norm m) = vscale (-1) (VEC 0 0 (norm g))) by (rewrite Ng; unfold vscale; cbn [v0 v1 v2]; f_equal; ring). rewrite V, vscale_lin, <- Gg, <- mapply_mmul, (rotation_left _ Ro), mapply_eye. reflexivity. }
    unfold between. cbn [frame]. assert (E2e : E2 p = eye) by reflexivity. assert (E2f : E2 p0 = eye) by reflexivity. rewrite E2e, mmul_eye_r. rewrite mapply_mmul, B. 
    destruct Hf as [-> | ->]; cbn [frame].
    - rewrite E2e, mapply_eye. unfold g, between. cbn [frame]. rewrite E2f. rewrite mmul_eye_l, mapply_eye. reflexivity.
    - rewrite E2e, mmul_eye_r, vscale_lin. f_equal. unfold g, between. cbn [frame]. rewrite E2f, mmul_eye_l, mmul_eye_r, t_E6, <- mapply_mmul, E6_E6. apply mapply_eye. }
  destruct Hf as [-> | ->]; exists p; (split; [reflexivity|exact X]).
Qed.
Print Assumptions C23_opposite.
(** so the property is false, for every moment but zero; *)
Theorem C23_refuted : forall m f t0 ut l, f = Gse \/ f = Mhd -> norm m <> 0 ->
  exists p, dipole_moment2cotr m f t0 ut = Ok p /\ snd (get_dipole_moment p (history p l) f (norm m)) <> Ok m.
Proof.
  intros m f t0 ut l Hf N. destruct (C23_opposite m f t0 ut l Hf) as (p & A & B). exists p. split; [exact A|]. rewrite B. intros E. apply N. destruct m as [x y z]. unfold vscale in E. cbn [v0 v1 v2] in E. injection E as E0 E1 E2.
  assert (x = 0) by lra. assert (y = 0) by lra. assert (z = 0) by lra. subst. unfold norm. cbn [v0 v1 v2]. transitivity (sqrt 0); [f_equal; ring|apply sqrt_0].
Qed.
Print Assumptions C23_refuted.
Lemma ok_inj {A} (x y : A) : Ok x = Ok y -> x = y.
Proof. intros E. injection E as E. exact E. Qed.
(** with the strength taken negative the moment comes back. *)
Theorem C23_negative_strength : forall m f t0 ut l, f = Gse \/ f = Mhd ->
  exists p, dipole_moment2cotr m f t0 ut = Ok p /\ snd (get_dipole_moment p (history p l) f (- norm m)) = Ok m.
Proof.
  intros m f t0 ut l Hf. destruct (C23_opposite m f t0 ut l Hf) as (p & A & B). exists p. split; [exact A|]. unfold get_dipole_moment, transform in *. destruct (top_ok p (history p l) Sm f (history_ok p l)) as (st' & _ & E). rewrite E in *. destruct (refused p Sm f); [discriminate|]. cbn [snd] in *. apply ok_inj in B. f_equal.
  assert (V : VEC 0 0 (- - norm m) = vscale (-1) (VEC 0 0 (- norm m))) by (unfold vscale; cbn [v0 v1 v2]; f_equal; ring). rewrite V, vscale_lin, B. destruct m as [x y z]. unfold vscale. cbn [v0 v1 v2]. f_equal; ring.
Qed.
Print Assumptions C23_negative_strength.
(** Moments in other systems raise. *)
Theorem C23_systems : forall m f t0 ut, f <> Gse -> f <> Mhd -> dipole_moment2cotr m f t0 ut = Err ValueError.
Proof. intros m f t0 ut A B. destruct f; try reflexivity; congruence. Qed.
Print Assumptions C23_systems.

(** * non-trivial cases *)
(* an instance for a time, with matrices that are not the identity, asked for MAG after other calls *)
Definition p_ex : params := PARAMS (1 / 10) 6 (-29500) (-1500) 4900 None None false.
Example C22_ex_plain : plain p_ex /\ exists m, matrix_after p_ex [DipTilt; GetMatrix Sm Gse; Transform Mhd Gei (VEC 1 2 3)] Mag Sm = Ok m.
Proof. split; [unfold plain; auto|]. rewrite C22_history. eexists. reflexivity. Qed.
(* refused when the tilt is given by hand *)
Example C22_ex_refused : matrix_after (PARAMS 0 0 (-29500) (-1500) 4900 (Some 10) None false) [] Mag Sm = Err RuntimeError.
Proof. rewrite C22_history. reflexivity. Qed.
(* but not at the special time, where MAG silently is GEO *)
Example C22_ex_1967 : matrix_after (p1967 (Some 10) None 0 0) [] Mag Geo = Ok eye.
Proof. rewrite C22_history. cbn [frame]. unfold refused. cbn [sys_eqb xorb disable_mag p1967 p_tilt p_gsm p_notilt andb negb]. f_equal. unfold E5, E1, ew. cbn [p1967 p_notilt]. rewrite transpose_mmul, !mmul_eye_l. reflexivity. Qed.
