From Coq Require Import List Arith ZArith QArith Qround Qabs Bool Lia Lqa ZifyBool ZifyNat Permutation.
From Verif Require Import StreamModel StreamProofs InterpModel InterpSpec InterpProofs.
Import ListNotations.
Local Open Scope Q_scope.

(** distance squared from a point to the centre of a patch, written out *)
Definition centre_dist2 (x : pt) (p : patch) : Q :=
  let mid k := (co (p_xl p) k + co (p_xh p) k) * (1#2) in
  (co x 0 - mid 0%nat) * (co x 0 - mid 0%nat) + (co x 1 - mid 1%nat) * (co x 1 - mid 1%nat)
  + (co x 2 - mid 2%nat) * (co x 2 - mid 2%nat).

Lemma rsq_centre x p : rsq x p == centre_dist2 x p.
Proof. unfold rsq, centre_dist2, p_xm. cbn [co]. ring. Qed.

Lemma isclose_true a b : isclose a b = true <-> Qabs (a - b) <= tol b.
Proof. unfold isclose, tol. apply Qle_bool_iff. Qed.
Lemma isclose_false a b : isclose a b = false <-> tol b < Qabs (a - b).
Proof. unfold isclose, tol. apply Qleb_gt. Qed.
Lemma tol_pos b : 0 < tol b.
Proof. unfold tol. pose proof (Qabs_nonneg b). lra. Qed.

Lemma less_not_close_iff a b : less_not_close a b = true <-> a < b - tol b.
Proof.
  unfold less_not_close. rewrite andb_true_iff, negb_true_iff, Qltb_lt, isclose_false.
  pose proof (tol_pos b). split.
  - intros [H1 H2]. rewrite Qabs_neg in H2; lra.
  - intros H1. split; [lra|]. rewrite Qabs_neg; lra.
Qed.
Lemma greater_not_close_iff a b : greater_not_close a b = true <-> b + tol b < a.
Proof.
  unfold greater_not_close. rewrite andb_true_iff, negb_true_iff, Qltb_lt, isclose_false.
  pose proof (tol_pos b). split.
  - intros [H1 H2]. rewrite Qabs_pos in H2; lra.
  - intros H1. split; [lra|]. rewrite Qabs_pos; lra.
Qed.

Lemma contains_inside p x : contains_patch p x = true <-> inside p x.
Proof.
  unfold contains_patch. rewrite negb_true_iff. split.
  - intros H k Hk.
    assert (Hn : (less_not_close (co x k) (co (p_xl p) k) ||
                  greater_not_close (co x k) (co (p_xh p) k))%bool = false).
    { destruct (_ || _)%bool eqn:E; auto. rewrite <- H. symmetry. apply existsb_exists.
      exists k. split; auto. cbn [In]. lia. }
    apply orb_false_iff in Hn as [N1 N2].
    split; apply Qnot_lt_le; intro Hlt.
    + apply less_not_close_iff in Hlt. congruence.
    + apply greater_not_close_iff in Hlt. congruence.
  - intros H. destruct (existsb _ _) eqn:E; auto. apply existsb_exists in E as (k & Hk & Ek).
    assert (Hk3 : (k < 3)%nat) by (cbn [In] in Hk; lia).
    specialize (H k Hk3). apply orb_true_iff in Ek as [Ek|Ek].
    + apply less_not_close_iff in Ek. lra.
    + apply greater_not_close_iff in Ek. lra.
Qed.

Lemma first_containing_some ps x js j :
  first_containing ps x js = Some j ->
  In j js /\ exists p, nth_error ps j = Some p /\ inside p x.
Proof.
  unfold first_containing. intros H. apply find_some in H as [H1 H2]. split; auto.
  destruct (nth_error ps j) as [p|]; [|discriminate]. exists p. split; auto.
  apply contains_inside; auto.
Qed.
Lemma first_containing_none ps x js j p :
  first_containing ps x js = None -> In j js -> nth_error ps j = Some p -> ~ inside p x.
Proof.
  unfold first_containing. intros H Hj Hp Hin. eapply find_none in H; eauto.
  cbv beta in H. rewrite Hp in H. apply contains_inside in Hin. congruence.
Qed.

(** The patch index [j] is a right choice for [x]. *)
Definition chosen (ps : list patch) (x : pt) (j : nat) : Prop :=
  exists p, nth_error ps j = Some p /\
    ((exists i q, nth_error ps i = Some q /\ inside q x) -> inside p x) /\
    (~ (exists i q, nth_error ps i = Some q /\ inside q x) ->
     forall i q, nth_error ps i = Some q -> centre_dist2 x p <= centre_dist2 x q).

Lemma nearest_centre_spec x ps : forall j best bsq,
  ((forall p, In p ps -> bsq <= rsq x p) \/ exists p, In p ps /\ rsq x p < bsq) /\
  ((nearest_centre x ps j best bsq = best /\ (forall p, In p ps -> bsq <= rsq x p)) \/
   exists k p, nearest_centre x ps j best bsq = (j + k)%nat /\ nth_error ps k = Some p /\
     rsq x p < bsq /\ (forall q, In q ps -> rsq x p <= rsq x q)).
Proof.
  induction ps as [|p ps IH]; intros j best bsq; cbn [nearest_centre].
  - split; [left; intros ? []|]. left. split; auto. intros ? [].
  - destruct (Qltb (rsq x p) bsq) eqn:E.
    + apply Qltb_lt in E. split; [right; exists p; split; [left; auto|auto]|].
      right. destruct (IH (S j) j (rsq x p)) as [_ [[H1 H2]|(k & q & H1 & H2 & H3 & H4)]].
      * exists 0%nat, p. rewrite H1. repeat split; auto; try lia.
        intros q [<-|Hq]; [lra|]. apply H2; auto.
      * exists (S k), q. rewrite H1. split; [lia|]. split; [exact H2|]. split; [lra|].
        intros q' [<-|Hq']; [lra|]. apply H4; auto.
    + apply Qltb_ge in E. destruct (IH (S j) best bsq) as [D [[H1 H2]|(k & q & H1 & H2 & H3 & H4)]].
      * split; [left; intros q [<-|Hq]; auto|]. left. split; auto. intros q [<-|Hq]; auto.
      * split; [right; exists q; split; [right; eapply nth_error_In; eauto|auto]|].
        right. exists (S k), q. rewrite H1. split; [lia|]. split; [exact H2|]. split; [lra|].
        intros q' [<-|Hq']; [lra|]. apply H4; auto.
Qed.

Lemma activate_chosen ps nbs a x :
  (a < length ps)%nat ->
  ((1 < length ps)%nat -> forall p, In p ps -> centre_dist2 x p < MAX_FLOAT) ->
  chosen ps x (activate_patch ps nbs a x).
Proof.
  intros Ha Hfar. unfold activate_patch.
  destruct (Nat.eqb_spec (length ps) 1) as [E1|E1].
  { destruct ps as [|p [|? ?]]; try discriminate. cbn in Ha.
    replace a with 0%nat by lia. exists p. split; [reflexivity|]. split.
    - intros (i & q & Hi & Hq). destruct i as [|i]; [cbn in Hi; injection Hi as <-; exact Hq|].
      destruct i; discriminate.
    - intros _ i q Hi. destruct i as [|i]; [cbn in Hi; injection Hi as <-; lra|].
      destruct i; discriminate. }
  assert (OK : forall js j, first_containing ps x js = Some j -> chosen ps x j).
  { intros js j Hj. apply first_containing_some in Hj as (_ & p & Hp & Hin).
    exists p. split; auto. split; auto. intros Hno. exfalso. apply Hno. eauto. }
  destruct (first_containing ps x [a]) eqn:F1; [eauto|].
  destruct (first_containing ps x (nth a nbs [])) eqn:F2; [eauto|].
  destruct (first_containing ps x (seq 0 (length ps))) eqn:F3; [eauto|].
  assert (NO : ~ exists i q, nth_error ps i = Some q /\ inside q x).
  { intros (i & q & Hi & Hq). eapply first_containing_none; eauto.
    apply in_seq.
    assert (i < length ps)%nat by (apply nth_error_Some; congruence). lia. }
  destruct (nearest_centre_spec x ps 0 0 MAX_FLOAT)
    as [_ [[H1 H2]|(k & p & H1 & H2 & H3 & H4)]].
  - destruct ps as [|p ps]; [cbn in Ha; lia|]. exfalso.
    specialize (H2 p (or_introl eq_refl)). specialize (Hfar ltac:(lia) p (or_introl eq_refl)).
    rewrite rsq_centre in H2. lra.
  - rewrite H1. exists p. split; [exact H2|]. split; [tauto|].
    intros _ i q Hi. apply nth_error_In in Hi. specialize (H4 q Hi).
    rewrite !rsq_centre in H4. exact H4.
Qed.

Lemma chosen_lt ps x j : chosen ps x j -> (j < length ps)%nat.
Proof. intros (p & H & _). apply nth_error_Some. congruence. Qed.

(** interpolation over many points *)
Definition value_of (K : kernel) (f : cfield) (m : nat) (x : pt) (v : Q) : Prop :=
  exists h', K f m x cache0 = Some (v, h').

Section Many.
Context (K : kernel) (ps : list patch) (nbs : list (list nat)).
Context (HK : steady K).
Context (HP : forall p, In p ps -> prepared (p_fld p)).
Context (HS : forall p q, In p ps -> In q ps -> smax (p_fld p) = smax (p_fld q)).

Definition cached (h : cache) : Prop := forall p, In p ps -> cache_ok (p_fld p) h.

Lemma cached_one p h : In p ps -> cache_ok (p_fld p) h -> cached h.
Proof.
  intros Hp Hh q Hq. unfold cache_ok in *. rewrite (HS q p Hq Hp). exact Hh.
Qed.

Definition row_of (x : pt) (ms : list nat) (vs : list Q) : Prop :=
  Forall2 (fun m v => exists j p, chosen ps x j /\ nth_error ps j = Some p /\
                                  value_of K (p_fld p) m x v) ms vs.

Lemma interp_comps_spec x ms : forall a h,
  ((1 < length ps)%nat -> forall p, In p ps -> centre_dist2 x p < MAX_FLOAT) ->
  (a < length ps)%nat -> cached h ->
  exists vs a' h', interp_comps K ps nbs x ms a h = Some (vs, a', h') /\
    (a' < length ps)%nat /\ cached h' /\ row_of x ms vs.
Proof.
  induction ms as [|m ms IH]; intros a h Hfar Ha Hh; cbn [interp_comps].
  - do 3 eexists. split; [reflexivity|]. repeat split; auto. constructor.
  - set (a' := if (1 <? length ps)%nat then activate_patch ps nbs a x else a).
    assert (C : chosen ps x a').
    { unfold a'. destruct (Nat.ltb_spec 1 (length ps)).
      - apply activate_chosen; auto.
      - assert (chosen ps x (activate_patch ps nbs a x)) by (apply activate_chosen; auto).
        unfold activate_patch in H0. destruct (Nat.eqb_spec (length ps) 1); [auto|lia]. }
    pose proof (chosen_lt _ _ _ C) as Ha'. assert (C' := C).
    destruct C as (p & Hp & _). rewrite Hp. pose proof (nth_error_In _ _ Hp) as Hin.
    destruct (HK (p_fld p) m x h cache0 (HP p Hin) (Hh p Hin) (cache0_ok _ (HP p Hin)))
      as (v & h' & h2' & E1 & E2 & E3).
    rewrite E1.
    destruct (IH a' h' Hfar Ha' (cached_one p h' Hin E3)) as (vs & a2 & h2 & E & Hl & Hc & Hr).
    rewrite E. do 3 eexists. split; [reflexivity|]. repeat split; auto.
    constructor; [|exact Hr]. exists a', p. split; [exact C'|]. split; [exact Hp|].
    exists h2'. exact E2.
Qed.

Lemma interp_points_spec nc xs : forall a h,
  ((1 < length ps)%nat -> forall x p, In x xs -> In p ps -> centre_dist2 x p < MAX_FLOAT) ->
  (a < length ps)%nat -> cached h ->
  exists rs, interp_points K ps nbs nc xs a h = Some rs /\
    Forall2 (fun x vs => row_of x (seq 0 nc) vs) xs rs.
Proof.
  induction xs as [|x xs IH]; intros a h Hfar Ha Hh; cbn [interp_points].
  - eexists; split; [reflexivity|constructor].
  - destruct (interp_comps_spec x (seq 0 nc) a h
                (fun L p Hp => Hfar L x p (or_introl eq_refl) Hp) Ha Hh)
      as (vs & a' & h' & E & Ha' & Hh' & Hr).
    rewrite E.
    destruct (IH a' h' (fun L y p Hy Hp => Hfar L y p (or_intror Hy) Hp) Ha' Hh') as (rs & E2 & Hrs).
    rewrite E2. eexists; split; [reflexivity|]. constructor; auto.
Qed.
End Many.
