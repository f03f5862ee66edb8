From Coq Require Import List ZArith Bool Arith Lia ZifyBool ZifyNat.
From Verif Require Import TimeModel TimeSpec.
Import ListNotations.
Local Open Scope Z_scope.

Lemma scale_atto u : scale u = atto u.
Proof. destruct u; vm_compute; reflexivity. Qed.
Lemma atto_pos u : 0 < atto u.
Proof. destruct u; vm_compute; reflexivity. Qed.
Lemma atto_div u v : (index v <= index u)%nat -> atto u = (atto u / atto v) * atto v.
Proof.
  intros H. destruct u, v; try (exfalso; cbn in H; lia); vm_compute; reflexivity.
Qed.
Lemma ratio_pos u v : (index v <= index u)%nat -> 0 < atto u / atto v.
Proof.
  intros H. pose proof (atto_div u v H). pose proof (atto_pos u). pose proof (atto_pos v). nia.
Qed.
Lemma ratio_gt1 u v : (index v < index u)%nat -> 1 < atto u / atto v.
Proof. intros H. destruct u, v; try (exfalso; cbn in H; lia); vm_compute; reflexivity. Qed.
Lemma atto_lt u v : (index v < index u)%nat -> atto v < atto u.
Proof.
  intros H. pose proof (atto_div u v ltac:(lia)). pose proof (ratio_gt1 u v H). pose proof (atto_pos v). nia.
Qed.
Lemma index_inj u v : index u = index v -> u = v.
Proof. destruct u, v; cbn; intros H; try reflexivity; discriminate. Qed.

Lemma wrap_id x : - 2 ^ 63 <= x < 2 ^ 63 -> wrap x = x.
Proof.
  intros H. unfold wrap, TWO63, TWO64. rewrite Z.mod_small; [lia|].
  change (2 ^ 64) with (2 * 2 ^ 63). lia.
Qed.
Lemma wrap_cong x : exists m, wrap x = x - m * 2 ^ 64.
Proof.
  unfold wrap, TWO63, TWO64. exists ((x + 2 ^ 63) / 2 ^ 64).
  rewrite Z.mod_eq by (vm_compute; discriminate). lia.
Qed.
Lemma wrap_range x : - 2 ^ 63 <= wrap x < 2 ^ 63.
Proof.
  unfold wrap, TWO63, TWO64. pose proof (Z.mod_pos_bound (x + 2 ^ 63) (2 ^ 64) ltac:(reflexivity)).
  change (2 ^ 64) with (2 * 2 ^ 63) in *. lia.
Qed.

(** ** refinement *)
Definition lim (k : kind) (f : Z) : Prop := k = Timedelta -> f < 2 ^ 56.
Definition limb (k : kind) (f : Z) : bool :=
  match k with Timedelta => negb (2 ^ 56 <=? f) | Datetime => true end.
Lemma limb_lim k f : limb k f = true <-> lim k f.
Proof.
  unfold limb, lim. destruct k; [split; auto; discriminate|].
  rewrite negb_true_iff, Z.leb_gt. split; auto.
Qed.
Lemma cast_fine k u v x : (index v <= index u)%nat -> x <> NAT ->
  cast k u v x = if limb k (atto u / atto v) then Ok (wrap (x * (atto u / atto v))) else Err OverflowE.
Proof.
  intros H N. unfold cast. destruct (Z.eqb_spec x NAT); [contradiction|].
  rewrite (proj2 (Nat.leb_le _ _) H), !scale_atto. unfold limb.
  destruct k; [reflexivity|]. destruct (_ <=? _); reflexivity.
Qed.
Lemma cast_coarse k u v x : (index u < index v)%nat -> x <> NAT ->
  cast k u v x = if limb k (atto v / atto u) then Ok (x / (atto v / atto u)) else Err OverflowE.
Proof.
  intros H N. unfold cast. destruct (Z.eqb_spec x NAT); [contradiction|].
  rewrite (proj2 (Nat.leb_gt _ _) H), !scale_atto. unfold limb.
  destruct k; [reflexivity|]. destruct (_ <=? _); reflexivity.
Qed.
Lemma cast_nat k u v : cast k u v NAT = Ok NAT.
Proof. reflexivity. Qed.

(** wrapping and dividing gives back the number only if nothing wrapped *)
Lemma wrap_back x f : 1 < f -> - 2 ^ 63 < x < 2 ^ 63 -> wrap (x * f) / f = x ->
  wrap (x * f) = x * f \/ (x = -1 /\ 2 ^ 64 < f).
Proof.
  intros Hf Hx H. destruct (wrap_cong (x * f)) as [m E]. pose proof (wrap_range (x * f)) as R.
  pose proof (Z.div_mod (wrap (x * f)) f ltac:(lia)) as D. rewrite H in D.
  pose proof (Z.mod_pos_bound (wrap (x * f)) f ltac:(lia)) as B.
  set (w := wrap (x * f)) in *. set (q := w mod f) in *.
  assert (Eq : - m * 2 ^ 64 = q) by nia.
  destruct (Z.eq_dec m 0) as [->|Nm]; [left; nia|]. right.
  assert (m <= -1) by nia. assert (F : 2 ^ 64 < f) by nia. split; [|exact F].
  change (2 ^ 64) with (2 * 2 ^ 63) in *.
  destruct (Z.lt_trichotomy x (-1)) as [L|[L|L]]; [exfalso|exact L|exfalso].
  - nia.
  - nia.
Qed.

Lemma adjust_same a k u x : adjust a (T k u x) u = Ok (T k u x).
Proof. unfold adjust. rewrite Nat.eqb_refl. reflexivity. Qed.

Lemma adjust_fine_unfold a k u v x : (index v < index u)%nat -> - 2 ^ 63 < x < 2 ^ 63 ->
  let f := atto u / atto v in
  adjust a (T k u x) v =
  if limb k f then
    if negb (wrap (x * f) =? NAT) && (x =? wrap (x * f) / f) then Ok (T k v (wrap (x * f))) else Err OverflowE
  else Err OverflowE.
Proof.
  intros H Hx f. unfold adjust.
  destruct (Nat.eqb_spec (index u) (index v)); [lia|].
  rewrite (proj2 (Nat.ltb_lt _ _) H).
  rewrite cast_fine by (unfold NAT, TWO63; lia). fold f. destruct (limb k f) eqn:L; [|reflexivity].
  destruct (Z.eqb_spec (wrap (x * f)) NAT) as [E|N].
  - rewrite E, cast_nat. unfold teq. rewrite Z.eqb_refl. cbn [negb andb]. rewrite andb_false_r. reflexivity.
  - rewrite cast_coarse by auto. fold f. rewrite L. unfold teq. cbn [negb andb].
    assert (Nx : (x =? NAT) = false) by (unfold NAT, TWO63; lia). rewrite Nx. cbn [negb andb].
    destruct (Z.eqb_spec (wrap (x * f) / f) NAT) as [E2|N2]; cbn [negb andb].
    + assert (Ne : (x =? wrap (x * f) / f) = false) by (rewrite E2; auto). rewrite Ne. reflexivity.
    + reflexivity.
Qed.

Lemma ratio_lt u v c : (index v <= index u)%nat -> (atto u / atto v < c <-> atto u < c * atto v).
Proof.
  intros H. pose proof (atto_div u v H) as D. pose proof (atto_pos v). split; intros K; nia.
Qed.

Lemma fits_iff k u v x : (index v <= index u)%nat ->
  fits (T k u x) v <-> (- 2 ^ 63 < x * (atto u / atto v) < 2 ^ 63 /\ lim k (atto u / atto v)).
Proof.
  intros H. unfold fits, instant, lim. cbn [tval tunit tkind].
  pose proof (atto_div u v H) as D. pose proof (atto_pos v) as P. split.
  - intros (y & E & R & K). assert (y = x * (atto u / atto v)) by nia. subst y. split; [exact R|].
    intros Hk. apply ratio_lt; auto.
  - intros [R K]. exists (x * (atto u / atto v)). split; [nia|]. split; [exact R|].
    intros Hk. apply ratio_lt; auto.
Qed.

Lemma adjust_fine a k u v x : (index v < index u)%nat -> - 2 ^ 63 < x < 2 ^ 63 ->
  not_last (T k u x) v ->
  (fits (T k u x) v /\ adjust a (T k u x) v = Ok (T k v (x * (atto u / atto v)))) \/
  (~ fits (T k u x) v /\ adjust a (T k u x) v = Err OverflowE).
Proof.
  intros H Hx NL. rewrite adjust_fine_unfold by auto. cbn zeta.
  rewrite fits_iff by lia. set (f := atto u / atto v).
  pose proof (ratio_gt1 u v H) as Hf. fold f in Hf.
  destruct (limb k f) eqn:L.
  - apply limb_lim in L.
    destruct (negb (wrap (x * f) =? NAT) && (x =? wrap (x * f) / f))%bool eqn:B.
    + left. apply andb_true_iff in B as [B1 B2]. apply negb_true_iff, Z.eqb_neq in B1. apply Z.eqb_eq in B2.
      destruct (wrap_back x f Hf Hx (eq_sym B2)) as [E|[E1 E2]].
      * rewrite E in *. pose proof (wrap_range (x * f)) as R. rewrite E in R.
        split; [|reflexivity]. split; [unfold NAT, TWO63 in B1; lia|exact L].
      * exfalso. destruct NL as [NL|[NL|NL]]; cbn [tval tkind tunit] in NL.
        -- contradiction.
        -- specialize (L NL). lia.
        -- apply ratio_lt in NL; [fold f in NL; lia|lia].
    + right. split; [|reflexivity]. intros [R _]. rewrite wrap_id in B by lia.
      rewrite Z.div_mul in B by lia. rewrite Z.eqb_refl in B.
      destruct (Z.eqb_spec (x * f) NAT) as [E|N]; [unfold NAT, TWO63 in E; lia|discriminate].
  - right. split; [|reflexivity]. intros [_ K]. apply limb_lim in K. congruence.
Qed.

(** ** coarsening *)
Lemma adjust_coarse a k u v x : (index u < index v)%nat -> - 2 ^ 63 < x < 2 ^ 63 ->
  adjust a (T k u x) v =
  if limb k (atto v / atto u) then
    if negb a && (x / (atto v / atto u) =? 0) && negb (x =? 0) then Err PrecisionE
    else Ok (T k v (x / (atto v / atto u)))
  else Err OverflowE.
Proof.
  intros H Hx. unfold adjust. destruct (Nat.eqb_spec (index u) (index v)); [lia|].
  destruct (Nat.ltb_spec (index v) (index u)); [lia|].
  rewrite cast_coarse by (auto; unfold NAT, TWO63; lia).
  destruct (limb k (atto v / atto u)); reflexivity.
Qed.
Lemma floor_ok u v x : (index u < index v)%nat ->
  let y := x / (atto v / atto u) in y * atto v <= x * atto u < y * atto v + atto v.
Proof.
  intros H y. pose proof (atto_div v u ltac:(lia)) as D. pose proof (atto_pos u) as P.
  pose proof (ratio_gt1 v u H) as F. set (f := atto v / atto u) in *. unfold y.
  pose proof (Z.div_mod x f ltac:(lia)) as E. pose proof (Z.mod_pos_bound x f ltac:(lia)) as B.
  rewrite D. nia.
Qed.
Lemma floor_range f x : 1 < f -> - 2 ^ 63 < x < 2 ^ 63 -> - 2 ^ 63 < x / f < 2 ^ 63.
Proof.
  intros F Hx. pose proof (Z.div_mod x f ltac:(lia)) as E. pose proof (Z.mod_pos_bound x f ltac:(lia)) as B.
  set (y := x / f) in *. set (m := x mod f) in *. nia.
Qed.
Lemma ratio_ok_iff k u v x : (index u < index v)%nat ->
  ratio_ok (T k u x) v <-> limb k (atto v / atto u) = true.
Proof.
  intros H. rewrite limb_lim. unfold ratio_ok, lim. cbn [tkind tunit].
  split; intros K E; specialize (K E); apply (ratio_lt v u); auto; lia.
Qed.

(** ** all at once: what [adjust] does *)
Definition good (t : time) (v : unit_) : Prop :=
  if (index v <=? index (tunit t))%nat then fits t v else ratio_ok t v.

Lemma fits_same k u x : - 2 ^ 63 < x < 2 ^ 63 -> fits (T k u x) u.
Proof.
  intros H. apply fits_iff; [lia|]. rewrite Z.div_same by (pose proof (atto_pos u); lia).
  rewrite Z.mul_1_r. split; [exact H|]. intros _. reflexivity.
Qed.

Lemma adjust_spec a t v : valid t -> not_last t v ->
  match adjust a t v with
  | Ok t' => good t v /\ rounded_down t t' v /\ valid t' /\ (fits t v -> instant t' = instant t)
  | Err OverflowE => ~ good t v
  | Err PrecisionE => a = false /\ (index (tunit t) < index v)%nat /\ 0 < instant t < atto v
  | Err ValueE => False
  end.
Proof.
  destruct t as [k u x]. intros Hv NL. unfold valid in Hv. cbn [tval] in Hv.
  unfold good. cbn [tunit].
  destruct (Nat.lt_trichotomy (index v) (index u)) as [L|[L|L]].
  - rewrite (proj2 (Nat.leb_le _ _)) by lia.
    destruct (adjust_fine a k u v x L Hv NL) as [[F E]|[F E]]; rewrite E; [|exact F].
    pose proof F as F0. apply fits_iff in F0 as [R _]; [|lia].
    pose proof (atto_div u v ltac:(lia)) as D.
    assert (I : instant (T k v (x * (atto u / atto v))) = instant (T k u x)).
    { unfold instant. cbn [tval tunit]. rewrite D at 2. ring. }
    split; [exact F|]. split; [|split; [exact R|auto]].
    split; [reflexivity|]. split; [reflexivity|]. rewrite I. pose proof (atto_pos v). lia.
  - apply index_inj in L. subst v. rewrite Nat.leb_refl. rewrite adjust_same.
    split; [apply fits_same; auto|]. split; [|split; [exact Hv|auto]].
    split; [reflexivity|]. split; [reflexivity|]. pose proof (atto_pos u). lia.
  - rewrite (proj2 (Nat.leb_gt _ _)) by lia. rewrite adjust_coarse by auto.
    pose proof (floor_ok u v x L) as FL. cbn zeta in FL.
    pose proof (ratio_ok_iff k u v x L) as RO.
    destruct (limb k (atto v / atto u)) eqn:LB.
    2:{ intros K. apply RO in K. discriminate. }
    assert (RO' : ratio_ok (T k u x) v) by (apply RO; reflexivity). clear RO.
    set (y := x / (atto v / atto u)) in *.
    destruct (negb a && (y =? 0) && negb (x =? 0))%bool eqn:B.
    + apply andb_true_iff in B as [B B3]. apply andb_true_iff in B as [B1 B2].
      split; [destruct a; [discriminate|reflexivity]|]. split; [exact L|].
      unfold instant. cbn [tval tunit]. pose proof (atto_pos u). nia.
    + split; [exact RO'|]. split; [|split].
      * split; [reflexivity|]. split; [reflexivity|]. unfold instant. cbn [tval tunit]. exact FL.
      * unfold valid. cbn [tval]. apply floor_range; auto. apply ratio_gt1; auto.
      * intros (z & E & _ & _). unfold instant in *. cbn [tval tunit] in *.
        pose proof (atto_pos v). assert (z = y) by nia. subst z. exact E.
Qed.

(** NaT *)
Lemma adjust_nat a k u v :
  adjust a (T k u NAT) v =
  if (index u =? index v)%nat then Ok (T k u NAT)
  else if (index v <? index u)%nat then Err OverflowE else Ok (T k v NAT).
Proof.
  unfold adjust. destruct (index u =? index v)%nat; [reflexivity|].
  destruct (index v <? index u)%nat; cbn; [reflexivity|]. destruct a; reflexivity.
Qed.

(** ** lists *)
Lemma adjust_all_spec a v ts : Forall valid ts -> Forall (fun t => not_last t v) ts ->
  match adjust_all a v ts with
  | (r, None) => Forall2 (fun t t' => good t v /\ rounded_down t t' v /\ valid t' /\
                                      (fits t v -> instant t' = instant t)) ts r
  | (_, Some OverflowE) => Exists (fun t => ~ good t v) ts
  | (_, Some PrecisionE) => a = false /\
       Exists (fun t => (index (tunit t) < index v)%nat /\ 0 < instant t < atto v) ts
  | (_, Some ValueE) => False
  end.
Proof.
  induction ts as [|t ts IH]; intros V N; cbn [adjust_all]; [constructor|].
  inversion V as [|? ? V1 V2]; subst. inversion N as [|? ? N1 N2]; subst.
  pose proof (adjust_spec a t v V1 N1) as A. specialize (IH V2 N2).
  destruct (adjust a t v) as [t1|[| |]].
  - destruct (adjust_all a v ts) as [r [[| |]|]].
    + apply Exists_cons_tl; auto.
    + destruct IH. split; [auto|]. apply Exists_cons_tl; auto.
    + exact IH.
    + constructor; auto.
  - apply Exists_cons_hd; auto.
  - destruct A as (A1 & A2). split; [auto|]. apply Exists_cons_hd; auto.
  - exact A.
Qed.

Lemma Forall2_not_exists {A B} (P : A -> B -> Prop) (Q : A -> Prop) l r :
  Forall2 P l r -> (forall x y, P x y -> ~ Q x) -> ~ Exists Q l.
Proof.
  intros H K E. induction H as [|x y l r H1 H2 IH]; [inversion E|].
  inversion E; subst; [eapply K; eauto|auto].
Qed.

(** the loop over coarser units: the first unit all times can be written in *)
Lemma coarsen_spec ar a ts unit us : forall ret,
  Forall valid ts -> (forall u, In u us -> Forall (fun t => not_last t u) ts) ->
  match coarsen ar a ts ret unit us with
  | Ok (r, w) =>
      (exists us1 us2, us = us1 ++ w :: us2 /\
        (forall u, In u us1 -> ar = true /\ Exists (fun t => ~ good t u) ts) /\
        Forall2 (fun t t' => good t w /\ rounded_down t t' w /\ valid t' /\
                             (fits t w -> instant t' = instant t)) ts r) \/
      (w = unit /\ (us <> [] -> ar = true) /\ forall u, In u us -> Exists (fun t => ~ good t u) ts)
  | Err OverflowE => ar = false /\ exists u us', us = u :: us' /\ Exists (fun t => ~ good t u) ts
  | Err PrecisionE => a = false
  | Err ValueE => False
  end.
Proof.
  induction us as [|u us IH]; intros ret V N; cbn [coarsen].
  - right. split; [reflexivity|]. split; [congruence|]. intros u [].
  - pose proof (adjust_all_spec a u ts V (N u (or_introl eq_refl))) as A.
    destruct (adjust_all a u ts) as [r [[| |]|]].
    + destruct ar.
      * specialize (IH r V (fun x Hx => N x (or_intror Hx))).
        destruct (coarsen true a ts r unit us) as [[r' w]|[| |]].
        -- destruct IH as [(us1 & us2 & -> & H1 & H2)|(-> & _ & H)].
           ++ left. exists (u :: us1), us2. split; [reflexivity|]. split; [|exact H2].
              intros x [<-|Hx]; [auto|apply H1; auto].
           ++ right. split; [reflexivity|]. split; [auto|]. intros x [<-|Hx]; auto.
        -- destruct IH as [IH _]. discriminate.
        -- exact IH.
        -- exact IH.
      * split; [reflexivity|]. exists u, us. auto.
    + apply A.
    + exact A.
    + left. exists [], us. split; [reflexivity|]. split; [intros x []|exact A].
Qed.
