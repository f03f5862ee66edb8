(** C30: changing the unit of times, sums and differences. *)
From Coq Require Import List ZArith Bool Arith Lia ZifyBool ZifyNat.
From Verif Require Import TimeModel TimeSpec TimeProofs.
Import ListNotations.
Local Open Scope Z_scope.

(** ** helpers *)
Lemma Forall2_impl {A B} (P Q : A -> B -> Prop) l1 l2 :
  (forall a b, P a b -> Q a b) -> Forall2 P l1 l2 -> Forall2 Q l1 l2.
Proof. intros H F. induction F; constructor; auto. Qed.
Lemma units_from u : exists us, skipn (index u) ordered_units = u :: us /\
  forall v, In v us <-> (index u < index v)%nat.
Proof.
  destruct u; (eexists; split; [reflexivity|]); intros v; destruct v; cbn; split; intros H;
    try lia; tauto || (repeat (destruct H as [H|H]; [discriminate|]); destruct H).
Qed.
Lemma units_split u us1 w us2 : skipn (index u) ordered_units = us1 ++ w :: us2 ->
  (index u <= index w)%nat /\ forall v, In v us1 <-> (index u <= index v < index w)%nat.
Proof.
  intros H.
  assert (K : forall n, us1 = firstn n (skipn (index u) ordered_units) -> n = length us1 ->
     nth_error (skipn (index u) ordered_units) n = Some w ->
     (index u <= index w)%nat /\ forall v, In v us1 <-> (index u <= index v < index w)%nat).
  { clear H. intros n -> _. destruct u; cbn [index skipn ordered_units];
    do 12 (destruct n as [|n]; [cbn [nth_error firstn]; intros [= <-]; (split; [cbn; lia|]);
      intros v; destruct v; cbn; split; intros H; try lia; tauto ||
        (repeat (destruct H as [H|H]; [discriminate|]); destruct H) | ]; try (cbn; discriminate));
    cbn; discriminate. }
  apply (K (length us1)); [|reflexivity|]; rewrite H.
  - rewrite firstn_app, Nat.sub_diag, firstn_all, app_nil_r. reflexivity.
  - rewrite nth_error_app2, Nat.sub_diag by lia. reflexivity.
Qed.
Lemma finest_spec ts : forall b,
  (index (finest b ts) <= index b)%nat /\ (forall t, In t ts -> (index (finest b ts) <= index (tunit t))%nat) /\
  (finest b ts = b \/ exists t, In t ts /\ finest b ts = tunit t).
Proof.
  induction ts as [|t ts IH]; intros b; cbn [finest].
  - split; [lia|]. split; [intros t []|auto].
  - destruct (IH (if (index (tunit t) <? index b)%nat then tunit t else b)) as (H1 & H2 & H3).
    destruct (Nat.ltb_spec (index (tunit t)) (index b)).
    + split; [lia|]. split; [intros x [<-|Hx]; [lia|apply H2; auto]|].
      right. destruct H3 as [H3|(x & Hx & H3)]; [exists t; split; [left; auto|auto]|].
      exists x. split; [right; auto|auto].
    + split; [lia|]. split; [intros x [<-|Hx]; [lia|apply H2; auto]|].
      destruct H3 as [H3|(x & Hx & H3)]; [auto|]. right. exists x. split; [right; auto|auto].
Qed.
Lemma most_precise_le ts t : In t ts -> (index (most_precise_unit ts) <= index (tunit t))%nat.
Proof.
  destruct ts as [|t0 ts]; [intros []|]. cbn [most_precise_unit].
  destruct (finest_spec ts (tunit t0)) as (H1 & H2 & _). intros [<-|H]; [exact H1|auto].
Qed.

(** The unit asked for: the given one, or the most precise among the times. *)
Definition asked (unit : option unit_) (ts : list time) : unit_ :=
  match unit with Some u => u | None => most_precise_unit ts end.

(** [t] can be given in unit [w]: exactly if [w] is as precise as its own unit,
    rounded if it is coarser. *)
Definition representable (t : time) (w : unit_) : Prop :=
  (atto w <= atto (tunit t) -> fits t w) /\ (atto (tunit t) < atto w -> ratio_ok t w).

Lemma good_representable t w : good t w <-> representable t w.
Proof.
  unfold good, representable. destruct (Nat.leb_spec (index w) (index (tunit t))) as [L|L].
  - assert (A : atto w <= atto (tunit t)).
    { destruct (Nat.eq_dec (index w) (index (tunit t))) as [E|N].
      - apply index_inj in E. rewrite E. lia.
      - pose proof (atto_lt (tunit t) w ltac:(lia)). lia. }
    split; [intros H; split; [auto|lia]|]. intros [H _]; auto.
  - pose proof (atto_lt w (tunit t) L) as A. split; [intros H; split; [lia|auto]|]. intros [_ H]; auto.
Qed.

Lemma good_week t w : ratio_ok t W_ -> (index (tunit t) < index w)%nat -> good t w.
Proof.
  intros H L. unfold good. rewrite (proj2 (Nat.leb_gt _ _) L). intros E. specialize (H E).
  pose proof (atto_pos (tunit t)). assert (atto w <= atto W_); [|lia].
  destruct w; vm_compute; discriminate.
Qed.
Lemma good_at_week t : valid t -> ratio_ok t W_ -> good t W_.
Proof.
  intros V H. destruct (Nat.lt_ge_cases (index (tunit t)) (index W_)) as [L|L]; [apply good_week; auto|].
  assert (E : tunit t = W_) by (destruct t as [k u x]; destruct u; cbn in *; auto; lia).
  unfold good. rewrite E, Nat.leb_refl. destruct t as [k u x]. cbn in E. subst u. apply fits_same. exact V.
Qed.

(** ** regularize_time without [most_precise] *)
(** Every time is returned, all in one unit, which is the most precise one not finer
    than asked for in which all of them can be given; each is exact if it can be and
    else rounded down by less than one unit.  (The last hypothesis excludes time
    differences so fine that numpy cannot express them in weeks.) *)
Theorem C30_regularize : forall unit ar a0 ts r w,
  ts <> [] -> Forall valid ts -> (forall v, Forall (fun t => not_last t v) ts) ->
  Forall (fun t => ratio_ok t W_) ts ->
  regularize unit false ar a0 ts = Ok (r, w) ->
  Forall2 (fun t t' => rounded_down t t' w /\ valid t' /\ (fits t w -> instant t' = instant t)) ts r /\
  Forall (fun t => representable t w) ts /\
  atto (asked unit ts) <= atto w /\
  (forall v, atto (asked unit ts) <= atto v < atto w -> Exists (fun t => ~ representable t v) ts).
Proof.
  intros unit ar a0 ts r w NE V NL RW. unfold regularize. fold (asked unit ts).
  pose proof (coarsen_spec ar a0 ts (asked unit ts) (skipn (index (asked unit ts)) ordered_units) [] V
                (fun u _ => NL u)) as C.
  destruct (coarsen _ _ _ _ _ _) as [[r' w']|e]; [|discriminate]. intros [= -> ->].
  destruct C as [(us1 & us2 & E & H1 & H2)|(_ & _ & H)].
  - apply units_split in E as [L1 L2]. split; [|split; [|split]].
    + eapply Forall2_impl; [|exact H2]. cbn beta. tauto.
    + clear -H2. induction H2 as [|t t' ts r (H & _) _ IH]; constructor; auto. apply good_representable; auto.
    + destruct (Nat.eq_dec (index (asked unit ts)) (index w)) as [E|N].
      * apply index_inj in E. rewrite E. lia.
      * pose proof (atto_lt w (asked unit ts) ltac:(lia)). lia.
    + intros v [A1 A2].
      assert (index (asked unit ts) <= index v)%nat.
      { destruct (Nat.lt_ge_cases (index v) (index (asked unit ts))) as [K|K]; [|exact K].
        pose proof (atto_lt _ _ K). lia. }
      assert (index v < index w)%nat.
      { destruct (Nat.lt_ge_cases (index v) (index w)) as [K|K]; [exact K|]. exfalso.
        destruct (Nat.eq_dec (index v) (index w)) as [E|N].
        - apply index_inj in E. subst. lia.
        - pose proof (atto_lt v w ltac:(lia)). lia. }
      destruct (H1 v) as [_ X]; [apply L2; lia|]. eapply Exists_impl; [|exact X].
      intros t Ht K. apply Ht. apply good_representable; auto.
  - exfalso. assert (X : Exists (fun t => ~ good t W_) ts).
    { apply H. destruct (asked unit ts); cbn; tauto. }
    apply Exists_exists in X as (t & Ht & X). apply X. rewrite Forall_forall in V, RW.
    apply good_at_week; auto.
Qed.
Print Assumptions C30_regularize.

(** Without a unit and without rounding: all instants are kept exactly, or an
    OverflowError says that some time does not fit the most precise unit. *)
Theorem C30_lossless_or_refused : forall ts,
  ts <> [] -> Forall valid ts -> (forall v, Forall (fun t => not_last t v) ts) ->
  let u := most_precise_unit ts in
  (exists r, regularize None false false true ts = Ok (r, u) /\ Forall (fun t => fits t u) ts /\
     Forall2 (fun t t' => tkind t' = tkind t /\ tunit t' = u /\ instant t' = instant t) ts r) \/
  (regularize None false false true ts = Err OverflowE /\ Exists (fun t => ~ fits t u) ts).
Proof.
  intros ts NE V NL u. unfold regularize. fold u.
  assert (G : forall t, In t ts -> good t u <-> fits t u).
  { intros t Ht. unfold good. pose proof (most_precise_le ts t Ht) as L; fold u in L; rewrite (proj2 (Nat.leb_le _ _) L). tauto. }
  pose proof (coarsen_spec false true ts u (skipn (index u) ordered_units) [] V (fun v _ => NL v)) as C.
  destruct (units_from u) as (us & Eu & _). rewrite Eu in *. clearbody u.
  destruct (coarsen _ _ _ _ _ _) as [[r w]|[| |]].
  - left. exists r. destruct C as [(us1 & us2 & E & H1 & H2)|(_ & K & _)].
    + destruct us1 as [|x us1].
      * cbn [app] in E. assert (w = u) by congruence. subst w. split; [reflexivity|]. split.
        -- clear -H2 G. induction H2 as [|t t' ts r (H & _) _ IH]; constructor.
           ++ apply G; [left; auto|auto].
           ++ apply IH. intros; apply G; right; auto.
        -- clear -H2 G. induction H2 as [|t t' ts r (H & (R1 & R2 & _) & _ & I) _ IH]; constructor.
           ++ split; [exact R1|]. split; [exact R2|]. apply I. apply G; [left; auto|auto].
           ++ apply IH. intros; apply G; right; auto.
      * destruct (H1 x (or_introl eq_refl)) as [D _]. discriminate.
    + specialize (K ltac:(discriminate)). discriminate.
  - right. split; [reflexivity|]. destruct C as (_ & u' & us' & E & X). assert (u' = u) by congruence. subst u'.
    apply Exists_exists in X as (t & Ht & X). apply Exists_exists. exists t. split; [auto|].
    rewrite <- G by auto. exact X.
  - discriminate.
  - destruct C.
Qed.
Print Assumptions C30_lossless_or_refused.

(** With [allow0=False] nothing positive becomes 0 silently. *)
Theorem C30_precision_error : forall t v,
  valid t -> ratio_ok t v -> not_last t v -> atto (tunit t) < atto v ->
  regularize (Some v) false true false [t] = Err PrecisionE <-> 0 < instant t < atto v.
Proof.
  intros [k u x] v V RO NL A. unfold regularize. destruct (units_from v) as (us & -> & _).
  cbn [coarsen adjust_all tunit] in *. unfold valid in V. cbn [tval] in V.
  assert (L : (index u < index v)%nat).
  { destruct (Nat.lt_ge_cases (index u) (index v)) as [K|K]; [exact K|]. exfalso.
    destruct (Nat.eq_dec (index u) (index v)) as [E|N].
    - apply index_inj in E. subst. lia.
    - pose proof (atto_lt u v ltac:(lia)). lia. }
  rewrite adjust_coarse by auto. rewrite (proj1 (ratio_ok_iff k u v x L) RO). cbn [negb andb].
  pose proof (floor_ok u v x L) as F. cbn zeta in F. set (y := x / (atto v / atto u)) in *.
  unfold instant. cbn [tval tunit]. pose proof (atto_pos u). pose proof (atto_pos v).
  destruct (Z.eqb_spec y 0) as [E|N]; destruct (Z.eqb_spec x 0) as [E2|N2]; cbn [andb negb].
  - split; [discriminate|]. subst x. lia.
  - split; [intros _|auto]. nia.
  - split; [discriminate|]. subst x. lia.
  - split; [discriminate|]. intros K. exfalso. apply N. nia.
Qed.
Print Assumptions C30_precision_error.

(** round_time never refines, and rounds down by less than a unit. *)
Theorem C30_round_time : forall a0 v t t',
  valid t -> not_last t v -> round1 a0 v t = Ok t' ->
  (atto v <= atto (tunit t) -> t' = t) /\
  (atto (tunit t) < atto v -> rounded_down t t' v).
Proof.
  intros a0 v t t' V NL. unfold round1. destruct (Nat.leb_spec (index v) (index (tunit t))) as [L|L].
  - intros [= <-]. split; [auto|]. intros A. exfalso.
    destruct (Nat.eq_dec (index v) (index (tunit t))) as [E|N].
    + apply index_inj in E. subst. lia.
    + pose proof (atto_lt (tunit t) v ltac:(lia)). lia.
  - intros E. pose proof (adjust_spec a0 t v V NL) as A. rewrite E in A. destruct A as (_ & R & _).
    split; [|auto]. pose proof (atto_lt v (tunit t) L). lia.
Qed.
Print Assumptions C30_round_time.

(** ** most_precise *)
Lemma step_small u v : index u = S (index v) -> atto u < 2 ^ 64 * atto v.
Proof. destruct u, v; intros H; try (cbn [index] in H; discriminate H); vm_compute; reflexivity. Qed.

Lemma refine_spec a0 n : forall w r,
  n = index w -> Forall valid r -> Forall (fun t => tunit t = w) r ->
  exists r' w', refine a0 r w (rev (firstn n ordered_units)) = Ok (r', w') /\
    Forall2 (fun t t' => tkind t' = tkind t /\ tunit t' = w' /\ valid t' /\ instant t' = instant t) r r' /\
    (index w' <= index w)%nat /\
    (forall v, S (index v) = index w' -> Exists (fun t => ~ fits t v) r').
Proof.
  induction n as [|n IH]; intros w r Hn V U.
  - exists r, w. split; [reflexivity|]. split.
    + clear -V U. induction r as [|t r IHr]; constructor.
      * inversion V; inversion U; subst. auto.
      * inversion V; inversion U; subst. apply IHr; auto.
    + split; [lia|]. intros v. lia.
  - assert (Ev : exists v, nth_error ordered_units n = Some v /\ index v = n).
    { destruct w; cbn in Hn; try discriminate; injection Hn as ->; eexists; split; reflexivity. }
    destruct Ev as (v & Ev & Iv).
    assert (Er : rev (firstn (S n) ordered_units) = v :: rev (firstn n ordered_units)).
    { destruct w; cbn in Hn; try discriminate; injection Hn as ->; cbn in Ev; injection Ev as <-; reflexivity. }
    rewrite Er. cbn [refine].
    assert (NLv : Forall (fun t => not_last t v) r).
    { apply Forall_forall. intros t Ht. rewrite Forall_forall in U. right; right. rewrite (U t Ht).
      apply step_small. lia. }
    assert (G : forall t, In t r -> good t v <-> fits t v).
    { intros t Ht. rewrite Forall_forall in U. unfold good. rewrite (U t Ht).
      rewrite (proj2 (Nat.leb_le _ _)) by lia. tauto. }
    pose proof (adjust_all_spec a0 v r V NLv) as A.
    destruct (adjust_all a0 v r) as [nxt [[| |]|]].
    + exists r, w. split; [reflexivity|]. split; [|split; [lia|]].
      * clear -V U. induction r as [|t r IHr]; constructor; inversion V; inversion U; subst; auto.
      * intros v' Hv'. assert (v' = v) by (apply index_inj; lia). subst v'.
        apply Exists_exists in A as (t & Ht & A). apply Exists_exists. exists t. split; [auto|].
        rewrite <- G by auto. exact A.
    + exfalso. destruct A as (_ & X). apply Exists_exists in X as (t & Ht & L & _).
      rewrite Forall_forall in U. rewrite (U t Ht) in L. lia.
    + destruct A.
    + assert (F : Forall2 (fun t t' => tkind t' = tkind t /\ tunit t' = v /\ valid t' /\ instant t' = instant t) r nxt).
      { clear -A G. induction A as [|t t' r nxt (H1 & (R1 & R2 & _) & H3 & H4) _ IHA]; constructor.
        - split; [auto|]. split; [auto|]. split; [auto|]. apply H4. apply G; [left; auto|auto].
        - apply IHA. intros; apply G; right; auto. }
      destruct (IH v nxt) as (r' & w' & E & F' & L & X); [lia| | |].
      * clear -F. induction F as [|t t' r nxt (_ & _ & H & _) _ IHF]; constructor; auto.
      * clear -F. induction F as [|t t' r nxt (_ & H & _) _ IHF]; constructor; auto.
      * exists r', w'. split; [exact E|]. split; [|split; [lia|exact X]].
        clear -F F'. revert r' F'. induction F as [|t t' r nxt H1 H2 IHF]; intros r' F'; inversion F'; subst; constructor.
        -- destruct H1 as (A1 & A2 & A3 & A4). destruct H3 as (B1 & B2 & B3 & B4).
           split; [congruence|]. split; [auto|]. split; [auto|]. congruence.
        -- apply IHF; auto.
Qed.

(** With [most_precise] and no unit: all instants are kept if they fit one unit, and
    no finer unit would do. *)
Theorem C30_most_precise : forall a0 ts,
  ts <> [] -> Forall valid ts -> (forall v, Forall (fun t => not_last t v) ts) ->
  Forall (fun t => fits t (most_precise_unit ts)) ts ->
  exists r w, regularize None true true a0 ts = Ok (r, w) /\
    Forall2 (fun t t' => tkind t' = tkind t /\ tunit t' = w /\ instant t' = instant t) ts r /\
    atto w <= atto (most_precise_unit ts) /\
    (forall v, S (index v) = index w -> Exists (fun t => ~ fits t v) r).
Proof.
  intros a0 ts NE V NL F. unfold regularize. set (u := most_precise_unit ts) in *.
  pose proof (adjust_all_spec a0 u ts V (NL u)) as A.
  destruct (units_from u) as (us & -> & _). cbn [coarsen].
  assert (G : forall t, In t ts -> good t u).
  { intros t Ht. unfold good. pose proof (most_precise_le ts t Ht) as L; fold u in L; rewrite (proj2 (Nat.leb_le _ _) L).
    rewrite Forall_forall in F. auto. }
  destruct (adjust_all a0 u ts) as [r [[| |]|]].
  - exfalso. apply Exists_exists in A as (t & Ht & A). apply A. auto.
  - exfalso. destruct A as (_ & X). apply Exists_exists in X as (t & Ht & L & _).
    pose proof (most_precise_le ts t Ht). fold u in H. lia.
  - destruct A.
  - clearbody u. assert (F2 : Forall2 (fun t t' => tkind t' = tkind t /\ tunit t' = u /\ valid t' /\ instant t' = instant t) ts r).
    { clear -A F.
      induction A as [|t t' ts r (H1 & (R1 & R2 & _) & H3 & H4) _ IHA]; constructor.
      - inversion F; subst. auto.
      - inversion F; subst. auto. }
    destruct (refine_spec a0 (index u) u r eq_refl) as (r' & w & E & F3 & L & X).
    + clear -F2. induction F2 as [|t t' ts r (_ & _ & H & _) _ IH]; constructor; auto.
    + clear -F2. induction F2 as [|t t' ts r (_ & H & _) _ IH]; constructor; auto.
    + exists r', w. split; [exact E|]. split; [|split; [|exact X]].
      * clear -F2 F3. revert r' F3. induction F2 as [|t t' ts r H1 H2 IH]; intros r' F3; inversion F3; subst; constructor.
        -- destruct H1 as (A1 & A2 & A3 & A4). destruct H3 as (B1 & B2 & B3 & B4).
           split; [congruence|]. split; [auto|]. congruence.
        -- apply IH; auto.
      * destruct (Nat.eq_dec (index w) (index u)) as [E2|N].
        -- apply index_inj in E2. rewrite E2. lia.
        -- pose proof (atto_lt u w ltac:(lia)). lia.
Qed.
Print Assumptions C30_most_precise.

(** ** sums and differences *)
Lemma two_units a b : most_precise_unit [a; b] = tunit a \/ most_precise_unit [a; b] = tunit b.
Proof. cbn [most_precise_unit finest]. destruct (_ <? _)%nat; auto. Qed.

Lemma regularize2 a b : valid a -> valid b ->
  let u := most_precise_unit [a; b] in
  not_last a u -> not_last b u -> fits a u -> fits b u ->
  exists x y, forall ar, regularize None false ar true [a; b] = Ok ([T (tkind a) u x; T (tkind b) u y], u) /\
    x * atto u = instant a /\ y * atto u = instant b /\ - 2 ^ 63 < x < 2 ^ 63 /\ - 2 ^ 63 < y < 2 ^ 63.
Proof.
  intros Va Vb u Na Nb Fa Fb. unfold regularize. fold u.
  destruct (units_from u) as (us & -> & _). cbn [coarsen adjust_all].
  assert (K : forall t, (index u <= index (tunit t))%nat -> valid t -> not_last t u -> fits t u ->
    exists x, adjust true t u = Ok (T (tkind t) u x) /\ x * atto u = instant t /\ - 2 ^ 63 < x < 2 ^ 63).
  { intros t Hu V N F. pose proof (adjust_spec true t u V N) as A.
    destruct (adjust true t u) as [[k u' x]|[| |]].
    - destruct A as (_ & (R1 & R2 & _) & R3 & R4). cbn [tkind tunit] in R1, R2. subst. exists x.
      split; [reflexivity|]. split; [|exact R3]. rewrite <- (R4 F). reflexivity.
    - exfalso. apply A. unfold good. rewrite (proj2 (Nat.leb_le _ _) Hu). exact F.
    - destruct A as [A _]. discriminate.
    - destruct A. }
  destruct (K a) as (x & E1 & H1 & R1); auto; [apply (most_precise_le [a; b]); left; auto|].
  destruct (K b) as (y & E2 & H2 & R2); auto; [apply (most_precise_le [a; b]); right; left; auto|].
  rewrite E1, E2. exists x, y. intros ar. auto.
Qed.

(** [time_sum] is exact when both times and the sum fit the more precise unit. *)
Theorem C30_time_sum : forall t0 td ar,
  valid t0 -> valid td ->
  let u := most_precise_unit [t0; td] in
  not_last t0 u -> not_last td u -> fits t0 u -> fits td u ->
  - 2 ^ 63 * atto u < instant t0 + instant td < 2 ^ 63 * atto u ->
  exists s, time_sum None false ar true t0 td = Ok s /\ tkind s = Datetime /\ tunit s = u /\
    valid s /\ instant s = instant t0 + instant td.
Proof.
  intros t0 td ar V0 V1 u N0 N1 F0 F1 R.
  destruct (regularize2 t0 td V0 V1 N0 N1 F0 F1) as (x & y & K).
  destruct (K ar) as (E & H1 & H2 & R1 & R2). unfold time_sum. rewrite E. fold u in H1, H2 |- *. cbn [tval].
  rewrite <- H1, <- H2 in *. pose proof (atto_pos u) as P.
  assert (- 2 ^ 63 < x + y < 2 ^ 63) by nia.
  assert (A : add64 x y = x + y).
  { unfold add64, NAT, TWO63. destruct (Z.eqb_spec x (- 2 ^ 63)); [lia|].
    destruct (Z.eqb_spec y (- 2 ^ 63)); [lia|]. apply wrap_id. lia. }
  rewrite A. eexists. split; [reflexivity|]. cbn [tkind tunit]. split; [auto|]. split; [auto|].
  split; [exact H|]. unfold instant. cbn [tval tunit]. ring.
Qed.
Print Assumptions C30_time_sum.

(** [time_diff] likewise. *)
Theorem C30_time_diff : forall t1 t2,
  valid t1 -> valid t2 ->
  let u := most_precise_unit [t1; t2] in
  not_last t1 u -> not_last t2 u -> fits t1 u -> fits t2 u ->
  - 2 ^ 63 * atto u < instant t1 - instant t2 < 2 ^ 63 * atto u ->
  exists d, time_diff None false t1 t2 = Ok d /\ tkind d = Timedelta /\ tunit d = u /\
    valid d /\ instant d = instant t1 - instant t2.
Proof.
  intros t1 t2 V0 V1 u N0 N1 F0 F1 R.
  destruct (regularize2 t1 t2 V0 V1 N0 N1 F0 F1) as (x & y & K).
  destruct (K true) as (E & H1 & H2 & R1 & R2). unfold time_diff. rewrite E. fold u in H1, H2 |- *. cbn [tval].
  rewrite <- H1, <- H2 in *. pose proof (atto_pos u) as P.
  assert (- 2 ^ 63 < x - y < 2 ^ 63) by nia.
  assert (A : sub64 x y = x - y).
  { unfold sub64, NAT, TWO63. destruct (Z.eqb_spec x (- 2 ^ 63)); [lia|].
    destruct (Z.eqb_spec y (- 2 ^ 63)); [lia|]. apply wrap_id. lia. }
  rewrite A. eexists. split; [reflexivity|]. cbn [tkind tunit]. split; [auto|]. split; [auto|].
  split; [exact H|]. unfold instant. cbn [tval tunit]. ring.
Qed.
Print Assumptions C30_time_diff.

(** Adding a delta and taking the difference gives the delta back. *)
Theorem C30_sum_then_diff : forall t0 td,
  tkind t0 = Datetime -> valid t0 -> valid td ->
  let u := most_precise_unit [t0; td] in
  not_last t0 u -> not_last td u -> fits t0 u -> fits td u ->
  - 2 ^ 63 * atto u < instant t0 + instant td < 2 ^ 63 * atto u ->
  exists s d, time_sum None false true true t0 td = Ok s /\ time_diff None false s t0 = Ok d /\
    instant d = instant td.
Proof.
  intros t0 td K0 V0 V1 u N0 N1 F0 F1 R.
  destruct (C30_time_sum t0 td true V0 V1 N0 N1 F0 F1 R) as (s & E & Ks & Us & Vs & Is). fold u in Us.
  assert (Eu : most_precise_unit [s; t0] = u).
  { cbn [most_precise_unit finest]. rewrite Us. destruct (Nat.ltb_spec (index (tunit t0)) (index u)); [|reflexivity].
    pose proof (most_precise_le [t0; td] t0 (or_introl eq_refl)) as L. fold u in L. lia. }
  assert (Fs : fits s u) by (destruct s as [k u' x]; cbn in Us; subst u'; apply fits_same; exact Vs).
  assert (Rd : - 2 ^ 63 * atto u < instant td < 2 ^ 63 * atto u).
  { destruct F1 as (y & Ey & Ry & _). rewrite <- Ey. pose proof (atto_pos u). nia. }
  assert (NL : forall t, tunit t = u -> not_last t u).
  { intros t E'. right; right. rewrite E'. pose proof (atto_pos u). lia. }
  destruct (C30_time_diff s t0 Vs V0) as (d & Ed & _ & _ & _ & Id); rewrite ?Eu; auto; [lia|].
  exists s, d. split; [exact E|]. split; [exact Ed|]. lia.
Qed.
Print Assumptions C30_sum_then_diff.

(** Taking a difference and adding it gives the first instant back. *)
Theorem C30_diff_then_sum : forall t1 t2,
  valid t1 -> valid t2 ->
  let u := most_precise_unit [t1; t2] in
  not_last t1 u -> not_last t2 u -> fits t1 u -> fits t2 u ->
  - 2 ^ 63 * atto u < instant t1 - instant t2 < 2 ^ 63 * atto u ->
  exists d s, time_diff None false t1 t2 = Ok d /\ time_sum None false true true t2 d = Ok s /\
    instant s = instant t1.
Proof.
  intros t1 t2 V0 V1 u N0 N1 F0 F1 R.
  destruct (C30_time_diff t1 t2 V0 V1 N0 N1 F0 F1 R) as (d & E & Kd & Ud & Vd & Id). fold u in Ud.
  assert (Eu : most_precise_unit [t2; d] = u).
  { cbn [most_precise_unit finest]. rewrite Ud. destruct (Nat.ltb_spec (index u) (index (tunit t2))); [reflexivity|].
    pose proof (most_precise_le [t1; t2] t2 (or_intror (or_introl eq_refl))) as L. fold u in L.
    apply index_inj. lia. }
  assert (Fd : fits d u) by (destruct d as [k u' x]; cbn in Ud; subst u'; apply fits_same; exact Vd).
  assert (Rd : - 2 ^ 63 * atto u < instant t1 < 2 ^ 63 * atto u).
  { destruct F0 as (y & Ey & Ry & _). rewrite <- Ey. pose proof (atto_pos u). nia. }
  assert (NL : not_last d u).
  { right; right. rewrite Ud. pose proof (atto_pos u). lia. }
  destruct (C30_time_sum t2 d true V1 Vd) as (s & Es & _ & _ & _ & Is); rewrite ?Eu; auto; [lia|].
  exists d, s. split; [exact E|]. split; [exact Es|]. lia.
Qed.
Print Assumptions C30_diff_then_sum.

(** ** where the property fails *)
(** One hour (minute, week) before the epoch, given in attoseconds, passes the check
    for overflow although the instant is wrong. *)
Theorem C30_before_epoch_refuted :
  exists t t', valid t /\ regularize (Some AS) false false true [t] = Ok ([t'], AS) /\
    valid t' /\ instant t = - 3600 * 10 ^ 18 /\ instant t' <> instant t.
Proof.
  exists (T Datetime H_ (-1)). eexists. split; [split; reflexivity|].
  split; [vm_compute; reflexivity|]. split; [split; reflexivity|]. split; [reflexivity|].
  vm_compute. discriminate.
Qed.
Print Assumptions C30_before_epoch_refuted.

(** A sum that overflows is not refused: the result is NaT or has wrapped around. *)
Theorem C30_sum_overflow_refuted :
  (exists t0 td s, valid t0 /\ valid td /\ time_sum None false true true t0 td = Ok s /\ ~ valid s) /\
  (exists t0 td s, valid t0 /\ valid td /\ time_sum None false true true t0 td = Ok s /\ valid s /\
     0 < instant t0 /\ 0 < instant td /\ instant s < 0).
Proof.
  split.
  - exists (T Datetime NS (2 ^ 63 - 1)), (T Timedelta NS 1). eexists.
    split; [split; reflexivity|]. split; [split; reflexivity|]. split; [vm_compute; reflexivity|].
    unfold valid. cbn [tval]. lia.
  - exists (T Datetime NS (2 ^ 63 - 1)), (T Timedelta NS 2). eexists.
    split; [split; reflexivity|]. split; [split; reflexivity|]. split; [vm_compute; reflexivity|].
    split; [split; reflexivity|]. repeat split.
Qed.
Print Assumptions C30_sum_overflow_refuted.

(** A time difference too fine for the unit asked for is dropped, with no error. *)
Theorem C30_times_dropped_refuted :
  exists a b, valid a /\ valid b /\ regularize (Some D_) false true true [a; b] = Ok ([], D_) /\
    time_sum (Some D_) false true true b a = Err ValueE.
Proof.
  exists (T Timedelta AS 5), (T Datetime D_ 3). split; [split; reflexivity|]. split; [split; reflexivity|].
  split; vm_compute; reflexivity.
Qed.
Print Assumptions C30_times_dropped_refuted.

(** [most_precise] with a unit gives a precise unit to times already rounded. *)
Theorem C30_most_precise_after_rounding_refuted :
  exists t t', valid t /\ regularize (Some S_) true true true [t] = Ok ([t'], NS) /\
    fits t NS /\ instant t = 1500000000001 * 10 ^ 15 /\ instant t' <> instant t.
Proof.
  exists (T Datetime MS 1500000000001). eexists. split; [split; reflexivity|].
  split; [vm_compute; reflexivity|]. split.
  - exists 1500000000001000000. split; [reflexivity|]. split; [split; reflexivity|]. discriminate.
  - split; [reflexivity|]. vm_compute. discriminate.
Qed.
Print Assumptions C30_most_precise_after_rounding_refuted.

(** ** the hypotheses can be met *)
(** a day and 1500 ms, in ms *)
Example C30_regularize_ex :
  let ts := [T Datetime D_ 17000; T Timedelta MS 1500] in
  Forall valid ts /\ (forall v, Forall (fun t => not_last t v) ts) /\ Forall (fun t => ratio_ok t W_) ts /\
  regularize None false true true ts = Ok ([T Datetime MS 1468800000000; T Timedelta MS 1500], MS) /\
  regularize (Some S_) false true true ts = Ok ([T Datetime S_ 1468800000; T Timedelta S_ 1], S_).
Proof.
  cbn zeta. split; [repeat constructor|]. split.
  - intros v. constructor; [left; discriminate|]. constructor; [left; discriminate|constructor].
  - split; [|split; vm_compute; reflexivity].
    constructor; [discriminate|]. constructor; [intros _; reflexivity|constructor].
Qed.
(** years in attoseconds do not fit and go to the next coarser unit that does *)
Example C30_regularize_coarser_ex :
  regularize (Some AS) false true true [T Datetime S_ 1000] = Ok ([T Datetime FS 1000000000000000000], FS) /\
  regularize (Some AS) false false true [T Datetime S_ 1000] = Err OverflowE.
Proof. split; vm_compute; reflexivity. Qed.
Example C30_precision_error_ex :
  regularize (Some S_) false true false [T Timedelta MS 999] = Err PrecisionE /\
  regularize (Some S_) false true false [T Timedelta MS (-1)] = Ok ([T Timedelta S_ (-1)], S_) /\
  round1 true S_ (T Timedelta MS 1999) = Ok (T Timedelta S_ 1).
Proof. split; [|split]; vm_compute; reflexivity. Qed.
Example C30_sum_then_diff_ex :
  let t0 := T Datetime S_ 1000 in let td := T Timedelta MS (-1) in
  valid t0 /\ valid td /\ not_last t0 MS /\ not_last td MS /\ fits t0 MS /\ fits td MS /\
  time_sum None false true true t0 td = Ok (T Datetime MS 999999) /\
  time_diff None false (T Datetime MS 999999) t0 = Ok (T Timedelta MS (-1)).
Proof.
  cbn zeta. split; [split; reflexivity|]. split; [split; reflexivity|].
  split; [left; discriminate|]. split; [right; left; reflexivity|].
  split. { exists 1000000. split; [reflexivity|]. split; [split; reflexivity|discriminate]. }
  split. { exists (-1). split; [reflexivity|]. split; [split; reflexivity|reflexivity]. }
  split; vm_compute; reflexivity.
Qed.
Example C30_most_precise_ex :
  regularize None true true true [T Datetime D_ 17000] = Ok ([T Datetime NS 1468800000000000000], NS).
Proof. vm_compute. reflexivity. Qed.
