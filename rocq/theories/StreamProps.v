(** C14 (streamlines), C15 (topology) and C43 (a failed call). *)
From Verif Require Import StreamProofs ChunkModel ChunkProofs.
From Coq Require Import ZifyBool ZifyNat Lqa.
Open Scope Q_scope.

Lemma nth_error_firstn_lt {A} (l : list A) n k : (k < n)%nat -> nth_error (firstn n l) k = nth_error l k.
Proof.
  revert l k. induction n; intros l k H; [lia|]. destruct l; [destruct k; reflexivity|].
  destruct k; [reflexivity|]. cbn. apply IHn. lia.
Qed.

Lemma nth_error_ext {A} (l m : list A) : (forall k, nth_error l k = nth_error m k) -> l = m.
Proof.
  revert m. induction l as [|a l IH]; intros [|b m] H; auto.
  - specialize (H 0%nat). discriminate.
  - specialize (H 0%nat). discriminate.
  - pose proof (H 0%nat) as H0. injection H0 as ->. f_equal. apply IH. intros k. apply (H (S k)).
Qed.

Lemma nth_error_rev {A} (l : list A) k : (k < length l)%nat ->
  nth_error (rev l) k = nth_error l (length l - 1 - k).
Proof.
  intros Hk. destruct l as [|a l]; [cbn in Hk; lia|].
  rewrite !(nth_error_nth' _ a) by (rewrite ?rev_length; cbn [length] in *; lia).
  f_equal. rewrite rev_nth by exact Hk. f_equal. cbn [length] in *. lia.
Qed.

Lemma traced_length {H} (integ : integrator H) P n o st w h :
  traced integ P n o st w h -> (length st <= n)%nat.
Proof. induction 1; cbn [length]; lia. Qed.

Lemma direction_traced {H} (integ : integrator H) P on d it0 x0 trim_t h buf :
  (d = 1 \/ d = -1)%Z -> length buf = (2 * p_maxit P + 1)%nat ->
  it0 = (Z.of_nat (p_maxit P) + d)%Z ->
  exists steps why h' buf',
    direction integ P on d it0 x0 trim_t buf h
      = Some (Done (it0 + d * Z.of_nat (length steps)) why buf' h') /\
    wrote d it0 (points steps) buf buf' /\ (length steps <= p_maxit P)%nat /\
    (if on then traced integ P (p_maxit P) (start P d x0 h) steps why h'
     else steps = [] /\ why = END_NONE /\ h' = h).
Proof.
  intros Hd Hb Hit. unfold direction. destruct on.
  - destruct (walk_traced integ P d Hd (p_maxit P) (S (S (2 * p_maxit P))) it0 x0
                (inject_Z d * p_ds0 P) 0 0 0 1 trim_t h buf) as (st & w & h' & buf' & E & T & W).
    + lia.
    + exact Hb.
    + lia.
    + rewrite Hit, Hb. destruct Hd as [-> | ->]; cbn [Z.eqb Pos.eqb]; lia.
    + intros; lra.
    + intros; lra.
    + lra.
    + exists st, w, h', buf'. split; [exact E|]. split; [exact W|]. split; [|exact T].
      eapply traced_length; eauto.
  - exists [], END_NONE, h, buf. split; [f_equal; f_equal; cbn; lia|].
    split; [apply wrote_nil|]. split; [cbn; lia|]. auto.
Qed.

(** C14: every trace ends, writes only inside the line buffer, whatever the
    buffer and the hidden lookup state held before, and returns the backward
    points reversed, the seed, and the forward points, each direction being a
    [traced] line of at most maxit points. *)
Theorem streamline_is_a_line_through_its_seed :
  forall (H : Type) (integ : integrator H) (P : params) (trim_t : Q) (buf : list (option pt)) (h : H) (x0 : pt),
    length buf = (2 * p_maxit P + 1)%nat ->
    exists back fwd why_b why_f h1 h2 buf',
      streamline integ P trim_t buf h x0
        = Some (SLine (map Some (rev (points back) ++ x0 :: points fwd)) (Z.lor why_b why_f) buf' h2) /\
      length buf' = length buf /\
      (length back <= p_maxit P)%nat /\ (length fwd <= p_maxit P)%nat /\
      (if p_back P then traced integ P (p_maxit P) (start P (-1) x0 h) back why_b h1
       else back = [] /\ why_b = END_NONE /\ h1 = h) /\
      (if p_fwd P then traced integ P (p_maxit P) (start P 1 x0 h1) fwd why_f h2
       else fwd = [] /\ why_f = END_NONE /\ h2 = h1).
Proof.
  intros H integ P trim_t buf h x0 Hb. unfold streamline. cbv zeta.
  set (M := Z.of_nat (p_maxit P)).
  destruct (bwrite_spec buf M x0) as (buf0 & E0 & L0 & N0); [unfold M; lia|]. rewrite E0.
  destruct (direction_traced integ P (p_back P) (-1) (M - 1) x0 trim_t h buf0)
    as (bs & wb & h1 & buf1 & E1 & W1 & B1 & T1); [auto|congruence|unfold M; lia|].
  rewrite E1. destruct W1 as (L1 & W1 & U1).
  destruct (direction_traced integ P (p_fwd P) 1 (M + 1) x0 trim_t h1 buf1)
    as (fs & wf & h2 & buf2 & E2 & W2 & B2 & T2); [auto|congruence|unfold M; lia|].
  rewrite E2. destruct W2 as (L2 & W2 & U2).
  exists bs, fs, wb, wf, h1, h2, buf2. split; [|split; [congruence|auto]].
  f_equal. f_equal.
  assert (Pb : length (points bs) = length bs) by (unfold points; apply map_length).
  assert (Pf : length (points fs) = length fs) by (unfold points; apply map_length).
  apply nth_error_ext. intros k.
  set (start := Z.to_nat (M - 1 + -1 * Z.of_nat (length bs) + 1)).
  set (n := Z.to_nat _).
  assert (Hs : start = (p_maxit P - length bs)%nat) by (unfold start, M; lia).
  assert (Hn : n = (length bs + 1 + length fs)%nat) by (unfold n, M; lia).
  destruct (Nat.lt_ge_cases k n) as [Hk|Hk].
  2:{ transitivity (@None (option pt)); [|symmetry].
      - apply nth_error_None. rewrite firstn_length. lia.
      - apply nth_error_None. rewrite map_length, app_length, rev_length. cbn [length]. lia. }
  rewrite nth_error_firstn_lt by exact Hk. rewrite nth_error_skipn_at.
  destruct (Nat.lt_ge_cases k (length bs)) as [K1|K1].
  - (* backward part *)
    rewrite U2 by (intros; unfold M; lia).
    destruct (nth_error (points bs) (length bs - 1 - k)) as [p|] eqn:Ep.
    2:{ apply nth_error_None in Ep. lia. }
    replace (start + k)%nat with (Z.to_nat (M - 1 + -1 * Z.of_nat (length bs - 1 - k))) by (unfold M; lia).
    rewrite (W1 _ _ Ep). symmetry. rewrite map_app, nth_error_app1 by (rewrite map_length, rev_length; lia).
    rewrite nth_error_map, nth_error_rev by lia. rewrite Pb, Ep. reflexivity.
  - destruct (Nat.eq_dec k (length bs)) as [->|K2].
    + (* the seed *)
      rewrite U2 by (intros; unfold M; lia). rewrite U1 by (intros; unfold M; lia).
      rewrite N0. replace (start + length bs)%nat with (Z.to_nat M) by (unfold M; lia). rewrite Nat.eqb_refl.
      rewrite map_app, nth_error_app2 by (rewrite map_length, rev_length; lia).
      rewrite map_length, rev_length, Pb, Nat.sub_diag. reflexivity.
    + (* forward part *)
      destruct (nth_error (points fs) (k - length bs - 1)) as [p|] eqn:Ep.
      2:{ apply nth_error_None in Ep. lia. }
      replace (start + k)%nat with (Z.to_nat (M + 1 + 1 * Z.of_nat (k - length bs - 1))) by (unfold M; lia).
      rewrite (W2 _ _ Ep). rewrite map_app, nth_error_app2 by (rewrite map_length, rev_length; lia).
      rewrite map_length, rev_length, Pb. replace (k - length bs)%nat with (S (k - length bs - 1)) by lia.
      cbn [map nth_error]. rewrite nth_error_map, Ep. reflexivity.
Qed.
Print Assumptions streamline_is_a_line_through_its_seed.

(** A unit-speed flow along x: each call moves s by ds and adds ds / |v| to dt,
    as _c_euler1 does in a uniform field (integrate.pyx 34-55). *)
Definition uniform_x : integrator unit :=
  fun h s ds dt => mkiret 0%Z (mkpt (px s + ds) (py s) (pz s)) ds (dt + ds) h.

Definition box10 : params :=
  mkpar 1 0 (mkpt (-10) (-10) (-10)) (mkpt 10 10 10) 0 5 0 0 true true 0.

Definition show (r : option (sres unit)) : option (list (option (Q * Q * Q)) * Z) :=
  match r with
  | Some (SLine line flags _ _) =>
      Some (map (option_map (fun p => (Qred (px p), Qred (py p), Qred (pz p)))) line, flags)
  | _ => None
  end.

Example streamline_nonvacuous :
  show (streamline uniform_x (mkpar 3 0 (mkpt (-10) (-10) (-10)) (mkpt 10 10 10) 0 5 0 0 true true 0) 1
          (repeat None 11) tt (mkpt 0 0 0)) =
  Some (map (fun x : Q => Some (x, 0, 0)) [-12; -9; -6; -3; 0; 3; 6; 9; 12], Z.lor END_OBOUND_XL END_OBOUND_XH).
Proof. vm_compute. reflexivity. Qed.

(** ** What [traced] says about a line *)
Lemma reason_kinds P p len t why : reason P p len t why ->
  why <> END_NONE /\ why <> END_MAXIT /\ why <> END_ZERO_LENGTH.
Proof. intros R. destruct R; repeat split; discriminate. Qed.

Lemma traced_why {H} (integ : integrator H) P n o st why h :
  traced integ P n o st why h ->
  (why = END_MAXIT /\ length st = n) \/
  (why = END_ZERO_LENGTH /\ (length st < n)%nat) \/
  (exists a f p len t, last (map Some st) None = Some (p, a, f) /\ reason P p len t why).
Proof.
  induction 1.
  - left. auto.
  - right; left. cbn; auto with arith.
  - right; right. exists a, f, (t_p o'), (t_len o'), (t_time o'). auto.
  - destruct IHtraced as [[A B]|[[A B]|(a' & f' & p & len & t & A & B)]].
    + left. cbn [length]. auto.
    + right; left. cbn [length]. split; auto. lia.
    + right; right. exists a', f', p, len, t. split; auto.
      destruct steps; [discriminate|]. exact A.
Qed.

(** C14: a direction that was traced ends for the reason it reports: the last
    point satisfies the reported end condition, or the direction is full
    (exactly maxit points), or the integrator could not step. *)
Theorem streamline_reports_why_it_ended :
  forall (H : Type) (integ : integrator H) (P : params) n o st why h,
    traced integ P n o st why h ->
    (why = END_MAXIT /\ length st = n) \/
    (why = END_ZERO_LENGTH /\ (length st < n)%nat) \/
    (exists p a f len t, last (map Some st) None = Some (p, a, f) /\ reason P p len t why).
Proof.
  intros H integ P n o st why h T. apply traced_why in T.
  destruct T as [T|[T|(a & f & p & len & t & A & B)]]; auto.
  right; right. exists p, a, f, len, t. auto.
Qed.
Print Assumptions streamline_reports_why_it_ended.

(** C14: tracing never goes on from a point at which it should have ended: every
    point but the last of its direction is inside the domain. *)
Theorem streamline_stays_inside :
  forall (H : Type) (integ : integrator H) (P : params) n o st why h i p,
    traced integ P n o st why h -> nth_error (points st) i = Some p -> (S i < length st)%nat ->
    inside P p.
Proof.
  intros H integ P n o st why h i p T. revert i.
  induction T as [o|n o E|n o o' a f why A R|n o o' a f steps why h A I L M T IH]; intros i E' Hi.
  - cbn in Hi. lia.
  - cbn in Hi. lia.
  - cbn in Hi. lia.
  - destruct i as [|i].
    + cbn in E'. injection E' as <-. exact I.
    + apply (IH i); auto. cbn [length] in Hi. lia.
Qed.
Print Assumptions streamline_stays_inside.

Lemma go_whole {H} (integ : integrator H) P o o' a f :
  advance integ P o o' a f -> ~ length_spent P (t_len o') -> ~ time_spent P (t_time o') -> f == 1.
Proof.
  unfold advance. cbv zeta. intros (_ & _ & _ & Ha & Hl & b & Hb & Ht & (K0 & K1 & K2 & K3 & K4) & _) Nl Nt.
  destruct (Qlt_le_dec f 1) as [F|F]; [|lra].
  assert (A0 : 0 <= a) by (rewrite Ha; apply Q.min_glb; apply Qabs_nonneg).
  destruct (K4 F) as [[M E]|[M E]].
  - exfalso. apply Nl. split; auto. rewrite Hl.
    assert (f * a <= 1 * a) by (apply Qmult_le_compat_r; lra). lra.
  - exfalso. apply Nt. split; auto. rewrite Ht. destruct (Hb M) as [_ Eb].
    assert (0 <= b) by (rewrite Eb; apply Qabs_nonneg).
    assert (f * b <= 1 * b) by (apply Qmult_le_compat_r; lra). lra.
Qed.

Lemma traced_kept {H} (integ : integrator H) P n o st why h :
  traced integ P n o st why h -> 0 < p_maxlen P -> t_len o <= p_maxlen P ->
  t_len o + kept_length st <= p_maxlen P /\
  (why = END_MAX_LENGTH -> p_maxt P <= 0 -> t_len o + kept_length st == p_maxlen P).
Proof.
  intros T M. induction T as [o|n o E|n o o' a f why A R|n o o' a f steps why h A I L Nt T IH]; intros Ho.
  - cbn [kept_length]. split; [lra|discriminate].
  - cbn [kept_length]. split; [lra|discriminate].
  - cbn [kept_length]. unfold advance in A. cbv zeta in A.
    destruct A as (_ & _ & _ & Ha & Hl & b & _ & _ & (K0 & K1 & K2 & K3 & K4) & _).
    split; [specialize (K2 M); lra|]. intros -> Mt.
    inversion R as [| | | | | | | | |_ [_ S]|]; try discriminate; subst.
    destruct (Qlt_le_dec f 1) as [F|F].
    + destruct (K4 F) as [[_ E]|[F' _]]; lra.
    + assert (f == 1) by lra. specialize (K2 M). rewrite H0 in *. lra.
  - pose proof (go_whole _ _ _ _ _ _ A L Nt) as F1. cbn [kept_length].
    unfold advance in A. cbv zeta in A.
    destruct A as (_ & _ & _ & Ha & Hl & b & _ & _ & (K0 & K1 & K2 & K3 & K4) & _).
    assert (Fa : f * a == a) by (rewrite F1; ring).
    assert (HO : t_len o' <= p_maxlen P).
    { destruct (Qlt_le_dec (p_maxlen P) (t_len o')); auto. exfalso. apply L. split; auto. lra. }
    destruct (IH HO) as [I1 I2]. split; [lra|]. intros W Mt. specialize (I2 W Mt). lra.
Qed.

(** Squared length of the segment between two points. *)
Definition dist2 (p q : pt) : Q :=
  (px q - px p) * (px q - px p) + (py q - py p) * (py q - py p) + (pz q - pz p) * (pz q - pz p).

(** The segments of a line starting at p have lengths at most ws. *)
Fixpoint segments_within (p : pt) (ps : list pt) (ws : list Q) : Prop :=
  match ps, ws with
  | [], [] => True
  | q :: ps, w :: ws => 0 <= w /\ dist2 p q <= w * w /\ segments_within q ps ws
  | _, _ => False
  end.

Lemma along_dist2 f a b p : along f a b p -> dist2 a p == f * f * dist2 a b.
Proof.
  intros (E1 & E2 & E3). unfold dist2. rewrite E1, E2, E3. ring.
Qed.

Lemma traced_segments {H} (integ : integrator H) P n o st why h :
  (forall h s ds dt, let r := integ h s ds dt in
     i_ds r = ds /\ (i_ret r = 0%Z -> dist2 s (i_s r) <= ds * ds)) ->
  traced integ P n o st why h ->
  segments_within (t_p o) (points st) (map (fun '(_, a, f) => f * a) st).
Proof.
  intros Hi T. induction T as [o|n o E|n o o' a f why A R|n o o' a f steps why h A I L Nt T IH];
    cbn [points map fst segments_within]; auto.
  1: split; [|split; [|exact Logic.I]]. 3: split; [|split; [|exact IH]].
  1, 3: unfold advance in A; cbv zeta in A; destruct A as (_ & _ & _ & Ha & _ & b & _ & _ & (K0 & _) & _);
    (assert (A0 : 0 <= a) by (rewrite Ha; apply Q.min_glb; apply Qabs_nonneg));
    apply Qmult_le_0_compat; assumption.
  all: unfold advance in A; cbv zeta in A; destruct A as (Er & _ & _ & Ha & _ & b & _ & _ & (K0 & _) & Al);
    destruct (Hi (t_h o) (t_p o) (t_ds o) (t_dt o)) as [Ed Hd]; specialize (Hd Er);
    rewrite Ed in Ha; rewrite Q.min_id in Ha;
    rewrite (along_dist2 _ _ _ _ Al);
    assert (AA : a * a == t_ds o * t_ds o)
      by (rewrite Ha; rewrite <- Qabs_Qmult; apply Qabs_pos; nra);
    setoid_replace (f * a * (f * a)) with (f * f * (t_ds o * t_ds o)) by (rewrite <- AA; ring);
    rewrite !(Qmult_comm (f * f)); apply Qmult_le_compat_r; try assumption; nra.
Qed.

(** C14: with a positive max_length and a fixed-step integrator (one that leaves
    ds alone and moves by at most |ds|), the line of a direction is no longer
    than max_length; if it ended because of max_length and there is no time
    limit, its (nominal) length is exactly max_length. *)
Theorem streamline_respects_max_length :
  forall (H : Type) (integ : integrator H) (P : params) n d x0 h st why h',
    (forall h s ds dt, let r := integ h s ds dt in
       i_ds r = ds /\ (i_ret r = 0%Z -> dist2 s (i_s r) <= ds * ds)) ->
    traced integ P n (start P d x0 h) st why h' -> 0 < p_maxlen P ->
    exists ws, segments_within x0 (points st) ws /\
      fold_right Qplus 0 ws <= p_maxlen P /\
      (why = END_MAX_LENGTH -> p_maxt P <= 0 -> fold_right Qplus 0 ws == p_maxlen P).
Proof.
  intros H integ P n d x0 h st why h' Hi T M.
  exists (map (fun '(_, a, f) => f * a) st).
  assert (E : fold_right Qplus 0 (map (fun '(_, a, f) => f * a) st) = kept_length st).
  { clear. induction st as [|[[p a] f] st IH]; [reflexivity|]. cbn [map fold_right kept_length]. now rewrite IH. }
  rewrite E. split; [exact (traced_segments _ _ _ _ _ _ _ Hi T)|].
  destruct (traced_kept _ _ _ _ _ _ _ T M) as [A B]; [cbn; lra|].
  cbn [start t_len] in A, B. split; [lra|]. intros W Mt. specialize (B W Mt). lra.
Qed.
Print Assumptions streamline_respects_max_length.

(** The hypotheses are met by [uniform_x]: with max_length 7 and ds0 2 the line
    stops exactly 7 away from the seed. *)
Example max_length_nonvacuous :
  (forall h s ds dt, let r := uniform_x h s ds dt in
     i_ds r = ds /\ (i_ret r = 0%Z -> dist2 s (i_s r) <= ds * ds)) /\
  show (streamline uniform_x (mkpar 2 0 (mkpt (-10) (-10) (-10)) (mkpt 10 10 10) 0 9 7 0 true true 0) 1
          (repeat None 19) tt (mkpt 0 0 0)) =
  Some (map (fun x : Q => Some (x, 0, 0)) [-7; -6; -4; -2; 0; 2; 4; 6; 7], END_MAX_LENGTH).
Proof.
  split; [|vm_compute; reflexivity].
  intros h s ds dt. cbn. split; [reflexivity|]. intros _. unfold dist2. cbn.
  match goal with |- ?a <= _ => setoid_replace a with (ds * ds) by ring end. lra.
Qed.

(** C14, time limit: the integrators add to *dt, and the loop adds the running
    total to stream_t on each step, so a line stops well before max_t: in a unit
    speed flow with steps of 1 and max_t = 10, the line ends "because of max_t"
    at x = 4, which the fluid reaches at time 4. *)
Theorem max_t_stops_early_refuted :
  exists (P : params) (buf : list (option pt)) line,
    p_maxt P == 10 /\ p_ds0 P == 1 /\ length buf = (2 * p_maxit P + 1)%nat /\
    (forall h s ds dt, let r := uniform_x h s ds dt in
       px (i_s r) - px s == ds /\ i_dt r - dt == ds) /\
    show (streamline uniform_x P 1 buf tt (mkpt 0 0 0)) = Some (line, END_MAX_T) /\
    last line None = Some (4, 0, 0).
Proof.
  exists (mkpar 1 0 (mkpt (-100) (-100) (-100)) (mkpt 100 100 100) 0 50 0 10 false true 0), (repeat None 101).
  exists (map (fun x : Q => Some (x, 0, 0)) [0; 1; 2; 3; 4]).
  split; [reflexivity|]. split; [reflexivity|]. split; [reflexivity|]. split.
  - intros h s ds dt. cbn. split; ring.
  - split; vm_compute; reflexivity.
Qed.
Print Assumptions max_t_stops_early_refuted.

(** ** C15: topology *)
Lemma traced_kind {H} (integ : integrator H) P n o st why h :
  traced integ P n o st why h -> exists k, kind_of why k.
Proof.
  intros T. apply traced_why in T. destruct T as [[-> _]|[[-> _]|(a & f & p & len & t & _ & R)]].
  - exists Unfinished. cbn; auto.
  - exists Unfinished. cbn; auto.
  - destruct R.
    1: exists North; reflexivity. 1: exists South; reflexivity.
    1-7: exists Outer; cbn; tauto. all: exists Unfinished; cbn; tauto.
Qed.

(** C15: the topology of a line with two ends is decided by where the ends are,
    symmetrically; a line with an unfinished end keeps its flag word, which is
    none of the topology values. *)
Theorem topology_depends_on_the_two_ends :
  forall a b ka kb, kind_of a ka -> kind_of b kb ->
    match topology_of ka kb with
    | Some v => end_flags_to_topology_msphere (Z.lor a b) = v
    | None => end_flags_to_topology_msphere (Z.lor a b) = Z.lor a b /\ (4096 <= Z.lor a b)%Z
    end.
Proof.
  intros a b ka kb Ha Hb.
  destruct ka, kb; cbn in Ha, Hb;
    repeat match goal with
           | h : _ \/ _ |- _ => destruct h
           | h : False |- _ => destruct h
           end; subst; vm_compute; try reflexivity; split; try reflexivity; discriminate.
Qed.
Print Assumptions topology_depends_on_the_two_ends.

Example topology_nonvacuous :
  kind_of 3 North /\ kind_of 40 Outer /\ end_flags_to_topology_msphere (Z.lor 3 40) = TOPOLOGY_MS_OPEN_NORTH.
Proof. repeat split; cbn; auto. Qed.

(** C15, end to end: the topology of a streamline traced in both directions. *)
Theorem streamline_topology :
  forall (H : Type) (integ : integrator H) (P : params) (trim_t : Q) buf (h : H) (x0 : pt) line flags buf' h',
    length buf = (2 * p_maxit P + 1)%nat -> p_back P = true -> p_fwd P = true ->
    streamline integ P trim_t buf h x0 = Some (SLine line flags buf' h') ->
    exists back fwd why_b why_f h1 kb kf,
      line = map Some (rev (points back) ++ x0 :: points fwd) /\
      traced integ P (p_maxit P) (start P (-1) x0 h) back why_b h1 /\ kind_of why_b kb /\
      traced integ P (p_maxit P) (start P 1 x0 h1) fwd why_f h' /\ kind_of why_f kf /\
      match topology_of kb kf with
      | Some v => end_flags_to_topology_msphere flags = v
      | None => end_flags_to_topology_msphere flags = flags /\ (4096 <= flags)%Z
      end.
Proof.
  intros H integ P trim_t buf h x0 line flags buf' h' Hb B F E.
  destruct (streamline_is_a_line_through_its_seed H integ P trim_t buf h x0 Hb)
    as (back & fwd & wb & wf & h1 & h2 & buf2 & E' & _ & _ & _ & Tb & Tf).
  rewrite E in E'. injection E' as -> -> -> ->. rewrite B in Tb. rewrite F in Tf.
  destruct (traced_kind _ _ _ _ _ _ _ Tb) as [kb Kb]. destruct (traced_kind _ _ _ _ _ _ _ Tf) as [kf Kf].
  exists back, fwd, wb, wf, h1, kb, kf. split; [reflexivity|]. split; [exact Tb|]. split; [exact Kb|].
  split; [exact Tf|]. split; [exact Kf|]. apply topology_depends_on_the_two_ends; assumption.
Qed.
Print Assumptions streamline_topology.

(** C15: every flag word gets one of the four topologies, or has the OTHER bit
    and is passed through (and is then at least 4096). *)
Theorem topology_total :
  forall flags : Z, (0 <= flags)%Z ->
    In (end_flags_to_topology_msphere flags)
       [TOPOLOGY_MS_CLOSED; TOPOLOGY_MS_OPEN_NORTH; TOPOLOGY_MS_OPEN_SOUTH; TOPOLOGY_MS_SW] \/
    (Z.testbit flags 12 = true /\ end_flags_to_topology_msphere flags = flags /\ (4096 <= flags)%Z).
Proof.
  intros flags Hf. unfold end_flags_to_topology_msphere. cbv zeta.
  destruct (Z.land flags END_OTHER =? 0)%Z eqn:E; cbn [negb].
  - left. repeat match goal with |- context [if ?c then _ else _] => destruct c end; cbn [In]; auto 8.
  - right. assert (T : Z.testbit flags 12 = true).
    { destruct (Z.testbit flags 12) eqn:T; auto. exfalso. apply Z.eqb_neq in E. apply E.
      apply Z.bits_inj'. intros n Hn. rewrite Z.land_spec, Z.bits_0.
      change END_OTHER with (2 ^ 12)%Z. rewrite Z.pow2_bits_eqb by lia.
      destruct (Z.eqb_spec 12 n); [subst; rewrite T; reflexivity|apply andb_false_r]. }
    split; [exact T|]. split; [reflexivity|].
    destruct (Z.lt_ge_cases flags 4096) as [L|G]; [|exact G]. exfalso.
    assert (flags = 0 \/ 0 < flags)%Z as [->|Pos] by lia; [discriminate|].
    rewrite Z.bits_above_log2 in T; [discriminate|lia|].
    apply Z.log2_lt_pow2; [lia|]. exact L.
Qed.
Print Assumptions topology_total.

Example topology_total_nonvacuous :
  end_flags_to_topology_msphere 0 = TOPOLOGY_MS_SW /\ end_flags_to_topology_msphere 12288 = 12288%Z /\
  end_flags_to_topology_msphere 7 = TOPOLOGY_MS_CLOSED.
Proof. repeat split. Qed.

(** C15: the colour of a line is decided by its topology: the four topologies
    have distinct colours, none of them the default colour of unfinished lines. *)
Theorem topology_colours_are_distinct :
  forall ts bad i t c, nth_error ts i = Some t -> nth_error (topology2color ts bad) i = Some c ->
    length (topology2color ts bad) = length ts /\
    (In t [TOPOLOGY_MS_CLOSED; TOPOLOGY_MS_OPEN_NORTH; TOPOLOGY_MS_OPEN_SOUTH; TOPOLOGY_MS_SW] ->
       c <> (0, 0, 0)%Z /\
       forall j t' c', nth_error ts j = Some t' -> nth_error (topology2color ts bad) j = Some c' ->
         In t' [TOPOLOGY_MS_CLOSED; TOPOLOGY_MS_OPEN_NORTH; TOPOLOGY_MS_OPEN_SOUTH; TOPOLOGY_MS_SW] ->
         c = c' -> t = t') /\
    (~ In t [TOPOLOGY_MS_CLOSED; TOPOLOGY_MS_OPEN_NORTH; TOPOLOGY_MS_OPEN_SOUTH; TOPOLOGY_MS_SW] ->
       c = match bad with Some b => b | None => (0, 0, 0)%Z end).
Proof.
  intros ts bad i t c Ht Hc. unfold topology2color in *. rewrite map_length. split; [reflexivity|].
  rewrite nth_error_map, Ht in Hc. cbn [option_map] in Hc. injection Hc as <-.
  split.
  - intros It. split.
    + cbn [In] in It. destruct It as [<-|[<-|[<-|[<-|[]]]]]; discriminate.
    + intros j t' c' Ht' Hc' It'. rewrite nth_error_map, Ht' in Hc'. cbn [option_map] in Hc'.
      injection Hc' as <-.
      cbn [In] in It, It'. destruct It as [<-|[<-|[<-|[<-|[]]]]], It' as [<-|[<-|[<-|[<-|[]]]]];
        cbn; try discriminate; reflexivity.
  - intros Nt. cbn [In] in Nt. unfold color_map_msphere. cbn [assoc].
    repeat match goal with |- context [(?a =? ?b)%Z] =>
      replace (a =? b)%Z with false by (symmetry; apply Z.eqb_neq; intros ->; apply Nt; auto 6) end.
    reflexivity.
Qed.
Print Assumptions topology_colours_are_distinct.

(** C15: a line traced in one direction only is called closed as soon as that end
    is at the inner boundary, wherever the untraced end would have gone. *)
Theorem one_sided_inner_end_is_closed :
  forall why, kind_of why North \/ kind_of why South ->
    end_flags_to_topology_msphere (Z.lor why END_NONE) = TOPOLOGY_MS_CLOSED.
Proof. intros why [K|K]; cbn in K; subst; reflexivity. Qed.
Print Assumptions one_sided_inner_end_is_closed.

(** ** C43: a call that fails *)
(** C43: while no call raises, calls do not disturb each other. *)
Theorem calls_that_return_are_independent :
  forall (F R X : Type) (calls : list (F * (F -> R + X))),
    (forall fld w, In (fld, w) calls -> exists r, w fld = inl r) ->
    calc_calls None calls =
    map (fun '(fld, w) => match w fld with inl r => Returned r | inr x => Raised x end) calls.
Proof.
  intros F R X calls. induction calls as [|[fld w] calls IH]; intros Hc; [reflexivity|].
  cbn [calc_calls calc_call map]. destruct (Hc fld w (or_introl eq_refl)) as [r E]. rewrite E.
  f_equal. apply IH. intros f g Hi. apply Hc. right; exact Hi.
Qed.
Print Assumptions calls_that_return_are_independent.

(** C43 fails: after one call whose tracing raises, every later call raises
    "Another process is doing streamlines", whatever it is asked to trace. *)
Theorem failed_call_blocks_all_later_calls_refuted :
  forall (F R X : Type) (fld : F) (w : F -> R + X) (x : X) (later : list (F * (F -> R + X))),
    w fld = inr x ->
    calc_calls None ((fld, w) :: later) = Raised x :: map (fun _ => BusyError) later.
Proof.
  intros F R X fld w x later E. cbn [calc_calls calc_call]. rewrite E. f_equal.
  induction later as [|[f g] later IH]; [reflexivity|]. cbn [calc_calls calc_call map]. f_equal. exact IH.
Qed.
Print Assumptions failed_call_blocks_all_later_calls_refuted.

Example calls_nonvacuous :
  calc_calls None [(2, fun n => if n =? 0 then inr tt else inl (10 / n)); (5, fun n => inl (10 / n))]%Z
    = [Returned 5; Returned 2]%Z /\
  calc_calls None [(0, fun n => if n =? 0 then inr tt else inl (10 / n)); (5, fun n => inl (10 / n))]%Z
    = [Raised tt; BusyError].
Proof. split; reflexivity. Qed.
