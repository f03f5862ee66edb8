(** C78: fluid elements are followed in steps of dt through the velocity interpolated in time, and curators keep the points in bounds. *)
From Verif Require Import FluidModel.
From Coq Require Import ZArith QArith List Bool Lia ZifyBool ZifyNat Sorted Lqa.
Import ListNotations.
Open Scope Z_scope.

(** ** Specification of the steps *)
Section SPEC.
Variables (F S : Type) (fld : Z -> F) (advance : F -> S -> S) (curate : F -> Z -> S -> S).
Variables (dir tstart tstop dt dti : Z) (s0 : S).
(* the time of step k *)
Definition time_of (k : nat) : Z := tstart + dir * (Z.of_nat k * dt).
(* the number of steps for one interpolation in time: dti / dt, rounded up *)
Definition per_interp : Z := (dti + dt - 1) / dt.
(* the field of step k: that of the first step of its group of steps *)
Definition field_of (k : nat) : F := fld (tstart + dir * (Z.of_nat k / per_interp * per_interp * dt)).
(* the points of step k *)
Fixpoint seeds_of (k : nat) : S :=
  match k with O => s0 | Datatypes.S m => curate (field_of m) (time_of m) (advance (field_of m) (seeds_of m)) end.
(* the number of steps: all times from tstart to tstop *)
Definition nr_steps : nat := if 0 <=? dir * (tstop - tstart) then Z.to_nat (dir * (tstop - tstart) / dt + 1) else 0.
Definition calls : list (call F S) := map (fun k => CL F S k (time_of k) (field_of k) (seeds_of k)) (seq 0 nr_steps).
End SPEC.

Section RUN.
Variables (F S : Type) (fld : Z -> F) (advance : F -> S -> S) (curate : F -> Z -> S -> S) (inplace : bool).
Variables (dir tstart tstop dt dti : Z) (s0 : S) (kept : bool).
Hypothesis Hdir : dir = 1 \/ dir = -1.
Hypothesis Hdt : 0 < dt.
Hypothesis Hdti : 0 < dti.

Notation Step := (step F S fld advance curate inplace dir tstop dt dti).
Notation Run := (run F S fld advance curate inplace dir tstop dt dti).
Notation T := (time_of dir tstart dt).
Notation M := (per_interp dt dti).
Notation Fo := (field_of F fld dir tstart dt dti).
Notation So := (seeds_of F S fld advance curate dir tstart dt dti s0).
Notation N := (nr_steps dir tstart tstop dt).

Definition mine_of (k : nat) : bool := match k with O => kept | _ => kept && inplace end.
Definition user_of (k : nat) : S :=
  match k with O => s0 | _ => if kept then (if inplace then So k else advance (Fo 0) s0) else s0 end.
Definition log_of (k : nat) : list (call F S) := map (fun k => CL F S k (T k) (Fo k) (So k)) (seq 0 k).
Definition st_of (k : nat) : state F S := ST F S (T k) k (So k) (log_of k) (mine_of k) (user_of k).
Definition cfg_of (k : nat) : cfg F S :=
  if Z.of_nat k mod M =? 0 then Outer F S (st_of k)
  else Inner F S (tstart + dir * (Z.of_nat k / M * M * dt) + dir * dti) (Fo k) (st_of k).

Lemma dd : dir * dir = 1.
Proof. destruct Hdir as [-> | ->]; reflexivity. Qed.

Lemma M_pos : 0 < M /\ (M - 1) * dt < dti <= M * dt.
Proof.
  unfold per_interp. pose proof (Z.div_mod (dti + dt - 1) dt ltac:(lia)) as E.
  pose proof (Z.mod_pos_bound (dti + dt - 1) dt Hdt) as B.
  set (q := (dti + dt - 1) / dt) in *. set (r := (dti + dt - 1) mod dt) in *.
  assert (0 < q) by (apply Z.div_str_pos; lia).
  split; [assumption|]. split; nia.
Qed.

Lemma lt_N k : (k < N)%nat <-> dir * (T k - tstop) <= 0.
Proof.
  unfold nr_steps, time_of.
  replace (dir * (tstart + dir * (Z.of_nat k * dt) - tstop)) with (dir * dir * (Z.of_nat k * dt) - dir * (tstop - tstart)) by ring.
  rewrite dd. set (D := dir * (tstop - tstart)).
  destruct (0 <=? D) eqn:E.
  - split; intros H.
    + assert (Z.of_nat k <= D / dt) by lia. pose proof (Z.mul_div_le D dt Hdt). nia.
    + assert (Z.of_nat k <= D / dt) by (apply Z.div_le_lower_bound; lia). lia.
  - split; intros H; [lia|]. nia.
Qed.

Lemma T_S k : T (Datatypes.S k) = T k + dir * dt.
Proof. unfold time_of. rewrite Nat2Z.inj_succ. ring. Qed.

Lemma log_S k : log_of (Datatypes.S k) = log_of k ++ [CL F S k (T k) (Fo k) (So k)].
Proof. unfold log_of. rewrite seq_S, map_app. reflexivity. Qed.

Lemma do_step k tn : (k < N)%nat -> dir * (T k - tn) < 0 ->
  Step (Inner F S tn (Fo k) (st_of k)) = Inner F S tn (Fo k) (st_of (Datatypes.S k)).
Proof.
  intros H1 H2. cbn [step st_of s_t]. apply lt_N in H1.
  replace (dir * (T k - tn) <? 0) with true by lia. replace (dir * (T k - tstop) <=? 0) with true by lia. cbn [andb].
  f_equal. unfold st_of. cbn [s_i s_s s_log s_mine s_user]. rewrite <- T_S, <- log_S. rewrite Nat.add_1_r.
  f_equal.
  - destruct k; cbn [mine_of]; [reflexivity|]. now destruct kept, inplace.
  - destruct k; cbn [mine_of user_of].
    + reflexivity.
    + destruct kept, inplace; reflexivity.
Qed.

Lemma run_add n m c : Run (n + m) c = Run m (Run n c).
Proof. revert c. induction n as [|n IH]; intros c; [reflexivity|]. cbn [Nat.add run]. apply IH. Qed.

Lemma mod_group k : 0 <= k -> k / M * M = k - k mod M.
Proof. intros H. pose proof (Z.div_mod k M). destruct M_pos. lia. Qed.

Lemma next_cfg k : (k < N)%nat -> exists n, Run n (cfg_of k) = cfg_of (Datatypes.S k).
Proof.
  intros H. destruct M_pos as [Mp [Mlo Mhi]].
  set (g := Z.of_nat k / M).
  pose proof (mod_group (Z.of_nat k)) as G0. fold g in G0. assert (G : g * M = Z.of_nat k - Z.of_nat k mod M) by lia. clear G0.
  pose proof (Z.mod_pos_bound (Z.of_nat k) M Mp) as B.
  set (tn := tstart + dir * (g * M * dt) + dir * dti).
  assert (C1 : dir * (T k - tn) < 0).
  { unfold tn, time_of. replace (dir * (tstart + dir * (Z.of_nat k * dt) - (tstart + dir * (g * M * dt) + dir * dti)))
      with (dir * dir * (Z.of_nat k * dt - g * M * dt - dti)) by ring. rewrite dd, G. nia. }
  (* after the step k *)
  assert (After : exists n, Run n (Inner F S tn (Fo k) (st_of (Datatypes.S k))) = cfg_of (Datatypes.S k)).
  { unfold cfg_of. rewrite Nat2Z.inj_succ. destruct (Z.succ (Z.of_nat k) mod M =? 0) eqn:E.
    - exists 1%nat. cbn [run]. cbn [step st_of s_t].
      assert (Z.of_nat k mod M = M - 1).
      { destruct (Z.eq_dec (Z.of_nat k mod M) (M - 1)) as [X|X]; [exact X|exfalso].
        assert (Y : Z.succ (Z.of_nat k) mod M = Z.of_nat k mod M + 1).
        { symmetry. apply Z.mod_unique_pos with (q := g); [lia|]. lia. }
        lia. }
      replace (dir * (T (Datatypes.S k) - tn) <? 0) with false; [reflexivity|].
      symmetry. apply Z.ltb_ge. unfold tn, time_of. rewrite Nat2Z.inj_succ.
      replace (dir * (tstart + dir * (Z.succ (Z.of_nat k) * dt) - (tstart + dir * (g * M * dt) + dir * dti)))
        with (dir * dir * (Z.succ (Z.of_nat k) * dt - g * M * dt - dti)) by ring. rewrite dd, G. nia.
    - exists 0%nat. cbn [run].
      assert (Y : Z.succ (Z.of_nat k) / M = g).
      { destruct (Z.eq_dec (Z.of_nat k mod M) (M - 1)) as [X|X].
        - exfalso. assert (Z.succ (Z.of_nat k) mod M = 0) by (symmetry; apply Z.mod_unique_pos with (q := g + 1); [lia|]; lia). lia.
        - symmetry. apply Z.div_unique_pos with (r := Z.of_nat k mod M + 1); lia. }
      rewrite Y. unfold tn. f_equal. unfold field_of. rewrite Nat2Z.inj_succ, Y. reflexivity. }
  destruct After as [n An].
  unfold cfg_of at 1. destruct (Z.of_nat k mod M =? 0) eqn:E.
  - exists (2 + n)%nat. rewrite run_add.
    replace (Run 2 (Outer F S (st_of k))) with (Inner F S tn (Fo k) (st_of (Datatypes.S k))); [exact An|].
    change (Run 2 (Outer F S (st_of k))) with (Step (Step (Outer F S (st_of k)))).
    pose proof (proj1 (lt_N k) H) as L.
    replace (Step (Outer F S (st_of k))) with (Inner F S (T k + dir * dti) (fld (T k)) (st_of k))
      by (cbn [step st_of s_t]; replace (dir * (T k - tstop) <=? 0) with true by lia; reflexivity).
    assert (E1 : T k + dir * dti = tn) by (unfold tn, time_of; rewrite G; replace (Z.of_nat k mod M) with 0 by lia; ring).
    assert (E2 : fld (T k) = Fo k).
    { unfold field_of. fold g. f_equal. unfold time_of. rewrite G. replace (Z.of_nat k mod M) with 0 by lia. ring. }
    rewrite E1, E2. symmetry. now apply do_step.
  - exists (1 + n)%nat. rewrite run_add.
    change (Run 1 (Inner F S (tstart + dir * (Z.of_nat k / M * M * dt) + dir * dti) (Fo k) (st_of k))) with (Step (Inner F S tn (Fo k) (st_of k))).
    rewrite do_step by assumption. exact An.
Qed.

Lemma reach k : (k <= N)%nat -> exists n, Run n (start F S tstart kept s0) = cfg_of k.
Proof.
  induction k as [|k IH]; intros H.
  - exists 0%nat. cbn [run]. unfold cfg_of, start, st_of. cbn [Z.of_nat]. rewrite Z.mod_0_l by (destruct M_pos; lia). cbn [Z.eqb].
    unfold time_of. cbn [Z.of_nat Z.mul]. rewrite Z.mul_0_r, Z.add_0_r. reflexivity.
  - destruct IH as [n E]; [lia|]. destruct (next_cfg k) as [m E2]; [lia|]. exists (n + m)%nat. now rewrite run_add, E.
Qed.

Lemma finish : exists n, Run n (start F S tstart kept s0) = Done F S (st_of N).
Proof.
  destruct (reach N) as [n E]; [lia|].
  assert (L : (dir * (T N - tstop) <=? 0) = false).
  { destruct (dir * (T N - tstop) <=? 0) eqn:X; [|reflexivity]. assert (N < N)%nat by (apply lt_N; lia). lia. }
  assert (O : Run 1 (Outer F S (st_of N)) = Done F S (st_of N)).
  { cbn [run step st_of s_t]. now rewrite L. }
  unfold cfg_of in E. destruct (Z.of_nat N mod M =? 0).
  - exists (n + 1)%nat. now rewrite run_add, E.
  - exists (n + (1 + 1))%nat. rewrite run_add, E, run_add.
    replace (Run 1 (Inner F S (tstart + dir * (Z.of_nat N / M * M * dt) + dir * dti) (Fo N) (st_of N))) with (Outer F S (st_of N)); [exact O|].
    cbn [run step st_of s_t]. rewrite L, andb_false_r. reflexivity.
Qed.
End RUN.

(** The callback is called once for every time tstart, tstart + dt, ... up to tstop, in this order, with the points that come from tracing and curating those
    of the step before, through the field of the beginning of the group of steps it is in; then the function ends. *)
Theorem C78_steps (F S : Type) fld advance curate inplace dir tstart tstop dt dti (s0 : S) kept :
  dir = 1 \/ dir = -1 -> 0 < dt -> 0 < dti ->
  exists n st, run F S fld advance curate inplace dir tstop dt dti n (start F S tstart kept s0) = Done F S st /\
    s_log F S st = calls F S fld advance curate dir tstart tstop dt dti s0 /\
    s_s F S st = seeds_of F S fld advance curate dir tstart dt dti s0 (nr_steps dir tstart tstop dt) /\
    (forall k, (k < nr_steps dir tstart tstop dt)%nat <-> dir * (time_of dir tstart dt k - tstop) <= 0).
Proof.
  intros H1 H2 H3. destruct (finish F S fld advance curate inplace dir tstart tstop dt dti s0 kept H1 H2 H3) as [n E].
  exists n. eexists. split; [exact E|]. split; [reflexivity|]. split; [reflexivity|]. intros k. eapply lt_N; eassumption.
Qed.

(** When every step interpolates (dti <= dt), the field of a step is that of its own time. *)
Theorem C78_own_field (F : Type) (fld : Z -> F) dir tstart dt dti k : 0 < dti <= dt ->
  field_of F fld dir tstart dt dti k = fld (time_of dir tstart dt k).
Proof.
  intros H. unfold field_of, time_of, per_interp. replace ((dti + dt - 1) / dt) with 1.
  - now rewrite Z.div_1_r, Z.mul_1_r.
  - apply Z.div_unique_pos with (r := dti - 1); lia.
Qed.

(** Refutation: the last step begins at or before tstop and is a whole dt long, so the points are always carried past tstop: followed for dt longer than
    asked when dt divides the duration.  The points here are clocks: each step adds its dt. *)
Theorem C78_overshoot_refuted dir tstart tstop dt dti kept inplace : dir = 1 \/ dir = -1 -> 0 < dt -> 0 < dti -> 0 <= dir * (tstop - tstart) ->
  exists n st, run unit Z (fun _ => tt) (fun _ s => s + dir * dt) (fun _ _ s => s) inplace dir tstop dt dti n (start unit Z tstart kept tstart) = Done unit Z st /\
    0 < dir * (s_s unit Z st - tstop) <= dt /\
    (forall q, dir * (tstop - tstart) = q * dt -> s_s unit Z st = tstop + dir * dt).
Proof.
  intros H1 H2 H3 H4.
  destruct (finish unit Z (fun _ => tt) (fun _ s => s + dir * dt) (fun _ _ s => s) inplace dir tstart tstop dt dti tstart kept H1 H2 H3) as [n E].
  exists n. eexists. split; [exact E|]. unfold st_of. cbn [s_s].
  assert (C : forall k, seeds_of unit Z (fun _ => tt) (fun _ s => s + dir * dt) (fun _ _ s => s) dir tstart dt dti tstart k = time_of dir tstart dt k).
  { induction k as [|k IH].
    - cbn [seeds_of]. unfold time_of. cbn [Z.of_nat]. ring.
    - cbn [seeds_of]. rewrite IH. symmetry. unfold time_of. rewrite Nat2Z.inj_succ. ring. }
  rewrite C. unfold nr_steps. replace (0 <=? dir * (tstop - tstart)) with true by lia.
  set (D := dir * (tstop - tstart)) in *.
  assert (DD : dir * dir = 1) by (destruct H1 as [-> | ->]; reflexivity).
  assert (TS : tstop = tstart + dir * D) by (unfold D; replace (dir * (dir * (tstop - tstart))) with (dir * dir * (tstop - tstart)) by ring; rewrite DD; ring).
  pose proof (Z.div_mod D dt ltac:(lia)) as DM. pose proof (Z.mod_pos_bound D dt H2) as B.
  pose proof (Z.div_pos D dt H4 H2) as P.
  unfold time_of. rewrite Z2Nat.id by lia. split.
  - replace (dir * (tstart + dir * ((D / dt + 1) * dt) - tstop)) with (dir * dir * ((D / dt + 1) * dt) - D) by (unfold D; ring).
    rewrite DD. nia.
  - intros q Hq. rewrite Hq, Z.div_mul by lia. rewrite TS, Hq. ring.
Qed.

(** Refutation: the points of a generator that keeps them are overwritten: by the points after the first step, or, with a curator that changes the points
    in place, by the last ones. *)
Theorem C78_seeds_refuted (F S : Type) fld advance curate inplace dir tstart tstop dt dti (s0 : S) kept :
  dir = 1 \/ dir = -1 -> 0 < dt -> 0 < dti -> 0 <= dir * (tstop - tstart) ->
  exists n st, run F S fld advance curate inplace dir tstop dt dti n (start F S tstart kept s0) = Done F S st /\
    s_user F S st = if kept then if inplace then s_s F S st else advance (fld tstart) s0 else s0.
Proof.
  intros H1 H2 H3 H4. destruct (finish F S fld advance curate inplace dir tstart tstop dt dti s0 kept H1 H2 H3) as [n E].
  exists n. eexists. split; [exact E|]. unfold st_of. cbn [s_user s_s].
  assert (P : (0 < nr_steps dir tstart tstop dt)%nat).
  { unfold nr_steps. replace (0 <=? dir * (tstop - tstart)) with true by lia. pose proof (Z.div_pos _ dt H4 H2). lia. }
  destruct (nr_steps dir tstart tstop dt) as [|m] eqn:X; [lia|]. cbn [user_of]. destruct kept, inplace; try reflexivity.
  f_equal. unfold field_of. cbn [Z.of_nat]. rewrite Z.div_0_l; [f_equal; ring|]. assert (0 < per_interp dt dti) by (exact (proj1 (M_pos F S fld advance curate dt dti s0 H2 H3))). lia.
Qed.

(** Refutation: with dt_interp = 0, or tstart and tstop the same time, the function never ends. *)
Theorem C78_hang_refuted (F S : Type) fld advance curate inplace dir tstart tstop dt dti (s0 : S) kept :
  (dti = 0 /\ 0 <= dir * (tstop - tstart)) \/ dir = 0 ->
  forall n st, run F S fld advance curate inplace dir tstop dt dti n (start F S tstart kept s0) <> Done F S st.
Proof.
  intros H. assert (X : forall n s, s_t F S s = tstart -> forall st, run F S fld advance curate inplace dir tstop dt dti n (Outer F S s) <> Done F S st).
  { induction n as [n IH] using lt_wf_ind. intros s Es st. destruct n as [|[|n]].
    - discriminate.
    - cbn [run step]. replace (dir * (s_t F S s - tstop) <=? 0) with true by (rewrite Es; nia). discriminate.
    - cbn [run]. replace (step F S fld advance curate inplace dir tstop dt dti (step F S fld advance curate inplace dir tstop dt dti (Outer F S s))) with (Outer F S s).
      + apply IH; [lia|exact Es].
      + cbn [step]. replace (dir * (s_t F S s - tstop) <=? 0) with true by (rewrite Es; nia). cbn [step].
        replace (dir * (s_t F S s - (s_t F S s + dir * dti)) <? 0) with false by nia. reflexivity. }
  intros n st. unfold start. now apply X.
Qed.

(** ** The fields at a time *)
Definition ordered (dir : Z) (ts : list Z) : Prop := forall i j, (i < j < length ts)%nat -> 0 < dir * (nth j ts 0 - nth i ts 0).
(* between (t0, x0) and (t1, x1) *)
Definition linear (t0 : Z) (x0 : Q) (t1 : Z) (x1 : Q) (t : Z) : Q :=
  (x0 + inject_Z (t - t0) / inject_Z (t1 - t0) * (x1 - x0))%Q.

Lemma ordered_tl dir a ts : ordered dir (a :: ts) -> ordered dir ts.
Proof. intros H i j L. apply (H (Datatypes.S i) (Datatypes.S j)). cbn [length]. lia. Qed.

Lemma before_count dir ts t : ordered dir ts -> forall i, (i < length ts)%nat ->
  ((i < length (filter (fun s => (dir * (s - t) <? 0)%Z) ts))%nat <-> dir * (nth i ts 0 - t) < 0).
Proof.
  induction ts as [|a ts IH]; intros H i L; cbn [length] in *; [lia|].
  cbn [filter]. destruct (dir * (a - t) <? 0) eqn:E.
  - cbn [length]. destruct i as [|i]; cbn [nth]; [lia|]. rewrite <- IH by (try lia; eapply ordered_tl; eassumption). lia.
  - assert (N : filter (fun s => (dir * (s - t) <? 0)%Z) ts = []).
    { destruct (filter (fun s => (dir * (s - t) <? 0)%Z) ts) as [|b f] eqn:X; [reflexivity|exfalso].
      assert (I : In b (filter (fun s => (dir * (s - t) <? 0)%Z) ts)) by (rewrite X; now left).
      apply filter_In in I as [I1 I2]. apply (In_nth _ _ 0) in I1 as [j [J1 J2]].
      pose proof (H 0%nat (Datatypes.S j)) as O. cbn [nth length] in O. rewrite J2 in O. assert (0 < dir * (b - a)) by (apply O; lia). nia. }
    rewrite N. cbn [length]. split; [lia|]. intros C. exfalso. destruct i as [|i]; cbn [nth] in C; [lia|].
    pose proof (H 0%nat (Datatypes.S i)) as O. cbn [nth length] in O. assert (0 < dir * (nth i ts 0 - a)) by (apply O; lia). nia.
Qed.

Lemma filter_le {A : Type} (f : A -> bool) l : (length (filter f l) <= length l)%nat.
Proof. induction l as [|a l IH]; cbn [filter length]; [lia|]. destruct (f a); cbn [length]; lia. Qed.

(** The two files used for a time are the neighbouring ones it lies between; before the first they are the first two, and after the last only the last. *)
Theorem C78_bracket dir ts t : ordered dir ts -> (0 < length ts)%nat ->
  let i := idx0 dir ts t in let j := idx1 (length ts) i in
  (dir * (nth 0 ts 0 - t) < 0 -> 0 <= dir * (nth (length ts - 1) ts 0 - t) ->
     j = Datatypes.S i /\ (j < length ts)%nat /\ dir * (nth i ts 0 - t) < 0 <= dir * (nth j ts 0 - t)) /\
  (0 <= dir * (nth 0 ts 0 - t) -> i = 0%nat) /\
  (dir * (nth (length ts - 1) ts 0 - t) < 0 -> i = (length ts - 1)%nat /\ j = i).
Proof.
  intros H L. cbv zeta. unfold idx0, idx1.
  pose proof (before_count dir ts t H) as B. pose proof (filter_le (fun s => (dir * (s - t) <? 0)%Z) ts) as FL.
  set (c := length (filter (fun s => (dir * (s - t) <? 0)%Z) ts)) in *. split; [|split].
  - intros H1 H2. assert (0 < c)%nat by (apply B; lia).
    assert (c <= length ts - 1)%nat by (pose proof (B (length ts - 1)%nat); lia).
    replace (Nat.min (c - 1 + 1) (length ts - 1)) with c by lia. split; [lia|]. split; [lia|]. split.
    + apply B; lia.
    + pose proof (B c). lia.
  - intros H1. pose proof (B 0%nat). lia.
  - intros H1. assert (length ts - 1 < c)%nat by (apply B; [lia|assumption]). lia.
Qed.

Lemma inj_nz x : x <> 0 -> ~ (inject_Z x == 0)%Q.
Proof. intros H C. unfold Qeq in C. cbn in C. lia. Qed.

(** Refutation: the weights of the two fields are swapped.  The field used at a time between two files is the linear interpolation at the mirrored time
    t0 + t1 - t: the right value only in the middle and where the two fields agree, and at the time of a file (but the first) the field of the file before. *)
Theorem C78_interp_refuted dir frames i t k : dir = 1 \/ dir = -1 -> ordered dir (map fst frames) -> (Datatypes.S i < length frames)%nat ->
  let t0 := fst (nth i frames (0, fun _ => 0%Q)) in let g0 := snd (nth i frames (0, fun _ => 0%Q)) in
  let t1 := fst (nth (Datatypes.S i) frames (0, fun _ => 0%Q)) in let g1 := snd (nth (Datatypes.S i) frames (0, fun _ => 0%Q)) in
  dir * (t0 - t) < 0 <= dir * (t1 - t) \/ (i = 0%nat /\ t = t0) ->
  (field_at dir frames t k == linear t0 (g0 k) t1 (g1 k) (t0 + t1 - t))%Q /\
  ((field_at dir frames t k == linear t0 (g0 k) t1 (g1 k) t)%Q <-> 2 * t = t0 + t1 \/ (g0 k == g1 k)%Q) /\
  (t = t1 -> (field_at dir frames t k == g0 k)%Q) /\
  (t = t0 -> (field_at dir frames t k == g1 k)%Q).
Proof.
  intros Hd O L. cbv zeta. set (d := (0, fun _ : nat => 0%Q)).
  set (f0 := nth i frames d). set (f1 := nth (Datatypes.S i) frames d). intros Ht.
  assert (Len : length (map fst frames) = length frames) by apply map_length.
  assert (N0 : nth i (map fst frames) 0 = fst f0) by (apply (map_nth fst frames d i)).
  assert (N1 : nth (Datatypes.S i) (map fst frames) 0 = fst f1) by (apply (map_nth fst frames d (Datatypes.S i))).
  assert (T01 : 0 < dir * (fst f1 - fst f0)) by (rewrite <- N0, <- N1; apply O; lia).
  assert (I0 : idx0 dir (map fst frames) t = i).
  { unfold idx0. pose proof (before_count dir (map fst frames) t O) as B.
    set (c := length (filter (fun s => (dir * (s - t) <? 0)%Z) (map fst frames))) in *. destruct Ht as [[A1 A2]|[A1 A2]].
    - pose proof (B i) as B0. pose proof (B (Datatypes.S i)) as B1. rewrite N0 in B0. rewrite N1 in B1. lia.
    - subst i. pose proof (B 0%nat) as B0. rewrite N0 in B0. lia. }
  assert (E : field_at dir frames t k =
    axpby (frac t (fst f0) (fst f1)) (snd f0) (1 - frac t (fst f0) (fst f1))%Q (snd f1) k).
  { unfold field_at. rewrite I0. unfold idx1. replace (Nat.min (i + 1) (length frames - 1)) with (Datatypes.S i) by lia.
    replace (i =? Datatypes.S i)%nat with false by lia. reflexivity. }
  rewrite E. unfold axpby, frac, linear. assert (NE : fst f1 - fst f0 <> 0) by (intro X; rewrite X in T01; lia).
  replace (fst f0 =? fst f1) with false by lia.
  generalize (snd f0 k) as a. generalize (snd f1 k) as b. intros b a.
  set (t0 := fst f0) in *. set (t1 := fst f1) in *. pose proof (inj_nz _ NE) as NZ.
  assert (M : (inject_Z (t0 + t1 - t - t0) == inject_Z (t1 - t0) - inject_Z (t - t0))%Q).
  { unfold Qminus. rewrite <- inject_Z_opp, <- inject_Z_plus. replace (t1 - t0 + - (t - t0)) with (t0 + t1 - t - t0) by ring. reflexivity. }
  split; [|split; [|split]].
  - rewrite M. field. exact NZ.
  - split.
    + intros H. destruct (Z.eq_dec (2 * t) (t0 + t1)) as [X|X]; [now left|right].
      assert (Y : ((inject_Z (t1 - t0) - inject_Z 2 * inject_Z (t - t0)) * (b - a) == 0)%Q).
      { setoid_replace ((inject_Z (t1 - t0) - inject_Z 2 * inject_Z (t - t0)) * (b - a))%Q with
          (inject_Z (t1 - t0) * ((inject_Z (t - t0) / inject_Z (t1 - t0) * a + (1 - inject_Z (t - t0) / inject_Z (t1 - t0)) * b) -
             (a + inject_Z (t - t0) / inject_Z (t1 - t0) * (b - a))))%Q by (field; exact NZ).
        rewrite H. ring. }
      apply Qmult_integral in Y as [Y|Y].
      * exfalso. rewrite <- inject_Z_mult in Y. unfold Qminus in Y. rewrite <- inject_Z_opp, <- inject_Z_plus in Y.
        unfold Qeq, inject_Z in Y. cbn [Qnum Qden] in Y. lia.
      * Lqa.lra.
    + intros [H|H].
      * assert (X : (inject_Z (t1 - t0) == inject_Z 2 * inject_Z (t - t0))%Q).
        { rewrite <- inject_Z_mult. replace (2 * (t - t0)) with (t1 - t0) by lia. reflexivity. }
        assert (NT : ~ (inject_Z (t - t0) == 0)%Q) by (apply inj_nz; lia).
        rewrite X. field. exact NT.
      * rewrite H. field. exact NZ.
  - intros ->. field. exact NZ.
  - intros ->. replace (t0 - t0) with 0 by ring. field. exact NZ.
Qed.

(** A field that does not change in time is used as it is. *)
Theorem C78_steady dir frames t g k : frames <> [] -> (forall f, In f frames -> (snd f k == g)%Q) ->
  (field_at dir frames t k == g)%Q.
Proof.
  intros Hn H. unfold field_at. set (i := idx0 dir (map fst frames) t).
  assert (L : (i < length frames)%nat).
  { unfold i, idx0. pose proof (filter_le (fun s => (dir * (s - t) <? 0)%Z) (map fst frames)) as B. rewrite map_length in B.
    assert (P : (0 < length frames)%nat) by (destruct frames; [congruence|cbn [length]; lia]).
    revert B. generalize (length (filter (fun s => (dir * (s - t) <? 0)%Z) (map fst frames))). intros c B. lia. }
  assert (L1 : (idx1 (length frames) i < length frames)%nat) by (unfold idx1; lia).
  destruct (i =? idx1 (length frames) i)%nat.
  - apply H, nth_In, L.
  - unfold axpby. rewrite (H _ (nth_In _ _ L)), (H _ (nth_In _ _ L1)). ring.
Qed.

(** ** The direction and the order of the files *)
Lemma diffs_ordered dir ts : dir = 1 \/ dir = -1 ->
  existsb (fun d => negb (Z.sgn d =? dir)) (diffs ts) = false <-> ordered dir ts.
Proof.
  intros Hd. induction ts as [|a ts IH].
  - cbn. split; [|reflexivity]. intros _ i j L. cbn [length] in L. lia.
  - destruct ts as [|b ts].
    + cbn. split; [|reflexivity]. intros _ i j L. cbn [length] in L. lia.
    + cbn [diffs existsb]. rewrite orb_false_iff. change (diffs (b :: ts)) with (diffs (b :: ts)) in *. split.
      * intros [H1 H2]. apply IH in H2. assert (AB : 0 < dir * (b - a)) by (destruct Hd as [-> | ->]; lia).
        intros i j L. destruct i as [|i]; destruct j as [|j]; try lia.
        -- cbn [nth]. destruct j as [|j]; cbn [nth]; [assumption|].
           pose proof (H2 0%nat (Datatypes.S j)) as X. cbn [nth length] in X, L. assert (0 < dir * (nth j ts 0 - b)) by (apply X; lia). nia.
        -- apply (H2 i j). cbn [length] in *. lia.
      * intros H. split.
        -- pose proof (H 0%nat 1%nat) as X. cbn [nth length] in X. assert (0 < dir * (b - a)) by (apply X; lia).
           destruct Hd as [-> | ->]; lia.
        -- apply IH. eapply ordered_tl; eassumption.
Qed.

Lemma ordered_rev dir ts : ordered dir ts -> ordered (- dir) (rev ts).
Proof.
  intros H i j L. rewrite rev_length in L. rewrite !rev_nth by lia.
  pose proof (H (length ts - Datatypes.S j)%nat (length ts - Datatypes.S i)%nat). lia.
Qed.

(* the direction asked for; d: that of the files *)
Definition wanted (d : Z) (o : opts) : Z :=
  match o_tstart o, o_tstop o with
  | Some a, Some b => if a <? b then 1 else -1
  | _, _ => match o_dt o, o_duration o with
            | Some x, Some y => if (x <? 0) || (y <? 0) then -1 else d
            | Some x, None | None, Some x => if x <? 0 then -1 else d
            | None, None => d
            end
  end.

(* the smallest distance of neighbouring times *)
Definition smallest_gap (ts : list Z) (g : Z) : Prop :=
  (forall i, (Datatypes.S i < length ts)%nat -> g <= Z.abs (nth (Datatypes.S i) ts 0 - nth i ts 0)) /\
  (exists i, (Datatypes.S i < length ts)%nat /\ g = Z.abs (nth (Datatypes.S i) ts 0 - nth i ts 0)).

Lemma zmin_spec d l : l <> [] -> (forall x, In x l -> zmin d l <= x) /\ In (zmin d l) l.
Proof.
  revert d. induction l as [|x l IH]; intros d H; [congruence|]. cbn [zmin]. destruct l as [|y l].
  - cbn [zmin In]. rewrite Z.min_id. split; [intros z [->|[]]; lia|now left].
  - destruct (IH x ltac:(discriminate)) as [A B]. split.
    + intros z [->|Hz]; [lia|]. specialize (A z Hz). lia.
    + destruct (Z.min_spec x (zmin x (y :: l))) as [[_ ->]|[_ ->]]; [now left|now right].
Qed.

Lemma diffs_nth ts : length (diffs ts) = (length ts - 1)%nat /\
  forall i, (Datatypes.S i < length ts)%nat -> nth i (diffs ts) 0 = nth (Datatypes.S i) ts 0 - nth i ts 0.
Proof.
  induction ts as [|a [|b ts] IH]; [split; [reflexivity|cbn [length]; lia]|split; [reflexivity|cbn [length]; lia]|].
  destruct IH as [IH1 IH2]. change (diffs (a :: b :: ts)) with ((b - a) :: diffs (b :: ts)). split.
  - cbn [length] in *. rewrite IH1. lia.
  - intros i L. destruct i as [|i]; [reflexivity|]. change (nth (Datatypes.S i) ((b - a) :: diffs (b :: ts)) 0) with (nth i (diffs (b :: ts)) 0).
    rewrite IH2 by (cbn [length] in *; lia). reflexivity.
Qed.

Lemma min_dt_gap ts unit : (2 <= length ts)%nat -> smallest_gap ts (min_dt ts unit).
Proof.
  intros L. unfold min_dt. destruct (diffs_nth ts) as [D1 D2]. set (d := diffs ts) in *.
  assert (Nd : map Z.abs d <> []) by (intros C; apply map_eq_nil in C; rewrite C in D1; cbn [length] in D1; lia).
  assert (EM : match d with [] => unit | z :: l => zmin unit (map Z.abs (z :: l)) end = zmin unit (map Z.abs d)) by (destruct d; [now contradiction Nd|reflexivity]).
  rewrite EM. clear EM. destruct (zmin_spec unit (map Z.abs d) Nd) as [A B]. split.
  - intros i Li. apply A. rewrite <- D2 by assumption. apply in_map. apply nth_In. lia.
  - apply in_map_iff in B as [x [B1 B2]]. apply (In_nth _ _ 0) in B2 as [i [I1 I2]]. exists i. split; [lia|]. rewrite <- D2 by lia. congruence.
Qed.

(** Files in order of time, forwards or backwards, are put into the order of the direction asked for: from tstart to tstop if both are given, backwards
    for a negative dt or duration, and otherwise that of the files; the ends of the range are those given, or of the selection. *)
Theorem C78_setup {G : Type} (frames : list (Z * G)) r0 r1 unit o d : d = 1 \/ d = -1 -> (2 <= length frames)%nat ->
  ordered d (map fst frames) -> (o_tstart o = None \/ o_tstop o = None \/ o_tstart o <> o_tstop o) ->
  exists p, setup frames r0 r1 unit o = Some p /\ p_dir p = wanted d o /\
    p_frames p = (if wanted d o =? d then frames else rev frames) /\ ordered (p_dir p) (map fst (p_frames p)) /\
    p_start p = odflt (o_tstart o) (if wanted d o =? d then r0 else r1) /\
    (forall x, o_tstop o = Some x -> p_stop p = x) /\
    (forall x, o_tstop o = None -> o_duration o = Some x -> p_stop p = p_start p + wanted d o * Z.abs x) /\
    (o_tstop o = None -> o_duration o = None -> p_stop p = if wanted d o =? d then r1 else r0) /\
    (forall x, o_dt o = Some x -> p_dt p = Z.abs x) /\ (o_dt o = None -> smallest_gap (map fst frames) (p_dt p)) /\
    (forall x, o_dti o = Some x -> p_dti p = Z.abs x) /\ (o_dti o = None -> p_dti p = p_dt p).
Proof.
  intros Hd L O Ho. pose proof L as L0. destruct frames as [|f0 [|f1 fr]]; cbn [length] in L; try lia.
  set (frames := f0 :: f1 :: fr) in *.
  assert (SD : Z.sgn (last (map fst frames) 0 - fst f0) = d).
  { assert (X : last (map fst frames) 0 = nth (length frames - 1) (map fst frames) 0).
    { assert (Y : forall l : list Z, last l 0 = nth (length l - 1) l 0).
      { induction l as [|a [|b l] IH]; [reflexivity|reflexivity|]. change (last (a :: b :: l) 0) with (last (b :: l) 0). rewrite IH. cbn [length].
        replace (Datatypes.S (Datatypes.S (length l)) - 1)%nat with (Datatypes.S (Datatypes.S (length l) - 1)) by lia. reflexivity. }
      rewrite Y, map_length. reflexivity. }
    rewrite X. pose proof (O 0%nat (length frames - 1)%nat) as Y. rewrite map_length in Y. unfold frames in Y at 1 2 3. cbn [length] in Y.
    change (nth 0 (map fst frames) 0) with (fst f0) in Y. assert (Z0 : 0 < d * (nth (length frames - 1) (map fst frames) 0 - fst f0)) by (apply Y; lia).
    set (q := nth (length frames - 1) (map fst frames) 0) in *. destruct Hd as [-> | ->]; lia. }
  set (w := match o_tstart o, o_tstop o with
            | Some a, Some b => Z.sgn (b - a)
            | _, _ => if neg (o_dt o) || neg (o_duration o) then -1 else if d =? 0 then 1 else d end).
  assert (W : w = wanted d o).
  { unfold w, wanted. destruct (o_tstart o) as [a|], (o_tstop o) as [b|].
    - assert (a <> b) by (destruct Ho as [Ho|[Ho|Ho]]; congruence). destruct (a <? b) eqn:E; lia.
    - destruct (o_dt o), (o_duration o); cbn [neg]; rewrite ?orb_false_r; cbn [orb]; replace (d =? 0) with false by lia; reflexivity.
    - destruct (o_dt o), (o_duration o); cbn [neg]; rewrite ?orb_false_r; cbn [orb]; replace (d =? 0) with false by lia; reflexivity.
    - destruct (o_dt o), (o_duration o); cbn [neg]; rewrite ?orb_false_r; cbn [orb]; replace (d =? 0) with false by lia; reflexivity. }
  assert (Wd : wanted d o = 1 \/ wanted d o = -1).
  { unfold wanted. destruct (o_tstart o) as [a|], (o_tstop o) as [b|]; [destruct (a <? b); lia| | |];
      destruct (o_dt o) as [x|], (o_duration o) as [y|]; try (destruct ((x <? 0) || (y <? 0)); lia); try (destruct (x <? 0); lia); try (destruct (y <? 0); lia); lia. }
  set (same := wanted d o =? d).
  assert (FL : ((0 <? wanted d o) && (d <? 0)) || ((wanted d o <? 0) && (0 <? d)) = negb same) by (unfold same; lia).
  assert (OR : ordered (wanted d o) (map fst (if negb same then rev frames else frames))).
  { destruct same eqn:E; unfold same in E; cbn [negb].
    - replace (wanted d o) with d by lia. exact O.
    - rewrite map_rev. replace (wanted d o) with (- d) by lia. now apply ordered_rev. }
  unfold setup. fold frames. unfold frames at 1. cbv zeta. rewrite SD. fold w. rewrite W, FL.
  rewrite (proj2 (diffs_ordered _ _ Wd) OR).
  eexists. split; [reflexivity|]. cbn [p_dir p_frames p_start p_stop p_dt p_dti].
  split; [reflexivity|]. split; [now destruct same|]. split; [exact OR|]. split; [now destruct same|].
  split; [intros x ->; reflexivity|]. split; [intros x -> ->; now destruct same|]. split; [intros -> ->; now destruct same|].
  split; [intros x ->; reflexivity|]. split; [intros ->; apply min_dt_gap; rewrite map_length; exact L0|].
  split; [intros x ->; reflexivity|]. intros ->; reflexivity.
Qed.

(** Files that are not in order of time, either way, are refused. *)
Theorem C78_setup_refuses {G : Type} (frames : list (Z * G)) r0 r1 unit o p : setup frames r0 r1 unit o = Some p ->
  (o_tstart o = None \/ o_tstop o = None \/ o_tstart o <> o_tstop o) ->
  ordered (p_dir p) (map fst (p_frames p)) /\ (ordered 1 (map fst frames) \/ ordered (-1) (map fst frames)).
Proof.
  intros H Ho. destruct frames as [|f0 fr]; [discriminate|]. set (frames := f0 :: fr) in *. unfold setup in H. fold frames in H. unfold frames in H at 1.
  cbv zeta in H. set (sd := Z.sgn (last (map fst frames) 0 - fst f0)) in *.
  set (w := match o_tstart o, o_tstop o with
            | Some a, Some b => Z.sgn (b - a)
            | _, _ => if neg (o_dt o) || neg (o_duration o) then -1 else if sd =? 0 then 1 else sd end) in *.
  assert (Wd : w = 1 \/ w = -1).
  { unfold w. destruct (o_tstart o) as [a|], (o_tstop o) as [b|].
    - assert (a <> b) by (destruct Ho as [Ho|[Ho|Ho]]; congruence). lia.
    - destruct (neg (o_dt o) || neg (o_duration o)); [lia|]. destruct (sd =? 0) eqn:E; unfold sd in *; lia.
    - destruct (neg (o_dt o) || neg (o_duration o)); [lia|]. destruct (sd =? 0) eqn:E; unfold sd in *; lia.
    - destruct (neg (o_dt o) || neg (o_duration o)); [lia|]. destruct (sd =? 0) eqn:E; unfold sd in *; lia. }
  set (fl := ((0 <? w) && (sd <? 0)) || ((w <? 0) && (0 <? sd))) in *.
  destruct (existsb (fun d => negb (Z.sgn d =? w)) (diffs (map fst (if fl then rev frames else frames)))) eqn:E; [discriminate|].
  apply (diffs_ordered _ _ Wd) in E.
  injection H as <-. cbn [p_dir p_frames]. split; [exact E|]. destruct fl.
  - rewrite map_rev in E. apply ordered_rev in E. rewrite rev_involutive in E. destruct Wd as [Wd|Wd]; rewrite Wd in E; [right|left]; exact E.
  - destruct Wd as [Wd|Wd]; rewrite Wd in E; [left|right]; exact E.
Qed.

(** ** Curators *)
(* in the box and, when asked for (a radius that is not 0), not inside the inner sphere and not outside the outer one *)
Definition inside (b : bounds) (p : pt) : Prop :=
  let '(x, y, z) := p in let '(xl, yl, zl) := b_lo b in let '(xh, yh, zh) := b_hi b in
  (xl <= x <= xh /\ yl <= y <= yh /\ zl <= z <= zh)%Q /\
  (forall r, b_in b = Some r -> ~ (r == 0)%Q -> (r * r <= x * x + y * y + z * z)%Q) /\
  (forall r, b_out b = Some r -> ~ (r == 0)%Q -> (x * x + y * y + z * z <= r * r)%Q).

Lemma qlt_f a b : qlt a b = false <-> (b <= a)%Q.
Proof. unfold qlt. rewrite negb_false_iff. apply Qle_bool_iff. Qed.

Lemma oob_inside b p : oob b p = false <-> inside b p.
Proof.
  unfold oob, inside. destruct p as [[x y] z]. destruct b as [[[xl yl] zl] [[xh yh] zh] bi bo]. cbn [b_lo b_hi b_in b_out px py pz fst snd].
  rewrite !orb_false_iff, !qlt_f. unfold rsq, px, py, pz. cbn [fst snd].
  assert (I : (match bi with Some r => truthy bi && qlt (x * x + y * y + z * z) (r * r) | None => false end) = false <->
              (forall r, bi = Some r -> ~ (r == 0)%Q -> (r * r <= x * x + y * y + z * z)%Q)).
  { destruct bi as [r|]; [|split; [discriminate|reflexivity]]. cbn [truthy]. rewrite andb_false_iff, negb_false_iff, qlt_f. split.
    - intros H r' E N. assert (r' = r) by congruence. subst r'. destruct H as [H|H]; [now apply Qeq_bool_iff in H|exact H].
    - intros H. destruct (Qeq_bool r 0) eqn:E; [now left|right]. apply H; [reflexivity|]. intros C. apply Qeq_bool_iff in C. congruence. }
  assert (O : (match bo with Some r => truthy bo && qlt (r * r) (x * x + y * y + z * z) | None => false end) = false <->
              (forall r, bo = Some r -> ~ (r == 0)%Q -> (x * x + y * y + z * z <= r * r)%Q)).
  { destruct bo as [r|]; [|split; [discriminate|reflexivity]]. cbn [truthy]. rewrite andb_false_iff, negb_false_iff, qlt_f. split.
    - intros H r' E N. assert (r' = r) by congruence. subst r'. destruct H as [H|H]; [now apply Qeq_bool_iff in H|exact H].
    - intros H. destruct (Qeq_bool r 0) eqn:E; [now left|right]. apply H; [reflexivity|]. intros C. apply Qeq_bool_iff in C. congruence. }
  rewrite I, O. tauto.
Qed.

(** The plain curator drops exactly the points that are out of bounds; the others stay in their order. *)
Theorem C78_curator b : curate_remove b [] = [] /\
  (forall p l m, inside b p -> curate_remove b (l ++ p :: m) = curate_remove b l ++ p :: curate_remove b m) /\
  (forall p l m, ~ inside b p -> curate_remove b (l ++ p :: m) = curate_remove b (l ++ m)).
Proof.
  unfold curate_remove. split; [reflexivity|]. split; intros p l m H; rewrite !filter_app; cbn [filter].
  - apply oob_inside in H. now rewrite H.
  - destruct (oob b p) eqn:E; [reflexivity|]. apply oob_inside in E. contradiction.
Qed.

(** The replacing curator, given the places to go back to, puts back exactly the points out of bounds, each to its own place. *)
Theorem C78_replacement b orig seeds : length orig = length seeds ->
  exists r, curate_replace b (Some orig) seeds = Some (Some orig, r) /\
  length r = length seeds /\
  (forall i d, (i < length seeds)%nat -> inside b (nth i seeds d) -> nth i r d = nth i seeds d) /\
  (forall i d, (i < length seeds)%nat -> ~ inside b (nth i seeds d) -> nth i r d = nth i orig d) /\
  ((forall p, In p orig -> inside b p) -> forall p, In p r -> inside b p).
Proof.
  intros L. exists (replace b seeds orig). split; [unfold curate_replace; now rewrite L, Nat.eqb_refl|]. revert orig L.
  induction seeds as [|s t IH]; intros orig L.
  - cbn. repeat (split; [try reflexivity; intros; lia|]). intros _ p [].
  - destruct orig as [|o u]; [discriminate|]. cbn [length] in L. destruct (IH u ltac:(lia)) as [A [B [C D]]]. cbn [replace length].
    split; [now rewrite A|]. split; [|split].
    + intros i d Li Hi. destruct i as [|i]; cbn [nth] in *; [|apply B; [lia|assumption]]. apply oob_inside in Hi. now rewrite Hi.
    + intros i d Li Hi. destruct i as [|i]; cbn [nth] in *; [|apply C; [lia|assumption]]. destruct (oob b s) eqn:E; [reflexivity|].
      apply oob_inside in E. contradiction.
    + intros H p [Hp|Hp].
      * subst p. destruct (oob b s) eqn:E; [apply H; now left|]. now apply oob_inside.
      * apply D; [|exact Hp]. intros q Hq. apply H. now right.
Qed.

(** Another number of places than points is refused. *)
Theorem C78_replacement_count b orig seeds : length orig <> length seeds <-> curate_replace b (Some orig) seeds = None.
Proof.
  unfold curate_replace. destruct (length orig =? length seeds)%nat eqn:E; split; intros H; try discriminate; try reflexivity; lia.
Qed.

(** Refutation: without places to go back to, the curator takes the points it first sees, which have already been moved: at its first call nothing changes,
    even if points are out of bounds, and from then on points are put back to where they were after the first step. *)
Theorem C78_replacement_refuted b seeds : curate_replace b None seeds = Some (Some seeds, seeds).
Proof.
  unfold curate_replace. rewrite Nat.eqb_refl. do 2 f_equal. induction seeds as [|s t IH]; [reflexivity|]. cbn [replace]. rewrite IH. now destruct (oob b s).
Qed.

(* the calls of the adding curator at times ts, the points moved by mv before each call *)
Fixpoint adding (b : bounds) (fresh : list pt) (cadence : Z) (mv : Z -> list pt -> list pt) (last : option Z) (ts : list Z) (s : list pt) : list pt :=
  match ts with
  | [] => s
  | t :: u => let '(l, s') := curate_add b fresh cadence last t (mv t s) in adding b fresh cadence mv l u s'
  end.

(** The adding curator: more than the cadence after the last time, the points out of bounds are dropped and the new ones put after the others. *)
Theorem C78_adding b fresh cadence l t seeds :
  (cadence < t - l -> exists kept, curate_add b fresh cadence (Some l) t seeds = (Some t, kept ++ fresh) /\ kept = curate_remove b seeds) /\
  (t - l <= cadence -> curate_add b fresh cadence (Some l) t seeds = (Some l, seeds)) /\
  (0 <= cadence -> curate_add b fresh cadence None t seeds = (Some t, seeds)).
Proof.
  unfold curate_add. split; [|split]; intros H.
  - replace (cadence <? t - l) with true by lia. eexists. split; reflexivity.
  - now replace (cadence <? t - l) with false by lia.
  - now replace (cadence <? t - t) with false by lia.
Qed.

(** Refutation: between two times of adding, points out of bounds are kept; and when following backwards in time nothing is ever added or dropped. *)
Theorem C78_adding_refuted b fresh cadence mv t0 ts s : 0 <= cadence -> (forall t, In t ts -> t <= t0 + cadence) ->
  adding b fresh cadence mv None (t0 :: ts) s = fold_left (fun acc t => mv t acc) (t0 :: ts) s.
Proof.
  intros Hc H. cbn [adding fold_left]. destruct (C78_adding b fresh cadence 0 t0 (mv t0 s)) as [_ [_ A]]. rewrite (A Hc). clear A.
  generalize (mv t0 s). induction ts as [|t u IH]; intros x; [reflexivity|]. cbn [adding fold_left].
  destruct (C78_adding b fresh cadence t0 t (mv t x)) as [_ [A _]]. rewrite A by (pose proof (H t (or_introl eq_refl)); lia).
  apply IH. intros y Hy. apply H. now right.
Qed.

(** ** Concrete cases *)
(* forwards from 0 to 10 in steps of 4, interpolating every 6: at 0, 4, 8; the field of 0 is used twice *)
Example ex_steps : calls Z (list Z) (fun t => t) (fun f s => s ++ [f]) (fun _ t s => s) 1 0 10 4 6 [] =
  [CL Z (list Z) 0 0 0 []; CL Z (list Z) 1 4 0 [0]; CL Z (list Z) 2 8 8 [0; 0]].
Proof. reflexivity. Qed.
Example ex_run : run Z (list Z) (fun t => t) (fun f s => s ++ [f]) (fun _ t s => s) false (-1) (-10) 4 6 8 (start Z (list Z) 0 true []) =
  Done Z (list Z) (ST Z (list Z) (-12) 3 [0; 0; -8] [CL Z (list Z) 0 0 0 []; CL Z (list Z) 1 (-4) 0 [0]; CL Z (list Z) 2 (-8) (-8) [0; 0]] false [0]).
Proof. reflexivity. Qed.
(* three files at 0, 10, 20 with the values 0, 10, 20: at 12 the value is 18, at 10 it is 0 *)
Example ex_frames : let fr := map (fun v => (v, fun _ : nat => inject_Z v)) [0; 10; 20] in
  ordered 1 (map fst fr) /\ (field_at 1 fr 12 0 == 18)%Q /\ (field_at 1 fr 10 0 == 0)%Q /\ (field_at 1 fr 0 0 == 10)%Q /\ (field_at 1 fr 15 0 == 15)%Q.
Proof.
  cbv zeta. split; [|repeat split; vm_compute; reflexivity].
  intros i j L. cbn [map fst length] in *. destruct i as [|[|[|i]]]; destruct j as [|[|[|j]]]; cbn [nth]; lia.
Qed.
(* backwards by a negative duration *)
Example ex_setup : exists p, setup [(0, 0); (10, 1); (30, 2)] 0 30 1 (OP None None (Some (-20)) None None) = Some p /\
  p_dir p = -1 /\ map snd (p_frames p) = [2; 1; 0] /\ p_start p = 30 /\ p_stop p = 10 /\ p_dt p = 10.
Proof. eexists. split; [vm_compute; reflexivity|repeat split; reflexivity]. Qed.
(* the first and the last point are outside: one beyond x = 1, the other inside the inner sphere of 1/2 *)
Definition ex_b : bounds := BD (-1, -1, -1)%Q (1, 1, 1)%Q (Some (1 # 2)) None.
Example ex_curate : curate_remove ex_b [(2, 0, 0)%Q; (1, 0, 0)%Q; (1 # 4, 0, 0)%Q] = [(1, 0, 0)%Q].
Proof. reflexivity. Qed.
Example ex_replace : curate_replace ex_b (Some [(0, 1, 0)%Q; (0, 0, 1)%Q]) [(2, 0, 0)%Q; (1, 0, 0)%Q] = Some (Some [(0, 1, 0)%Q; (0, 0, 1)%Q], [(0, 1, 0)%Q; (1, 0, 0)%Q]).
Proof. reflexivity. Qed.
Example ex_adding : adding ex_b [(0, 0, 1)%Q] 3 (fun _ s => s) None [0; 2; 4; 6; 8] [(2, 0, 0)%Q; (1, 0, 0)%Q] =
  [(1, 0, 0)%Q; (0, 0, 1)%Q; (0, 0, 1)%Q] /\ adding ex_b [(0, 0, 1)%Q] 3 (fun _ s => s) None [8; 4; 0] [(2, 0, 0)%Q] = [(2, 0, 0)%Q].
Proof. split; reflexivity. Qed.

Print Assumptions C78_steps.
Print Assumptions C78_own_field.
Print Assumptions C78_overshoot_refuted.
Print Assumptions C78_seeds_refuted.
Print Assumptions C78_hang_refuted.
Print Assumptions C78_bracket.
Print Assumptions C78_interp_refuted.
Print Assumptions C78_steady.
Print Assumptions C78_setup.
Print Assumptions C78_setup_refuses.
Print Assumptions C78_curator.
Print Assumptions C78_replacement.
Print Assumptions C78_replacement_count.
Print Assumptions C78_replacement_refuted.
Print Assumptions C78_adding.
Print Assumptions C78_adding_refuted.
