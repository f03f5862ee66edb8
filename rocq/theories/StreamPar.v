(** A streamline does not depend on what was traced before it, so tracing in
    parallel gives what tracing one seed at a time gives (C03, C14). *)
From Verif Require Import StreamProofs StreamProps ChunkModel ChunkProofs ChunkProps.
From Coq Require Import ZifyBool ZifyNat Lqa.
Open Scope Q_scope.

(** Buffers that agree on the indices lo <= j < hi. *)
Definition agree (lo hi : Z) (b1 b2 : list (option pt)) : Prop :=
  length b1 = length b2 /\
  forall j, (lo <= Z.of_nat j < hi)%Z -> nth_error b1 j = nth_error b2 j.

(** The integrator's answer does not depend on the hidden state. *)
Definition blind {H} (integ : integrator H) : Prop :=
  forall h1 h2 s ds dt,
    i_ret (integ h1 s ds dt) = i_ret (integ h2 s ds dt) /\
    i_s (integ h1 s ds dt) = i_s (integ h2 s ds dt) /\
    i_ds (integ h1 s ds dt) = i_ds (integ h2 s ds dt) /\
    i_dt (integ h1 s ds dt) = i_dt (integ h2 s ds dt).

Definition span (d lo it : Z) (b1 b2 : list (option pt)) : Prop :=
  if (d =? 1)%Z then agree lo it b1 b2 else agree (it + 1) lo b1 b2.

Lemma bwrite_span d lo it p b1 b2 :
  (d = 1 \/ d = -1)%Z -> span d lo it b1 b2 ->
  match bwrite b1 it p, bwrite b2 it p with
  | Some c1, Some c2 => span d lo (it + d) c1 c2
  | None, None => True
  | _, _ => False
  end.
Proof.
  intros Hd Hs.
  assert (L : length b1 = length b2) by (unfold span in Hs; destruct (d =? 1)%Z; apply Hs).
  destruct (bwrite b1 it p) as [c1|] eqn:E1.
  - assert (R : (0 <= it < Z.of_nat (length b1))%Z).
    { unfold bwrite in E1. destruct (_ && _) eqn:A; [|discriminate]. apply andb_true_iff in A. lia. }
    destruct (bwrite_spec b1 it p R) as (c1' & F1 & L1 & N1). rewrite E1 in F1. injection F1 as <-.
    rewrite L in R. destruct (bwrite_spec b2 it p R) as (c2 & F2 & L2 & N2). rewrite F2.
    unfold span in *. destruct Hd as [-> | ->]; cbn [Z.eqb Pos.eqb] in *; destruct Hs as [_ Hs]; split;
      try congruence; intros j Hj; rewrite N1, N2;
      destruct (Nat.eqb_spec j (Z.to_nat it)); auto; apply Hs; lia.
  - unfold bwrite in *. rewrite <- L. destruct (_ && _); [discriminate|]. exact I.
Qed.

Lemma walk_blind {H} (integ : integrator H) P d lo :
  blind integ -> (d = 1 \/ d = -1)%Z ->
  forall fuel it s ds dt len t trim tt1 tt2 h1 h2 b1 b2,
    span d lo it b1 b2 ->
    match walk integ P d fuel it s ds dt len t trim tt1 h1 b1,
          walk integ P d fuel it s ds dt len t trim tt2 h2 b2 with
    | Some (Done i1 w1 c1 _), Some (Done i2 w2 c2 _) => i1 = i2 /\ w1 = w2 /\ span d lo i1 c1 c2
    | Some Crash, Some Crash | None, None => True
    | _, _ => False
    end.
Proof.
  intros Hbl Hd fuel. induction fuel as [|fuel IH]; intros it s ds dt len t trim tt1 tt2 h1 h2 b1 b2 Hs; cbn [walk].
  - exact I.
  - destruct (_ && _)%Z; [|auto]. cbv zeta.
    destruct (Hbl h1 h2 s ds dt) as (E1 & E2 & E3 & E4).
    rewrite <- E1, <- E2, <- E3, <- E4.
    set (r := integ h1 s ds dt). set (r2 := integ h2 s ds dt).
    set (dt' := if Qltb 0 (p_maxt P) then i_dt r else dt).
    set (a := if Qle_bool (Qabs ds) (Qabs (i_ds r)) then Qabs ds else Qabs (i_ds r)).
    set (b := if Qltb 0 (p_maxt P) then Qabs dt' else p_junk P).
    destruct (Qltb 0 (p_maxt P) && Qltb (p_maxt P) (t + b)) eqn:Ov; cbn [andb].
    + destruct (i_ret r =? 0)%Z; cbn [negb]; [|auto].
      match goal with |- context [bwrite b1 it ?x] => set (s' := x) end.
      pose proof (bwrite_span d lo it s' b1 b2 Hd Hs) as Hw.
      destruct (bwrite b1 it s') as [c1|], (bwrite b2 it s') as [c2|]; try contradiction; [|exact I].
      destruct (classify_endpoint P s' (len + a) (t + b) =? 0)%Z; cbn [negb]; [|auto].
      apply IH. exact Hw.
    + destruct (i_ret r =? 0)%Z; cbn [negb]; [|auto].
      match goal with |- context [bwrite b1 it ?x] => set (s' := x) end.
      pose proof (bwrite_span d lo it s' b1 b2 Hd Hs) as Hw.
      destruct (bwrite b1 it s') as [c1|], (bwrite b2 it s') as [c2|]; try contradiction; [|exact I].
      destruct (classify_endpoint P s' (len + a) (t + b) =? 0)%Z; cbn [negb]; [|auto].
      apply IH. exact Hw.
Qed.

Lemma walk_far {H} (integ : integrator H) P d :
  (d = 1 \/ d = -1)%Z ->
  forall fuel it s ds dt len t trim tt h b i w c h',
    walk integ P d fuel it s ds dt len t trim tt h b = Some (Done i w c h') ->
    length c = length b /\ (0 <= d * (i - it))%Z /\
    forall j, (d * (Z.of_nat j - it) < 0)%Z -> nth_error c j = nth_error b j.
Proof.
  intros Hd fuel. induction fuel as [|fuel IH]; intros it s ds dt len t trim tt h b i w c h' E;
    cbn [walk] in E; [discriminate|].
  destruct (_ && _)%Z in E.
  2:{ injection E as <- _ <- _. split; [reflexivity|]. split; [lia|auto]. }
  cbv zeta in E.
  destruct (negb (i_ret (integ h s ds dt) =? 0)%Z) in E.
  { injection E as <- _ <- _. split; [reflexivity|]. split; [lia|auto]. }
  match type of E with context [bwrite b it ?x] => set (s' := x) in E end.
  destruct (bwrite b it s') as [b1|] eqn:Eb; [|discriminate].
  assert (R : (0 <= it < Z.of_nat (length b))%Z).
  { unfold bwrite in Eb. destruct (_ && _) eqn:A in Eb; [|discriminate]. apply andb_true_iff in A. lia. }
  destruct (bwrite_spec b it s' R) as (b1' & F & L & N). rewrite Eb in F. injection F as <-.
  destruct (negb (classify_endpoint _ _ _ _ =? 0)%Z) in E.
  - injection E as <- _ <- _. split; [exact L|]. split; [destruct Hd as [-> | ->]; lia|].
    intros j Hj. rewrite N. destruct (Nat.eqb_spec j (Z.to_nat it)); auto. nia.
  - apply IH in E. destruct E as (L' & I' & N'). split; [congruence|]. split; [destruct Hd as [-> | ->]; lia|].
    intros j Hj. rewrite N' by (destruct Hd as [-> | ->]; lia). rewrite N.
    destruct (Nat.eqb_spec j (Z.to_nat it)); auto. nia.
Qed.

Lemma slice_agree lo hi b1 b2 :
  (0 <= lo)%Z -> agree lo hi b1 b2 ->
  firstn (Z.to_nat (hi - lo)) (skipn (Z.to_nat lo) b1) = firstn (Z.to_nat (hi - lo)) (skipn (Z.to_nat lo) b2).
Proof.
  intros Hlo [L A]. apply nth_error_ext. intros k.
  destruct (Nat.lt_ge_cases k (Z.to_nat (hi - lo))) as [Hk|Hk].
  - rewrite !nth_error_firstn_lt by exact Hk. rewrite !nth_error_skipn_at. apply A. lia.
  - transitivity (@None (option pt)); [|symmetry]; apply nth_error_None; rewrite firstn_length; lia.
Qed.

(** C14: the line and flags of a seed are the same whatever was traced before,
    i.e. whatever the line buffer, step_trim_t and the lookup caches hold, as
    long as lookups themselves do not depend on the caches (C12, C18). *)
Theorem streamline_independent_of_history :
  forall (H : Type) (integ : integrator H) (P : params) (t1 t2 : Q) b1 b2 (h1 h2 : H) (x0 : pt),
    blind integ ->
    length b1 = (2 * p_maxit P + 1)%nat -> length b2 = (2 * p_maxit P + 1)%nat ->
    exists line flags c1 c2 g1 g2,
      streamline integ P t1 b1 h1 x0 = Some (SLine line flags c1 g1) /\
      streamline integ P t2 b2 h2 x0 = Some (SLine line flags c2 g2).
Proof.
  intros H integ P t1 t2 b1 b2 h1 h2 x0 Hbl L1 L2.
  destruct (streamline_is_a_line_through_its_seed H integ P t1 b1 h1 x0 L1)
    as (bk1 & fw1 & wb1 & wf1 & ha1 & hb1 & c1 & E1 & _).
  destruct (streamline_is_a_line_through_its_seed H integ P t2 b2 h2 x0 L2)
    as (bk2 & fw2 & wb2 & wf2 & ha2 & hb2 & c2 & E2 & _).
  rewrite E1, E2. unfold streamline in E1, E2. cbv zeta in E1, E2.
  set (M := Z.of_nat (p_maxit P)) in *.
  destruct (bwrite_spec b1 M x0) as (d1 & F1 & K1 & N1); [unfold M; lia|]. rewrite F1 in E1.
  destruct (bwrite_spec b2 M x0) as (d2 & F2 & K2 & N2); [unfold M; lia|]. rewrite F2 in E2.
  assert (S0 : agree M (M + 1) d1 d2).
  { split; [congruence|]. intros j Hj. rewrite N1, N2.
    destruct (Nat.eqb_spec j (Z.to_nat M)); auto. lia. }
  destruct (direction integ P (p_back P) (-1) (M - 1) x0 t1 d1 h1) as [[|e1 w1 q1 k1]|] eqn:B1; try discriminate.
  destruct (direction integ P (p_back P) (-1) (M - 1) x0 t2 d2 h2) as [[|e2 w2 q2 k2]|] eqn:B2; try discriminate.
  assert (S1 : e1 = e2 /\ w1 = w2 /\ agree (e1 + 1) (M + 1) q1 q2 /\ (e1 <= M - 1)%Z /\ (0 <= e1 + 1)%Z /\
               length q1 = length d1 /\ length q2 = length d2).
  { assert (G1 : (0 <= e1 + 1)%Z).
    { destruct (direction_traced integ P (p_back P) (-1) (M - 1) x0 t1 h1 d1)
        as (st & w & h' & bf & X & _ & Ln & _); [auto|congruence|unfold M; lia|].
      assert (X' : e1 = (M - 1 + -1 * Z.of_nat (length st))%Z) by congruence. unfold M in X'. lia. }
    unfold direction in B1, B2. destruct (p_back P).
    - pose proof (walk_blind integ P (-1) (M + 1) Hbl (or_intror eq_refl)
                    (S (S (2 * p_maxit P))) (M - 1) x0 (inject_Z (-1) * p_ds0 P) 0 0 0 1 t1 t2 h1 h2 d1 d2) as W.
      rewrite B1, B2 in W. cbn [span Z.eqb Pos.eqb] in W. unfold span in W. cbn [Z.eqb Pos.eqb] in W.
      replace (M - 1 + 1)%Z with M in W by lia. destruct (W S0) as (-> & -> & Ag).
      apply walk_far in B1; [|auto]. apply walk_far in B2; [|auto].
      destruct B1 as (X1 & X2 & _), B2 as (Y1 & _ & _). split; [reflexivity|]. split; [reflexivity|]. split; [exact Ag|].
      split; [lia|]. split; [lia|]. auto.
    - injection B1 as <- <- <- <-. injection B2 as <- <- <- <-.
      replace (M - 1 + 1)%Z with M in * by lia. split; [reflexivity|]. split; [reflexivity|]. split; [exact S0|].
      split; [lia|]. split; [lia|]. auto. }
  destruct S1 as (<- & <- & Ag1 & Le & Ge & Lq1 & Lq2).
  destruct (direction integ P (p_fwd P) 1 (M + 1) x0 t1 q1 k1) as [[|g1 v1 r1 m1]|] eqn:C1; try discriminate.
  destruct (direction integ P (p_fwd P) 1 (M + 1) x0 t2 q2 k2) as [[|g2 v2 r2 m2]|] eqn:C2; try discriminate.
  assert (S2 : g1 = g2 /\ v1 = v2 /\ agree (e1 + 1) g1 r1 r2).
  { unfold direction in C1, C2. destruct (p_fwd P).
    - pose proof (walk_blind integ P 1 (e1 + 1) Hbl (or_introl eq_refl)
                    (S (S (2 * p_maxit P))) (M + 1) x0 (inject_Z 1 * p_ds0 P) 0 0 0 1 t1 t2 k1 k2 q1 q2) as W.
      rewrite C1, C2 in W. unfold span in W. cbn [Z.eqb Pos.eqb] in W. apply W. exact Ag1.
    - injection C1 as <- <- <- <-. injection C2 as <- <- <- <-. auto. }
  destruct S2 as (<- & <- & Ag2).
  injection E1 as A1 A2 <- <-. injection E2 as A3 A4 <- <-.
  assert (A5 := slice_agree _ _ _ _ Ge Ag2).
  eexists _, _, _, _, _, _. split; [reflexivity|]. rewrite <- A1, <- A3, <- A2, <- A4.
  replace (g1 - (e1 + 1))%Z with (g1 - (e1 + 1))%Z in A5 by lia. rewrite A5. reflexivity.
Qed.
Print Assumptions streamline_independent_of_history.

(** The trace function of one worker (streamline.pyx 505-623): its state is the
    line buffer and the hidden lookup state. *)
Definition trace_seed {H} (integ : integrator H) (P : params) (st : list (option pt) * H) (x0 : pt)
  : (list (option pt) * Z) * (list (option pt) * H) :=
  match streamline integ P 1 (fst st) (snd st) x0 with
  | Some (SLine line flags buf h) => ((line, end_flags_to_topology_msphere flags), (buf, h))
  | _ => (([], 0%Z), st)
  end.

(** C03, C14, C15: calc_streamlines gives, for any number of workers and any chunk
    factor, in seed order, the line and topology that tracing each seed on its
    own from scratch gives. *)
Theorem calc_streamlines_is_each_seed_on_its_own :
  forall (H : Type) (integ : integrator H) (P : params) (h0 : H)
         (start_state : nat -> list (option pt) * H) (seeds : list pt) (nr_procs chunk_factor : Z),
    blind integ ->
    (forall k, length (fst (start_state k)) = (2 * p_maxit P + 1)%nat) ->
    calc_streams (trace_seed integ P) start_state seeds nr_procs chunk_factor =
    Some (map (fun x0 => Some (fst (trace_seed integ P (repeat None (2 * p_maxit P + 1), h0) x0))) seeds).
Proof.
  intros H integ P h0 start_state seeds np cf Hbl Hst.
  apply calc_streams_matches_serial with
    (Inv := fun st => length (fst st) = (2 * p_maxit P + 1)%nat)
    (g := fun x0 => fst (trace_seed integ P (repeat None (2 * p_maxit P + 1), h0) x0)); [|exact Hst].
  intros [b h] x0 Hb. cbn [fst] in Hb. unfold trace_seed. cbn [fst snd].
  destruct (streamline_independent_of_history H integ P 1 1 b (repeat None (2 * p_maxit P + 1)) h h0 x0 Hbl Hb
              (repeat_length _ _)) as (line & flags & c1 & c2 & g1 & g2 & E1 & E2).
  rewrite E1, E2. cbn [fst snd]. split; [reflexivity|].
  destruct (streamline_is_a_line_through_its_seed H integ P 1 b h x0 Hb)
    as (q1 & q2 & q3 & q4 & q5 & q6 & buf' & E' & L & _).
  rewrite E1 in E'. injection E' as _ _ -> _. congruence.
Qed.
Print Assumptions calc_streamlines_is_each_seed_on_its_own.

Example calc_streamlines_nonvacuous :
  blind uniform_x /\
  option_map (map (option_map snd))
    (calc_streams (trace_seed uniform_x (mkpar 3 0 (mkpt (-10) (-10) (-10)) (mkpt 10 10 10) 0 9 0 0 true true 0))
       (fun _ => (repeat None 19, tt)) [mkpt 0 0 0; mkpt 1 1 1; mkpt 5 2 1] 2 1) = Some [Some 8; Some 8; Some 8]%Z.
Proof. split; [intros ? ? ? ? ?; cbn; auto|vm_compute; reflexivity]. Qed.
