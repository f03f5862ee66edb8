(** C01: forward-only hyperslab reads select the right elements. *)
From Verif Require Import NdIndex FwdSliceProofs FwdSliceNd.
From Coq Require Import ZifyBool ZifyNat.
Open Scope Z_scope.

Lemma one_axis_lemma {A} (arr : list A) s r f g :
  make_fwd_slice [Z.of_nat (length arr)] [ESlice s] [r] = Ok ([ESlice f], [ESlice g]) ->
  ~ (r = false /\ step_of s < 0 /\ p_start s = Some (Z.of_nat (length arr))) ->
  0 < step_of f /\
  exists tmp, getslice arr f = Some tmp /\ getslice tmp g = getslice (if r then rev arr else arr) s.
Proof.
  intros H Hbad. unfold make_fwd_slice, insert_newaxes in H. cbn -[fwd_slice] in H.
  destruct (fwd_slice (Z.of_nat (length arr)) s r) as [[f0 d]|x] eqn:E; [|discriminate].
  destruct (fwd_slice_correct (Z.of_nat (length arr)) s r f0 d ltac:(lia) E Hbad) as (fi & si & F1 & F2 & F3 & F4 & F5).
  cbn in H. injection H as -> Hg. split; [exact F3|].
  exists (picks arr fi). unfold getslice at 1. rewrite F1. split; [reflexivity|].
  pose proof (sel_in_range (Z.of_nat (length arr)) f fi ltac:(lia) F1) as Hfi.
  transitivity (Some (picks arr (apply_dir d fi))).
  - destruct F4 as [-> | ->]; cbn in Hg; injection Hg as <-.
    + apply getslice_full_fwd.
    + rewrite getslice_full_rev. f_equal. cbn [apply_dir].
      rewrite (rev_as_prog (picks arr fi)), picks_length, picks_picks by assumption.
      now rewrite <- rev_as_prog.
  - rewrite F5. unfold getslice. destruct r.
    + rewrite rev_length, F2. f_equal. rewrite picks_rev. reflexivity.
    + rewrite F2. f_equal. unfold flip_ix. now rewrite map_id.
Qed.

(** One axis.  Whenever the function returns, reading with the first slice and
    then applying the second yields exactly what Python's slice selects from the
    (optionally reversed) sequence, and the first slice goes forward.  The single
    excluded case [start = len, step < 0] is the refutation below. *)
Theorem make_fwd_slice_one_axis_partial :
  forall (A : Type) (arr : list A) (s : pslice) (r : bool) (f g : pslice),
    make_fwd_slice [Z.of_nat (length arr)] [ESlice s] [r] = Ok ([ESlice f], [ESlice g]) ->
    ~ (r = false /\ step_of s < 0 /\ p_start s = Some (Z.of_nat (length arr))) ->
    0 < step_of f /\
    exists tmp, getslice arr f = Some tmp /\ getslice tmp g = getslice (if r then rev arr else arr) s.
Proof. exact @one_axis_lemma. Qed.
Print Assumptions make_fwd_slice_one_axis_partial.

Example one_axis_nonvacuous :
  make_fwd_slice [7] [ESlice (PS (Some (-2)) (Some 0) (Some (-2)))] [true]
    = Ok ([ESlice (PS (Some 1) (Some 6) (Some 2))], [ESlice full_fwd]) /\
  getslice [10;11;12;13;14;15;16] (PS (Some 1) (Some 6) (Some 2)) = Some [11;13;15] /\
  getslice (rev [10;11;12;13;14;15;16]) (PS (Some (-2)) (Some 0) (Some (-2))) = Some [11;13;15].
Proof. repeat split; vm_compute; reflexivity. Qed.

(** Every in-range request that selects at least one element is served. *)
Theorem make_fwd_slice_serves_nonempty_requests :
  forall (A : Type) (arr : list A) (s : pslice) (r : bool) (x : A) (xs : list A),
    bound_ok (Z.of_nat (length arr)) (p_start s) -> bound_ok (Z.of_nat (length arr)) (p_stop s) ->
    ~ (step_of s < 0 /\ p_start s = Some (Z.of_nat (length arr))) ->
    getslice arr s = Some (x :: xs) ->
    exists f g, make_fwd_slice [Z.of_nat (length arr)] [ESlice s] [r] = Ok ([ESlice f], [ESlice g]).
Proof.
  intros A arr s r x xs H1 H2 H3 H. unfold getslice in H.
  destruct (sel (Z.of_nat (length arr)) s) as [si|] eqn:E; [|discriminate].
  destruct (fwd_slice_returns (Z.of_nat (length arr)) s r si ltac:(lia) H1 H2 H3 E) as (f & d & Hf).
  { intros ->. discriminate. }
  unfold make_fwd_slice, insert_newaxes. cbn -[fwd_slice]. rewrite Hf.
  destruct (fwd_slice_correct (Z.of_nat (length arr)) s r f d ltac:(lia) Hf) as (fi & si' & _ & _ & _ & [-> | ->] & _).
  { intros (_ & Hb1 & Hb2). apply H3. now split. }
  - exists f, full_fwd. reflexivity.
  - exists f, full_rev. reflexivity.
Qed.
Print Assumptions make_fwd_slice_serves_nonempty_requests.

Example serves_nonvacuous :
  getslice [10;11;12;13;14] (PS (Some (-1)) None (Some (-3))) = Some [14; 11] /\
  bound_ok 5 (Some (-1)) /\ ~ (step_of (PS (Some (-1)) None (Some (-3))) < 0 /\ Some (-1) = Some 5).
Proof. split; [vm_compute; reflexivity|]. split; [cbn; lia|]. intros [_ H]. discriminate. Qed.

(** Any number of axes, with integer indices (which drop the axis), newaxis and
    per-axis reversal: [a[first][second]] is [a[::±1, ...][slices]]. *)
Theorem make_fwd_slice_nd_partial :
  forall (A : Type) (a : nd A) (es : list entry) (revs : list bool) (first second : list entry),
    Forall (fun L => 0 <= L) (shape a) ->
    (n_axes es <= length (shape a))%nat -> (length revs <= length es)%nat ->
    entries_ok (shape a) es revs ->
    make_fwd_slice (shape a) es revs = Ok (first, second) ->
    (forall s, In (ESlice s) first -> 0 < step_of s) /\
    exists b got want,
      nd_index a first = Some b /\ nd_index b second = Some got /\
      nd_index (nd_flip (axis_flags es revs) a) es = Some want /\ nd_eq got want.
Proof. exact @make_fwd_slice_nd_lemma. Qed.
Print Assumptions make_fwd_slice_nd_partial.

Example nd_nonvacuous :
  entries_ok [4; 5; 6] [ESlice (PS None (Some (-1)) (Some 1)); ENew; EInt 2; ESlice (PS None None (Some (-2)))]
             [true; false; true; false] /\
  exists first second,
    make_fwd_slice [4; 5; 6] [ESlice (PS None (Some (-1)) (Some 1)); ENew; EInt 2; ESlice (PS None None (Some (-2)))]
                   [true; false; true; false] = Ok (first, second) /\
    first = [ESlice (PS (Some 1) (Some 4) (Some 1)); EInt 2; ESlice (PS (Some 1) (Some 6) (Some 2))] /\
    second = [ESlice full_rev; ENew; ESlice full_rev].
Proof.
  split.
  - cbn. unfold bad_start. cbn. repeat split; try lia; intros (H1 & H2 & H3); try lia; discriminate.
  - eexists. eexists. split; [vm_compute; reflexivity|]. split; reflexivity.
Qed.

(** FINDING: with [start = len(a)] and a negative step below -1 the function
    returns, but other elements are read ([a[5::-2]] is [14;12;10], the code
    reads [13;11]). *)
Theorem make_fwd_slice_start_at_end_refuted :
  exists (arr : list Z) (s f g : pslice) (tmp got want : list Z),
    bound_ok (Z.of_nat (length arr)) (p_start s) /\ bound_ok (Z.of_nat (length arr)) (p_stop s) /\
    make_fwd_slice [Z.of_nat (length arr)] [ESlice s] [false] = Ok ([ESlice f], [ESlice g]) /\
    getslice arr f = Some tmp /\ getslice tmp g = Some got /\ getslice arr s = Some want /\ got <> want.
Proof.
  exists [10;11;12;13;14], (PS (Some 5) None (Some (-2))), (PS (Some 1) (Some 6) (Some 2)), full_rev,
    [11;13], [13;11], [14;12;10].
  repeat split; try (vm_compute; reflexivity); try (cbn; lia). discriminate.
Qed.
Print Assumptions make_fwd_slice_start_at_end_refuted.

(** FINDING: on a reversed axis every negative integer index becomes an
    out-of-range read, although Python would accept it ... *)
Theorem make_fwd_slice_reversed_negative_index_fails :
  forall (A : Type) (arr : list A) (i : Z),
    - Z.of_nat (length arr) <= i < 0 ->
    (exists v, getitem (rev arr) i = Some v) /\
    exists j, make_fwd_slice [Z.of_nat (length arr)] [EInt i] [true] = Ok ([EInt j], []) /\ getitem arr j = None.
Proof.
  intros A arr i Hi. split.
  - unfold getitem. replace (i <? 0) with true by lia. rewrite rev_length. apply zget_Some. rewrite rev_length. lia.
  - eexists. cbn. split; [reflexivity|]. unfold getitem.
    replace (Z.of_nat (length arr) - 1 - i <? 0) with false by lia. apply zget_None. lia.
Qed.
Print Assumptions make_fwd_slice_reversed_negative_index_fails.

(** ... and an out-of-range index is silently accepted and reads some element. *)
Theorem make_fwd_slice_reversed_out_of_range_accepted_refuted :
  exists (arr : list Z) (i j v : Z),
    getitem (rev arr) i = None /\
    make_fwd_slice [Z.of_nat (length arr)] [EInt i] [true] = Ok ([EInt j], []) /\ getitem arr j = Some v.
Proof. exists [10;11;12;13;14], 5, (-1), 14. repeat split. Qed.
Print Assumptions make_fwd_slice_reversed_out_of_range_accepted_refuted.
