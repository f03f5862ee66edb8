(** C03, process pool half: parallel.map gives the serial list for every batch
    size and every order in which batches finish. *)
From Verif Require Import ParMapModel FutProofs.
From Coq Require Import Permutation ZifyBool ZifyNat.

Section Spec.
Context {V E : Type}.
(** the serial list comprehension *)
Definition serial_answer (tasks : list (outcome V E)) : answer V E :=
  match eval_list tasks with inl vs => Values (map Some vs) | inr e => Raises e end.
(** the batches of [n] tasks in runs of [cs] *)
Definition batches (cs n : nat) : list nat := seq 0 ((n + cs - 1) / cs).
End Spec.

Section P.
Context {V E : Type}.
Implicit Types (tasks : list (outcome V E)).

Lemma write_length (vs : list V) : forall l k, length (write l k vs) = length l.
Proof. induction vs as [|v vs IH]; intros l k; cbn; [reflexivity|]. now rewrite IH, upd_length. Qed.
Lemma write_nth (vs : list V) : forall l k j, k + length vs <= length l ->
  nth_error (write l k vs) j =
  if Nat.leb k j && Nat.ltb j (k + length vs) then option_map Some (nth_error vs (j - k)) else nth_error l j.
Proof.
  induction vs as [|v vs IH]; intros l k j Hl; cbn [write length] in *.
  - destruct (Nat.leb k j && Nat.ltb j (k + 0)) eqn:Eb; [lia|reflexivity].
  - rewrite IH by (rewrite upd_length; lia). rewrite nth_upd.
    destruct (Nat.eqb_spec j k).
    + subst. assert (Hlt : Nat.ltb k (length l) = true) by lia. rewrite Hlt.
      assert (E1 : Nat.leb (S k) k && Nat.ltb k (S k + length vs) = false) by lia. rewrite E1.
      assert (E2 : Nat.leb k k && Nat.ltb k (k + S (length vs)) = true) by lia. rewrite E2, Nat.sub_diag. reflexivity.
    + destruct (Nat.leb (S k) j && Nat.ltb j (S k + length vs)) eqn:Eb.
      * assert (E2 : Nat.leb k j && Nat.ltb j (k + S (length vs)) = true) by lia. rewrite E2.
        replace (j - k) with (S (j - S k)) by lia. reflexivity.
      * assert (E2 : Nat.leb k j && Nat.ltb j (k + S (length vs)) = false) by lia. now rewrite E2.
Qed.

Lemma eval_all_values (vs : list V) : eval_list (map (fun v => @Ret V E v) vs) = inl vs.
Proof. induction vs as [|v vs IH]; [reflexivity|]. cbn. now rewrite IH. Qed.
Lemma eval_values_inv tasks : forall vs, eval_list tasks = inl vs -> tasks = map (fun v => Ret v) vs.
Proof.
  induction tasks as [|[v|e] tasks IH]; cbn; intros vs H; try discriminate.
  - now injection H as <-.
  - destruct (eval_list tasks) as [vs'|]; [|discriminate]. injection H as <-. cbn. f_equal. auto.
Qed.
Lemma eval_failed_in tasks : forall e, eval_list tasks = inr e -> In (Exc e) tasks.
Proof.
  induction tasks as [|[v|e0] tasks IH]; cbn; intros e H; try discriminate.
  - destruct (eval_list tasks) as [vs'|]; [discriminate|]. injection H as ->. auto.
  - injection H as ->. now left.
Qed.
Lemma eval_values_iff tasks : (exists vs, eval_list tasks = inl vs) <-> forall e, ~ In (Exc e) tasks.
Proof.
  split.
  - intros (vs & H) e He. apply eval_values_inv in H. subst. apply in_map_iff in He. destruct He as (v & Hv & _). discriminate.
  - intros H. destruct (eval_list tasks) as [vs|e] eqn:Ev; [eauto|]. elim (H e). now apply eval_failed_in.
Qed.

Lemma div_lt_iff cs n b : 0 < cs -> (b < (n + cs - 1) / cs <-> b * cs < n).
Proof.
  intros Hc. pose proof (Nat.div_mod (n + cs - 1) cs ltac:(lia)). pose proof (Nat.mod_upper_bound (n + cs - 1) cs ltac:(lia)). nia.
Qed.

(** all tasks return: whatever the batch size and the order, the serial list *)
Lemma pool_values cs (vs : list V) : 0 < cs -> forall order,
  (forall b, In b order -> b * cs < length vs) ->
  let r := fold_left (batch_done cs (map (fun v => @Ret V E v) vs)) order (MapResult (repeat None (length vs)) None) in
  failure r = None /\ length (slots r) = length vs /\
  forall j, j < length vs -> nth_error (slots r) j = Some (if in_dec Nat.eq_dec (j / cs) order then nth_error vs j else None).
Proof.
  intros Hc order. induction order as [|b order IH] using rev_ind; intros Hb r.
  - unfold r. cbn [fold_left failure slots]. split; [reflexivity|]. split; [apply repeat_length|].
    intros j Hj. destruct (in_dec Nat.eq_dec (j / cs) []) as [[]|_]. now apply nth_error_repeat.
  - destruct IH as (I1 & I2 & I3); [intros; apply Hb, in_app_iff; auto|].
    unfold r. rewrite fold_left_app. cbn [fold_left].
    set (r0 := fold_left _ order _) in *. unfold batch_done.
    rewrite skipn_map, firstn_map, eval_all_values. cbn [slots failure].
    assert (Hbl : b * cs < length vs) by (apply Hb, in_app_iff; right; now left).
    assert (Hlen : length (firstn cs (skipn (b * cs) vs)) = Nat.min cs (length vs - b * cs)) by (rewrite firstn_length, skipn_length; reflexivity).
    split; [exact I1|]. split; [now rewrite write_length|]. intros j Hj. rewrite write_nth by lia. rewrite Hlen.
    assert (Hdiv : j / cs = b <-> b * cs <= j < b * cs + cs).
    { pose proof (Nat.div_mod j cs ltac:(lia)). pose proof (Nat.mod_upper_bound j cs ltac:(lia)). split; intros; nia. }
    destruct (Nat.leb (b * cs) j && Nat.ltb j (b * cs + Nat.min cs (length vs - b * cs))) eqn:Eb.
    + assert (Hjb : j / cs = b) by (apply Hdiv; lia).
      destruct (in_dec Nat.eq_dec (j / cs) (order ++ [b])) as [_|Hn]; [|elim Hn; apply in_app_iff; right; left; congruence].
      assert (Ht : nth_error (firstn cs (skipn (b * cs) vs)) (j - b * cs) = nth_error vs j).
      { assert (Hx : j = b * cs + (j - b * cs)) by lia. rewrite Hx at 2.
        rewrite <- (firstn_skipn (b * cs) vs) at 2. rewrite nth_error_app2 by (rewrite firstn_length; lia).
        rewrite firstn_length, Nat.min_l by lia. replace (b * cs + (j - b * cs) - b * cs) with (j - b * cs) by lia.
        rewrite <- (firstn_skipn cs (skipn (b * cs) vs)) at 2. rewrite nth_error_app1; [reflexivity|]. rewrite Hlen. lia. }
      rewrite Ht. destruct (nth_error vs j) eqn:Ej; [reflexivity|]. apply nth_error_None in Ej. lia.
    + assert (Hjb : j / cs <> b) by (rewrite Hdiv; lia). rewrite I3 by exact Hj.
      destruct (in_dec Nat.eq_dec (j / cs) order) as [H1|H1], (in_dec Nat.eq_dec (j / cs) (order ++ [b])) as [H2|H2]; try reflexivity.
      * elim H2. apply in_app_iff. auto.
      * apply in_app_iff in H2. destruct H2 as [?|[?|[]]]; congruence.
Qed.

Theorem pool_map_order_independent cs tasks order : 0 < cs -> (forall e, ~ In (Exc e) tasks) ->
  Permutation order (batches cs (length tasks)) -> pool_get cs tasks order = serial_answer tasks.
Proof.
  intros Hc Hv Hp. apply eval_values_iff in Hv. destruct Hv as (vs & Hv). unfold serial_answer. rewrite Hv.
  apply eval_values_inv in Hv. subst tasks. rewrite map_length in *. unfold pool_get.
  assert (Hin : forall b, In b order <-> b * cs < length vs).
  { intros b. rewrite <- (div_lt_iff cs (length vs) b Hc). split.
    - intros Hb. apply (Permutation_in _ Hp) in Hb. apply in_seq in Hb. lia.
    - intros Hb. apply (Permutation_in _ (Permutation_sym Hp)). apply in_seq. lia. }
  destruct (pool_values cs vs Hc order (fun b => proj1 (Hin b))) as (I1 & I2 & I3). rewrite map_length.
  set (r := fold_left _ _ _) in *. rewrite I1. f_equal.
  assert (Hnth : forall j, nth_error (slots r) j = nth_error (map Some vs) j).
  { intros j. destruct (Nat.lt_ge_cases j (length vs)) as [Hj|Hj].
    - rewrite I3, nth_error_map by exact Hj. destruct (in_dec Nat.eq_dec (j / cs) order) as [_|Hn].
      + destruct (nth_error vs j) eqn:Ej; [reflexivity|]. apply nth_error_None in Ej. lia.
      + elim Hn. apply Hin. pose proof (Nat.div_mod j cs ltac:(lia)). nia.
    - rewrite !(proj2 (nth_error_None _ _)); rewrite ?map_length, ?I2; auto. }
  revert Hnth. generalize (slots r) (map (@Some V) vs). intros l l'. revert l'.
  induction l as [|a l IH]; intros [|b l'] Hnth; auto.
  - specialize (Hnth 0). discriminate.
  - specialize (Hnth 0). discriminate.
  - pose proof (Hnth 0) as H0. cbn in H0. injection H0 as ->. f_equal. apply IH. intros j. exact (Hnth (S j)).
Qed.

(** some task fails: an exception of some task is raised, no list returned *)
Theorem pool_map_failure cs tasks order : 0 < cs -> (exists e, In (Exc e) tasks) ->
  Permutation order (batches cs (length tasks)) ->
  exists e, pool_get cs tasks order = Raises e /\ In (Exc e) tasks.
Proof.
  intros Hc (e & He) Hp. unfold pool_get.
  assert (Hsub : forall b x, In x (firstn cs (skipn (b * cs) tasks)) -> In x tasks).
  { intros b x Hx. rewrite <- (firstn_skipn (b * cs) tasks). apply in_app_iff. right.
    rewrite <- (firstn_skipn cs (skipn (b * cs) tasks)). apply in_app_iff. now left. }
  assert (Hex : exists b, In b order /\ In (Exc e) (firstn cs (skipn (b * cs) tasks))).
  { apply In_nth_error in He. destruct He as [j Hj]. assert (Hjl : j < length tasks) by (apply nth_error_Some; congruence).
    pose proof (Nat.div_mod j cs ltac:(lia)) as D. pose proof (Nat.mod_upper_bound j cs ltac:(lia)) as M.
    assert (C : j / cs * cs = cs * (j / cs)) by apply Nat.mul_comm.
    exists (j / cs). split.
    - apply (Permutation_in _ (Permutation_sym Hp)). apply in_seq. split; [apply Nat.le_0_l|]. rewrite Nat.add_0_l. apply div_lt_iff; [exact Hc|]. lia.
    - apply nth_error_In with (n := j mod cs).
      assert (Hx : nth_error (skipn (j / cs * cs) tasks) (j mod cs) = Some (Exc e)).
      { rewrite <- Hj. rewrite <- (firstn_skipn (j / cs * cs) tasks) at 2.
        assert (Hfl : length (firstn (j / cs * cs) tasks) = j / cs * cs) by (rewrite firstn_length; nia).
        rewrite nth_error_app2 by (rewrite Hfl; lia). rewrite Hfl. f_equal. lia. }
      rewrite <- (firstn_skipn cs (skipn (j / cs * cs) tasks)) in Hx.
      rewrite nth_error_app1 in Hx; [exact Hx|]. rewrite firstn_length, skipn_length. lia. }
  destruct Hex as (b & Hb & Hbe).
  assert (G : forall order r, (forall x, failure r = Some x -> In (Exc x) tasks) -> (In b order \/ failure r <> None) ->
     exists x, failure (fold_left (batch_done cs tasks) order r) = Some x /\ In (Exc x) tasks).
  { clear Hp Hb order. intros order. induction order as [|b0 order IH]; intros r Hr Hd; cbn [fold_left].
    - destruct Hd as [[]|Hd]. destruct (failure r) as [x|] eqn:Er; [|congruence]. eauto.
    - assert (Hr' : forall x, failure (batch_done cs tasks r b0) = Some x -> In (Exc x) tasks).
      { intros x. unfold batch_done. destruct (eval_list _) eqn:Ev; cbn [failure]; [apply Hr|].
        destruct (failure r) eqn:Er; intros [= <-]; [now apply Hr|]. apply eval_failed_in in Ev. eauto. }
      apply IH; [exact Hr'|].
      assert (Hmono : failure r <> None -> failure (batch_done cs tasks r b0) <> None).
      { unfold batch_done. destruct (eval_list _); cbn [failure]; [auto|]. destruct (failure r); congruence. }
      destruct Hd as [[->|Hd]|Hd]; [|auto|auto].
      right. unfold batch_done. destruct (eval_list (firstn cs (skipn (b * cs) tasks))) as [vs|x] eqn:Ev; cbn [failure].
      + apply eval_values_inv in Ev. rewrite Ev in Hbe. apply in_map_iff in Hbe. destruct Hbe as (v & Hv & _). discriminate.
      + destruct (failure r); discriminate. }
  destruct (G order (MapResult (repeat None (length tasks)) None)) as (x & -> & Hx); [discriminate|auto|]. eauto.
Qed.

(** parallel.map with its own pool (or none): the serial result for any number
    of processes, batch size and completion order, if no two tasks fail *)
Theorem parallel_map_is_serial nr_procs force cs order tasks : 0 < cs ->
  Permutation order (batches cs (length tasks)) ->
  (forall e e', In (Exc e) tasks -> In (Exc e') tasks -> e = e') ->
  par_map nr_procs force false cs order tasks = serial_answer tasks.
Proof.
  intros Hc Hp H1. unfold par_map. cbn [negb andb]. destruct ((nr_procs =? 1)%Z && negb force); [reflexivity|].
  destruct (eval_list tasks) as [vs|e] eqn:Ev.
  - assert (Hno : forall e, ~ In (Exc e) tasks) by (apply eval_values_iff; eauto).
    rewrite (pool_map_order_independent cs tasks order Hc Hno Hp). unfold serial_answer. now rewrite Ev.
  - destruct (pool_map_failure cs tasks order Hc) as (x & Hx & Hin); [exists e; now apply eval_failed_in|exact Hp|].
    rewrite Hx. unfold serial_answer. rewrite Ev. f_equal. apply H1; [exact Hin|now apply eval_failed_in].
Qed.

(** which of several exceptions is raised depends on the schedule *)
Theorem parallel_map_exception_schedule_refuted : exists (tasks : list (outcome nat nat)) order,
  Permutation order (batches 1 (length tasks)) /\
  par_map 2 false false 1 order tasks = Raises 8 /\ serial_answer tasks = Raises 7.
Proof. exists [Exc 7; Exc 8], [1; 0]. split; [apply perm_swap|]. split; reflexivity. Qed.

(** Finding: with a pool supplied by the caller parallel.map never returns a
    list: map_async leaves the pool open and map then joins it *)
Theorem parallel_map_user_pool_refuted nr_procs force cs order tasks : forall l,
  par_map nr_procs force true cs order tasks <> Values l.
Proof. intros l. unfold par_map. cbn [negb andb]. destruct (pool_get cs tasks order); discriminate. Qed.

Example parallel_map_case : Permutation [2; 0; 1] (batches 2 5) /\
  par_map 3 false false 2 [2; 0; 1] [Ret 1; Ret 2; Ret 3; Ret 4; @Ret nat nat 5] = Values [Some 1; Some 2; Some 3; Some 4; Some 5].
Proof. split; [|reflexivity]. cbn. apply perm_trans with [0; 2; 1]; [apply perm_swap|apply perm_skip, perm_swap]. Qed.
End P.

Print Assumptions pool_map_order_independent.
Print Assumptions pool_map_failure.
Print Assumptions parallel_map_is_serial.
Print Assumptions parallel_map_exception_schedule_refuted.
Print Assumptions parallel_map_user_pool_refuted.
