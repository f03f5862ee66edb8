(** C29: futures, thread pool, wait, as_completed, executor map, under every
    interleaving; and the thread half of C03.

    Reading guide.  [reachable c]: some interleaving of client calls and
    worker steps leads to [c].  [steps c l c']: the actions [l] lead from [c]
    to [c'].  The lists [started], [ended] and [called] of a configuration are
    logs of what user code was entered, how it ended, and which callbacks were
    called; no modelled function reads them. *)
From Verif Require Export FutTrace.
From Coq Require Import ZifyBool ZifyNat Permutation.

(** ** specification *)
Section Spec.
Context {V E : Type}.
Notation cfg := (cfg V E).

(** the state of future [i] *)
Definition state_of (c : cfg) (i : nat) : option fstate := option_map (@st V E) (nth_error (futs c) i).
(** the moves the documentation allows *)
Inductive allowed : fstate -> fstate -> Prop :=
  | al_stay s : allowed s s
  | al_run : allowed PENDING RUNNING
  | al_finish : allowed RUNNING FINISHED
  | al_cancel : allowed PENDING CANCELLED
  | al_notify : allowed CANCELLED CANCELLED_AND_NOTIFIED.

(** future [i] finished or was cancelled and the pool has noticed *)
Definition finished_or_notified (c : cfg) (i : nat) : Prop :=
  state_of c i = Some FINISHED \/ state_of c i = Some CANCELLED_AND_NOTIFIED.
(** future [i] finished with an exception *)
Definition failed (c : cfg) (i : nat) : Prop :=
  state_of c i = Some FINISHED /\ exists e, In (i, Exc e) (ended c).

(** what wait(fs, return_when) promises *)
Definition wait_condition (c : cfg) (k : wkind) (fs : list nat) : Prop :=
  match k with
  | AllCompleted => forall i, In i fs -> finished_or_notified c i
  | FirstCompleted => exists i, In i fs /\ finished_or_notified c i
  | FirstException => (exists i, In i fs /\ failed c i) \/ (forall i, In i fs -> finished_or_notified c i)
  | AsCompleted => False
  end.

(** the same of the set [done] a wait returns *)
Definition done_condition (c : cfg) (k : wkind) (fs done : list nat) : Prop :=
  match k with
  | AllCompleted => forall i, In i fs -> In i done
  | FirstCompleted => exists i, In i done
  | FirstException => (exists i, In i done /\ failed c i) \/ (forall i, In i fs -> In i done)
  | AsCompleted => False
  end.

(** the list a serial loop produces: values up to the first exception *)
Fixpoint serial (l : list (outcome V E)) : list V * option E :=
  match l with
  | [] => ([], None)
  | Ret v :: rest => let (vs, e) := serial rest in (v :: vs, e)
  | Exc e :: _ => ([], Some e)
  end.
End Spec.

Lemma filter_both {A} (p : A -> bool) l : length (filter p l) + length (filter (fun x => negb (p x)) l) = length l.
Proof. induction l as [|a l IH]; [reflexivity|]. cbn [filter]. destruct (p a); cbn [negb length]; lia. Qed.

Lemma NoDup_app_l {A} (l l' : list A) : NoDup (l ++ l') -> NoDup l.
Proof.
  induction l as [|a l IH]; cbn; intros H; [constructor|]. inversion H; subst. constructor; [|auto].
  intros Ha. apply H2, in_app_iff. auto.
Qed.

Section Props.
Context {V E : Type} (cb_fatal : nat -> bool) (max_workers : nat).
Notation cfg := (cfg V E).
Notation act := (act V E).
Notation step := (@step V E cb_fatal max_workers).
Notation reachable := (@reachable V E cb_fatal max_workers).
Notation steps := (@steps V E cb_fatal max_workers).
Implicit Types (c : cfg).

(** ** states *)
Theorem future_state_moves c a c' r i s : reachable c -> step c a = Some (c', r) -> state_of c i = Some s ->
  exists s', state_of c' i = Some s' /\ allowed s s'.
Proof.
  intros Hr H Hs. unfold state_of in *. destruct (nth_error (futs c) i) as [f|] eqn:Hf; [|discriminate]. injection Hs as <-.
  destruct (step_fut _ _ c a c' r (Inv1_reachable _ _ _ Hr) H i f Hf) as (f' & -> & [[Es _]|Hm]).
  - exists (st f'). split; [reflexivity|]. rewrite Es. constructor.
  - exists (st f'). split; [reflexivity|]. destruct Hm; constructor.
Qed.

(** result() never changes its answer once it has one *)
Theorem future_result_final c l c' i truthy res : reachable c -> steps c l c' ->
  get_result truthy c i = Some res -> get_result truthy c' i = Some res.
Proof.
  intros Hr Hs H. unfold get_result in *. destruct (nth_error (futs c) i) as [f|] eqn:Hf; [|discriminate].
  destruct (steps_settled _ _ c l c' i f Hr Hs Hf) as (f' & -> & X).
  destruct (st f) eqn:Est; try discriminate; destruct (X eq_refl) as (X1 & X2 & X3).
  - destruct (X3 eq_refl) as [-> | ->]; exact H.
  - destruct (X2 eq_refl) as [-> _]. exact H.
  - destruct (X2 eq_refl) as [-> ->]. exact H.
Qed.

(** the value or exception is the one the submitted function ended with, and
    a function ends at most once *)
Theorem future_result_is_outcome c i truthy : reachable c ->
  (forall v, get_result truthy c i = Some (RReturn (Some v)) -> In (i, Ret v) (ended c)) /\
  (forall e, get_result truthy c i = Some (RRaise e) -> In (i, Exc e) (ended c)) /\
  (get_result truthy c i = Some (RReturn None) -> exists e, truthy e = false /\ In (i, Exc e) (ended c)) /\
  (get_result truthy c i = Some RCancelledError -> ~ In i (started c)) /\
  (forall o o', In (i, o) (ended c) -> In (i, o') (ended c) -> o = o').
Proof.
  intros Hr. pose proof (Inv1_reachable _ _ _ Hr) as HI. split; [|split; [|split; [|split]]].
  5: intros; eapply ended_unique; eauto.
  4: { intros H Hin. pose proof (i_started _ _ HI i) as Hst. unfold stat in Hst. unfold get_result in H.
    destruct (nth_error (futs c) i) as [f|]; [|discriminate]. cbn [option_map] in Hst.
    assert (Hz : sumf (fun j => b2n (Nat.eqb j i)) (started c) = 0).
    { destruct (st f); try discriminate; try exact Hst. destruct (fres f) as [[|]|]; try discriminate. destruct (truthy e); discriminate. }
    apply In_nth_error in Hin. destruct Hin as [n Hn].
    pose proof (sumf_ge (fun j => b2n (Nat.eqb j i)) _ _ _ Hn) as G. cbn in G. rewrite Nat.eqb_refl in G. cbn in G. lia. }
  all: unfold get_result; destruct (nth_error (futs c) i) as [f|] eqn:Hf; try discriminate.
  all: pose proof (i_res _ _ HI i f Hf) as Hres; destruct (st f); try discriminate; destruct Hres as (o & -> & Hin).
  - intros v H. destruct o as [v'|e]; [|destruct (truthy e); discriminate]. injection H as ->. exact Hin.
  - intros e H. destruct o as [v'|e']; [discriminate|]. destruct (truthy e'); [|discriminate]. injection H as ->. exact Hin.
  - intros H. destruct o as [v'|e']; [discriminate|]. exists e'. destruct (truthy e'); [discriminate|auto].
Qed.

(** each submitted function is entered at most once *)
Theorem function_runs_at_most_once c i : reachable c -> count_occ Nat.eq_dec (started c) i <= 1.
Proof.
  intros Hr. pose proof (i_started _ _ (Inv1_reachable _ _ _ Hr) i) as H.
  assert (E1 : forall l, count_occ Nat.eq_dec l i = sumf (fun j => b2n (Nat.eqb j i)) l).
  { intros l. induction l as [|a l IH]; [reflexivity|]. cbn [count_occ sumf]. rewrite IH.
    destruct (Nat.eq_dec a i); [subst; rewrite Nat.eqb_refl|assert (X : Nat.eqb a i = false) by (apply Nat.eqb_neq; congruence); rewrite X];
    cbn; lia. }
  rewrite E1, H. destruct (stat c i) as [[]|]; cbn; lia.
Qed.

(** after cancel() returned True the function is never entered *)
Theorem cancelled_never_runs c i c1 l c2 : reachable c -> step c (Cancel i) = Some (c1, RBool true) -> steps c1 l c2 ->
  ~ In i (started c2) /\ forall truthy, get_result truthy c2 i = Some RCancelledError.
Proof.
  intros Hr H Hs.
  assert (Hr1 : reachable c1) by (econstructor; eauto).
  assert (Hres : forall truthy, get_result truthy c1 i = Some RCancelledError).
  { intros truthy. cbn in H. unfold do_cancel in H. destruct (nth_error (futs c) i) as [f|] eqn:Hf; [|discriminate].
    destruct (st f) eqn:Est; injection H as <-; unfold get_result; try discriminate.
    - cbn [futs set_jobs set_futs]. rewrite (nth_upd_same _ _ _ _ Hf). reflexivity.
    - rewrite Hf, Est. reflexivity.
    - rewrite Hf, Est. reflexivity. }
  assert (Hres2 : forall truthy, get_result truthy c2 i = Some RCancelledError).
  { intros truthy. eapply future_result_final; eauto. }
  split; [|exact Hres2].
  destruct (future_result_is_outcome c2 i (fun _ => true) (steps_reachable _ _ _ _ _ Hr1 Hs)) as (_ & _ & _ & X & _). auto.
Qed.

(** ** callbacks *)
(** registration [n] was made for future [i] with add_done_callback; the calls
    made on its behalf *)
Definition calls_of c (n : nat) : nat := length (filter (fun e => Nat.eqb (snd e) n) (called c)).

Lemma calls_of_sum c n : calls_of c n = sumf (lcb n) (called c).
Proof.
  unfold calls_of, lcb. generalize (called c). intros l. induction l as [|a l IH]; [reflexivity|]. cbn [filter sumf].
  destruct (Nat.eqb (snd a) n); cbn; lia.
Qed.

(** at most once, never before the future is done, and on the future it was
    registered on *)
Theorem callback_at_most_once c n : reachable c ->
  calls_of c n <= 1 /\
  forall i, In (i, n) (called c) -> nth_error (regs c) n = Some i /\
     exists s, state_of c i = Some s /\ (s = CANCELLED \/ s = CANCELLED_AND_NOTIFIED \/ s = FINISHED).
Proof.
  intros Hr. pose proof (Inv3_reachable _ _ _ Hr) as HI. split.
  - pose proof (k_le _ _ HI n) as H. rewrite calls_of_sum. unfold places in H. destruct (Nat.ltb n (length (regs c))); cbn in H; lia.
  - intros i Hi. destruct (k_called _ _ HI i n Hi) as ((f & Hf & Hd) & Hreg). split; [exact Hreg|].
    exists (st f). unfold state_of. rewrite Hf. split; [reflexivity|]. destruct (st f); try discriminate; auto.
Qed.

(** exactly once: when no callback raises a non-Exception, the future is done
    and nobody is in the middle of calling callbacks *)
Theorem callback_exactly_once c n i s : reachable c -> (forall m, cb_fatal m = false) ->
  nth_error (regs c) n = Some i -> state_of c i = Some s -> s = CANCELLED \/ s = CANCELLED_AND_NOTIFIED \/ s = FINISHED ->
  (forall j, step c (ClientCallback j) = None) -> (forall w, step c (WorkerCallback w) = None) ->
  calls_of c n = 1.
Proof.
  intros Hr Hcb Hreg Hs Hd Hj Hw. pose proof (Inv3_reachable _ _ _ Hr) as HI.
  pose proof (k_eq _ _ HI Hcb n) as Hp. unfold places in Hp.
  assert (Hlt : Nat.ltb n (length (regs c)) = true) by (apply Nat.ltb_lt, nth_error_Some; congruence).
  rewrite Hlt in Hp. cbn [b2n] in Hp. rewrite calls_of_sum.
  assert (Z1 : sumf (wcb n) (wks c) = 0).
  { destruct (sumf (wcb n) (wks c)) eqn:Es; [reflexivity|]. destruct (sumf_pos (wcb n) (wks c)) as (m & x & Hx & Hpos); [lia|].
    specialize (Hw m). cbn in Hw. unfold do_worker_callback in Hw. rewrite Hx in Hw. destruct x as [| | | |i0 l| | |]; cbn in Hpos; try lia.
    destruct l; discriminate. }
  assert (Z2 : sumf (jcb n) (jobs c) = 0).
  { destruct (sumf (jcb n) (jobs c)) eqn:Es; [reflexivity|]. destruct (sumf_pos (jcb n) (jobs c)) as (m & x & Hx & Hpos); [lia|].
    specialize (Hj m). cbn in Hj. unfold do_client_callback in Hj. rewrite Hx in Hj. destruct x as [i0 [|n9 l9]]; [cbn in Hpos; lia|discriminate]. }
  assert (Z3 : sumf (fcb n) (futs c) = 0).
  { destruct (sumf (fcb n) (futs c)) eqn:Es; [reflexivity|]. destruct (sumf_pos (fcb n) (futs c)) as (m & f & Hf & Hpos); [lia|].
    unfold fcb in Hpos. destruct (is_done (st f)) eqn:Ed; [lia|].
    assert (Hin : In n (cbs f)) by (apply (count_occ_In Nat.eq_dec); lia).
    pose proof (k_cbs _ _ HI m f n Hf Hin) as Hm. rewrite Hreg in Hm. injection Hm as <-.
    unfold state_of in Hs. rewrite Hf in Hs. injection Hs as <-. destruct Hd as [Hd|[Hd|Hd]]; rewrite Hd in Ed; discriminate. }
  lia.
Qed.

(** ** wait *)
Lemma settled_spec c i : fut_settled (futs c) i = true <-> finished_or_notified c i.
Proof.
  unfold fut_settled, finished_or_notified, state_of. destruct (nth_error (futs c) i) as [f|]; cbn.
  - destruct (st f); cbn; split; intros H; try discriminate; auto; destruct H as [H|H]; discriminate.
  - split; [discriminate|intros [H|H]; discriminate].
Qed.
Lemma raised_spec c i : reachable c -> (fut_raised (futs c) i = true <-> failed c i).
Proof.
  intros Hr. unfold fut_raised, failed, state_of. destruct (nth_error (futs c) i) as [f|] eqn:Hf; cbn.
  - pose proof (i_res _ _ (Inv1_reachable _ _ _ Hr) i f Hf) as Hres.
    destruct (st f); try (split; [discriminate|intros [H _]; discriminate]).
    destruct Hres as (o & -> & Hin). split.
    + destruct o as [|e]; [discriminate|]. intros _. split; [reflexivity|eauto].
    + intros (_ & e & He). rewrite (ended_unique _ _ _ _ _ _ Hr Hin He). reflexivity.
  - split; [discriminate|intros [H _]; discriminate].
Qed.
Lemma condition_spec c k fs : reachable c -> k <> AsCompleted ->
  (condition (fut_settled (futs c)) (fut_raised (futs c)) k fs <-> wait_condition c k fs).
Proof.
  intros Hr Hk. destruct k; cbn [condition wait_condition]; try congruence.
  - split; intros (i & Hi & Hs); exists i; (split; [exact Hi|]); now apply settled_spec.
  - split; (intros [(i & Hi & Hs)|H]; [left; exists i; split; [exact Hi|]; now apply raised_spec|right; intros i Hi; apply settled_spec; auto]).
  - split; intros H i Hi; apply settled_spec; auto.
Qed.

(** a call keeps its arguments *)
Theorem wait_registers c k fs c' r : step c (Wait k fs) = Some (c', r) ->
  forall l c2, steps c' l c2 ->
  exists w, nth_error (wts c2) (length (wts c)) = Some w /\ kind w = k /\ (forall i, In i (wfs w) <-> In i fs) /\
            (k <> AsCompleted -> wfs w = fs).
Proof.
  intros H l c2 Hs.
  assert (X : exists w, nth_error (wts c') (length (wts c)) = Some w /\ kind w = k /\ wfs w = match k with AsCompleted => as_set fs | _ => fs end).
  { cbn in H. unfold do_wait in H. destruct (forallb _ fs); [|discriminate].
    match type of H with (if ?b then _ else _) = _ => destruct b end; injection H as <- _; cbn [wts set_wts set_futs];
      rewrite nth_snoc, Nat.eqb_refl; (eexists; split; [reflexivity|]); auto. }
  destruct X as (w & Hw & Hk & Hf). destruct (steps_waiter _ _ _ _ _ Hs _ _ Hw) as (w' & Hw' & (G1 & G2 & _)).
  exists w'. split; [exact Hw'|]. split; [congruence|]. rewrite G2, Hf. split.
  - intros i. destruct k; try reflexivity. apply as_set_In.
  - intros Hn. destruct k; try reflexivity. congruence.
Qed.

(** a wait that returns at once has its condition (or nothing to wait for) *)
Theorem wait_immediate c k fs c' r w : reachable c -> k <> AsCompleted -> step c (Wait k fs) = Some (c', r) ->
  nth_error (wts c') (length (wts c)) = Some w -> ph w = PReturned ->
  fs = [] \/ (wait_condition c' k fs /\ forall i, In i (out w) <-> In i fs /\ finished_or_notified c' i).
Proof.
  intros Hr Hk H Hw Hp. assert (Hr' : reachable c') by (econstructor; eauto).
  cbn in H. unfold do_wait in H. destruct (forallb _ fs); [|discriminate].
  assert (Hfs : match k with AsCompleted => as_set fs | _ => fs end = fs) by (destruct k; congruence).
  rewrite Hfs in H.
  match type of H with (if ?b then _ else _) = _ => destruct b eqn:Hb end; injection H as <- _; cbn [wts set_wts set_futs futs] in *;
    rewrite nth_snoc, Nat.eqb_refl in Hw; injection Hw as <-; cbn [ph] in Hp; [|destruct k; congruence].
  destruct fs as [|i0 fs0]; [now left|]. right. cbn [out]. split.
  - apply condition_spec; auto. cbn [futs set_wts]. apply orb_true_iff in Hb.
    assert (Hall : Nat.eqb (length (as_set (filter (fut_settled (futs c)) (i0 :: fs0)))) (length (i0 :: fs0)) = true ->
                   forall i, In i (i0 :: fs0) -> fut_settled (futs c) i = true).
    { intros Hl. apply Nat.eqb_eq in Hl. pose proof (filter_both (fut_settled (futs c)) (i0 :: fs0)) as Hfl.
      assert (Hle : length (as_set (filter (fut_settled (futs c)) (i0 :: fs0))) <= length (filter (fut_settled (futs c)) (i0 :: fs0))).
      { apply NoDup_incl_length; [apply NoDup_nodup|]. intros x. apply as_set_In. }
      assert (Hz : length (filter (fun x => negb (fut_settled (futs c) x)) (i0 :: fs0)) = 0) by lia.
      intros i Hi. destruct (fut_settled (futs c) i) eqn:Es; [reflexivity|].
      apply length_zero_iff_nil in Hz. assert (In i []) as []. rewrite <- Hz, filter_In, Es. auto. }
    destruct k; cbn [condition]; try congruence.
    + destruct Hb as [Hb|Hb].
      * apply negb_true_iff, Nat.eqb_neq in Hb. destruct (as_set _) as [|x l] eqn:Ex; [now elim Hb|].
        exists x. assert (Hin : In x (as_set (filter (fut_settled (futs c)) (i0 :: fs0)))) by (rewrite Ex; now left).
        rewrite as_set_In, filter_In in Hin. exact Hin.
      * exists i0. split; [now left|]. apply Hall; [exact Hb|now left].
    + destruct Hb as [Hb|Hb]; [left|right; auto].
      apply existsb_exists in Hb. destruct Hb as (x & Hx & Hrx). rewrite as_set_In, filter_In in Hx. exists x. tauto.
    + destruct Hb as [Hb|Hb]; [discriminate|auto].
  - intros i. rewrite as_set_In, filter_In, <- settled_spec. reflexivity.
Qed.

(** a blocked wait wakes up (other than by timeout) only if its condition holds *)
Theorem wait_wakes_only_if_condition c k w c' r : reachable c ->
  nth_error (wts c) k = Some w -> kind w <> AsCompleted -> step c (Wake k false) = Some (c', r) ->
  wait_condition c (kind w) (wfs w).
Proof.
  intros Hr Hw Hk H. destruct (w_ok _ (InvW_reachable _ _ _ Hr) k w Hw) as (X1 & X2 & X3).
  cbn in H. unfold do_wake in H. rewrite Hw in H. destruct (ph w); try discriminate. rewrite orb_false_r in H.
  destruct (event w) eqn:Ev; [|discriminate]. apply condition_spec; auto.
  pose proof (v_event _ _ _ X1 Hk Ev) as Hkn. pose proof (v_sound _ _ _ X1) as Hsd. unfold known in Hkn. unfold condition.
  destruct (kind w); try congruence.
  - destruct Hkn as (x & Hx). exists x. auto.
  - destruct Hkn as [(x & Hx & Hrx)|Hkn]; [left; exists x; split; [now apply Hsd|exact Hrx]|right; intros x Hx; apply Hsd; auto].
  - intros x Hx. apply Hsd; auto.
Qed.

(** no lost wakeup: once the condition holds, a blocked wait can wake up *)
Theorem wait_wakes_if_condition c k w : reachable c ->
  nth_error (wts c) k = Some w -> kind w <> AsCompleted -> ph w = PWait -> NoDup (wfs w) ->
  wait_condition c (kind w) (wfs w) -> exists c' r, step c (Wake k false) = Some (c', r).
Proof.
  intros Hr Hw Hk Hp Hnd Hc. destruct (w_ok _ (InvW_reachable _ _ _ Hr) k w Hw) as (X1 & X2 & X3).
  destruct (event w) eqn:Ev.
  - cbn. unfold do_wake. rewrite Hw, Hp, Ev. cbn [orb]. eauto.
  - exfalso. apply (v_awake _ _ _ X1 Hk Hp Ev); [|now apply condition_spec].
    destruct (InvD_reachable _ _ c Hr k w Hw) as (D1 & D2).
    assert (Hl : length (done0 w) <> length (wfs w)) by (apply D2; [exact Hk|congruence]).
    assert (Hinc : incl (done0 w) (wfs w)).
    { intros x Hx. apply (v_sound _ _ _ X1). apply in_app_iff. auto. }
    pose proof (NoDup_incl_length D1 Hinc) as Hle.
    destruct (existsb (fun x => negb (memb x (done0 w))) (wfs w)) eqn:Ex.
    + apply existsb_exists in Ex. destruct Ex as (x & Hx & Hn). exists x. split; [exact Hx|].
      intros Hin. apply memb_In in Hin. rewrite Hin in Hn. discriminate.
    + exfalso. assert (Hinc2 : incl (wfs w) (done0 w)).
      { intros x Hx. destruct (memb x (done0 w)) eqn:Em; [now apply memb_In|].
        assert (T : existsb (fun x => negb (memb x (done0 w))) (wfs w) = true)
          by (apply existsb_exists; exists x; rewrite Em; auto). congruence. }
      pose proof (NoDup_incl_length Hnd Hinc2). lia.
Qed.

(** the set a wait returns: only futures it was given that are done; all that
    were done when it started blocking or at any time while it blocked; and if
    it did not time out, enough of them *)
Theorem wait_result c k t c1 r l c2 w w2 : reachable c ->
  nth_error (wts c) k = Some w -> kind w <> AsCompleted -> step c (Wake k t) = Some (c1, r) -> steps c1 l c2 ->
  nth_error (wts c2) k = Some w2 -> ph w2 = PReturned ->
  (forall i, In i (out w2) -> In i (wfs w) /\ finished_or_notified c2 i) /\
  (forall i, In i (wfs w) -> finished_or_notified c i -> In i (out w2)) /\
  (t = false -> done_condition c2 (kind w) (wfs w) (out w2)).
Proof.
  intros Hr Hw Hk H Hs Hw2 Hp2.
  assert (Hr1 : reachable c1) by (econstructor; eauto). assert (Hr2 := steps_reachable _ _ _ _ _ Hr1 Hs).
  assert (Hph : ph w = PWait /\ (t = false -> event w = true)).
  { cbn in H. unfold do_wake in H. rewrite Hw in H. destruct (ph w); try discriminate. split; [reflexivity|].
    intros ->. rewrite orb_false_r in H. destruct (event w); [reflexivity|discriminate]. }
  destruct Hph as [Hph Hev].
  destruct (step_waiter _ _ _ _ _ _ H k w Hw) as (w1 & Hw1 & G1).
  destruct (steps_waiter _ _ _ _ _ Hs k w1 Hw1) as (w2' & Hw2' & G2). rewrite Hw2 in Hw2'. injection Hw2' as <-.
  pose proof (grows_trans _ _ _ G1 G2) as (A1 & A2 & A3 & _ & A5 & _).
  destruct (w_ok _ (InvW_reachable _ _ _ Hr) k w Hw) as (X1 & _ & _).
  destruct (w_ok _ (InvW_reachable _ _ _ Hr2) k w2 Hw2) as (Y1 & _ & _).
  assert (Hk2 : kind w2 <> AsCompleted) by congruence.
  pose proof (v_ret _ _ _ Y1 Hk2 Hp2) as Hret. destruct (A5 Hk) as (Afin & Aev).
  split; [|split].
  - intros i Hi. apply Hret in Hi. apply (v_sound _ _ _ Y1) in Hi. rewrite A2 in Hi. rewrite <- settled_spec. exact Hi.
  - intros i Hi Hf. apply Hret. apply settled_spec in Hf. pose proof (v_seen _ _ _ X1 Hk Hph i Hi Hf) as Hrep.
    unfold reported in *. rewrite A3. apply in_app_iff in Hrep. apply in_app_iff. destruct Hrep as [?|?]; auto.
  - intros Ht. assert (Ev2 : event w2 = true) by auto.
    pose proof (v_event _ _ _ Y1 Hk2 Ev2) as Hkn. unfold known in Hkn. rewrite A1, A2 in Hkn. unfold done_condition.
    destruct (kind w); try congruence.
    + destruct Hkn as (x & Hx). exists x. now apply Hret.
    + destruct Hkn as [(x & Hx & Hrx)|Hkn]; [left; exists x; split; [now apply Hret|now apply raised_spec]|].
      right. intros x Hx. apply Hret. auto.
    + intros x Hx. apply Hret. auto.
Qed.

(** ** as_completed *)
(** hands out each future at most once, and only when it is done *)
Theorem as_completed_sound c k w : reachable c -> nth_error (wts c) k = Some w -> kind w = AsCompleted ->
  NoDup (out w) /\ forall i, In i (out w) -> In i (wfs w) /\ finished_or_notified c i.
Proof.
  intros Hr Hw Hk. destruct (w_ok _ (InvW_reachable _ _ _ Hr) k w Hw) as (X1 & _ & _).
  destruct (a_nodup _ _ _ X1 Hk) as (_ & _ & N3). apply NoDup_app_l in N3. split; [exact N3|].
  intros i Hi. rewrite <- settled_spec. apply (a_sound _ _ _ X1 Hk). apply in_app_iff. auto.
Qed.
(** stops (other than by timeout) only after handing out all of them *)
Theorem as_completed_complete c k c' r w : reachable c -> step c (Yield k) = Some (c', r) ->
  nth_error (wts c') k = Some w -> (forall b, ph w <> PYield b) -> ph w <> PWait ->
  Permutation (out w) (wfs w).
Proof.
  intros Hr H Hw Hb Hp. cbn in H. unfold do_yield in H. destruct (nth_error (wts c) k) as [w0|] eqn:Hw0; [|discriminate].
  destruct (ph w0) as [| |[|i rest]|] eqn:Hp0; try discriminate; injection H as <- _; cbn [wts set_wts] in Hw;
    rewrite (nth_upd_same _ _ _ _ Hw0) in Hw; injection Hw as <-.
  - cbn [ph set_ph out wfs] in *. destruct (asked w0) eqn:Ea; [|congruence].
    destruct (w_ok _ (InvW_reachable _ _ _ Hr) k w0 Hw0) as (X1 & _ & _).
    assert (Hk : kind w0 = AsCompleted).
    { destruct (kind w0) eqn:Ek; try reflexivity; (edestruct (v_wait _ _ _ X1); [rewrite Ek; discriminate|exact Hp0]). }
    destruct (a_nodup _ _ _ X1 Hk) as (N1 & _ & N3). apply NoDup_app_l in N3.
    apply NoDup_Permutation; [exact N3|exact N1|]. intros x. split.
    + intros Hx. apply (a_sound _ _ _ X1 Hk). apply in_app_iff. auto.
    + intros Hx. destruct (a_asked _ _ _ X1 Hk) as (_ & Hask). rewrite Ea in Hask. specialize (Hask x). cbn [In] in Hask.
      destruct (in_dec Nat.eq_dec x (out w0)) as [Hin|Hno]; [exact Hin|].
      destruct (in_dec Nat.eq_dec x (done0 w0)) as [Hin|Hno2].
      * apply (a_done0 _ _ _ X1 Hk) in Hin. unfold batch in Hin. rewrite Hp0, app_nil_r in Hin. exact Hin.
      * exfalso. apply Hask. auto.
  - cbn [ph] in Hb. now elim (Hb rest).
Qed.
(** blocks only while no finished future is waiting to be handed out and some
    future is not finished *)
Theorem as_completed_blocks c k w : reachable c -> nth_error (wts c) k = Some w -> kind w = AsCompleted -> ph w = PWait ->
  step c (Wake k false) = None ->
  (forall i, In i (wfs w) -> finished_or_notified c i -> In i (out w)) /\
  exists i, In i (wfs w) /\ ~ finished_or_notified c i.
Proof.
  intros Hr Hw Hk Hp H. destruct (w_ok _ (InvW_reachable _ _ _ Hr) k w Hw) as (X1 & _ & _).
  assert (Hev : event w = false).
  { cbn in H. unfold do_wake in H. rewrite Hw, Hp in H. destruct (event w); [discriminate|reflexivity]. }
  assert (Hfin : finished w = []).
  { destruct (finished w) eqn:Ef; [reflexivity|]. assert (event w = true); [|congruence]. apply (a_event _ _ _ X1 Hk). congruence. }
  assert (Hall : forall i, In i (wfs w) -> finished_or_notified c i -> In i (out w)).
  { intros i Hi Hf. apply settled_spec in Hf. pose proof (a_seen _ _ _ X1 Hk (or_introl Hp) i Hi Hf) as Hin.
    unfold batch in Hin. rewrite Hp, Hfin, !app_nil_r in Hin. exact Hin. }
  split; [exact Hall|].
  pose proof (a_wait _ _ _ X1 Hk Hp) as Ha. destruct (asked w) as [|x l] eqn:Ea; [congruence|].
  destruct (a_asked _ _ _ X1 Hk) as (_ & Hask). rewrite Ea in Hask. destruct (proj1 (Hask x) (or_introl eq_refl)) as (Hx & _ & Hno).
  exists x. auto.
Qed.

(** ** the pool makes progress *)
(** [worker_act]: the steps worker threads take by themselves.  Every one of
    them uses up work, so they cannot go on forever without client calls... *)
Theorem pool_work_decreases c a c' r : worker_act a = true -> step c a = Some (c', r) -> work c' < work c.
Proof. apply work_decreases. Qed.
(** ... and when they cannot go on every submitted future is final *)
Theorem pool_never_stuck c (o : outcome V E) : reachable c -> 0 < max_workers -> (forall n, cb_fatal n = false) ->
  (forall a, worker_act a = true -> step c a = None) ->
  forall i s, state_of c i = Some s -> s = FINISHED \/ s = CANCELLED_AND_NOTIFIED.
Proof.
  intros Hr Hm Hcb Hst i s Hs. destruct (not_stuck _ _ c o Hr Hm Hcb Hst) as [Ha _].
  unfold state_of in Hs. destruct (nth_error (futs c) i) as [f|] eqn:Hf; [|discriminate]. injection Hs as <-.
  specialize (Ha i f Hf). destruct (st f); try discriminate; auto.
Qed.
(** after shutdown the idle pool has no thread left: shutdown(wait=True) returns *)
Theorem shutdown_drains c (o : outcome V E) c1 r l c2 : reachable c -> 0 < max_workers -> (forall n, cb_fatal n = false) ->
  step c Shutdown = Some (c1, r) -> steps c1 l c2 -> (forall a, worker_act a = true -> step c2 a = None) ->
  forall w, In w (wks c2) -> w = WExited.
Proof.
  intros Hr Hm Hcb H Hs Hst. assert (Hr1 : reachable c1) by (econstructor; eauto).
  assert (Hr2 := steps_reachable _ _ _ _ _ Hr1 Hs).
  assert (Hclosed : forall c c', closed c = true -> (forall a r, step c a = Some (c', r) -> closed c' = true)).
  { intros d d' Hd a r0 Ha. destruct a as [|i|i| | |k fs|j|k t|k|k|w|w|w o0|w|w|w]; cbn [FutModel.step] in Ha;
    unfold do_submit, do_cancel, do_add_callback, do_wait, do_client_callback, do_wake, do_remove, do_yield, do_get,
           do_start, do_finish, do_publish, do_worker_callback, do_check, do_close in Ha;
    repeat (match type of Ha with
    | context [match ?x with _ => _ end] =>
        match x with
        | context [match _ with _ => _ end] => fail 1
        | _ => destruct x eqn:?; try discriminate Ha
        end
    end); injection Ha as <- _; cbn; first [assumption|reflexivity|congruence]. }
  (* a None was put on the queue: it is there, or was taken by a thread *)
  assert (Hinv : In None (queue c1) \/ In WNone (wks c1) \/ In WExited (wks c1)).
  { cbn in H. injection H as <- _. left. cbn. apply in_app_iff. right. now left. }
  assert (Hc1 : closed c1 = true) by (cbn in H; injection H as <- _; reflexivity).
  clear H Hr.
  assert (Hinv2 : In None (queue c2) \/ In WNone (wks c2) \/ In WExited (wks c2)).
  { clear Hst Hr2. revert Hr1 Hinv Hc1. induction Hs as [d|d a d1 r0 l d2 Ha Hs IH]; intros Hrd Hi Hcl; [exact Hi|].
    apply IH; [econstructor; eauto| |eauto]. clear IH Hs.
    assert (Hkeep : forall w (x y : wstate V E), nth_error (wks d) w = Some x -> x <> WNone -> x <> WExited ->
        In WNone (wks d) \/ In WExited (wks d) -> In WNone (upd (wks d) w y) \/ In WExited (upd (wks d) w y)).
    { intros w x y Hx H1 H2 [Hi'|Hi']; [left|right]; eapply In_upd_keep; eauto. }
    destruct a as [|i|i| | |k fs|j|k t|k|k|w|w|w o0|w|w|w]; cbn [FutModel.step] in Ha.
    - unfold do_submit in Ha. rewrite Hcl in Ha. injection Ha as <- _. exact Hi.
    - unfold do_cancel in Ha. destruct (nth_error (futs d) i) as [f|]; [|discriminate]. destruct (st f); injection Ha as <- _; exact Hi.
    - unfold do_add_callback in Ha. destruct (nth_error (futs d) i) as [f|]; [|discriminate]. destruct (is_done (st f)); injection Ha as <- _; exact Hi.
    - injection Ha as <- _. cbn. left. apply in_app_iff. right. now left.
    - injection Ha as <- _. cbn. destruct Hi as [Hi|Hi]; [left; apply in_app_iff; auto|auto].
    - unfold do_wait in Ha. destruct (forallb _ fs); [|discriminate].
      match type of Ha with (if ?b then _ else _) = _ => destruct b end; injection Ha as <- _; exact Hi.
    - unfold do_client_callback in Ha. destruct (nth_error (jobs d) j) as [[i [|n rest]]|]; try discriminate. injection Ha as <- _. exact Hi.
    - unfold do_wake in Ha. destruct (nth_error (wts d) k) as [w|]; [|discriminate]. destruct (ph w); try discriminate.
      destruct (event w || t); [|discriminate]. injection Ha as <- _. exact Hi.
    - unfold do_remove in Ha. destruct (nth_error (wts d) k) as [w|]; [|discriminate]. destruct (ph w) as [|[|i rest]| |]; try discriminate.
      + injection Ha as <- _. exact Hi.
      + destruct (nth_error (futs d) i); [|discriminate]. injection Ha as <- _. exact Hi.
    - unfold do_yield in Ha. destruct (nth_error (wts d) k) as [w|]; [|discriminate]. destruct (ph w) as [| |[|i rest]|]; try discriminate;
      injection Ha as <- _; exact Hi.
    - unfold do_get in Ha. destruct (nth_error (wks d) w) as [[]|] eqn:Ew; try discriminate. destruct (queue d) as [|q rest] eqn:Eq; [discriminate|].
      injection Ha as <- _. cbn [queue wks set_queue set_wks]. destruct Hi as [[->|Hi]|Hi].
      + right. left. eapply In_upd_new; eauto.
      + auto.
      + right. eapply Hkeep; eauto; discriminate.
    - unfold do_start in Ha. destruct (nth_error (wks d) w) as [[]|] eqn:Ew; try discriminate.
      destruct (nth_error (futs d) i) as [f|]; [|discriminate].
      destruct (st f); injection Ha as <- _; cbn [queue wks set_queue set_wks set_wts set_futs];
        (destruct Hi as [Hi|Hi]; [auto|right; eapply Hkeep; eauto; discriminate]).
    - unfold do_finish in Ha. destruct (nth_error (wks d) w) as [[]|] eqn:Ew; try discriminate. injection Ha as <- _.
      cbn [queue wks]. destruct Hi as [Hi|Hi]; [auto|right; eapply Hkeep; eauto; discriminate].
    - unfold do_publish in Ha. destruct (nth_error (wks d) w) as [[]|] eqn:Ew; try discriminate.
      destruct (nth_error (futs d) i) as [f|]; [|discriminate]. injection Ha as <- _. cbn [queue wks set_queue set_wks set_wts set_futs].
      destruct Hi as [Hi|Hi]; [auto|right; eapply Hkeep; eauto; discriminate].
    - unfold do_worker_callback in Ha. destruct (nth_error (wks d) w) as [[| | | |i [|n rest]| | |]|] eqn:Ew; try discriminate;
      injection Ha as <- _; cbn [queue wks set_queue set_wks add_called];
      (destruct Hi as [Hi|Hi]; [auto|right; eapply Hkeep; eauto; discriminate]).
    - unfold do_check in Ha. destruct (nth_error (wks d) w) as [[]|] eqn:Ew; try discriminate. rewrite Hcl in Ha. injection Ha as <- _.
      cbn [queue wks set_queue set_wks]. left. apply in_app_iff. right. now left. }
  eapply closed_all_exited; eauto. destruct Hinv2 as [?|[Hx|?]]; auto.
  exfalso. destruct (not_stuck _ _ c2 o Hr2 Hm Hcb Hst) as [_ Hw]. destruct (Hw _ Hx); discriminate.
Qed.

(** ** executor map *)
(** The consumer of Executor.map reads the results one after the other, other
    threads run in between: from [c] to [c'] it gets the list and the end. *)
Inductive map_reads (truthy : E -> bool) : cfg -> list nat -> list (option V) * @map_end E -> cfg -> Prop :=
  | mr_wait c a c1 r ids res c' : step c a = Some (c1, r) -> map_reads truthy c1 ids res c' -> map_reads truthy c ids res c'
  | mr_end c : map_reads truthy c [] ([], MapAll) c
  | mr_value c i ids v vs e c' : get_result truthy c i = Some (RReturn v) -> map_reads truthy c ids (vs, e) c' ->
      map_reads truthy c (i :: ids) (v :: vs, e) c'
  | mr_raise c i ids e : get_result truthy c i = Some (RRaise e) -> map_reads truthy c (i :: ids) ([], MapRaise e) c
  | mr_cancelled c i ids : get_result truthy c i = Some RCancelledError -> map_reads truthy c (i :: ids) ([], MapCancelled) c.

Lemma map_reads_steps truthy c ids res c' : map_reads truthy c ids res c' -> exists l, steps c l c'.
Proof.
  intros H. induction H as [c a c1 r ids res c' H _ [l IH]|c|c i ids v vs e c' H _ [l IH]|c i ids e H|c i ids H].
  - exists (a :: l). econstructor; eauto.
  - exists []. constructor.
  - exists l. exact IH.
  - exists []. constructor.
  - exists []. constructor.
Qed.

(** whatever the interleaving, the consumer gets what a serial loop over the
    arguments gives, in argument order: [fn i] is how the call for the [i]-th
    future ends *)
Theorem executor_map_in_order truthy (fn : nat -> outcome V E) c ids vs e c' : reachable c ->
  (forall x, truthy x = true) ->
  map_reads truthy c ids (vs, e) c' ->
  (forall i o, In (i, o) (ended c') -> o = fn i) ->
  (forall i, In i ids -> state_of c' i <> Some CANCELLED /\ state_of c' i <> Some CANCELLED_AND_NOTIFIED) ->
  (vs, e) = (map Some (fst (serial (map fn ids))),
             match snd (serial (map fn ids)) with None => MapAll | Some x => MapRaise x end).
Proof.
  intros Hr Ht H. remember (vs, e) as res eqn:Eres. revert vs e Eres.
  induction H as [c a c1 r ids res c' H Hm IH|c|c i ids v vs e c' H Hm IH|c i ids e H|c i ids H]; intros vs0 e0 Eres Hfn Hnc.
  - assert (Hr1 : reachable c1) by (econstructor; eauto). exact (IH Hr1 vs0 e0 Eres Hfn Hnc).
  - injection Eres as <- <-. reflexivity.
  - injection Eres as <- <-. destruct (map_reads_steps _ _ _ _ _ Hm) as [l Hl].
    specialize (IH Hr vs e eq_refl Hfn (fun j Hj => Hnc j (or_intror Hj))).
    pose proof (future_result_is_outcome c i truthy Hr) as (R1 & _ & R3 & _).
    destruct v as [v|].
    + apply R1 in H. apply (proj1 (steps_ended _ _ _ _ _ Hl)) in H. apply Hfn in H. cbn [map serial]. rewrite <- H.
      destruct (serial (map fn ids)) as [vs' e'] eqn:Es. cbn [fst snd map] in *. injection IH as -> ->. reflexivity.
    + destruct (R3 H) as (x & Hx & _). rewrite Ht in Hx. discriminate.
  - injection Eres as <- <-. pose proof (future_result_is_outcome c i truthy Hr) as (_ & R2 & _).
    apply R2, Hfn in H. cbn [map serial]. rewrite <- H. reflexivity.
  - exfalso. destruct (Hnc i (or_introl eq_refl)) as [N1 N2]. unfold get_result in H. unfold state_of in *.
    destruct (nth_error (futs c) i) as [f|]; [|discriminate]. cbn in N1, N2. destruct (st f); try congruence.
    destruct (fres f) as [[|x]|]; try discriminate. rewrite Ht in H. discriminate.
Qed.

(** ** viscid.parallel.map with threads (parallel.py:212-215): a private
    executor, [n] submits, results read in order.  Only submits and worker
    steps happen until the list is complete. *)
Definition map_act (a : act) : bool := match a with Submit => true | _ => worker_act a end.

Lemma map_act_no_cancel c a c' r : map_act a = true -> step c a = Some (c', r) ->
  (forall i, state_of c i <> Some CANCELLED /\ state_of c i <> Some CANCELLED_AND_NOTIFIED) ->
  forall i, state_of c' i <> Some CANCELLED /\ state_of c' i <> Some CANCELLED_AND_NOTIFIED.
Proof.
  intros Ha H Hc i. unfold state_of in *.
  assert (Hupd : forall (c0 : cfg) j f f', nth_error (futs c) j = Some f -> futs c0 = upd (futs c) j f' ->
     st f' <> CANCELLED -> st f' <> CANCELLED_AND_NOTIFIED ->
     option_map (@st V E) (nth_error (futs c0) i) <> Some CANCELLED /\ option_map (@st V E) (nth_error (futs c0) i) <> Some CANCELLED_AND_NOTIFIED).
  { intros c0 j f f' Hj -> N1 N2. destruct (Nat.eq_dec i j) as [->|Hn].
    - rewrite (nth_upd_same _ _ _ _ Hj). cbn. split; congruence.
    - rewrite nth_upd_other by assumption. apply Hc. }
  destruct a as [|j|j| | |k fs|j|k t|k|k|w|w|w o|w|w|w]; cbn in Ha; try discriminate; cbn [FutModel.step] in H.
  - unfold do_submit in H. destruct (closed c); injection H as <- _; [apply Hc|]. cbn [futs]. rewrite nth_snoc.
    destruct (Nat.eqb i (length (futs c))); [cbn; split; discriminate|apply Hc].
  - unfold do_get in H. destruct (nth_error (wks c) w) as [[]|]; try discriminate. destruct (queue c); try discriminate.
    injection H as <- _. apply Hc.
  - unfold do_start in H. destruct (nth_error (wks c) w) as [[]|]; try discriminate.
    destruct (nth_error (futs c) i0) as [f|] eqn:Hi; [|discriminate].
    destruct (st f) eqn:Hs; injection H as <- _; try apply Hc.
    + eapply Hupd; [exact Hi|reflexivity| |]; cbn; discriminate.
    + exfalso. apply (proj1 (Hc i0)). now rewrite Hi, <- Hs.
  - unfold do_finish in H. destruct (nth_error (wks c) w) as [[]|]; try discriminate. injection H as <- _. apply Hc.
  - unfold do_publish in H. destruct (nth_error (wks c) w) as [[]|]; try discriminate.
    destruct (nth_error (futs c) i0) as [f|] eqn:Hi; [|discriminate]. injection H as <- _.
    eapply Hupd; [exact Hi|reflexivity| |]; cbn; discriminate.
  - unfold do_worker_callback in H. destruct (nth_error (wks c) w) as [[| | | |i0 [|n rest]| | |]|]; try discriminate;
    injection H as <- _; apply Hc.
  - unfold do_check in H. destruct (nth_error (wks c) w) as [[]|]; try discriminate. destruct (closed c);
    injection H as <- _; apply Hc.
Qed.
Lemma map_acts_no_cancel l c c' : Forall (fun a => map_act a = true) l -> steps c l c' ->
  (forall i, state_of c i <> Some CANCELLED /\ state_of c i <> Some CANCELLED_AND_NOTIFIED) ->
  forall i, state_of c' i <> Some CANCELLED /\ state_of c' i <> Some CANCELLED_AND_NOTIFIED.
Proof.
  intros Hl Hs. induction Hs as [|c a c1 r l c2 H Hs IH]; [auto|]. inversion Hl; subst. intros Hc. apply IH; auto.
  eapply map_act_no_cancel; eauto.
Qed.

(** the consumer of the previous section, with the schedule made explicit *)
Inductive map_run (truthy : E -> bool) : list act -> cfg -> list nat -> list (option V) * @map_end E -> cfg -> Prop :=
  | ru_wait c a c1 r l ids res c' : step c a = Some (c1, r) -> map_run truthy l c1 ids res c' -> map_run truthy (a :: l) c ids res c'
  | ru_end c : map_run truthy [] c [] ([], MapAll) c
  | ru_value l c i ids v vs e c' : get_result truthy c i = Some (RReturn v) -> map_run truthy l c ids (vs, e) c' ->
      map_run truthy l c (i :: ids) (v :: vs, e) c'
  | ru_raise c i ids e : get_result truthy c i = Some (RRaise e) -> map_run truthy [] c (i :: ids) ([], MapRaise e) c
  | ru_cancelled c i ids : get_result truthy c i = Some RCancelledError -> map_run truthy [] c (i :: ids) ([], MapCancelled) c.
Lemma map_run_reads truthy l c ids res c' : map_run truthy l c ids res c' -> map_reads truthy c ids res c'.
Proof. intros H. induction H; [eapply mr_wait; eauto|apply mr_end|eapply mr_value; eauto|now apply mr_raise|now apply mr_cancelled]. Qed.
Lemma map_run_steps truthy l c ids res c' : map_run truthy l c ids res c' -> steps c l c'.
Proof. intros H. induction H; auto; econstructor; eauto. Qed.

Theorem parallel_map_threads_is_serial truthy (fn : nat -> outcome V E) n l1 c1 l2 vs e c2 :
  (forall x, truthy x = true) ->
  steps init l1 c1 -> length (filter (fun a => match a with Submit => true | _ => false end) l1) = n ->
  map_run truthy l2 c1 (seq 0 n) (vs, e) c2 ->
  Forall (fun a => map_act a = true) (l1 ++ l2) ->
  (forall i o, In (i, o) (ended c2) -> o = fn i) ->
  (vs, e) = (map Some (fst (serial (map fn (seq 0 n)))),
             match snd (serial (map fn (seq 0 n))) with None => MapAll | Some x => MapRaise x end).
Proof.
  intros Ht H1 Hn H2 Hall Hfn. assert (Hr1 : reachable c1) by (eapply steps_reachable; [constructor|eauto]).
  eapply executor_map_in_order; eauto.
  - eapply map_run_reads; eauto.
  - intros i _. eapply map_acts_no_cancel; [exact Hall| |].
    + eapply steps_app; [exact H1|]. eapply map_run_steps; eauto.
    + intros [|j]; split; discriminate.
Qed.

(** and it gets there: when the pool can do no more, every result is there *)
Theorem parallel_map_threads_completes truthy (o : outcome V E) n l1 c1 l2 c2 :
  0 < max_workers -> (forall m, cb_fatal m = false) ->
  steps init l1 c1 -> length (filter (fun a => match a with Submit => true | _ => false end) l1) = n ->
  Forall (fun a => map_act a = true) (l1 ++ l2) -> steps c1 l2 c2 ->
  (forall a, worker_act a = true -> step c2 a = None) ->
  exists vs e, map_results truthy c2 (seq 0 n) = Some (vs, e) /\ e <> MapCancelled.
Proof.
  intros Hm Hcb H1 Hn Hall H2 Hst. assert (Hr1 : reachable c1) by (eapply steps_reachable; [constructor|eauto]).
  assert (Hr2 := steps_reachable _ _ _ _ _ Hr1 H2).
  assert (Hnc : forall i, state_of c2 i <> Some CANCELLED /\ state_of c2 i <> Some CANCELLED_AND_NOTIFIED).
  { eapply map_acts_no_cancel; [exact Hall|eapply steps_app; eauto|]. intros [|j]; split; discriminate. }
  (* the number of futures *)
  assert (Hlen : forall l c c', steps c l c' -> closed c = false -> Forall (fun a => map_act a = true) l ->
     length (futs c') = length (futs c) + length (filter (fun a => match a with Submit => true | _ => false end) l)).
  { intros l c c' Hs. induction Hs as [|c a d r l d2 H Hs IH]; intros Hcl Hl; [cbn; lia|]. inversion Hl as [|? ? Ha Hl']; subst.
    assert (Hd : closed d = false /\ length (futs d) = length (futs c) + match a with Submit => 1 | _ => 0 end).
    { destruct a as [|j|j| | |k fs|j|k t|k|k|w|w|w o0|w|w|w]; cbn in Ha; try discriminate; cbn [FutModel.step] in H;
        unfold do_submit, do_get, do_start, do_finish, do_publish, do_worker_callback, do_check in H; rewrite ?Hcl in H;
        repeat (match type of H with
        | context [match ?x with _ => _ end] =>
            match x with
            | context [match _ with _ => _ end] => fail 1
            | _ => destruct x eqn:?; try discriminate H
            end
        end); injection H as <- _; cbn [closed futs set_futs set_wts set_wks set_queue add_called]; rewrite ?app_length, ?upd_length; cbn [length];
        split; auto; lia. }
    destruct Hd as [Hd1 Hd2]. rewrite IH, Hd2 by auto. destruct a; cbn [filter length]; lia. }
  apply Forall_app in Hall. destruct Hall as [Ha1 Ha2].
  pose proof (Hlen l1 init c1 H1 eq_refl Ha1) as L1. rewrite Hn in L1. cbn [futs init length] in L1.
  assert (L2 : n <= length (futs c2)).
  { assert (G : forall i, i < length (futs c1) -> i < length (futs c2)).
    { intros i Hi. apply nth_error_Some in Hi. destruct (nth_error (futs c1) i) as [f|] eqn:Hf; [|congruence].
      destruct (steps_settled _ _ _ _ _ _ _ Hr1 H2 Hf) as (f' & Hf' & _). apply nth_error_Some. congruence. }
    destruct n; [lia|]. specialize (G n). lia. }
  assert (Hget : forall i, i < n -> exists r, get_result truthy c2 i = Some r /\ r <> RCancelledError).
  { intros i Hi. destruct (nth_error (futs c2) i) as [f|] eqn:Hf; [|apply nth_error_None in Hf; lia].
    destruct (pool_never_stuck c2 o Hr2 Hm Hcb Hst i (st f)) as [Hs|Hs]; [unfold state_of; now rewrite Hf| |].
    - unfold get_result. rewrite Hf, Hs. destruct (fres f) as [[v|x]|]; [eexists; split; [reflexivity|discriminate]| |eexists; split; [reflexivity|discriminate]].
      destruct (truthy x); eexists; (split; [reflexivity|discriminate]).
    - exfalso. apply (proj2 (Hnc i)). unfold state_of. now rewrite Hf, <- Hs. }
  assert (G : forall k s, s + k <= n -> exists vs e, map_results truthy c2 (seq s k) = Some (vs, e) /\ e <> MapCancelled).
  { induction k as [|k IH]; intros s Hs; cbn [seq map_results].
    - exists [], MapAll. split; [reflexivity|discriminate].
    - destruct (Hget s ltac:(lia)) as (r & -> & Hr). destruct r as [v|x|]; [|exists [], (MapRaise x); split; [reflexivity|discriminate]|congruence].
      destruct (IH (S s) ltac:(lia)) as (vs & e & -> & He). eauto. }
  apply (G n 0). lia.
Qed.
End Props.

(** ** concrete cases, and where the code falls short *)
Section Cases.
Local Definition nofatal (n : nat) := false.
Local Definition run {V E} fat mw (l : list (act V E)) : option (cfg V E) :=
  fold_left (fun c a => match c with None => None | Some c => option_map fst (step fat mw c a) end) l (Some init).
Lemma run_steps {V E} fat mw (l : list (act V E)) : forall c c',
  fold_left (fun c a => match c with None => None | Some c => option_map fst (step fat mw c a) end) l (Some c) = Some c' ->
  steps fat mw c l c'.
Proof.
  induction l as [|a l IH]; intros c c'; cbn [fold_left].
  - intros [= ->]. constructor.
  - destruct (step fat mw c a) as [[c1 r]|] eqn:H; cbn [option_map fst].
    + intros Hl. econstructor; eauto.
    + intros Hl. exfalso. clear -Hl. induction l; cbn in Hl; [discriminate|auto].
Qed.
Lemma run_reachable {V E} fat mw (l : list (act V E)) c : run fat mw l = Some c -> reachable fat mw c.
Proof. intros H. eapply steps_reachable; [constructor|]. eapply run_steps. exact H. Qed.

(** two workers, the second submitted task ends first, one waits for both, a
    callback on each *)
Definition sched : list (act nat nat) :=
  [Submit; Submit; AddCallback 0; Wait AllCompleted [1; 0]; Wait AsCompleted [0; 1; 0]; Get 1; Get 0; Start 0; Start 1;
   Finish 0 (Ret 11); Publish 0; Yield 1; Wake 1 false; Yield 1; Yield 1; Finish 1 (Exc 7); Publish 1; Wake 0 false; WorkerCallback 1; WorkerCallback 0].
Example sched_runs : exists c, run nofatal 2 sched = Some c /\
  map (@st nat nat) (futs c) = [FINISHED; FINISHED] /\ get_result (fun _ => true) c 0 = Some (RRaise 7) /\
  get_result (fun _ => true) c 1 = Some (RReturn (Some 11)) /\ called c = [(0, 0)] /\ map out (wts c) = [[]; [1]].
Proof. eexists. split; [vm_compute; reflexivity|]. vm_compute. repeat split. Qed.
(** the wait of the schedule then returns both *)
Example sched_wait : exists c w, run nofatal 2 (sched ++ [Remove 0; Remove 0; Remove 0]) = Some c /\
  nth_error (wts c) 0 = Some w /\ ph w = PReturned /\ out w = [1; 0].
Proof. eexists. eexists. split; [vm_compute; reflexivity|]. vm_compute. repeat split. Qed.
(** as_completed of the schedule hands out 1, blocks, hands out 0, stops *)
Example sched_as_completed : exists c w, run nofatal 2 (sched ++ [Wake 1 false; Yield 1; Yield 1]) = Some c /\
  nth_error (wts c) 1 = Some w /\ ph w = PRemove [1; 0] /\ out w = [1; 0].
Proof. eexists. eexists. split; [vm_compute; reflexivity|]. vm_compute. repeat split. Qed.
(** a cancelled task, shutdown, all threads gone *)
Example shutdown_case : exists c, run nofatal 1 ([Submit; Submit; Cancel 1; Shutdown; Get 0; Start 0; Finish 0 (Ret 3); Publish 0;
     WorkerCallback 0; Get 0; Start 0; Get 0; Check 0] : list (act nat nat)) = Some c /\
   wks c = [WExited] /\ map (@st nat nat) (futs c) = [FINISHED; CANCELLED_AND_NOTIFIED] /\ started c = [0].
Proof. eexists. split; [vm_compute; reflexivity|]. vm_compute. repeat split. Qed.
(** parallel.map over three arguments, two threads, ending 1, 0, 2; results
    are read while the last one still runs *)
Example map_case : exists l1 c1 l2 c2, steps nofatal 2 init l1 c1 /\
  map_run nofatal 2 (fun _ : nat => true) l2 c1 (seq 0 3) ([Some 10; Some 20; Some 30], MapAll) c2 /\
  Forall (fun a => map_act a = true) (l1 ++ l2) /\ map fst (ended c2) = [1; 0; 2].
Proof.
  exists [Submit; Submit; Get 0; Get 1; Submit]. eexists.
  exists [Start 0; Start 1; Finish 1 (Ret 20); Publish 1; WorkerCallback 1; Finish 0 (Ret 10); Publish 0;
    Get 1; Start 1; Finish 1 (Ret 30); Publish 1].
  eexists. split; [|split; [|split]].
  - apply run_steps. vm_compute. reflexivity.
  - do 7 (eapply ru_wait; [vm_compute; reflexivity|]). eapply ru_value; [vm_compute; reflexivity|]. eapply ru_value; [vm_compute; reflexivity|].
    do 4 (eapply ru_wait; [vm_compute; reflexivity|]). eapply ru_value; [vm_compute; reflexivity|]. apply ru_end.
  - repeat constructor.
  - reflexivity.
Qed.

(** Finding: wait([f, f]) with f already finished never returns.  The count of
    done futures (a set) is 1, of futures 2; nothing is left to notify. *)
Definition dup_wait : list (act nat nat) := [Submit; Get 0; Start 0; Finish 0 (Ret 5); Publish 0; Wait AllCompleted [0; 0]].
Lemma dup_inv (c : cfg nat nat) l c' : steps nofatal 1 c l c' -> Forall (fun a => forall k, a <> Wake k true) l ->
  (exists f, nth_error (futs c) 0 = Some f /\ st f = FINISHED) /\
  nth_error (wts c) 0 = Some (Waiter AllCompleted [0; 0] [0] 0 [] false PWait [] []) -> reachable nofatal 1 c ->
  nth_error (wts c') 0 = Some (Waiter AllCompleted [0; 0] [0] 0 [] false PWait [] (@nil nat)).
Proof.
  intros Hs. induction Hs as [|c a c1 r l c2 H Hs IH]; intros Hl [(f & Hf & Hst) Hw] Hr; [exact Hw|].
  inversion Hl as [|? ? Hna Hl']; subst. apply IH; [exact Hl'| |econstructor; eauto].
  split.
  - destruct (step_fut _ _ c a c1 r (Inv1_reachable _ _ _ Hr) H 0 f Hf) as (f' & Hf' & [[E1 _]|Hm]); [exists f'; split; congruence|].
    rewrite Hst in Hm. inversion Hm.
  - assert (Hnot : forall i f0 n, nth_error (futs c) i = Some f0 -> settled (st f0) = false ->
       nth_error (notify_all (wts c) (waiters f0) i n) 0 = nth_error (wts c) 0).
    { intros i f0 n Hi Hset. rewrite notify_nth, Hw. cbn [option_map]. f_equal.
      rewrite (w_link _ (InvW_reachable _ _ _ Hr) i f0 0 Hi), Hw. unfold attached. cbn [ph wfs].
      assert (i <> 0) by (intros ->; rewrite Hf in Hi; injection Hi as <-; rewrite Hst in Hset; discriminate).
      cbn [count_occ]. destruct (Nat.eq_dec 0 i); [congruence|]. reflexivity. }
    pose proof (Inv1_reachable _ _ _ Hr) as HI.
    destruct a as [|i|i| | |k fs|j|k t|k|k|w|w|w o|w|w|w]; cbn [FutModel.step] in H.
    + unfold do_submit in H. destruct (closed c); injection H as <- _; exact Hw.
    + unfold do_cancel in H. destruct (nth_error (futs c) i) as [g|]; [|discriminate]. destruct (st g); injection H as <- _; exact Hw.
    + unfold do_add_callback in H. destruct (nth_error (futs c) i) as [g|]; [|discriminate]. destruct (is_done (st g)); injection H as <- _; exact Hw.
    + injection H as <- _. exact Hw.
    + injection H as <- _. exact Hw.
    + unfold do_wait in H. destruct (forallb _ fs); [|discriminate].
      match type of H with (if ?b then _ else _) = _ => destruct b end; injection H as <- _; cbn [wts set_wts set_futs];
      (rewrite nth_error_app1 by (apply nth_error_Some; congruence)); exact Hw.
    + unfold do_client_callback in H. destruct (nth_error (jobs c) j) as [[i [|n rest]]|]; try discriminate. injection H as <- _. exact Hw.
    + destruct t; [now elim (Hna k)|]. unfold do_wake in H. destruct (Nat.eq_dec k 0) as [->|Hk].
      * rewrite Hw in H. discriminate.
      * destruct (nth_error (wts c) k) as [w|]; [|discriminate]. destruct (ph w); try discriminate.
        destruct (event w || false); [|discriminate]. injection H as <- _. cbn [wts set_wts]. rewrite nth_upd_other by congruence. exact Hw.
    + unfold do_remove in H. destruct (Nat.eq_dec k 0) as [->|Hk]; [rewrite Hw in H; discriminate|].
      destruct (nth_error (wts c) k) as [w|]; [|discriminate]. destruct (ph w) as [|[|i rest]| |]; try discriminate.
      * injection H as <- _. cbn [wts set_wts]. rewrite nth_upd_other by congruence. exact Hw.
      * destruct (nth_error (futs c) i); [|discriminate]. injection H as <- _. cbn [wts set_wts]. rewrite nth_upd_other by congruence. exact Hw.
    + unfold do_yield in H. destruct (Nat.eq_dec k 0) as [->|Hk]; [rewrite Hw in H; discriminate|].
      destruct (nth_error (wts c) k) as [w|]; [|discriminate]. destruct (ph w) as [| |[|i rest]|]; try discriminate;
      injection H as <- _; cbn [wts set_wts]; (rewrite nth_upd_other by congruence); exact Hw.
    + unfold do_get in H. destruct (nth_error (wks c) w) as [[]|]; try discriminate. destruct (queue c); try discriminate.
      injection H as <- _. exact Hw.
    + unfold do_start in H. destruct (nth_error (wks c) w) as [[]|]; try discriminate.
      destruct (nth_error (futs c) i) as [g|] eqn:Hi; [|discriminate]. destruct (st g) eqn:Hg; injection H as <- _; try exact Hw.
      cbn [wts set_wts set_wks]. rewrite Hnot; [exact Hw|exact Hi|now rewrite Hg].
    + unfold do_finish in H. destruct (nth_error (wks c) w) as [[]|]; try discriminate. injection H as <- _. exact Hw.
    + unfold do_publish in H. destruct (nth_error (wks c) w) as [[| | |i o| | | |]|] eqn:Hwk; try discriminate.
      destruct (nth_error (futs c) i) as [g|] eqn:Hi; [|discriminate].
      pose proof (wdone_running _ c w i o HI Hwk) as Hru. unfold stat in Hru. rewrite Hi in Hru. injection Hru as Hru.
      injection H as <- _. cbn [wts set_wts set_wks]. rewrite Hnot; [exact Hw|exact Hi|now rewrite Hru].
    + unfold do_worker_callback in H. destruct (nth_error (wks c) w) as [[| | | |i [|n rest]| | |]|]; try discriminate;
      injection H as <- _; exact Hw.
    + unfold do_check in H. destruct (nth_error (wks c) w) as [[]|]; try discriminate. destruct (closed c); injection H as <- _; exact Hw.
Qed.
Theorem wait_duplicates_refuted : exists c, run nofatal 1 dup_wait = Some c /\ wait_condition c AllCompleted [0; 0] /\
  forall l c', steps nofatal 1 c l c' -> Forall (fun a => forall k, a <> Wake k true) l ->
  exists w, nth_error (wts c') 0 = Some w /\ ph w = PWait.
Proof.
  eexists. split; [vm_compute; reflexivity|]. split.
  - intros i [<-|[<-|[]]]; left; reflexivity.
  - intros l c' Hs Hl. eexists. split.
    + eapply dup_inv; [exact Hs|exact Hl| |].
      * split; [eexists; split; reflexivity|reflexivity].
      * apply (run_reachable nofatal 1 dup_wait). vm_compute. reflexivity.
    + reflexivity.
Qed.

(** Finding: a callback raising something that is not an Exception (for
    example SystemExit) ends the worker; later callbacks are never called and
    with one worker the pool is stuck with a pending future *)
Theorem callback_fatal_refuted : exists c, run (fun n => Nat.eqb n 0) 1
    ([Submit; Submit; AddCallback 0; AddCallback 0; Get 0; Start 0; Finish 0 (Ret 5); Publish 0; WorkerCallback 0] : list (act nat nat)) = Some c /\
  map (@st nat nat) (futs c) = [FINISHED; PENDING] /\ called c = [(0, 0)] /\ length (regs c) = 2 /\
  forall a, worker_act a = true -> step (fun n => Nat.eqb n 0) 1 c a = None.
Proof.
  eexists. split; [vm_compute; reflexivity|]. repeat split; try reflexivity.
  intros a Ha. destruct a as [|j|j| | |k fs|j|k t|k|k|w|w|w o|w|w|w]; try discriminate; (destruct w as [|[|w]]; reflexivity).
Qed.

(** Finding: max_workers = 0 is accepted; nothing submitted ever runs *)
Theorem zero_workers_refuted : exists c, run nofatal 0 ([Submit] : list (act nat nat)) = Some c /\
  state_of c 0 = Some PENDING /\ forall a, worker_act a = true -> step nofatal 0 c a = None.
Proof.
  eexists. split; [vm_compute; reflexivity|]. split; [reflexivity|].
  intros a Ha. destruct a as [|j|j| | |k fs|j|k t|k|k|w|w|w o|w|w|w]; try discriminate; (destruct w as [|w]; reflexivity).
Qed.

(** Finding: result() tests the truth value of the exception object, so a
    function that raised an exception whose truth value is False looks as if it
    had returned None *)
Theorem falsy_exception_refuted : exists c, run nofatal 1
    ([Submit; Get 0; Start 0; Finish 0 (Exc 0); Publish 0] : list (act nat nat)) = Some c /\
  In (0, Exc 0) (ended c) /\ get_result (fun e => negb (Nat.eqb e 0)) c 0 = Some (RReturn None).
Proof. eexists. split; [vm_compute; reflexivity|]. split; [now left|reflexivity]. Qed.
End Cases.

Print Assumptions future_state_moves.
Print Assumptions future_result_final.
Print Assumptions future_result_is_outcome.
Print Assumptions function_runs_at_most_once.
Print Assumptions cancelled_never_runs.
Print Assumptions callback_at_most_once.
Print Assumptions callback_exactly_once.
Print Assumptions wait_registers.
Print Assumptions wait_immediate.
Print Assumptions wait_wakes_only_if_condition.
Print Assumptions wait_wakes_if_condition.
Print Assumptions wait_result.
Print Assumptions as_completed_sound.
Print Assumptions as_completed_complete.
Print Assumptions as_completed_blocks.
Print Assumptions pool_work_decreases.
Print Assumptions pool_never_stuck.
Print Assumptions shutdown_drains.
Print Assumptions executor_map_in_order.
Print Assumptions parallel_map_threads_is_serial.
Print Assumptions parallel_map_threads_completes.
Print Assumptions wait_duplicates_refuted.
Print Assumptions callback_fatal_refuted.
Print Assumptions zero_workers_refuted.
Print Assumptions falsy_exception_refuted.
