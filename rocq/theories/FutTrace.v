(** Facts about single steps and about stretches of an execution. *)
From Verif Require Export FutWaitInv FutCallbacks FutLive.
From Coq Require Import ZifyBool ZifyNat Permutation.

Section P.
Context {V E : Type} (cb_fatal : nat -> bool) (max_workers : nat).
Notation cfg := (cfg V E).
Notation act := (act V E).
Notation step := (@step V E cb_fatal max_workers).
Notation reachable := (@reachable V E cb_fatal max_workers).
Implicit Types (c : cfg).

(** a stretch of an execution, with the actions taken *)
Inductive steps : cfg -> list act -> cfg -> Prop :=
  | steps_nil c : steps c [] c
  | steps_cons c a c1 r l c2 : step c a = Some (c1, r) -> steps c1 l c2 -> steps c (a :: l) c2.

Lemma steps_reachable c l c' : reachable c -> steps c l c' -> reachable c'.
Proof. intros Hr Hs. induction Hs; [assumption|]. apply IHHs. econstructor; eauto. Qed.

Lemma steps_app c l c1 l' c2 : steps c l c1 -> steps c1 l' c2 -> steps c (l ++ l') c2.
Proof. intros H. induction H; intros H2; cbn; [assumption|]. econstructor; eauto. Qed.

(** ** states of futures *)
Inductive move : fstate -> fstate -> Prop :=
  | mv_run : move PENDING RUNNING
  | mv_finish : move RUNNING FINISHED
  | mv_cancel : move PENDING CANCELLED
  | mv_notify : move CANCELLED CANCELLED_AND_NOTIFIED.

Lemma keep_upd (l : list (future V E)) i f f' :
  nth_error l i = Some f -> (st f' = st f /\ fres f' = fres f) \/ move (st f) (st f') ->
  forall j g, nth_error l j = Some g ->
  exists g', nth_error (upd l i f') j = Some g' /\ ((st g' = st g /\ fres g' = fres g) \/ move (st g) (st g')).
Proof.
  intros Hi Hm j g Hj. destruct (Nat.eq_dec j i) as [->|Hn].
  - rewrite (nth_upd_same _ _ _ _ Hi). rewrite Hi in Hj. injection Hj as <-. eauto.
  - rewrite nth_upd_other by assumption. eauto.
Qed.

Lemma step_fut c a c' r : Inv1 cb_fatal c -> step c a = Some (c', r) ->
  forall i f, nth_error (futs c) i = Some f ->
  exists f', nth_error (futs c') i = Some f' /\ ((st f' = st f /\ fres f' = fres f) \/ move (st f) (st f')).
Proof.
  intros HI H i0 f0 Hf0. destruct a as [|i|i| | |k fs|j|k t|k|k|w|w|w o|w|w|w]; cbn [FutModel.step] in H.
  - unfold do_submit in H. destruct (closed c); injection H as <- _; [eauto|]. cbn [futs].
    rewrite nth_error_app1 by (apply nth_error_Some; congruence). eauto.
  - unfold do_cancel in H. destruct (nth_error (futs c) i) as [f|] eqn:Hi; [|discriminate].
    destruct (st f) eqn:Hs; injection H as <- _; eauto.
    cbn [set_jobs set_futs futs]. eapply keep_upd; eauto. right. cbn. rewrite Hs. constructor.
  - unfold do_add_callback in H. destruct (nth_error (futs c) i) as [f|] eqn:Hi; [|discriminate].
    destruct (is_done (st f)); injection H as <- _; cbn [futs]; eauto. eapply keep_upd; eauto.
  - injection H as <- _. eauto.
  - injection H as <- _. eauto.
  - unfold do_wait in H. destruct (forallb _ fs); [|discriminate].
    match type of H with (if ?b then _ else _) = _ => destruct b end; injection H as <- _; cbn [futs set_wts set_futs]; eauto.
    rewrite install_waiters, Hf0. cbn. eauto.
  - unfold do_client_callback in H. destruct (nth_error (jobs c) j) as [[i [|n rest]]|]; try discriminate.
    injection H as <- _. eauto.
  - unfold do_wake in H. destruct (nth_error (wts c) k) as [w|]; [|discriminate].
    destruct (ph w); try discriminate. destruct (event w || t); [|discriminate]. injection H as <- _. eauto.
  - unfold do_remove in H. destruct (nth_error (wts c) k) as [w|]; [|discriminate].
    destruct (ph w) as [|[|i rest]| |]; try discriminate.
    + injection H as <- _. eauto.
    + destruct (nth_error (futs c) i) as [f|] eqn:Hi; [|discriminate]. injection H as <- _.
      cbn [futs set_wts set_futs]. eapply keep_upd; eauto.
  - unfold do_yield in H. destruct (nth_error (wts c) k) as [w|]; [|discriminate].
    destruct (ph w) as [| |[|i rest]|]; try discriminate; injection H as <- _; eauto.
  - unfold do_get in H. destruct (nth_error (wks c) w) as [[]|]; try discriminate. destruct (queue c); try discriminate.
    injection H as <- _. eauto.
  - unfold do_start in H. destruct (nth_error (wks c) w) as [[]|]; try discriminate.
    destruct (nth_error (futs c) i) as [f|] eqn:Hi; [|discriminate].
    destruct (st f) eqn:Hs; injection H as <- _; cbn [futs set_wts set_futs set_wks]; eauto;
      (eapply keep_upd; eauto; right; cbn; rewrite Hs; constructor).
  - unfold do_finish in H. destruct (nth_error (wks c) w) as [[]|]; try discriminate. injection H as <- _. eauto.
  - unfold do_publish in H. destruct (nth_error (wks c) w) as [[| | |i o| | | |]|] eqn:Hw; try discriminate.
    destruct (nth_error (futs c) i) as [f|] eqn:Hi; [|discriminate].
    pose proof (wdone_running _ c w i o HI Hw) as Hr. unfold stat in Hr. rewrite Hi in Hr. injection Hr as Hr.
    injection H as <- _. cbn [futs set_wts set_futs set_wks]. eapply keep_upd; eauto. right. cbn. rewrite Hr. constructor.
  - unfold do_worker_callback in H. destruct (nth_error (wks c) w) as [[| | | |i [|n rest]| | |]|]; try discriminate;
    injection H as <- _; eauto.
  - unfold do_check in H. destruct (nth_error (wks c) w) as [[]|]; try discriminate. destruct (closed c);
    injection H as <- _; eauto.
Qed.

Lemma steps_settled c l c' i f : reachable c -> steps c l c' -> nth_error (futs c) i = Some f ->
  exists f', nth_error (futs c') i = Some f' /\
    (is_done (st f) = true -> is_done (st f') = true /\ (settled (st f) = true -> st f' = st f /\ fres f' = fres f) /\
                               (st f = CANCELLED -> st f' = CANCELLED \/ st f' = CANCELLED_AND_NOTIFIED)).
Proof.
  intros Hr Hs. revert f. induction Hs as [c|c a c1 r l c2 H Hs IH]; intros f Hf; [eauto 10|].
  destruct (step_fut c a c1 r (Inv1_reachable _ _ _ Hr) H i f Hf) as (f1 & Hf1 & Hm).
  destruct (IH (reach_step _ _ _ _ _ _ Hr H) f1 Hf1) as (f2 & Hf2 & X). exists f2. split; [exact Hf2|].
  intros Hd. destruct Hm as [[E1 E2]|Hm].
  - rewrite E1, E2 in X. exact (X Hd).
  - inversion Hm as [Ha Hb|Ha Hb|Ha Hb|Ha Hb]; rewrite <- Ha in *; try discriminate.
    rewrite <- Hb in X. destruct (X eq_refl) as (X1 & X2 & _). split; [exact X1|]. split; [discriminate|].
    intros _. right. now destruct (X2 eq_refl).
Qed.

(** ** the log of finished functions only grows, one entry per future *)
Lemma step_ended c a c' r : step c a = Some (c', r) -> incl (ended c) (ended c') /\ incl (started c) (started c').
Proof.
  intros H. destruct a as [|i|i| | |k fs|j|k t|k|k|w|w|w o|w|w|w]; cbn [FutModel.step] in H;
    unfold do_submit, do_cancel, do_add_callback, do_wait, do_client_callback, do_wake, do_remove, do_yield, do_get,
           do_start, do_finish, do_publish, do_worker_callback, do_check, do_close in H;
    repeat (match type of H with
    | context [match ?x with _ => _ end] =>
        match x with
        | context [match _ with _ => _ end] => fail 1
        | _ => destruct x eqn:?; try discriminate H
        end
    end); injection H as <- _;
    cbn [ended started set_futs set_wts set_wks set_queue set_jobs add_called];
    split; try apply incl_refl; try (apply incl_appl, incl_refl).
Qed.
Lemma steps_ended c l c' : steps c l c' -> incl (ended c) (ended c') /\ incl (started c) (started c').
Proof.
  intros H. induction H as [c|c a c1 r l c2 H Hs IH]; [split; apply incl_refl|].
  destruct (step_ended _ _ _ _ H), IH. split; eapply incl_tran; eauto.
Qed.
Lemma sumf_one {A} (p : A -> nat) l x y : sumf p l <= 1 -> In x l -> In y l -> 1 <= p x -> 1 <= p y ->
  x = y.
Proof.
  induction l as [|a l IH]; cbn [sumf In]; intros Hs Hx Hy Px Py; [contradiction|].
  assert (G : forall z, In z l -> p z <= sumf p l).
  { intros z Hz. apply In_nth_error in Hz. destruct Hz as [n Hn]. eapply sumf_ge; eauto. }
  destruct Hx as [->|Hx], Hy as [->|Hy]; auto.
  - specialize (G y Hy). lia.
  - specialize (G x Hx). lia.
  - apply IH; auto. lia.
Qed.
Lemma ended_unique c i o o' : reachable c -> In (i, o) (ended c) -> In (i, o') (ended c) -> o = o'.
Proof.
  intros Hr H1 H2. pose proof (Inv1_reachable _ _ _ Hr) as HI. pose proof (i_ended _ _ HI i) as He.
  pose proof (i_runs _ _ HI i) as Hru.
  assert (Hd : sumf (done1 i) (wks c) <= sumf (run1 i) (wks c)).
  { generalize (wks c). intros l. induction l as [|a l IH]; cbn [sumf]; [lia|]. assert (done1 i a <= run1 i a) by (destruct a; cbn; lia). lia. }
  assert (Hle : sumf (fun e : nat * outcome V E => b2n (Nat.eqb (fst e) i)) (ended c) <= 1).
  { rewrite He. destruct (stat c i) as [[]|]; cbn in *; lia. }
  assert (X : (i, o) = (i, o')).
  { eapply sumf_one; eauto; cbn [fst]; rewrite Nat.eqb_refl; cbn; lia. }
  now injection X.
Qed.

(** ** a call of wait or as_completed over time *)
Definition grows (w w' : waiter) : Prop :=
  kind w' = kind w /\ wfs w' = wfs w /\ done0 w' = done0 w /\
  (ph w = PReturned -> ph w' = PReturned /\ out w' = out w) /\
  (kind w <> AsCompleted -> incl (finished w) (finished w') /\ (event w = true -> event w' = true)) /\
  (kind w = AsCompleted -> incl (out w) (out w')).
Lemma grows_refl w : grows w w.
Proof. repeat split; auto using incl_refl. Qed.
Lemma grows_notes m w i n : grows w (notes m w i n).
Proof.
  destruct (notes_fields m w i n) as (E1 & E2 & E3 & E4 & E5 & E6 & E7). unfold grows. rewrite E1, E2, E3, E4, E6, E7.
  repeat split; auto using incl_refl, incl_appl.
  intros He.
  assert (Hcase : (kind w = AllCompleted \/ (kind w = FirstException /\ n <> NException)) \/
                  (kind w = FirstCompleted \/ kind w = AsCompleted \/ (kind w = FirstException /\ n = NException))).
  { clear. destruct (kind w); [auto| |auto|auto]. destruct n; [left; right; split; congruence|auto 6|left; right; split; congruence]. }
  destruct Hcase as [Hcase|Hcase].
  - destruct (notes_dec m w i n Hcase) as (_ & Hd & _). auto.
  - rewrite notes_set, He by exact Hcase. reflexivity.
Qed.
Lemma grows_upd (l : list waiter) k w w' : nth_error l k = Some w -> grows w w' ->
  forall k0 w0, nth_error l k0 = Some w0 -> exists w1, nth_error (upd l k w') k0 = Some w1 /\ grows w0 w1.
Proof.
  intros Hk Hg k0 w0 H0. destruct (Nat.eq_dec k0 k) as [->|Hn].
  - rewrite (nth_upd_same _ _ _ _ Hk). rewrite Hk in H0. injection H0 as <-. eauto.
  - rewrite nth_upd_other by assumption. eauto using grows_refl.
Qed.
Lemma grows_set_ph w p : ph w <> PReturned -> grows w (set_ph w p).
Proof. intros H. unfold grows, set_ph; cbn. repeat split; auto using incl_refl; intros; contradiction. Qed.

Lemma step_waiter c a c' r : step c a = Some (c', r) ->
  forall k w, nth_error (wts c) k = Some w -> exists w', nth_error (wts c') k = Some w' /\ grows w w'.
Proof.
  intros H k0 w0 H0.
  assert (Hsame : wts c' = wts c -> exists w', nth_error (wts c') k0 = Some w' /\ grows w0 w').
  { intros ->. eauto using grows_refl. }
  destruct a as [|i|i| | |k fs|j|k t|k|k|w|w|w o|w|w|w]; cbn [FutModel.step] in H.
  - unfold do_submit in H. destruct (closed c); injection H as <- _; auto.
  - unfold do_cancel in H. destruct (nth_error (futs c) i) as [f|]; [|discriminate].
    destruct (st f); injection H as <- _; auto.
  - unfold do_add_callback in H. destruct (nth_error (futs c) i) as [f|]; [|discriminate].
    destruct (is_done (st f)); injection H as <- _; auto.
  - injection H as <- _. auto.
  - injection H as <- _. auto.
  - unfold do_wait in H. destruct (forallb _ fs); [|discriminate].
    match type of H with (if ?b then _ else _) = _ => destruct b end; injection H as <- _; cbn [wts set_wts set_futs];
    (rewrite nth_error_app1 by (apply nth_error_Some; congruence)); eauto using grows_refl.
  - unfold do_client_callback in H. destruct (nth_error (jobs c) j) as [[i [|n rest]]|]; try discriminate.
    injection H as <- _. auto.
  - unfold do_wake in H. destruct (nth_error (wts c) k) as [w|] eqn:Hk; [|discriminate].
    destruct (ph w) eqn:Hp; try discriminate. destruct (event w || t); [|discriminate]. injection H as <- _.
    cbn [wts set_wts]. eapply grows_upd; eauto.
    assert (Hnr : ph w <> PReturned) by congruence.
    destruct (kind w) eqn:Hkd; try (now apply grows_set_ph). destruct t; [now apply grows_set_ph|].
    unfold grows. cbn. repeat split; auto using incl_refl; intros; congruence.
  - unfold do_remove in H. destruct (nth_error (wts c) k) as [w|] eqn:Hk; [|discriminate].
    destruct (ph w) as [|[|i rest]| |] eqn:Hp; try discriminate.
    + injection H as <- _. cbn [wts set_wts]. eapply grows_upd; eauto.
      unfold grows. cbn. repeat split; auto using incl_refl; try (intros; congruence). intros Hkd. rewrite Hkd. apply incl_refl.
    + destruct (nth_error (futs c) i) as [f|]; [|discriminate]. injection H as <- _. cbn [wts set_wts set_futs].
      eapply grows_upd; eauto. apply grows_set_ph. congruence.
  - unfold do_yield in H. destruct (nth_error (wts c) k) as [w|] eqn:Hk; [|discriminate].
    destruct (ph w) as [| |[|i rest]|] eqn:Hp; try discriminate; injection H as <- _; cbn [wts set_wts]; eapply grows_upd; eauto.
    + apply grows_set_ph. congruence.
    + unfold grows. cbn. repeat split; auto using incl_refl, incl_appl; intros; congruence.
  - unfold do_get in H. destruct (nth_error (wks c) w) as [[]|]; try discriminate. destruct (queue c); try discriminate.
    injection H as <- _. auto.
  - unfold do_start in H. destruct (nth_error (wks c) w) as [[]|]; try discriminate.
    destruct (nth_error (futs c) i) as [f|]; [|discriminate].
    destruct (st f); injection H as <- _; auto. cbn [wts set_wts set_wks]. rewrite notify_nth, H0. cbn [option_map]. eauto using grows_notes.
  - unfold do_finish in H. destruct (nth_error (wks c) w) as [[]|]; try discriminate. injection H as <- _. auto.
  - unfold do_publish in H. destruct (nth_error (wks c) w) as [[]|]; try discriminate.
    destruct (nth_error (futs c) i) as [f|]; [|discriminate]. injection H as <- _. cbn [wts set_wts set_wks].
    rewrite notify_nth, H0. cbn [option_map]. eauto using grows_notes.
  - unfold do_worker_callback in H. destruct (nth_error (wks c) w) as [[| | | |i [|n rest]| | |]|]; try discriminate;
    injection H as <- _; auto.
  - unfold do_check in H. destruct (nth_error (wks c) w) as [[]|]; try discriminate. destruct (closed c);
    injection H as <- _; auto.
Qed.

Lemma grows_trans w w1 w2 : grows w w1 -> grows w1 w2 -> grows w w2.
Proof.
  intros (A1 & A2 & A3 & A4 & A5 & A6) (B1 & B2 & B3 & B4 & B5 & B6). unfold grows. rewrite A1 in *.
  split; [congruence|]. split; [congruence|]. split; [congruence|]. split; [|split].
  - intros Hp. destruct (A4 Hp) as [H1 <-]. exact (B4 H1).
  - intros Hk. destruct (A5 Hk), (B5 Hk). split; [eapply incl_tran; eauto|auto].
  - intros Hk. eapply incl_tran; [apply A6|apply B6]; assumption.
Qed.
Lemma steps_waiter c l c' : steps c l c' ->
  forall k w, nth_error (wts c) k = Some w -> exists w', nth_error (wts c') k = Some w' /\ grows w w'.
Proof.
  intros H. induction H as [c|c a c1 r l c2 H Hs IH]; intros k w Hk; [eauto using grows_refl|].
  destruct (step_waiter _ _ _ _ H k w Hk) as (w1 & Hk1 & G1). destruct (IH k w1 Hk1) as (w2 & Hk2 & G2).
  eauto using grows_trans.
Qed.

(** a wait that blocks did not find everything done *)
Definition InvD c : Prop := forall k w, nth_error (wts c) k = Some w -> NoDup (done0 w) /\
  (kind w <> AsCompleted -> ph w <> PReturned -> length (done0 w) <> length (wfs w)).
Lemma InvD_step c a c' r : InvD c -> step c a = Some (c', r) -> InvD c'.
Proof.
  intros HD H k w' Hk. destruct (nth_error (wts c) k) as [w|] eqn:Ek.
  - destruct (step_waiter _ _ _ _ H k w Ek) as (w1 & Hk1 & (G1 & G2 & G3 & G4 & _)). rewrite Hk1 in Hk. injection Hk as ->.
    destruct (HD k w Ek) as (D1 & D2). rewrite G1, G2, G3. split; [exact D1|]. intros Hkd Hp. apply D2; auto.
    intros X. apply Hp. now apply G4.
  - assert (Hge : length (wts c) <= k) by now apply nth_error_None.
    assert (Hlen : forall l : list waiter, length l = length (wts c) -> nth_error l k = Some w' -> False).
    { intros l Hl Hn. assert (k < length l) by (apply nth_error_Some; congruence). lia. }
    destruct a as [|i|i| | |k0 fs|j|k0 t|k0|k0|w|w|w o|w|w|w]; cbn [FutModel.step] in H;
      try (exfalso;
    unfold do_submit, do_cancel, do_add_callback, do_client_callback, do_wake, do_remove, do_yield, do_get,
           do_start, do_finish, do_publish, do_worker_callback, do_check, do_close in H;
    repeat (match type of H with
    | context [match ?x with _ => _ end] =>
        match x with
        | context [match _ with _ => _ end] => fail 1
        | _ => destruct x eqn:?; try discriminate H
        end
    end); injection H as <- _;
    cbn [wts set_futs set_wts set_wks set_queue set_jobs add_called] in Hk;
    refine (Hlen _ _ Hk); rewrite ?upd_length, ?notify_length; reflexivity).
    unfold do_wait in H. destruct (forallb _ fs); [|discriminate].
    match type of H with (if ?b then _ else _) = _ => destruct b eqn:Hb end; injection H as <- _; cbn [wts set_wts set_futs] in Hk;
      rewrite nth_snoc in Hk; (destruct (Nat.eqb_spec k (length (wts c))); [|congruence]); injection Hk as <-; cbn [done0 kind ph wfs].
    + split; [apply NoDup_nodup|]. congruence.
    + split; [apply NoDup_nodup|]. intros Hkd _ Hl. apply orb_false_iff in Hb. destruct Hb as [_ Hb].
      destruct k0; try congruence; apply Nat.eqb_neq in Hb; contradiction.
Qed.
Lemma InvD_reachable c : reachable c -> InvD c.
Proof.
  intros H. induction H as [|c a c' r H IH Hs]; [|eapply InvD_step; eauto]. intros [|k] w Hk; discriminate.
Qed.
End P.
