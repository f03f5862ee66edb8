(** The waiter invariant holds in every reachable configuration. *)
From Verif Require Export FutWait.
From Coq Require Import ZifyBool ZifyNat.

Lemma occ_tail_le (a : nat) l x : occ l x <= occ (a :: l) x.
Proof. cbn. destruct (Nat.eq_dec a x); lia. Qed.

Section P.
Context {V E : Type}.
Notation cfg := (cfg V E).
Implicit Types (c : cfg).

Definition WOK (l : list (future V E)) (w : waiter) : Prop :=
  WI (fut_settled l) (fut_raised l) w /\ (forall i, In i (wfs w) -> i < length l) /\
  (forall x, occ (attached w) x <= occ (wfs w) x).

Record InvW c : Prop := {
  w_ok : forall k w, nth_error (wts c) k = Some w -> WOK (futs c) w;
  w_link : forall i f k, nth_error (futs c) i = Some f ->
     occ (waiters f) k = match nth_error (wts c) k with Some w => occ (attached w) i | None => 0 end
}.

Lemma raised_settled (l : list (future V E)) j : fut_raised l j = true -> fut_settled l j = true.
Proof.
  unfold fut_raised, fut_settled. destruct (nth_error l j) as [f|]; [|discriminate].
  destruct (st f); try discriminate. reflexivity.
Qed.

(** steps that leave the waiters and what they look at alone *)
Lemma InvW_same c c' : wts c' = wts c -> length (futs c) <= length (futs c') ->
  (forall i f', nth_error (futs c') i = Some f' ->
     (exists f, nth_error (futs c) i = Some f /\ waiters f' = waiters f) \/ (waiters f' = [] /\ length (futs c) <= i)) ->
  (forall i, fut_settled (futs c') i = fut_settled (futs c) i) ->
  (forall i, fut_raised (futs c') i = fut_raised (futs c) i) ->
  InvW c -> InvW c'.
Proof.
  intros Ew Hl Hf HS HR [H1 H2]. constructor.
  - intros k w Hw. rewrite Ew in Hw. destruct (H1 k w Hw) as (X1 & X2 & X3). split; [|split; [|exact X3]].
    + revert X1. apply WI_ext; intros j; symmetry; auto.
    + intros i Hi. apply X2 in Hi. lia.
  - intros i f' k Hi. rewrite Ew. destruct (Hf i f' Hi) as [(f & Hf0 & ->)|(-> & Hge)]; [auto|].
    cbn. destruct (nth_error (wts c) k) as [w|] eqn:Ek; [|reflexivity].
    destruct (H1 k w Ek) as (X1 & X2 & X3). symmetry. apply count_occ_not_In. intros Hx. apply (v_att _ _ _ X1) in Hx.
    apply X2 in Hx. lia.
Qed.
Lemma InvW_frame c c' : wts c' = wts c -> futs c' = futs c -> InvW c -> InvW c'.
Proof. intros Ew Ef [H1 H2]. constructor; rewrite ?Ew, ?Ef; auto. Qed.

Lemma settled_upd (l : list (future V E)) i f f' j : nth_error l i = Some f ->
  fut_settled (upd l i f') j = (if Nat.eqb j i then settled (st f') else fut_settled l j).
Proof.
  intros H. unfold fut_settled. destruct (Nat.eqb_spec j i).
  - subst. erewrite nth_upd_same by eauto. reflexivity.
  - rewrite nth_upd_other by assumption. reflexivity.
Qed.
Lemma raised_upd (l : list (future V E)) i f f' j : nth_error l i = Some f ->
  fut_raised (upd l i f') j = (if Nat.eqb j i then match st f', fres f' with FINISHED, Some (Exc _) => true | _, _ => false end else fut_raised l j).
Proof.
  intros H. unfold fut_raised. destruct (Nat.eqb_spec j i).
  - subst. erewrite nth_upd_same by eauto. reflexivity.
  - rewrite nth_upd_other by assumption. reflexivity.
Qed.

(** one future changes, not its waiters, and is settled neither before nor after *)
Lemma InvW_upd c c' i f f' : nth_error (futs c) i = Some f -> futs c' = upd (futs c) i f' -> wts c' = wts c ->
  waiters f' = waiters f -> settled (st f') = settled (st f) -> st f' = FINISHED \/ settled (st f) = false -> fres f' = fres f ->
  (st f' = FINISHED -> st f = FINISHED) -> InvW c -> InvW c'.
Proof.
  intros Hi Ef Ew Hw Hs Hs2 Hr Hst. apply InvW_same; auto.
  - rewrite Ef, upd_length. lia.
  - intros j g Hg. left. rewrite Ef, nth_upd in Hg. destruct (Nat.eqb_spec j i); [|eauto]. subst.
    destruct (Nat.ltb i (length (futs c))); [|discriminate]. injection Hg as <-. eauto.
  - intros j. rewrite Ef, (settled_upd _ _ f) by exact Hi. destruct (Nat.eqb_spec j i); [|reflexivity]. subst.
    unfold fut_settled. now rewrite Hi.
  - intros j. rewrite Ef, (raised_upd _ _ f) by exact Hi. destruct (Nat.eqb_spec j i); [|reflexivity]. subst.
    unfold fut_raised. rewrite Hi, Hr. destruct Hs2 as [Hs2|Hs2].
    + rewrite Hs2, (Hst Hs2). reflexivity.
    + rewrite Hs2 in Hs. destruct (st f'), (st f); try discriminate; reflexivity.
Qed.

(** a future gets settled and its waiters hear of it *)
Lemma InvW_settle c c' i f f' n : nth_error (futs c) i = Some f -> futs c' = upd (futs c) i f' ->
  wts c' = notify_all (wts c) (waiters f) i n -> waiters f' = waiters f ->
  settled (st f) = false -> settled (st f') = true ->
  match st f', fres f' with FINISHED, Some (Exc _) => true | _, _ => false end = match n with NException => true | _ => false end ->
  InvW c -> InvW c'.
Proof.
  intros Hi Ef Ew Hw Hs Hs' Hn [H1 H2]. constructor.
  - intros k w' Hk. rewrite Ew, notify_nth in Hk. destruct (nth_error (wts c) k) as [w|] eqn:Ek; [|discriminate].
    cbn [option_map] in Hk. injection Hk as <-. rewrite (H2 i f k Hi), Ek. cbv iota.
    destruct (H1 k w Ek) as (X1 & X2 & X3). split; [|split].
    + eapply WI_ext; [| |apply (WI_settle (fut_settled (futs c)) (fut_raised (futs c)) i n); [|apply raised_settled|exact X1|exact X3]].
      * intros j. rewrite Ef, (settled_upd _ _ f), Hs' by exact Hi. reflexivity.
      * intros j. rewrite Ef, (raised_upd _ _ f), Hn by exact Hi. reflexivity.
      * unfold fut_settled. now rewrite Hi.
    + destruct (notes_fields (occ (attached w) i) w i n) as (_ & E2 & _). rewrite E2, Ef, upd_length. exact X2.
    + generalize (occ (attached w) i). intros m. destruct (notes_fields m w i n) as (_ & E2 & _ & E4 & _). unfold attached. rewrite E2, E4. exact X3.
  - intros j g k Hg. rewrite Ew, notify_nth. assert (Hg' : exists g0, nth_error (futs c) j = Some g0 /\ waiters g = waiters g0).
    { rewrite Ef, nth_upd in Hg. destruct (Nat.eqb_spec j i); [|eauto]. subst.
      destruct (Nat.ltb i (length (futs c))); [|discriminate]. injection Hg as <-. eauto. }
    destruct Hg' as (g0 & Hg0 & ->). rewrite (H2 j g0 k Hg0). destruct (nth_error (wts c) k) as [w|]; [|reflexivity].
    cbn [option_map]. destruct (notes_fields (occ (waiters f) k) w i n) as (_ & E2 & _ & E4 & _). unfold attached. now rewrite E2, E4.
Qed.

(** installing a waiter *)
Lemma install_waiters k fs : forall (l : list (future V E)) j,
  nth_error (install l fs k) j = option_map (fun f => with_waiters f (waiters f ++ repeat k (occ fs j))) (nth_error l j).
Proof.
  unfold install. induction fs as [|i fs IH]; intros l j; cbn [fold_left count_occ].
  - destruct (nth_error l j) as [f|]; [|reflexivity]. cbn. rewrite app_nil_r. now destruct f.
  - rewrite IH. destruct (nth_error l i) as [f|] eqn:Ei.
    + rewrite nth_upd. assert (Hl : Nat.ltb i (length l) = true) by (apply Nat.ltb_lt, nth_error_Some; congruence).
      rewrite Hl. destruct (Nat.eqb_spec j i), (Nat.eq_dec i j); try congruence.
      subst. rewrite Ei. cbn [option_map]. unfold with_waiters. cbn. rewrite <- app_assoc. reflexivity.
    + destruct (Nat.eq_dec i j); [subst; rewrite Ei|]; reflexivity.
Qed.
Lemma install_settled k fs (l : list (future V E)) j : fut_settled (install l fs k) j = fut_settled l j.
Proof. unfold fut_settled. rewrite install_waiters. now destruct (nth_error l j). Qed.
Lemma install_raised k fs (l : list (future V E)) j : fut_raised (install l fs k) j = fut_raised l j.
Proof. unfold fut_raised. rewrite install_waiters. now destruct (nth_error l j). Qed.

Lemma occ_repeat (k k' : nat) m : occ (repeat k m) k' = if Nat.eqb k' k then m else 0.
Proof.
  induction m as [|m IH]; cbn; [now destruct (Nat.eqb k' k)|]. rewrite IH.
  destruct (Nat.eq_dec k k'), (Nat.eqb_spec k' k); congruence.
Qed.

(** a call of wait or as_completed changes its own state, nothing else *)
Lemma InvW_own c c' k w w' : nth_error (wts c) k = Some w -> wts c' = upd (wts c) k w' -> futs c' = futs c ->
  wfs w' = wfs w -> (forall x, occ (attached w') x = occ (attached w) x) ->
  (WI (fut_settled (futs c)) (fut_raised (futs c)) w -> WI (fut_settled (futs c)) (fut_raised (futs c)) w') ->
  InvW c -> InvW c'.
Proof.
  intros Hk Ew Ef Ewf Hatt HW [H1 H2]. constructor.
  - intros k0 w0 H0. rewrite Ew, nth_upd in H0. rewrite Ef. destruct (Nat.eqb_spec k0 k); [|eauto]. subst.
    destruct (Nat.ltb k (length (wts c))); [|discriminate]. injection H0 as <-. destruct (H1 k w Hk) as (X1 & X2 & X3).
    split; [auto|]. rewrite Ewf. split; [exact X2|]. intros x. rewrite Hatt. apply X3.
  - intros i f k0 Hi. rewrite Ef in Hi. rewrite (H2 i f k0 Hi), Ew, nth_upd. destruct (Nat.eqb_spec k0 k); [|reflexivity]. subst.
    assert (Hl : Nat.ltb k (length (wts c)) = true) by (apply Nat.ltb_lt, nth_error_Some; congruence).
    rewrite Hl, Hk. symmetry. apply Hatt.
Qed.

Context (cb_fatal : nat -> bool) (max_workers : nat).
Notation act := (act V E).
Notation step := (@step V E cb_fatal max_workers).
Notation reachable := (@reachable V E cb_fatal max_workers).

Lemma wdone_running c w i o : Inv1 cb_fatal c -> nth_error (wks c) w = Some (WDone i o) -> stat c i = Some RUNNING.
Proof.
  intros HI Hw. pose proof (i_runs _ _ HI i) as Hr. pose proof (sumf_ge (run1 i) _ _ _ Hw) as Hg. cbn [run1] in Hg.
  rewrite Nat.eqb_refl in Hg. cbn in Hg. rewrite Hr in Hg. destruct (stat c i) as [[]|]; cbn in Hg; try lia. reflexivity.
Qed.

Lemma InvW_step c a c' r : Inv1 cb_fatal c -> InvW c -> step c a = Some (c', r) -> InvW c'.
Proof.
  intros HI HW H. destruct a as [|i|i| | |k fs|j|k t|k|k|w|w|w o|w|w|w]; cbn [FutModel.step] in H.
  - (* Submit *)
    unfold do_submit in H. destruct (closed c); injection H as <- _; [exact HW|].
    revert HW. apply InvW_same; cbn [futs wts]; auto.
    + rewrite app_length. lia.
    + intros i f' Hf. rewrite nth_snoc in Hf. destruct (Nat.eqb_spec i (length (futs c))); [|eauto].
      injection Hf as <-. right. cbn. split; [reflexivity|lia].
    + intros i. unfold fut_settled. rewrite nth_snoc. destruct (Nat.eqb_spec i (length (futs c))); [|reflexivity].
      subst. rewrite (proj2 (nth_error_None _ _)); [reflexivity|lia].
    + intros i. unfold fut_raised. rewrite nth_snoc. destruct (Nat.eqb_spec i (length (futs c))); [|reflexivity].
      subst. rewrite (proj2 (nth_error_None _ _)); [reflexivity|lia].
  - (* Cancel *)
    unfold do_cancel in H. destruct (nth_error (futs c) i) as [f|] eqn:Hi; [|discriminate].
    destruct (st f) eqn:Hs; injection H as <- _; try exact HW.
    revert HW. eapply InvW_upd; [exact Hi|reflexivity..| | |reflexivity|]; cbn; rewrite ?Hs; auto; discriminate.
  - (* AddCallback *)
    unfold do_add_callback in H. destruct (nth_error (futs c) i) as [f|] eqn:Hi; [|discriminate].
    destruct (is_done (st f)) eqn:Hd; injection H as <- _.
    + revert HW. apply InvW_frame; reflexivity.
    + revert HW. eapply InvW_upd; [exact Hi|reflexivity..| | |reflexivity|]; cbn; auto. destruct (st f); auto; discriminate.
  - injection H as <- _. revert HW. apply InvW_frame; reflexivity.
  - injection H as <- _. revert HW. apply InvW_frame; reflexivity.
  - (* Wait *)
    unfold do_wait in H. destruct (forallb _ fs) eqn:Hfs; [|discriminate].
    set (fs' := match k with AsCompleted => as_set fs | _ => fs end) in *.
    set (done := as_set (filter (fut_settled (futs c)) fs')) in *.
    assert (Hlt : forall i, In i fs' -> i < length (futs c)).
    { intros i Hi. rewrite forallb_forall in Hfs. apply Nat.ltb_lt, Hfs. unfold fs' in Hi. destruct k; auto. apply (proj1 (as_set_In _ _) Hi). }
    assert (Hdone : forall x, In x done -> In x fs' /\ fut_settled (futs c) x = true).
    { intros x. unfold done. rewrite as_set_In, filter_In. auto. }
    destruct HW as [H1 H2].
    assert (Hfresh : nth_error (wts c) (length (wts c)) = None) by (apply nth_error_None; lia).
    match type of H with (if ?b then _ else _) = _ => destruct b eqn:Hb end; injection H as <- _.
    + assert (Hk : k <> AsCompleted) by (intros ->; discriminate).
      constructor; cbn [futs wts set_wts].
      * intros k0 w0 H0. rewrite nth_snoc in H0. destruct (Nat.eqb_spec k0 (length (wts c))); [|eauto].
        injection H0 as <-. split; [now apply WI_now|]. split; [exact Hlt|]. intros x. cbn. lia.
      * intros i f k0 Hi. rewrite (H2 i f k0 Hi), nth_snoc. destruct (Nat.eqb_spec k0 (length (wts c))); [|reflexivity].
        subst. rewrite Hfresh. reflexivity.
    + constructor; cbn [futs wts set_wts set_futs].
      * intros k0 w0 H0. rewrite nth_snoc in H0. destruct (Nat.eqb_spec k0 (length (wts c))) as [_|Hn].
        -- injection H0 as <-. split; [|split; [cbn [wfs]; rewrite install_length; exact Hlt|]].
           ++ apply (WI_ext (fut_settled (futs c)) (fut_raised (futs c))); [intros j; now rewrite install_settled|intros j; now rewrite install_raised|].
              apply orb_false_iff in Hb. destruct Hb as [Hb _].
              destruct k; [| | |apply WI_ac];
                (apply WI_block; [discriminate|intros Hk; try discriminate Hk|intros Hk; try discriminate Hk|intros j; apply raised_settled]).
              ** apply negb_false_iff, Nat.eqb_eq, length_zero_iff_nil in Hb. exact Hb.
              ** exact Hb.
           ++ intros x. unfold attached. cbn [ph wfs]. destruct k; reflexivity.
        -- destruct (H1 k0 w0 H0) as (X1 & X2 & X3). split; [|split; [rewrite install_length; exact X2|exact X3]].
           revert X1. apply WI_ext; intros j; [now rewrite install_settled|now rewrite install_raised].
      * intros i f k0 Hi. rewrite install_waiters in Hi. destruct (nth_error (futs c) i) as [f0|] eqn:Hi0; [|discriminate].
        cbn [option_map] in Hi. injection Hi as <-. cbn [with_waiters waiters]. rewrite count_occ_app, (H2 i f0 k0 Hi0), nth_snoc, occ_repeat.
        destruct (Nat.eqb_spec k0 (length (wts c))).
        -- subst. rewrite Hfresh. unfold attached. cbn [ph wfs]. destruct k; reflexivity.
        -- lia.
  - (* ClientCallback *)
    unfold do_client_callback in H. destruct (nth_error (jobs c) j) as [[i [|n rest]]|]; try discriminate.
    injection H as <- _. revert HW. apply InvW_frame; reflexivity.
  - (* Wake *)
    unfold do_wake in H. destruct (nth_error (wts c) k) as [w|] eqn:Hk; [|discriminate].
    destruct (ph w) eqn:Hp; try discriminate. destruct (event w || t); [|discriminate]. injection H as <- _.
    revert HW. eapply InvW_own; [exact Hk|reflexivity|reflexivity| | |].
    + destruct (kind w); try reflexivity. destruct t; reflexivity.
    + intros x. unfold attached. rewrite Hp. destruct (kind w); try reflexivity. destruct t; reflexivity.
    + intros HWI. destruct (kind w) eqn:Hkd; try (apply WI_wake_remove; auto). destruct t; [apply WI_wake_remove; auto|].
      rewrite <- Hkd. apply WI_wake_yield; auto.
  - (* Remove *)
    unfold do_remove in H. destruct (nth_error (wts c) k) as [w|] eqn:Hk; [|discriminate].
    destruct (ph w) as [|[|i rest]| |] eqn:Hp; try discriminate.
    + injection H as <- _. revert HW. eapply InvW_own; [exact Hk|reflexivity|reflexivity|reflexivity| |].
      * intros x. unfold attached. rewrite Hp. reflexivity.
      * intros HWI. apply WI_removed; auto.
    + destruct (nth_error (futs c) i) as [f|] eqn:Hi; [|discriminate]. injection H as <- _.
      assert (HS : forall j, fut_settled (futs c) j = fut_settled (upd (futs c) i (with_waiters f (remove_first k (waiters f)))) j).
      { intros j. rewrite (settled_upd _ _ f) by exact Hi. destruct (Nat.eqb_spec j i); [|reflexivity]. subst. unfold fut_settled. now rewrite Hi. }
      assert (HR : forall j, fut_raised (futs c) j = fut_raised (upd (futs c) i (with_waiters f (remove_first k (waiters f)))) j).
      { intros j. rewrite (raised_upd _ _ f) by exact Hi. destruct (Nat.eqb_spec j i); [|reflexivity]. subst. unfold fut_raised. now rewrite Hi. }
      destruct HW as [H1 H2]. constructor; cbn [futs wts set_wts set_futs].
      * intros k0 w0 H0. rewrite nth_upd in H0. destruct (Nat.eqb_spec k0 k) as [->|Hn].
        -- destruct (Nat.ltb k (length (wts c))); [|discriminate]. injection H0 as <-.
           destruct (H1 k w Hk) as (X1 & X2 & X3). split; [|split; [rewrite upd_length; exact X2|]].
           ++ apply (WI_ext (fut_settled (futs c)) (fut_raised (futs c))); auto. eapply WI_remove; eauto.
           ++ intros x. specialize (X3 x). unfold attached in *. rewrite Hp in X3. cbn [set_ph ph wfs]. pose proof (occ_tail_le i rest x). lia.
        -- destruct (H1 k0 w0 H0) as (X1 & X2 & X3). split; [|split; [rewrite upd_length; exact X2|exact X3]].
           revert X1. apply WI_ext; auto.
      * assert (Hl : Nat.ltb k (length (wts c)) = true) by (apply Nat.ltb_lt, nth_error_Some; congruence).
        intros j g k0 Hj. rewrite nth_upd in Hj. rewrite nth_upd, Hl. destruct (Nat.eqb_spec j i) as [->|Hn].
        -- destruct (Nat.ltb i (length (futs c))); [|discriminate]. injection Hj as <-. cbn [with_waiters waiters].
           rewrite remove_first_occ, (H2 i f k0 Hi). destruct (Nat.eqb_spec k0 k) as [->|Hn]; cbn [b2n]; [|lia].
           rewrite Hk. unfold attached. rewrite Hp. cbn [set_ph ph count_occ]. destruct (Nat.eq_dec i i); [lia|congruence].
        -- rewrite (H2 j g k0 Hj). destruct (Nat.eqb_spec k0 k) as [->|Hn']; [|reflexivity].
           rewrite Hk. unfold attached. rewrite Hp. cbn [set_ph ph count_occ]. destruct (Nat.eq_dec i j); [congruence|reflexivity].
  - (* Yield *)
    unfold do_yield in H. destruct (nth_error (wts c) k) as [w|] eqn:Hk; [|discriminate].
    destruct (ph w) as [| |[|i rest]|] eqn:Hp; try discriminate; injection H as <- _.
    + revert HW. eapply InvW_own; [exact Hk|reflexivity|reflexivity|reflexivity| |].
      * intros x. unfold attached. rewrite Hp. cbn [set_ph ph wfs]. now destruct (asked w).
      * intros HWI. apply WI_batch_end; auto.
    + revert HW. eapply InvW_own; [exact Hk|reflexivity|reflexivity|reflexivity| |].
      * intros x. unfold attached. rewrite Hp. reflexivity.
      * intros HWI. apply WI_yield; auto.
  - unfold do_get in H. destruct (nth_error (wks c) w) as [[]|]; try discriminate. destruct (queue c); try discriminate.
    injection H as <- _. revert HW. apply InvW_frame; reflexivity.
  - (* Start *)
    unfold do_start in H. destruct (nth_error (wks c) w) as [[]|]; try discriminate.
    destruct (nth_error (futs c) i) as [f|] eqn:Hi; [|discriminate].
    destruct (st f) eqn:Hs; injection H as <- _.
    + revert HW. eapply InvW_upd; [exact Hi|reflexivity..| | |reflexivity|]; cbn; rewrite ?Hs; auto; discriminate.
    + revert HW. apply InvW_frame; reflexivity.
    + revert HW. eapply InvW_settle; [exact Hi|reflexivity|reflexivity|reflexivity| |reflexivity|reflexivity]. now rewrite Hs.
    + revert HW. apply InvW_frame; reflexivity.
    + revert HW. apply InvW_frame; reflexivity.
  - unfold do_finish in H. destruct (nth_error (wks c) w) as [[]|]; try discriminate.
    injection H as <- _. revert HW. apply InvW_frame; reflexivity.
  - (* Publish *)
    unfold do_publish in H. destruct (nth_error (wks c) w) as [[| | |i o| | | |]|] eqn:Hw; try discriminate.
    destruct (nth_error (futs c) i) as [f|] eqn:Hi; [|discriminate].
    assert (Hs : st f = RUNNING).
    { pose proof (wdone_running c w i o HI Hw) as Hr. unfold stat in Hr. rewrite Hi in Hr. now injection Hr. }
    injection H as <- _. revert HW. eapply InvW_settle; [exact Hi|reflexivity|reflexivity|reflexivity| |reflexivity|].
    + now rewrite Hs.
    + cbn. now destruct o.
  - unfold do_worker_callback in H. destruct (nth_error (wks c) w) as [[| | | |i [|n rest]| | |]|]; try discriminate;
    injection H as <- _; revert HW; apply InvW_frame; reflexivity.
  - unfold do_check in H. destruct (nth_error (wks c) w) as [[]|]; try discriminate. destruct (closed c);
    injection H as <- _; revert HW; apply InvW_frame; reflexivity.
Qed.

Lemma InvW_init : InvW (@init V E).
Proof. constructor; intros; destruct k; try discriminate; destruct i; discriminate. Qed.

Lemma InvW_reachable c : reachable c -> InvW c.
Proof.
  intros H. induction H as [|c a c' r H IH Hs]; [apply InvW_init|].
  eapply InvW_step; [eapply Inv1_reachable; eauto|eauto|eauto].
Qed.
End P.
