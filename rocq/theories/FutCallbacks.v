(** Invariant of the futures model: every registered callback is in exactly
    one place until it is called. *)
From Verif Require Import FutProofs.
From Coq Require Import ZifyBool ZifyNat.

Section P.
Context {V E : Type} (cb_fatal : nat -> bool) (max_workers : nat).
Notation cfg := (cfg V E).
Notation step := (@step V E cb_fatal max_workers).
Notation reachable := (@reachable V E cb_fatal max_workers).
Implicit Types (c : cfg).
Notation occ := (count_occ Nat.eq_dec).

Definition wcb (n : nat) (w : wstate V E) : nat := match w with WCbs _ l => occ l n | _ => 0 end.
Definition fcb (n : nat) (f : future V E) : nat := if is_done (st f) then 0 else occ (cbs f) n.
Definition jcb (n : nat) (j : nat * list nat) : nat := occ (snd j) n.
Definition lcb (n : nat) (e : nat * nat) : nat := b2n (Nat.eqb (snd e) n).
Definition places c (n : nat) : nat :=
  sumf (lcb n) (called c) + sumf (wcb n) (wks c) + sumf (jcb n) (jobs c) + sumf (fcb n) (futs c).

Definition fdone (l : list (future V E)) (i : nat) : Prop := exists f, nth_error l i = Some f /\ is_done (st f) = true.

Record Inv3 c : Prop := {
  k_le : forall n, places c n <= b2n (Nat.ltb n (length (regs c)));
  k_eq : (forall n, cb_fatal n = false) -> forall n, places c n = b2n (Nat.ltb n (length (regs c)));
  k_cbs : forall i f n, nth_error (futs c) i = Some f -> In n (cbs f) -> nth_error (regs c) n = Some i;
  k_wks : forall i l, In (WCbs i l) (wks c) -> fdone (futs c) i /\ forall n, In n l -> nth_error (regs c) n = Some i;
  k_jobs : forall i l, In (i, l) (jobs c) -> fdone (futs c) i /\ forall n, In n l -> nth_error (regs c) n = Some i;
  k_called : forall i n, In (i, n) (called c) -> fdone (futs c) i /\ nth_error (regs c) n = Some i
}.

Lemma Inv3_init : Inv3 init.
Proof.
  split; intros.
  - cbn. lia.
  - reflexivity.
  - destruct i; discriminate.
  - destruct H.
  - destruct H.
  - destruct H.
Qed.

Lemma occ_app l l' n : occ (l ++ l') n = occ l n + occ l' n.
Proof. apply count_occ_app. Qed.

(** [futs] and [regs] change by a relation that keeps doneness and callbacks *)
Lemma fdone_upd (l : list (future V E)) i f f' j : nth_error l i = Some f ->
  (is_done (st f) = true -> is_done (st f') = true) -> fdone l j -> fdone (upd l i f') j.
Proof.
  intros Hf Hd (g & Hg & Dg). unfold fdone. rewrite nth_upd. destruct (Nat.eqb j i) eqn:Ej.
  - apply Nat.eqb_eq in Ej. subst. assert (i < length l) by (apply nth_error_Some; congruence).
    apply Nat.ltb_lt in H. rewrite H. exists f'. split; [reflexivity|]. apply Hd. congruence.
  - exists g. auto.
Qed.
Lemma fdone_upd_same (l : list (future V E)) i f f' : nth_error l i = Some f -> is_done (st f') = true -> fdone (upd l i f') i.
Proof. intros Hf Hd. exists f'. split; [|exact Hd]. eapply nth_upd_same; eauto. Qed.

Lemma cbs_upd (l : list (future V E)) i f f' (P : nat -> nat -> Prop) :
  nth_error l i = Some f -> cbs f' = cbs f ->
  (forall j g n, nth_error l j = Some g -> In n (cbs g) -> P j n) ->
  forall j g n, nth_error (upd l i f') j = Some g -> In n (cbs g) -> P j n.
Proof.
  intros Hf Hc H j g n Hj Hn. rewrite nth_upd in Hj. destruct (Nat.eqb j i) eqn:Ej.
  - apply Nat.eqb_eq in Ej. subst. destruct (Nat.ltb i (length l)); [|discriminate]. injection Hj as <-.
    rewrite Hc in Hn. eauto.
  - eauto.
Qed.

(** steps that keep everything callbacks depend on *)
Lemma Inv3_frame c c' :
  called c' = called c -> (forall n, sumf (wcb n) (wks c') = sumf (wcb n) (wks c)) ->
  (forall i l, In (WCbs i l) (wks c') -> In (WCbs i l) (wks c)) ->
  jobs c' = jobs c -> regs c' = regs c ->
  (forall n, sumf (fcb n) (futs c') = sumf (fcb n) (futs c)) ->
  (forall i f n, nth_error (futs c') i = Some f -> In n (cbs f) -> exists g, nth_error (futs c) i = Some g /\ In n (cbs g)) ->
  (forall i, fdone (futs c) i -> fdone (futs c') i) ->
  Inv3 c -> Inv3 c'.
Proof.
  intros E1 E2 E2' E3 E4 E5 E6 E7 [H1 H2 H3 H4 H5 H6].
  assert (Hp : forall n, places c' n = places c n).
  { intros n. unfold places. now rewrite E1, E2, E3, E5. }
  split; intros; rewrite ?Hp, ?E4; auto.
  - destruct (E6 _ _ _ H H0) as (g & Hg & Hn). eauto.
  - apply E2' in H. apply H4 in H. destruct H. auto.
  - rewrite E3 in H. apply H5 in H. destruct H. auto.
  - rewrite E1 in H. apply H6 in H. destruct H. auto.
Qed.

Lemma sumf_map_upd (F : future V E -> nat) l i f f' : nth_error l i = Some f -> F f' = F f -> sumf F (upd l i f') = sumf F l.
Proof. intros Hf HF. pose proof (sumf_upd F l i f f' Hf). lia. Qed.

Lemma install_sum (F : future V E -> nat) k fs : (forall f l, F (with_waiters f l) = F f) ->
  forall l, sumf F (install l fs k) = sumf F l.
Proof.
  intros HF. unfold install. induction fs as [|i fs IH]; intros l; cbn [fold_left]; [reflexivity|].
  rewrite IH. destruct (nth_error l i) as [f|] eqn:Ef; [|reflexivity]. eapply sumf_map_upd; eauto.
Qed.
Lemma install_done k fs (l : list (future V E)) i : fdone l i -> fdone (install l fs k) i.
Proof.
  intros (f & Hf & Hd). pose proof (install_stat k fs l i) as Hs. rewrite Hf in Hs. cbn in Hs. unfold fdone.
  destruct (nth_error (install l fs k) i) as [f'|]; [|discriminate]. cbn in Hs. injection Hs as Hs.
  exists f'. split; [reflexivity|]. now rewrite Hs.
Qed.

Ltac inupd H := apply In_upd in H; destruct H as [H|H].

Lemma Inv3_step c a c' r : Inv1 cb_fatal c -> Inv3 c -> step c a = Some (c', r) -> Inv3 c'.
Proof.
  intros HI1 HI H. destruct a as [|i|i| | |k fs|j|k t|k|k|w|w|w o|w|w|w]; cbn [FutModel.step] in H.
  - (* Submit *)
    unfold do_submit in H. destruct (closed c); injection H as <- _; [exact HI|].
    apply (Inv3_frame c); auto; cbn [called wks jobs regs futs].
    + intros n. destruct (Nat.ltb _ _); [|reflexivity]. rewrite sumf_app. cbn. lia.
    + intros i l. destruct (Nat.ltb _ _); [|auto]. rewrite in_app_iff. intros [Hx|[Hx|[]]]; [auto|discriminate].
    + intros n. rewrite sumf_app. cbn. lia.
    + intros i f n Hf Hn. rewrite nth_snoc in Hf. destruct (Nat.eqb i (length (futs c))); [injection Hf as <-; destruct Hn|eauto].
    + intros i (f & Hf & Hd). exists f. split; [|exact Hd]. rewrite nth_error_app1; [exact Hf|]. apply nth_error_Some. congruence.
  - (* Cancel *)
    unfold do_cancel in H. destruct (nth_error (futs c) i) as [f|] eqn:Ef; [|discriminate].
    destruct (st f) eqn:Es; injection H as <- _; try exact HI.
    destruct HI as [H1 H2 H3 H4 H5 H6].
    assert (Hp : forall n, places (set_jobs (set_futs c (upd (futs c) i (with_st f CANCELLED))) (jobs c ++ [(i, cbs f)])) n = places c n).
    { intros n. unfold places, set_jobs, set_futs. cbn [called wks jobs futs]. rewrite sumf_app. cbn [sumf jcb snd].
      pose proof (sumf_upd (fcb n) _ _ _ (with_st f CANCELLED) Ef) as HS. unfold fcb in HS at 2 4. cbn in HS. rewrite Es in HS. cbn in HS.
      unfold jcb at 2. cbn. lia. }
    assert (Hfd : forall j, fdone (futs c) j -> fdone (upd (futs c) i (with_st f CANCELLED)) j).
    { intros j. eapply fdone_upd; eauto. }
    split; intros; rewrite ?Hp; unfold set_jobs, set_futs in *; cbn [called wks jobs futs regs] in *; auto.
    + eapply (cbs_upd _ i f _ (fun i n => nth_error (regs c) n = Some i) Ef); [|exact H3|exact H|exact H0]; reflexivity.
    + apply H4 in H. destruct H. auto.
    + apply in_app_iff in H. destruct H as [H|[[= <- <-]|[]]].
      * apply H5 in H. destruct H. auto.
      * split; [eapply fdone_upd_same; eauto|]. eauto.
    + apply H6 in H. destruct H. auto.
  - (* AddCallback *)
    unfold do_add_callback in H. destruct (nth_error (futs c) i) as [f|] eqn:Ef; [|discriminate].
    destruct HI as [H1 H2 H3 H4 H5 H6].
    assert (Hr : forall n j, nth_error (regs c) n = Some j -> nth_error (regs c ++ [i]) n = Some j).
    { intros n j Hn. rewrite nth_error_app1; [exact Hn|]. apply nth_error_Some. congruence. }
    assert (Hl : nth_error (regs c ++ [i]) (length (regs c)) = Some i).
    { rewrite nth_error_app2, Nat.sub_diag by lia. reflexivity. }
    assert (Hb : forall n, b2n (Nat.ltb n (length (regs c ++ [i]))) = b2n (Nat.ltb n (length (regs c))) + b2n (Nat.eqb (length (regs c)) n)).
    { intros n. rewrite app_length. cbn [length].
      destruct (Nat.ltb_spec n (length (regs c) + 1)), (Nat.ltb_spec n (length (regs c))), (Nat.eqb_spec (length (regs c)) n); cbn; lia. }
    destruct (is_done (st f)) eqn:Ed; injection H as <- _.
    + match goal with |- Inv3 ?c' => assert (Hp : forall n, places c' n = places c n + b2n (Nat.eqb (length (regs c)) n)) end.
      { intros n. unfold places. cbn [called wks jobs futs]. rewrite sumf_app. cbn [sumf]. unfold jcb at 2. cbn [snd count_occ].
        destruct (Nat.eq_dec (length (regs c)) n), (Nat.eqb_spec (length (regs c)) n); cbn; try congruence; lia. }
      split; intros; rewrite ?Hp; cbn [called wks jobs futs regs] in *; rewrite ?Hb.
      * specialize (H1 n). lia.
      * rewrite H2 by auto. lia.
      * eauto.
      * apply H4 in H. destruct H. split; auto.
      * apply in_app_iff in H. destruct H as [H|[[= <- <-]|[]]].
        -- apply H5 in H. destruct H. split; auto.
        -- split; [exists f; auto|]. intros n [<-|[]]. exact Hl.
      * apply H6 in H. destruct H. split; auto.
    + set (f' := Future (st f) (fres f) (cbs f ++ [length (regs c)]) (waiters f)).
      match goal with |- Inv3 ?c' => assert (Hp : forall n, places c' n = places c n + b2n (Nat.eqb (length (regs c)) n)) end.
      { intros n. unfold places. cbn [called wks jobs futs].
        pose proof (sumf_upd (fcb n) _ _ _ f' Ef) as HS. unfold fcb at 2 4 in HS. unfold f' in HS at 2. cbn [st] in HS. rewrite Ed in HS.
        unfold f' in HS at 2. cbn [cbs] in HS. rewrite occ_app in HS. cbn [count_occ] in HS. unfold f' in *.
        destruct (Nat.eq_dec (length (regs c)) n), (Nat.eqb_spec (length (regs c)) n); cbn; try congruence; lia. }
      assert (Hfd : forall j, fdone (futs c) j -> fdone (upd (futs c) i f') j).
      { intros j. eapply fdone_upd; eauto. }
      split; intros; rewrite ?Hp; cbn [called wks jobs futs regs] in *; rewrite ?Hb.
      * specialize (H1 n). lia.
      * rewrite H2 by auto. lia.
      * rewrite nth_upd in H. destruct (Nat.eqb i0 i) eqn:Ei.
        -- apply Nat.eqb_eq in Ei. subst. destruct (Nat.ltb i (length (futs c))); [|discriminate]. injection H as <-.
           cbn in H0. apply in_app_iff in H0. destruct H0 as [H0|[<-|[]]]; [eauto|exact Hl].
        -- eauto.
      * apply H4 in H. destruct H. split; auto.
      * apply H5 in H. destruct H. split; auto.
      * apply H6 in H. destruct H. split; auto.
  - (* Shutdown *) injection H as <- _. apply (Inv3_frame c); auto. eauto.
  - (* Collect *) injection H as <- _. apply (Inv3_frame c); auto. eauto.
  - (* Wait *)
    unfold do_wait in H. destruct (forallb _ fs); [|discriminate]. cbv zeta in H.
    match type of H with (if ?b then _ else _) = _ => destruct b end; injection H as <- _.
    + apply (Inv3_frame c); auto. eauto.
    + apply (Inv3_frame c); auto; cbn [futs set_futs set_wts].
      * intros n. apply install_sum. reflexivity.
      * intros i f n Hf Hn. apply install_nth in Hf. destruct Hf as (g & Hg & _ & _ & Ec & _). rewrite Ec in Hn. eauto.
      * intros i. apply install_done.
  - (* ClientCallback *)
    unfold do_client_callback in H. destruct (nth_error (jobs c) j) as [[i [|n rest]]|] eqn:Ej; try discriminate.
    injection H as <- _. destruct HI as [H1 H2 H3 H4 H5 H6].
    set (x := (i, if cb_fatal n then [] else rest)).
    assert (HS : forall m, sumf (jcb m) (upd (jobs c) j x) + (b2n (Nat.eqb n m) + occ rest m) = sumf (jcb m) (jobs c) + jcb m x).
    { intros m. pose proof (sumf_upd (jcb m) _ _ _ x Ej) as HS. unfold jcb at 2 in HS. cbn [snd count_occ] in HS.
      revert HS. destruct (Nat.eq_dec n m), (Nat.eqb_spec n m); cbn [b2n]; intros; try congruence; lia. }
    pose proof (nth_error_In _ _ Ej) as Hin. destruct (H5 _ _ Hin) as [Hd Hreg].
    split; intros; unfold places, add_called, set_jobs in *; cbn [called wks jobs futs regs] in *.
    + rewrite sumf_app. cbn [sumf]. unfold lcb at 2. cbn [snd]. specialize (H1 n0). specialize (HS n0).
      assert (jcb n0 x <= occ rest n0) by (unfold x, jcb; cbn; destruct (cb_fatal n); cbn; lia). lia.
    + rewrite sumf_app. cbn [sumf]. unfold lcb at 2. cbn [snd]. specialize (H2 H n0). specialize (HS n0).
      assert (jcb n0 x = occ rest n0) by (unfold x, jcb; cbn; now rewrite H). lia.
    + eauto.
    + eauto.
    + inupd H; [|eauto]. unfold x in H. injection H as -> ->. split; [exact Hd|]. intros m Hm. apply Hreg. right.
      destruct (cb_fatal n); [destruct Hm|exact Hm].
    + apply in_app_iff in H. destruct H as [H|[[= <- <-]|[]]]; [eauto|]. split; [exact Hd|]. apply Hreg. now left.
  - (* Wake *)
    unfold do_wake in H. destruct (nth_error (wts c) k) as [w|]; [|discriminate].
    destruct (ph w); try discriminate. destruct (_ || _); [|discriminate].
    injection H as <- _. apply (Inv3_frame c); auto. eauto.
  - (* Remove *)
    unfold do_remove in H. destruct (nth_error (wts c) k) as [w|]; [|discriminate].
    destruct (ph w) as [|[|i rest]| |]; try discriminate.
    + injection H as <- _. apply (Inv3_frame c); auto. eauto.
    + destruct (nth_error (futs c) i) as [f|] eqn:Ef; [|discriminate].
      injection H as <- _. apply (Inv3_frame c); auto; cbn [futs set_futs set_wts].
      * intros n. eapply sumf_map_upd; [exact Ef|reflexivity].
      * apply (cbs_upd _ i f _ (fun j n => exists g, nth_error (futs c) j = Some g /\ In n (cbs g)) Ef); [reflexivity|eauto].
      * intros j. eapply fdone_upd; eauto.
  - (* Yield *)
    unfold do_yield in H. destruct (nth_error (wts c) k) as [w|]; [|discriminate].
    destruct (ph w) as [| |[|i rest]|]; try discriminate;
      injection H as <- _; apply (Inv3_frame c); auto; eauto.
  - (* Get *)
    unfold do_get in H. destruct (nth_error (wks c) w) as [[]|] eqn:Ew; try discriminate.
    destruct (queue c) as [|q rest] eqn:Eq; [discriminate|]. injection H as <- _.
    apply (Inv3_frame c); auto; cbn [wks futs set_wks set_queue].
    + intros n. match goal with |- context [upd _ _ ?x] => pose proof (sumf_upd (wcb n) _ _ _ x Ew) as HS; assert (wcb n x = 0) by now destruct q end. cbn [wcb] in HS. lia.
    + intros i l Hl. inupd Hl; [destruct q; discriminate|exact Hl].
    + eauto.
  - (* Start *)
    unfold do_start in H. destruct (nth_error (wks c) w) as [[|i| | | | | |]|] eqn:Ew; try discriminate.
    destruct (nth_error (futs c) i) as [f|] eqn:Ef; [|discriminate].
    destruct (st f) eqn:Es; injection H as <- _;
    (apply (Inv3_frame c); auto; cbn [wks futs set_wks set_wts set_futs];
     [ intros n; match goal with |- context [upd (wks _) _ ?x] => pose proof (sumf_upd (wcb n) _ _ _ x Ew) as HS end; cbn [wcb] in HS; lia
     | intros i' l Hl; inupd Hl; [discriminate|exact Hl]
     | .. ]).
    (* per state, about futures *)
    + intros n. eapply sumf_map_upd; eauto. unfold fcb. cbn. now rewrite Es.
    + apply (cbs_upd _ i f _ (fun j n => exists g, nth_error (futs c) j = Some g /\ In n (cbs g)) Ef); [reflexivity|eauto].
    + intros j. eapply fdone_upd; eauto. rewrite Es. discriminate.
    + eauto.
    + intros n. eapply sumf_map_upd; eauto. unfold fcb. cbn. now rewrite Es.
    + apply (cbs_upd _ i f _ (fun j n => exists g, nth_error (futs c) j = Some g /\ In n (cbs g)) Ef); [reflexivity|eauto].
    + intros j. eapply fdone_upd; eauto.
    + eauto.
    + eauto.
  - (* Finish *)
    unfold do_finish in H. destruct (nth_error (wks c) w) as [[| |i| | | | |]|] eqn:Ew; try discriminate. injection H as <- _.
    apply (Inv3_frame c); auto; cbn [wks futs].
    + intros n. pose proof (sumf_upd (wcb n) _ _ _ (WDone i o) Ew) as HS. cbn [wcb] in HS. lia.
    + intros i' l Hl. inupd Hl; [discriminate|exact Hl].
    + eauto.
  - (* Publish *)
    unfold do_publish in H. destruct (nth_error (wks c) w) as [[| | |i o| | | |]|] eqn:Ew; try discriminate.
    destruct (nth_error (futs c) i) as [f|] eqn:Ef; [|discriminate]. injection H as <- _.
    assert (Es : st f = RUNNING).
    { pose proof (i_runs _ _ HI1 i) as H2. pose proof (sumf_ge (run1 i) _ _ _ Ew) as G. cbn [run1] in G. rewrite Nat.eqb_refl in G. cbn in G.
      unfold stat in H2. rewrite Ef in H2. cbn in H2. destruct (st f); cbn in H2; try lia. reflexivity. }
    destruct HI as [H1 H2 H3 H4 H5 H6].
    set (f' := Future FINISHED (Some o) (cbs f) (waiters f)).
    match goal with |- Inv3 ?c' => assert (Hp : forall n, places c' n = places c n) end.
    { intros n. unfold places, set_wks, set_wts, set_futs. cbn [called wks jobs futs].
      pose proof (sumf_upd (fcb n) _ _ _ f' Ef) as HS. unfold fcb at 2 4 in HS. rewrite Es in HS. cbn in HS.
      pose proof (sumf_upd (wcb n) _ _ _ (WCbs i (cbs f)) Ew) as HS2. cbn [wcb] in HS2. unfold f' in *. lia. }
    assert (Hfd : forall j, fdone (futs c) j -> fdone (upd (futs c) i f') j).
    { intros j. eapply fdone_upd; eauto. }
    split; intros; rewrite ?Hp; unfold set_wks, set_wts, set_futs in *; cbn [called wks jobs futs regs] in *; auto.
    + eapply (cbs_upd _ i f _ (fun i n => nth_error (regs c) n = Some i) Ef); [|exact H3|exact H|exact H0]; reflexivity.
    + inupd H.
      * injection H as -> ->. split; [eapply fdone_upd_same; eauto|eauto].
      * apply H4 in H. destruct H. auto.
    + apply H5 in H. destruct H. auto.
    + apply H6 in H. destruct H. auto.
  - (* WorkerCallback *)
    unfold do_worker_callback in H. destruct (nth_error (wks c) w) as [[| | | |i [|n rest]| | |]|] eqn:Ew; try discriminate; injection H as <- _.
    + apply (Inv3_frame c); auto; cbn [wks futs set_wks].
      * intros n. pose proof (sumf_upd (wcb n) _ _ _ WIdle Ew) as HS. cbn [wcb count_occ] in HS. lia.
      * intros i' l Hl. inupd Hl; [discriminate|exact Hl].
      * eauto.
    + destruct HI as [H1 H2 H3 H4 H5 H6]. set (x := if cb_fatal n then WDead else WCbs i rest).
      assert (HS : forall m, sumf (wcb m) (upd (wks c) w x) + (b2n (Nat.eqb n m) + occ rest m) = sumf (wcb m) (wks c) + wcb m x).
      { intros m. pose proof (sumf_upd (wcb m) _ _ _ x Ew) as HS. unfold wcb at 2 in HS. cbn [count_occ] in HS.
        revert HS. destruct (Nat.eq_dec n m), (Nat.eqb_spec n m); cbn [b2n]; intros; try congruence; lia. }
      pose proof (nth_error_In _ _ Ew) as Hin. destruct (H4 _ _ Hin) as [Hd Hreg].
      split; intros; unfold places, add_called, set_wks in *; cbn [called wks jobs futs regs] in *.
      * rewrite sumf_app. cbn [sumf]. unfold lcb at 2. cbn [snd]. specialize (H1 n0). specialize (HS n0).
        assert (wcb n0 x <= occ rest n0) by (unfold x; destruct (cb_fatal n); cbn; lia). lia.
      * rewrite sumf_app. cbn [sumf]. unfold lcb at 2. cbn [snd]. specialize (H2 H n0). specialize (HS n0).
        assert (wcb n0 x = occ rest n0) by (unfold x; now rewrite H). lia.
      * eauto.
      * inupd H; [|eauto]. unfold x in H. destruct (cb_fatal n); [discriminate|]. injection H as -> ->. split; [exact Hd|].
        intros m Hm. apply Hreg. now right.
      * eauto.
      * apply in_app_iff in H. destruct H as [H|[[= <- <-]|[]]]; [eauto|]. split; [exact Hd|]. apply Hreg. now left.
  - (* Check *)
    unfold do_check in H. destruct (nth_error (wks c) w) as [[| | | | | | |]|] eqn:Ew; try discriminate.
    destruct (closed c); injection H as <- _;
    (apply (Inv3_frame c); auto; cbn [wks futs set_wks set_queue];
     [ intros n; match goal with |- context [upd (wks _) _ ?x] => pose proof (sumf_upd (wcb n) _ _ _ x Ew) as HS end; cbn [wcb] in HS; lia
     | intros i' l Hl; inupd Hl; [discriminate|exact Hl]
     | eauto ]).
Qed.

Lemma Inv3_reachable c : reachable c -> Inv3 c.
Proof.
  induction 1; [apply Inv3_init|]. eapply Inv3_step; eauto. eapply Inv1_reachable; eauto.
Qed.
End P.
