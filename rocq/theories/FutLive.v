(** Progress of the thread pool: work is not lost, shutdown drains the queue. *)
From Verif Require Import FutProofs.
From Coq Require Import ZifyBool ZifyNat.

Section P.
Context {V E : Type} (cb_fatal : nat -> bool) (max_workers : nat).
Notation cfg := (cfg V E).
Notation act := (act V E).
Notation step := (@step V E cb_fatal max_workers).
Notation reachable := (@reachable V E cb_fatal max_workers).
Implicit Types (c : cfg).

Record InvQ c : Prop := {
  q_open : closed c = false -> ~ In None (queue c) /\ ~ In WNone (wks c) /\ ~ In WExited (wks c);
  q_shape : exists items n, queue c = map Some items ++ repeat None n;
  q_gone : In WNone (wks c) \/ In WExited (wks c) -> forall i, ~ In (Some i) (queue c);
  q_token : In WExited (wks c) -> In None (queue c) \/ In WNone (wks c);
  q_threads : futs c <> [] -> 0 < max_workers -> wks c <> [];
  q_count : length (wks c) <= max_workers
}.

Lemma InvQ_init : InvQ init.
Proof.
  split; cbn; intros; try tauto.
  - exists [], 0. reflexivity.
  - lia.
Qed.

Lemma upd_nil {A} (l : list A) n x : upd l n x = [] -> l = [].
Proof. destruct l, n; cbn; congruence. Qed.
Lemma In_upd_new {A} (l : list A) n a x : nth_error l n = Some a -> In x (upd l n x).
Proof. intros H. eapply nth_error_In. eapply nth_upd_same. exact H. Qed.
Lemma In_upd_keep {A} (l : list A) n a x y : nth_error l n = Some a -> In y l -> y <> a -> In y (upd l n x).
Proof.
  revert n. induction l as [|b l IH]; intros [|n]; cbn; try discriminate.
  - intros [= ->] [->|H] Hn; [congruence|auto].
  - intros H [->|Hi] Hn; [auto|]. right. now apply IH.
Qed.

(** steps that leave the pool alone *)
Lemma InvQ_frame c c' : queue c' = queue c -> wks c' = wks c -> closed c' = closed c -> length (futs c') = length (futs c) ->
  InvQ c -> InvQ c'.
Proof.
  intros E1 E2 E3 E4 [H1 H2 H3 H4 H5 H6]. split; rewrite ?E1, ?E2, ?E3; auto.
  intros Hf. apply H5. intros Hn. apply Hf. rewrite Hn in E4. cbn in E4. now destruct (futs c').
Qed.
(** a worker goes between two states that are neither WNone nor WExited *)
Lemma InvQ_worker c c' w x y : nth_error (wks c) w = Some x -> wks c' = upd (wks c) w y ->
  x <> WNone -> x <> WExited -> y <> WNone -> y <> WExited ->
  queue c' = queue c -> closed c' = closed c -> length (futs c') = length (futs c) -> InvQ c -> InvQ c'.
Proof.
  intros Hw Ew X1 X2 Y1 Y2 Eq Ec Ef [H1 H2 H3 H4 H5 H6].
  assert (N : In WNone (upd (wks c) w y) <-> In WNone (wks c)).
  { split; intros H; [apply In_upd in H; destruct H; [congruence|auto]|]. eapply In_upd_keep; eauto. }
  assert (X : In WExited (upd (wks c) w y) <-> In WExited (wks c)).
  { split; intros H; [apply In_upd in H; destruct H; [congruence|auto]|]. eapply In_upd_keep; eauto. }
  split; rewrite ?Eq, ?Ew, ?Ec, ?N, ?X; auto.
  - intros Hf Hm Hu. apply upd_nil in Hu. revert Hu. apply H5; auto. intros Hn. apply Hf. rewrite Hn in Ef. now destruct (futs c').
  - now rewrite upd_length.
Qed.

Lemma shape_none_head rest items n : None :: rest = map (@Some nat) items ++ repeat None n -> rest = repeat None (length rest).
Proof.
  destruct items as [|i items]; cbn; [|discriminate]. destruct n as [|n]; [discriminate|]. cbn. intros [= ->].
  now rewrite repeat_length.
Qed.
Lemma not_in_repeat i n : ~ In (Some i) (repeat (@None nat) n).
Proof. intros H. apply repeat_spec in H. discriminate. Qed.

Lemma InvQ_step c a c' r : InvQ c -> step c a = Some (c', r) -> InvQ c'.
Proof.
  intros HI H. destruct a as [|i|i| | |k fs|j|k t|k|k|w|w|w o|w|w|w]; cbn [FutModel.step] in H.
  - (* Submit *)
    unfold do_submit in H. destruct (closed c) eqn:Ec; injection H as <- _; [exact HI|].
    destruct HI as [H1 H2 H3 H4 H5 H6]. destruct (H1 Ec) as (Hn & Hw & Hx).
    set (ws := if Nat.ltb (length (wks c)) max_workers then wks c ++ [WIdle] else wks c).
    assert (Hws : forall y : wstate V E, y <> WIdle -> In y ws -> In y (wks c)).
    { intros y Hy. unfold ws. destruct (Nat.ltb _ _); [|auto]. rewrite in_app_iff. intros [Hi|[Hi|[]]]; [auto|congruence]. }
    split; cbn [queue wks closed futs].
    + intros _. rewrite in_app_iff. repeat split.
      * intros [Hi|[Hi|[]]]; [auto|discriminate].
      * intros Hi. apply Hws in Hi; [auto|discriminate].
      * intros Hi. apply Hws in Hi; [auto|discriminate].
    + destruct H2 as (items & n & E2). destruct n as [|n].
      * exists (items ++ [length (futs c)]), 0. rewrite E2, map_app. cbn. now rewrite !app_nil_r.
      * elim Hn. rewrite E2. apply in_app_iff. right. now left.
    + intros [Hi|Hi]; apply Hws in Hi; try discriminate; contradiction.
    + intros Hi; apply Hws in Hi; try discriminate; contradiction.
    + intros _ Hm. unfold ws. destruct (Nat.ltb_spec (length (wks c)) max_workers).
      * destruct (wks c); discriminate.
      * intros Hi. rewrite Hi in H. cbn in H. lia.
    + unfold ws. destruct (Nat.ltb_spec (length (wks c)) max_workers); [|exact H6]. rewrite app_length. cbn. lia.
  - unfold do_cancel in H. destruct (nth_error (futs c) i) as [f|] eqn:Ef; [|discriminate].
    destruct (st f) eqn:Es; injection H as <- _; try exact HI. apply (InvQ_frame c); auto. cbn. apply upd_length.
  - unfold do_add_callback in H. destruct (nth_error (futs c) i) as [f|] eqn:Ef; [|discriminate].
    destruct (is_done (st f)); injection H as <- _; apply (InvQ_frame c); auto. cbn. apply upd_length.
  - (* Shutdown *)
    injection H as <- _. destruct HI as [H1 H2 H3 H4 H5 H6]. split; unfold do_close; cbn [queue wks closed futs]; auto; try discriminate.
    + destruct H2 as (items & n & E2). exists items, (n + 1). rewrite E2, repeat_app. now rewrite app_assoc.
    + intros Hx i. rewrite in_app_iff. intros [Hi|[Hi|[]]]; [|discriminate]. exact (H3 Hx i Hi).
    + intros Hx. left. apply in_app_iff. right. now left.
  - (* Collect *)
    injection H as <- _. destruct HI as [H1 H2 H3 H4 H5 H6]. split; unfold do_close; cbn [queue wks closed futs]; auto; try discriminate.
    + destruct H2 as (items & n & E2). exists items, (n + length (wks c)). rewrite E2, repeat_app. now rewrite app_assoc.
    + intros Hx i. rewrite in_app_iff. intros [Hi|Hi]; [exact (H3 Hx i Hi)|now apply not_in_repeat in Hi].
    + intros Hx. apply H4 in Hx. rewrite in_app_iff. tauto.
  - unfold do_wait in H. destruct (forallb _ fs); [|discriminate]. cbv zeta in H.
    match type of H with (if ?b then _ else _) = _ => destruct b end; injection H as <- _; apply (InvQ_frame c); auto.
    cbn. apply install_length.
  - unfold do_client_callback in H. destruct (nth_error (jobs c) j) as [[i [|n rest]]|]; try discriminate.
    injection H as <- _. apply (InvQ_frame c); auto.
  - unfold do_wake in H. destruct (nth_error (wts c) k) as [w|]; [|discriminate].
    destruct (ph w); try discriminate. destruct (_ || _); [|discriminate].
    injection H as <- _. apply (InvQ_frame c); auto.
  - unfold do_remove in H. destruct (nth_error (wts c) k) as [w|]; [|discriminate].
    destruct (ph w) as [|[|i rest]| |]; try discriminate.
    + injection H as <- _. apply (InvQ_frame c); auto.
    + destruct (nth_error (futs c) i) as [f|] eqn:Ef; [|discriminate].
      injection H as <- _. apply (InvQ_frame c); auto. cbn. apply upd_length.
  - unfold do_yield in H. destruct (nth_error (wts c) k) as [w|]; [|discriminate].
    destruct (ph w) as [| |[|i rest]|]; try discriminate; injection H as <- _; apply (InvQ_frame c); auto.
  - (* Get *)
    unfold do_get in H. destruct (nth_error (wks c) w) as [[]|] eqn:Ew; try discriminate.
    destruct (queue c) as [|q rest] eqn:Eq; [discriminate|]. injection H as <- _.
    destruct HI as [H1 H2 H3 H4 H5 H6]. rewrite Eq in *. destruct H2 as (items & n & E2).
    destruct q as [i|]; split; unfold set_wks, set_queue; cbn [queue wks closed futs].
    + intros Ec. destruct (H1 Ec) as (Hn & Hw & Hx). repeat split.
      * intros Hi. apply Hn. now right.
      * intros Hi. apply In_upd in Hi. destruct Hi; [discriminate|auto].
      * intros Hi. apply In_upd in Hi. destruct Hi; [discriminate|auto].
    + destruct items as [|i' items]; [destruct n; discriminate|]. cbn in E2. injection E2 as _ E2. exists items, n. exact E2.
    + intros Hx i' Hi. refine (H3 _ i' _); [|right; exact Hi].
      destruct Hx as [Hx|Hx]; apply In_upd in Hx; destruct Hx; try discriminate; auto.
    + intros Hx. apply In_upd in Hx. destruct Hx as [Hx|Hx]; [discriminate|].
      destruct (H4 Hx) as [[Hi|Hi]|Hi]; [discriminate|auto|]. right. eapply In_upd_keep; eauto. discriminate.
    + intros Hf Hm Hu. apply upd_nil in Hu. revert Hu. apply H5; auto.
    + now rewrite upd_length.
    + intros Ec. destruct (H1 Ec) as (Hn & _). elim Hn. now left.
    + exists [], (length rest). now apply shape_none_head in E2.
    + intros _ i. apply shape_none_head in E2. rewrite E2. apply not_in_repeat.
    + intros _. right. eapply In_upd_new; eauto.
    + intros Hf Hm Hu. apply upd_nil in Hu. revert Hu. apply H5; auto.
    + now rewrite upd_length.
  - (* Start *)
    unfold do_start in H. destruct (nth_error (wks c) w) as [[|i| | | | | |]|] eqn:Ew; try discriminate.
    destruct (nth_error (futs c) i) as [f|] eqn:Ef; [|discriminate].
    destruct (st f) eqn:Es; injection H as <- _; (eapply (InvQ_worker c); [exact Ew|reflexivity|..]; try discriminate; auto);
      cbn; apply upd_length.
  - unfold do_finish in H. destruct (nth_error (wks c) w) as [[| |i| | | | |]|] eqn:Ew; try discriminate. injection H as <- _.
    eapply (InvQ_worker c); [exact Ew|reflexivity|..]; try discriminate; auto.
  - unfold do_publish in H. destruct (nth_error (wks c) w) as [[| | |i o| | | |]|] eqn:Ew; try discriminate.
    destruct (nth_error (futs c) i) as [f|] eqn:Ef; [|discriminate]. injection H as <- _.
    eapply (InvQ_worker c); [exact Ew|reflexivity|..]; try discriminate; auto. cbn. apply upd_length.
  - unfold do_worker_callback in H. destruct (nth_error (wks c) w) as [[| | | |i [|n rest]| | |]|] eqn:Ew; try discriminate; injection H as <- _;
      (eapply (InvQ_worker c); [exact Ew|reflexivity|..]; try discriminate; auto); destruct (cb_fatal n); discriminate.
  - (* Check *)
    unfold do_check in H. destruct (nth_error (wks c) w) as [[| | | | | | |]|] eqn:Ew; try discriminate.
    destruct HI as [H1 H2 H3 H4 H5 H6]. pose proof (nth_error_In _ _ Ew) as Hin.
    destruct (closed c) eqn:Ec; injection H as <- _.
    + split; unfold set_wks, set_queue; cbn [queue wks closed futs].
      * congruence.
      * destruct H2 as (items & n & E2). exists items, (n + 1). rewrite E2, repeat_app. now rewrite app_assoc.
      * intros _ i. rewrite in_app_iff. intros [Hi|[Hi|[]]]; [|discriminate]. exact (H3 (or_introl Hin) i Hi).
      * intros _. left. apply in_app_iff. right. now left.
      * intros Hf Hm Hu. apply upd_nil in Hu. revert Hu. apply H5; auto.
      * now rewrite upd_length.
    + destruct (H1 eq_refl) as (_ & Hw & _). contradiction.
Qed.

Lemma InvQ_reachable c : reachable c -> InvQ c.
Proof. induction 1; [apply InvQ_init|eapply InvQ_step; eauto]. Qed.

(** ** progress *)
Definition worker_act (a : act) : bool :=
  match a with Get _ | Start _ | Finish _ _ | Publish _ | WorkerCallback _ | Check _ => true | _ => false end.

Definition ncbs c (i : nat) : nat := match nth_error (futs c) i with Some f => length (cbs f) | None => 0 end.
Definition qweight c (q : option nat) : nat := match q with Some i => 7 + ncbs c i | None => 2 end.
Definition wweight c (w : wstate V E) : nat :=
  match w with
  | WIdle => 2 | WHave i => 6 + ncbs c i | WRun i => 5 + ncbs c i | WDone i _ => 4 + ncbs c i
  | WCbs _ l => 3 + length l | WNone => 3 | WExited => 0 | WDead => 0
  end.
(** work left for the pool *)
Definition work c : nat := sumf (qweight c) (queue c) + sumf (wweight c) (wks c).

Lemma sumf_ext {A} (f g : A -> nat) l : (forall x, f x = g x) -> sumf f l = sumf g l.
Proof. intros H. induction l; cbn; rewrite ?H; auto. Qed.

Lemma work_eq c c' : (forall i, ncbs c' i = ncbs c i) -> work c' = sumf (qweight c) (queue c') + sumf (wweight c) (wks c').
Proof.
  intros H. unfold work. f_equal; apply sumf_ext.
  - intros [i|]; cbn; rewrite ?H; reflexivity.
  - intros []; cbn; rewrite ?H; reflexivity.
Qed.
Lemma ncbs_upd c i f f' j : nth_error (futs c) i = Some f -> length (cbs f') = length (cbs f) ->
  match nth_error (upd (futs c) i f') j with Some g => length (cbs g) | None => 0 end = ncbs c j.
Proof.
  intros Hf Hc. unfold ncbs. rewrite nth_upd. destruct (Nat.eqb j i) eqn:Ej; [|reflexivity].
  apply Nat.eqb_eq in Ej. subst. assert (i < length (futs c)) by (apply nth_error_Some; congruence).
  apply Nat.ltb_lt in H. now rewrite H, Hf.
Qed.

Lemma work_decreases c a c' r : worker_act a = true -> step c a = Some (c', r) -> work c' < work c.
Proof.
  intros Ha H. destruct a as [|i|i| | |k fs|j|k t|k|k|w|w|w o|w|w|w]; try discriminate Ha; cbn [FutModel.step] in H.
  - unfold do_get in H. destruct (nth_error (wks c) w) as [[]|] eqn:Ew; try discriminate.
    destruct (queue c) as [|q rest] eqn:Eq; [discriminate|]. injection H as <- _.
    rewrite (work_eq c) by reflexivity. unfold set_wks, set_queue, work. cbn [queue wks]. rewrite Eq. cbn [sumf].
    match goal with |- context [upd (wks _) _ ?x] => pose proof (sumf_upd (wweight c) _ _ _ x Ew) as HS end.
    cbn [wweight] in HS. destruct q; cbn [wweight qweight] in *; lia.
  - unfold do_start in H. destruct (nth_error (wks c) w) as [[|i| | | | | |]|] eqn:Ew; try discriminate.
    destruct (nth_error (futs c) i) as [f|] eqn:Ef; [|discriminate].
    destruct (st f) eqn:Es; injection H as <- _;
      (rewrite (work_eq c) by (intros j; unfold ncbs at 1; cbn [futs set_wks set_wts set_futs]; try reflexivity; now apply (ncbs_upd c i f)));
      unfold work, set_wks, set_wts, set_futs; cbn [queue wks];
      match goal with |- context [upd (wks _) _ ?x] => pose proof (sumf_upd (wweight c) _ _ _ x Ew) as HS end; cbn [wweight] in HS; lia.
  - unfold do_finish in H. destruct (nth_error (wks c) w) as [[| |i| | | | |]|] eqn:Ew; try discriminate. injection H as <- _.
    rewrite (work_eq c) by reflexivity. unfold work. cbn [queue wks].
    pose proof (sumf_upd (wweight c) _ _ _ (WDone i o) Ew) as HS. cbn [wweight] in HS. lia.
  - unfold do_publish in H. destruct (nth_error (wks c) w) as [[| | |i o| | | |]|] eqn:Ew; try discriminate.
    destruct (nth_error (futs c) i) as [f|] eqn:Ef; [|discriminate]. injection H as <- _.
    rewrite (work_eq c) by (intros j; unfold ncbs at 1; cbn [futs set_wks set_wts set_futs]; now apply (ncbs_upd c i f)).
    unfold work, set_wks, set_wts, set_futs. cbn [queue wks].
    pose proof (sumf_upd (wweight c) _ _ _ (WCbs i (cbs f)) Ew) as HS. cbn [wweight] in HS.
    unfold ncbs in HS at 1. rewrite Ef in HS. lia.
  - unfold do_worker_callback in H. destruct (nth_error (wks c) w) as [[| | | |i [|n rest]| | |]|] eqn:Ew; try discriminate; injection H as <- _;
      rewrite (work_eq c) by reflexivity; unfold work, add_called, set_wks; cbn [queue wks].
    + pose proof (sumf_upd (wweight c) _ _ _ WIdle Ew) as HS. cbn [wweight length] in HS. lia.
    + set (x := if cb_fatal n then WDead else WCbs i rest).
      pose proof (sumf_upd (wweight c) _ _ _ x Ew) as HS. cbn [wweight length] in HS.
      assert (wweight c x <= 3 + length rest) by (unfold x; destruct (cb_fatal n); cbn [wweight]; lia). lia.
  - unfold do_check in H. destruct (nth_error (wks c) w) as [[| | | | | | |]|] eqn:Ew; try discriminate.
    destruct (closed c); injection H as <- _; rewrite (work_eq c) by reflexivity; unfold work, set_wks, set_queue; cbn [queue wks];
      match goal with |- context [upd (wks _) _ ?x] => pose proof (sumf_upd (wweight c) _ _ _ x Ew) as HS end; cbn [wweight] in HS;
      rewrite ?sumf_app; cbn [sumf qweight]; lia.
Qed.

(** every future that exists is settled, and no worker owes a callback *)
Definition all_settled c : Prop := forall i f, nth_error (futs c) i = Some f -> settled (st f) = true.

Lemma not_stuck c (o : outcome V E) : reachable c -> 0 < max_workers -> (forall n, cb_fatal n = false) ->
  (forall a, worker_act a = true -> step c a = None) ->
  all_settled c /\ forall w, In w (wks c) -> w = WIdle \/ w = WExited.
Proof.
  intros Hr Hm Hcb Hstuck. pose proof (InvQ_reachable c Hr) as HQ. pose proof (Inv1_reachable _ _ c Hr) as HI.
  assert (Hw : forall w x, nth_error (wks c) w = Some x -> x = WExited \/ (x = WIdle /\ queue c = [])).
  { intros w x Ex. destruct x as [|i|i|i o'|i l| | |].
    - right. split; [reflexivity|]. specialize (Hstuck (Get w) eq_refl). cbn in Hstuck. unfold do_get in Hstuck. rewrite Ex in Hstuck.
      now destruct (queue c).
    - specialize (Hstuck (Start w) eq_refl). cbn in Hstuck. unfold do_start in Hstuck. rewrite Ex in Hstuck.
      pose proof (i_owned _ _ HI i) as Ho. pose proof (sumf_ge (have1 i) _ _ _ Ex) as G. cbn [have1] in G. rewrite Nat.eqb_refl in G. cbn in G.
      unfold stat in Ho. destruct (nth_error (futs c) i) as [f|]; [|cbn in Ho; lia]. destruct (st f); discriminate.
    - specialize (Hstuck (Finish w o) eq_refl). cbn in Hstuck. unfold do_finish in Hstuck. rewrite Ex in Hstuck. discriminate.
    - specialize (Hstuck (Publish w) eq_refl). cbn in Hstuck. unfold do_publish in Hstuck. rewrite Ex in Hstuck.
      pose proof (i_runs _ _ HI i) as Ho. pose proof (sumf_ge (run1 i) _ _ _ Ex) as G. cbn [run1] in G. rewrite Nat.eqb_refl in G. cbn in G.
      unfold stat in Ho. destruct (nth_error (futs c) i) as [f|]; [discriminate|cbn in Ho; lia].
    - specialize (Hstuck (WorkerCallback w) eq_refl). cbn in Hstuck. unfold do_worker_callback in Hstuck. rewrite Ex in Hstuck.
      destruct l; discriminate.
    - specialize (Hstuck (Check w) eq_refl). cbn in Hstuck. unfold do_check in Hstuck. rewrite Ex in Hstuck. destruct (closed c); discriminate.
    - now left.
    - elim (i_dead _ _ HI Hcb). eapply nth_error_In; eauto. }
  assert (Hno : futs c <> [] -> forall i, ~ In (Some i) (queue c)).
  { intros Hf i Hi. pose proof (q_threads _ HQ Hf Hm) as Ht. destruct (wks c) as [|x l] eqn:El; [congruence|].
    destruct (Hw 0 x eq_refl) as [->|[-> Hq]].
    - refine (q_gone _ HQ _ i Hi). right. rewrite El. now left.
    - rewrite Hq in Hi. destruct Hi. }
  split.
  - intros i f Hf. assert (Hne : futs c <> []) by (intros Hn; rewrite Hn in Hf; destruct i; discriminate).
    pose proof (i_owned _ _ HI i) as Ho. pose proof (i_runs _ _ HI i) as Hru. unfold stat in *. rewrite Hf in *. cbn [option_map] in *.
    assert (S1 : sumf (q1 i) (queue c) = 0).
    { destruct (sumf (q1 i) (queue c)) eqn:Es; [reflexivity|]. destruct (sumf_pos (q1 i) (queue c)) as (n' & q & Hq & Hp); [lia|].
      destruct q as [j|]; cbn in Hp; [|lia]. elim (Hno Hne j). eapply nth_error_In; eauto. }
    assert (S2 : sumf (have1 i) (wks c) = 0).
    { destruct (sumf (have1 i) (wks c)) eqn:Es; [reflexivity|]. destruct (sumf_pos (have1 i) (wks c)) as (n' & q & Hq & Hp); [lia|].
      destruct (Hw _ _ Hq) as [->|[-> _]]; cbn in Hp; lia. }
    assert (S3 : sumf (run1 i) (wks c) = 0).
    { destruct (sumf (run1 i) (wks c)) eqn:Es; [reflexivity|]. destruct (sumf_pos (run1 i) (wks c)) as (n' & q & Hq & Hp); [lia|].
      destruct (Hw _ _ Hq) as [->|[-> _]]; cbn in Hp; lia. }
    destruct (st f); cbn in *; try lia; reflexivity.
  - intros w Hin. apply In_nth_error in Hin. destruct Hin as [n Hn]. destruct (Hw _ _ Hn) as [->|[-> _]]; auto.
Qed.

(** once the executor is closed and the pool has nothing left to do, every
    thread has returned *)
Lemma closed_all_exited c (o : outcome V E) : reachable c -> 0 < max_workers -> (forall n, cb_fatal n = false) ->
  (forall a, worker_act a = true -> step c a = None) ->
  In None (queue c) \/ In WExited (wks c) -> forall w, In w (wks c) -> w = WExited.
Proof.
  intros Hr Hm Hcb Hstuck Hx w Hin. destruct (not_stuck c o Hr Hm Hcb Hstuck) as [_ Hw].
  destruct (Hw w Hin) as [->|]; [|assumption]. exfalso.
  apply In_nth_error in Hin. destruct Hin as [n Hn].
  assert (Hq : queue c = []).
  { specialize (Hstuck (Get n) eq_refl). cbn in Hstuck. unfold do_get in Hstuck. rewrite Hn in Hstuck. now destruct (queue c). }
  pose proof (InvQ_reachable c Hr) as HQ. destruct Hx as [Hx|Hx].
  - rewrite Hq in Hx. destruct Hx.
  - destruct (q_token _ HQ Hx) as [Hi|Hi]; [rewrite Hq in Hi; destruct Hi|]. destruct (Hw _ Hi); discriminate.
Qed.
End P.
