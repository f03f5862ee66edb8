(** Invariants of the futures model: ownership of work items, runs, results. *)
From Verif Require Export FutModel.
From Coq Require Import ZifyBool ZifyNat.

(** ** lists *)
Lemma upd_length {A} (l : list A) n x : length (upd l n x) = length l.
Proof. revert n. induction l as [|a l IH]; intros [|n]; cbn; auto. Qed.
Lemma nth_upd {A} (l : list A) n x m :
  nth_error (upd l n x) m = if Nat.eqb m n then (if Nat.ltb n (length l) then Some x else None) else nth_error l m.
Proof.
  revert n m. induction l as [|a l IH]; intros [|n] [|m]; cbn; auto.
  - now destruct (Nat.eqb m n).
  - rewrite IH. reflexivity.
Qed.
Lemma nth_upd_same {A} (l : list A) n x a : nth_error l n = Some a -> nth_error (upd l n x) n = Some x.
Proof.
  intros H. rewrite nth_upd, Nat.eqb_refl. assert (n < length l) by (apply nth_error_Some; congruence).
  apply Nat.ltb_lt in H0. now rewrite H0.
Qed.
Lemma nth_upd_other {A} (l : list A) n x m : m <> n -> nth_error (upd l n x) m = nth_error l m.
Proof. intros H. rewrite nth_upd. apply Nat.eqb_neq in H. now rewrite H. Qed.
Lemma nth_snoc {A} (l : list A) x m :
  nth_error (l ++ [x]) m = if Nat.eqb m (length l) then Some x else nth_error l m.
Proof.
  destruct (Nat.eqb m (length l)) eqn:E.
  - apply Nat.eqb_eq in E. subst. rewrite nth_error_app2, Nat.sub_diag by lia. reflexivity.
  - apply Nat.eqb_neq in E. destruct (Nat.lt_ge_cases m (length l)).
    + now apply nth_error_app1.
    + rewrite nth_error_app2 by lia. destruct (m - length l) as [|d] eqn:Ed; [lia|].
      rewrite (proj2 (nth_error_None l m)) by lia. now destruct d.
Qed.

Definition b2n (b : bool) : nat := if b then 1 else 0.

Fixpoint sumf {A} (f : A -> nat) (l : list A) : nat :=
  match l with [] => 0 | a :: l' => f a + sumf f l' end.
Lemma sumf_app {A} (f : A -> nat) l l' : sumf f (l ++ l') = sumf f l + sumf f l'.
Proof. induction l; cbn; lia. Qed.
Lemma sumf_upd {A} (f : A -> nat) l n a x : nth_error l n = Some a -> sumf f (upd l n x) + f a = sumf f l + f x.
Proof.
  revert n. induction l as [|b l IH]; intros [|n]; cbn; try discriminate.
  - intros [= ->]. lia.
  - intros H. specialize (IH n H). lia.
Qed.
Lemma sumf_ge {A} (f : A -> nat) l n a : nth_error l n = Some a -> f a <= sumf f l.
Proof.
  revert n. induction l as [|b l IH]; intros [|n]; cbn; try discriminate.
  - intros [= ->]. lia.
  - intros H. specialize (IH n H). lia.
Qed.
Lemma sumf_pos {A} (f : A -> nat) l : 0 < sumf f l -> exists n a, nth_error l n = Some a /\ 0 < f a.
Proof.
  induction l as [|b l IH]; cbn; [lia|]. intros H. destruct (f b) eqn:E.
  - destruct (IH ltac:(lia)) as (n & a & H1 & H2). exists (S n), a. auto.
  - exists 0, b. split; [reflexivity|lia].
Qed.
Lemma sumf_repeat0 {A} (f : A -> nat) a n : f a = 0 -> sumf f (repeat a n) = 0.
Proof. intros H. induction n; cbn; lia. Qed.

Section Lists.
Context {V E : Type}.
Lemma install_stat k fs : forall (l : list (future V E)) j,
  option_map (@st V E) (nth_error (install l fs k) j) = option_map (@st V E) (nth_error l j).
Proof.
  unfold install. induction fs as [|i fs IH]; intros l j; cbn [fold_left]; [reflexivity|].
  rewrite IH. destruct (nth_error l i) as [f|] eqn:Ef; [|reflexivity].
  rewrite nth_upd. destruct (Nat.eqb j i) eqn:Ej; [|reflexivity]. apply Nat.eqb_eq in Ej. subst.
  assert (i < length l) by (apply nth_error_Some; congruence). apply Nat.ltb_lt in H. rewrite H, Ef. reflexivity.
Qed.
(** installing a waiter changes nothing but the waiter lists *)
Lemma install_nth k fs : forall (l : list (future V E)) j f', nth_error (install l fs k) j = Some f' ->
  exists f, nth_error l j = Some f /\ st f' = st f /\ fres f' = fres f /\ cbs f' = cbs f /\
            (forall k', k' <> k -> count_occ Nat.eq_dec (waiters f') k' = count_occ Nat.eq_dec (waiters f) k').
Proof.
  unfold install. induction fs as [|i fs IH]; intros l j f'; cbn [fold_left].
  - intros H. exists f'. auto.
  - intros H. apply IH in H. destruct H as (f1 & H & E1 & E2 & E3 & E4).
    destruct (nth_error l i) as [f|] eqn:Ef; [|exists f1; auto].
    rewrite nth_upd in H. destruct (Nat.eqb j i) eqn:Ej; [|exists f1; auto].
    destruct (Nat.ltb i (length l)); [|discriminate]. injection H as <-. apply Nat.eqb_eq in Ej. subst.
    exists f. unfold with_waiters in *. cbn in *. repeat split; auto. intros k' Hk'. rewrite E4 by exact Hk'.
    rewrite count_occ_app. cbn. destruct (Nat.eq_dec k k'); [congruence|lia].
Qed.
Lemma install_length k fs : forall (l : list (future V E)), length (install l fs k) = length l.
Proof.
  unfold install. induction fs as [|i fs IH]; intros l; cbn [fold_left]; [reflexivity|].
  rewrite IH. destruct (nth_error l i); [apply upd_length|reflexivity].
Qed.

Lemma In_upd {A} (l : list A) n x y : In y (upd l n x) -> y = x \/ In y l.
Proof.
  revert n. induction l as [|a l IH]; intros [|n]; cbn; auto.
  - intros [->|H]; auto.
  - intros [->|H]; auto. apply IH in H. tauto.
Qed.

End Lists.

Section P.
Context {V E : Type} (cb_fatal : nat -> bool) (max_workers : nat).
Notation cfg := (cfg V E).
Notation act := (act V E).
Notation step := (@step V E cb_fatal max_workers).
Notation reachable := (@reachable V E cb_fatal max_workers).
Implicit Types (c : cfg).

(** ** splitting a step into its cases *)
Ltac dm H :=
  match type of H with
  | context [match ?x with _ => _ end] =>
      match x with
      | context [match _ with _ => _ end] => fail 1
      | _ => destruct x eqn:?; try discriminate H
      end
  end.

(** ** who owns what *)
Definition q1 (i : nat) (q : option nat) : nat := match q with Some j => b2n (Nat.eqb j i) | None => 0 end.
Definition have1 (i : nat) (w : wstate V E) : nat := match w with WHave j => b2n (Nat.eqb j i) | _ => 0 end.
Definition run1 (i : nat) (w : wstate V E) : nat :=
  match w with WRun j => b2n (Nat.eqb j i) | WDone j _ => b2n (Nat.eqb j i) | _ => 0 end.
Definition done1 (i : nat) (w : wstate V E) : nat := match w with WDone j _ => b2n (Nat.eqb j i) | _ => 0 end.
Definition stat c (i : nat) : option fstate := option_map (@st V E) (nth_error (futs c) i).

Definition owned (s : option fstate) : nat := match s with Some PENDING | Some CANCELLED => 1 | _ => 0 end.
Definition runs (s : option fstate) : nat := match s with Some RUNNING => 1 | _ => 0 end.
Definition ran (s : option fstate) : nat := match s with Some RUNNING | Some FINISHED => 1 | _ => 0 end.
Definition fini (s : option fstate) : nat := match s with Some FINISHED => 1 | _ => 0 end.

Record Inv1 c : Prop := {
  i_owned : forall i, sumf (q1 i) (queue c) + sumf (have1 i) (wks c) = owned (stat c i);
  i_runs : forall i, sumf (run1 i) (wks c) = runs (stat c i);
  i_started : forall i, sumf (fun j => b2n (Nat.eqb j i)) (started c) = ran (stat c i);
  i_ended : forall i, sumf (fun e => b2n (Nat.eqb (fst e) i)) (ended c) = fini (stat c i) + sumf (done1 i) (wks c);
  i_wdone : forall i o, In (WDone i o) (wks c) -> In (i, o) (ended c);
  i_res : forall i f, nth_error (futs c) i = Some f ->
            match st f with FINISHED => exists o, fres f = Some o /\ In (i, o) (ended c) | _ => fres f = None end;
  i_dead : (forall n, cb_fatal n = false) -> ~ In WDead (wks c)
}.

Lemma stat_upd c i f f' j : nth_error (futs c) i = Some f ->
  option_map (@st V E) (nth_error (upd (futs c) i f') j) = if Nat.eqb j i then Some (st f') else stat c j.
Proof.
  intros H. unfold stat. destruct (Nat.eqb j i) eqn:Ej.
  - apply Nat.eqb_eq in Ej. subst. erewrite nth_upd_same by eauto. reflexivity.
  - apply Nat.eqb_neq in Ej. now rewrite nth_upd_other.
Qed.

Lemma stat_same c f f' i j : nth_error (futs c) i = Some f -> st f' = st f ->
  option_map (@st V E) (nth_error (upd (futs c) i f') j) = stat c j.
Proof.
  intros H Hs. rewrite (stat_upd c i f) by exact H. destruct (Nat.eqb j i) eqn:Ej; [|reflexivity].
  apply Nat.eqb_eq in Ej. subst. unfold stat. now rewrite H, Hs.
Qed.

(** the visible parts of a step that only touches waiters, callbacks or jobs *)
Lemma Inv1_same c c' :
  queue c' = queue c -> wks c' = wks c -> started c' = started c -> ended c' = ended c ->
  (forall j, match nth_error (futs c') j with
             | Some f' => exists f, nth_error (futs c) j = Some f /\ st f' = st f /\ fres f' = fres f
             | None => nth_error (futs c) j = None
             end) ->
  Inv1 c -> Inv1 c'.
Proof.
  intros Eq Ew Es Ee Hf [H1 H2 H3 H4 H5 H6 H7].
  assert (Hst : forall i, stat c' i = stat c i).
  { intros i. unfold stat. specialize (Hf i). destruct (nth_error (futs c') i) as [f'|].
    - destruct Hf as (f & -> & Hs & _). cbn. now rewrite Hs.
    - now rewrite Hf. }
  split; intros; rewrite ?Eq, ?Ew, ?Es, ?Ee, ?Hst; auto.
  - rewrite Ew in H. auto.
  - specialize (Hf i). rewrite H in Hf. destruct Hf as (f0 & Hf0 & -> & ->). now apply H6.
Qed.

Lemma upd_keeps (l : list (future V E)) i f f' : nth_error l i = Some f -> st f' = st f -> fres f' = fres f ->
  forall j, match nth_error (upd l i f') j with
             | Some g' => exists g, nth_error l j = Some g /\ st g' = st g /\ fres g' = fres g
             | None => nth_error l j = None
             end.
Proof.
  intros H Hs Hr j. rewrite nth_upd. destruct (Nat.eqb j i) eqn:Ej.
  - apply Nat.eqb_eq in Ej. subst. assert (i < length l) by (apply nth_error_Some; congruence).
    apply Nat.ltb_lt in H0. rewrite H0. eauto.
  - destruct (nth_error l j); eauto.
Qed.
Lemma keeps_refl (l : list (future V E)) :
  forall j, match nth_error l j with
             | Some g' => exists g, nth_error l j = Some g /\ st g' = st g /\ fres g' = fres g
             | None => nth_error l j = None
             end.
Proof. intros j. destruct (nth_error l j) eqn:En; eauto. Qed.

Lemma sumf_ended_mono {A} (f : A -> nat) l x : sumf f (l ++ [x]) = sumf f l + f x.
Proof. rewrite sumf_app. cbn. lia. Qed.

Lemma Inv1_init : Inv1 init.
Proof.
  assert (Hn : forall i, stat init i = None) by (intros [|i]; reflexivity).
  split; intros; rewrite ?Hn; auto.
  destruct i; discriminate.
Qed.

Lemma owned_lt c i : owned (stat c i) = 0 \/ i < length (futs c).
Proof.
  unfold stat. destruct (nth_error (futs c) i) eqn:Hn; cbn; [|now left]. right. apply nth_error_Some. congruence.
Qed.

Ltac upds := repeat match goal with
  | Hn : nth_error ?l ?n = Some ?a |- context [sumf ?f (upd ?l ?n ?x)] =>
      let Hs := fresh in pose proof (sumf_upd f l n a x Hn) as Hs; revert Hs; generalize (sumf f (upd l n x)); intros
  end.

Lemma Inv1_step c a c' r : Inv1 c -> step c a = Some (c', r) -> Inv1 c'.
Proof.
  intros HI H. destruct a as [|i|i| | |k fs|j|k t|k|k|w|w|w o|w|w|w]; cbn [FutModel.step] in H.
  - (* Submit *)
    unfold do_submit in H. destruct (closed c); injection H as <- _; [exact HI|].
    destruct HI as [H1 H2 H3 H4 H5 H6 H7].
    set (ws := if Nat.ltb (length (wks c)) max_workers then wks c ++ [WIdle] else wks c).
    assert (Hws : forall f : wstate V E -> nat, f WIdle = 0 -> sumf f ws = sumf f (wks c)).
    { intros f Hf. unfold ws. destruct (Nat.ltb _ _); [|reflexivity]. rewrite sumf_app. cbn. lia. }
    assert (Hst : forall i, stat (Cfg (futs c ++ [Future PENDING None [] []]) (queue c ++ [Some (length (futs c))]) ws false
                                 (wts c) (jobs c) (regs c) (started c) (ended c) (called c)) i
                            = if Nat.eqb i (length (futs c)) then Some PENDING else stat c i).
    { intros i. unfold stat. cbn [futs]. rewrite nth_snoc. now destruct (Nat.eqb i (length (futs c))). }
    assert (Hnew : stat c (length (futs c)) = None).
    { unfold stat. rewrite (proj2 (nth_error_None _ _)); [reflexivity|lia]. }
    split; cbn [queue wks started ended futs]; intros.
    + rewrite Hst, sumf_app, Hws by reflexivity. cbn [sumf q1]. specialize (H1 i). destruct (Nat.eqb i (length (futs c))) eqn:Ei.
      * apply Nat.eqb_eq in Ei. subst. rewrite Hnew in H1. cbn in H1. rewrite Nat.eqb_refl. cbn. lia.
      * rewrite Nat.eqb_sym, Ei. cbn. lia.
    + rewrite Hst, Hws by reflexivity. rewrite H2. destruct (Nat.eqb i (length (futs c))) eqn:Ei; [|reflexivity].
      apply Nat.eqb_eq in Ei. subst. now rewrite Hnew.
    + rewrite Hst. rewrite H3. destruct (Nat.eqb i (length (futs c))) eqn:Ei; [|reflexivity].
      apply Nat.eqb_eq in Ei. subst. now rewrite Hnew.
    + rewrite Hst, Hws by reflexivity. rewrite H4. destruct (Nat.eqb i (length (futs c))) eqn:Ei; [|reflexivity].
      apply Nat.eqb_eq in Ei. subst. now rewrite Hnew.
    + apply H5. unfold ws in H. destruct (Nat.ltb _ _); [|exact H]. apply in_app_iff in H. destruct H as [H|[H|[]]]; [exact H|discriminate].
    + rewrite nth_snoc in H. destruct (Nat.eqb i (length (futs c))); [injection H as <-; reflexivity|now apply H6].
    + intros Hd. apply (H7 H). unfold ws in Hd. destruct (Nat.ltb _ _); [|exact Hd].
      apply in_app_iff in Hd. destruct Hd as [Hd|[Hd|[]]]; [exact Hd|discriminate].
  - (* Cancel *)
    unfold do_cancel in H. destruct (nth_error (futs c) i) as [f|] eqn:Ef; [|discriminate].
    destruct (st f) eqn:Es; injection H as <- _; try exact HI.
    destruct HI as [H1 H2 H3 H4 H5 H6 H7].
    split; unfold set_jobs, set_futs, stat; cbn [queue wks started ended futs]; intros.
    + rewrite (stat_upd c i f) by exact Ef. rewrite H1. destruct (Nat.eqb i0 i) eqn:Ei; [|reflexivity].
      apply Nat.eqb_eq in Ei. subst. unfold stat. now rewrite Ef, <- Es || (rewrite Ef; cbn; rewrite Es).
    + rewrite (stat_upd c i f) by exact Ef. rewrite H2. destruct (Nat.eqb i0 i) eqn:Ei; [|reflexivity].
      apply Nat.eqb_eq in Ei. subst. unfold stat. rewrite Ef; cbn; now rewrite Es.
    + rewrite (stat_upd c i f) by exact Ef. rewrite H3. destruct (Nat.eqb i0 i) eqn:Ei; [|reflexivity].
      apply Nat.eqb_eq in Ei. subst. unfold stat. rewrite Ef; cbn; now rewrite Es.
    + rewrite (stat_upd c i f) by exact Ef. rewrite H4. destruct (Nat.eqb i0 i) eqn:Ei; [|reflexivity].
      apply Nat.eqb_eq in Ei. subst. unfold stat. rewrite Ef; cbn; now rewrite Es.
    + auto.
    + rewrite nth_upd in H. destruct (Nat.eqb i0 i) eqn:Ei; [|now apply H6].
      destruct (Nat.ltb i (length (futs c))); [|discriminate]. injection H as <-. cbn.
      specialize (H6 i f Ef). now rewrite Es in H6.
    + auto.
  - (* AddCallback *)
    unfold do_add_callback in H. destruct (nth_error (futs c) i) as [f|] eqn:Ef; [|discriminate].
    destruct (is_done (st f)); injection H as <- _.
    + apply (Inv1_same c); auto. apply keeps_refl.
    + apply (Inv1_same c); auto. now apply (upd_keeps _ _ f).
  - (* Shutdown *)
    injection H as <- _. destruct HI as [H1 H2 H3 H4 H5 H6 H7].
    split; cbn [do_close queue wks started ended futs]; intros.
    + rewrite sumf_app. cbn. rewrite Nat.add_0_r. apply H1.
    + apply H2.
    + apply H3.
    + apply H4.
    + now apply H5.
    + now apply H6.
    + now apply H7.
  - (* Collect *)
    injection H as <- _. destruct HI as [H1 H2 H3 H4 H5 H6 H7].
    split; cbn [do_close queue wks started ended futs]; intros.
    + rewrite sumf_app, sumf_repeat0 by reflexivity. rewrite Nat.add_0_r. apply H1.
    + apply H2.
    + apply H3.
    + apply H4.
    + now apply H5.
    + now apply H6.
    + now apply H7.
  - (* Wait *)
    unfold do_wait in H. destruct (forallb _ fs); [|discriminate]. cbv zeta in H.
    match type of H with (if ?b then _ else _) = _ => destruct b end; injection H as <- _.
    + apply (Inv1_same c); auto. apply keeps_refl.
    + apply (Inv1_same c); auto. cbn [futs set_futs set_wts]. intros j.
      match goal with |- context [install ?l ?x ?y] => destruct (nth_error (install l x y) j) as [f'|] eqn:Ef end.
      * apply install_nth in Ef. destruct Ef as (f & Ef & E1 & E2 & _). eauto.
      * apply nth_error_None in Ef. rewrite install_length in Ef. now apply nth_error_None.
  - (* ClientCallback *)
    unfold do_client_callback in H. destruct (nth_error (jobs c) j) as [[i [|n rest]]|]; try discriminate.
    injection H as <- _. apply (Inv1_same c); auto. apply keeps_refl.
  - (* Wake *)
    unfold do_wake in H. destruct (nth_error (wts c) k) as [w|]; [|discriminate].
    destruct (ph w); try discriminate. destruct (_ || _); [|discriminate].
    injection H as <- _. apply (Inv1_same c); auto. apply keeps_refl.
  - (* Remove *)
    unfold do_remove in H. destruct (nth_error (wts c) k) as [w|]; [|discriminate].
    destruct (ph w) as [|[|i rest]| |]; try discriminate.
    + injection H as <- _. apply (Inv1_same c); auto. apply keeps_refl.
    + destruct (nth_error (futs c) i) as [f|] eqn:Ef; [|discriminate].
      injection H as <- _. apply (Inv1_same c); auto. now apply (upd_keeps _ _ f).
  - (* Yield *)
    unfold do_yield in H. destruct (nth_error (wts c) k) as [w|]; [|discriminate].
    destruct (ph w) as [| |[|i rest]|]; try discriminate;
      injection H as <- _; apply (Inv1_same c); auto; apply keeps_refl.
  - (* Get *)
    unfold do_get in H. destruct (nth_error (wks c) w) as [[]|] eqn:Ew; try discriminate.
    destruct (queue c) as [|q rest] eqn:Eq; [discriminate|]. injection H as <- _.
    destruct HI as [H1 H2 H3 H4 H5 H6 H7]. set (x := match q with Some i => WHave i | None => WNone end).
    split; unfold set_wks, set_queue, stat; cbn [queue wks started ended futs]; intros.
    + specialize (H1 i). rewrite Eq in H1. cbn [sumf] in H1. pose proof (sumf_upd (have1 i) _ _ _ x Ew) as HS. cbn [have1] in HS.
      unfold stat in H1. assert (q1 i q = have1 i x) by (unfold x; now destruct q). lia.
    + pose proof (sumf_upd (run1 i) _ _ _ x Ew) as HS. cbn [run1] in HS. specialize (H2 i). unfold stat in H2.
      assert (run1 i x = 0) by (unfold x; now destruct q). lia.
    + apply H3.
    + pose proof (sumf_upd (done1 i) _ _ _ x Ew) as HS. cbn [done1] in HS. specialize (H4 i). unfold stat in H4.
      assert (done1 i x = 0) by (unfold x; now destruct q). lia.
    + apply In_upd in H. destruct H as [H|H]; [|auto]. unfold x in H. destruct q; discriminate.
    + apply (H6 i f H).
    + intros Hd. apply In_upd in Hd. destruct Hd as [Hd|Hd]; [|now apply H7]. unfold x in Hd. destruct q; discriminate.
  - (* Start *)
    unfold do_start in H. destruct (nth_error (wks c) w) as [[|i| | | | | |]|] eqn:Ew; try discriminate.
    destruct (nth_error (futs c) i) as [f|] eqn:Ef; [|discriminate].
    destruct HI as [H1 H2 H3 H4 H5 H6 H7].
    assert (Hown : owned (stat c i) >= 1).
    { specialize (H1 i). pose proof (sumf_ge (have1 i) _ _ _ Ew) as G. cbn [have1] in G. rewrite Nat.eqb_refl in G. cbn in G. lia. }
    unfold stat in Hown. rewrite Ef in Hown. cbn [option_map] in Hown.
    destruct (st f) eqn:Es; try (cbn in Hown; lia); injection H as <- _.
    + (* PENDING *)
      split; unfold stat; cbn [queue wks started ended futs]; intros.
      * rewrite (stat_upd c i f) by exact Ef. specialize (H1 i0). pose proof (sumf_upd (have1 i0) _ _ _ (WRun i) Ew) as HS.
        cbn [have1] in HS. rewrite (Nat.eqb_sym i0 i). destruct (Nat.eqb i i0) eqn:Ei; cbn in HS.
        -- apply Nat.eqb_eq in Ei. subst. unfold stat in H1. rewrite Ef in H1. cbn in H1. rewrite Es in H1. cbn in *. lia.
        -- lia.
      * rewrite (stat_upd c i f) by exact Ef. specialize (H2 i0). pose proof (sumf_upd (run1 i0) _ _ _ (WRun i) Ew) as HS.
        cbn [run1] in HS. rewrite (Nat.eqb_sym i0 i). destruct (Nat.eqb i i0) eqn:Ei; cbn in HS.
        -- apply Nat.eqb_eq in Ei. subst. unfold stat in H2. rewrite Ef in H2. cbn in H2. rewrite Es in H2. cbn in *. lia.
        -- lia.
      * rewrite (stat_upd c i f) by exact Ef. rewrite sumf_app. specialize (H3 i0). cbn [sumf].
        rewrite (Nat.eqb_sym i0 i). destruct (Nat.eqb i i0) eqn:Ei; cbn.
        -- apply Nat.eqb_eq in Ei. subst. unfold stat in H3. rewrite Ef in H3. cbn in H3. rewrite Es in H3. cbn in *. lia.
        -- lia.
      * rewrite (stat_upd c i f) by exact Ef. specialize (H4 i0). pose proof (sumf_upd (done1 i0) _ _ _ (WRun i) Ew) as HS.
        cbn [done1] in HS. rewrite (Nat.eqb_sym i0 i). destruct (Nat.eqb i i0) eqn:Ei; cbn in HS.
        -- apply Nat.eqb_eq in Ei. subst. unfold stat in H4. rewrite Ef in H4. cbn in H4. rewrite Es in H4. cbn in *. lia.
        -- lia.
      * apply In_upd in H. destruct H as [H|H]; [discriminate|auto].
      * rewrite nth_upd in H. destruct (Nat.eqb i0 i) eqn:Ei; [|now apply H6].
        destruct (Nat.ltb i (length (futs c))); [|discriminate]. injection H as <-. cbn.
        specialize (H6 i f Ef). now rewrite Es in H6.
      * intros Hd. apply In_upd in Hd. destruct Hd as [Hd|Hd]; [discriminate|now apply H7].
    + (* CANCELLED *)
      split; unfold set_wks, set_wts, set_futs, stat; cbn [queue wks started ended futs]; intros.
      * rewrite (stat_upd c i f) by exact Ef. specialize (H1 i0). pose proof (sumf_upd (have1 i0) _ _ _ WIdle Ew) as HS.
        cbn [have1] in HS. rewrite (Nat.eqb_sym i0 i). destruct (Nat.eqb i i0) eqn:Ei; cbn in HS.
        -- apply Nat.eqb_eq in Ei. subst. unfold stat in H1. rewrite Ef in H1. cbn in H1. rewrite Es in H1. cbn in *. lia.
        -- lia.
      * rewrite (stat_upd c i f) by exact Ef. specialize (H2 i0). pose proof (sumf_upd (run1 i0) _ _ _ WIdle Ew) as HS.
        cbn [run1] in HS. rewrite (Nat.eqb_sym i0 i). destruct (Nat.eqb i i0) eqn:Ei; cbn in HS.
        -- apply Nat.eqb_eq in Ei. subst. unfold stat in H2. rewrite Ef in H2. cbn in H2. rewrite Es in H2. cbn in *. lia.
        -- lia.
      * rewrite (stat_upd c i f) by exact Ef. specialize (H3 i0).
        rewrite (Nat.eqb_sym i0 i). destruct (Nat.eqb i i0) eqn:Ei; cbn.
        -- apply Nat.eqb_eq in Ei. subst. unfold stat in H3. rewrite Ef in H3. cbn in H3. rewrite Es in H3. cbn in *. lia.
        -- lia.
      * rewrite (stat_upd c i f) by exact Ef. specialize (H4 i0). pose proof (sumf_upd (done1 i0) _ _ _ WIdle Ew) as HS.
        cbn [done1] in HS. rewrite (Nat.eqb_sym i0 i). destruct (Nat.eqb i i0) eqn:Ei; cbn in HS.
        -- apply Nat.eqb_eq in Ei. subst. unfold stat in H4. rewrite Ef in H4. cbn in H4. rewrite Es in H4. cbn in *. lia.
        -- lia.
      * apply In_upd in H. destruct H as [H|H]; [discriminate|auto].
      * rewrite nth_upd in H. destruct (Nat.eqb i0 i) eqn:Ei; [|now apply H6].
        destruct (Nat.ltb i (length (futs c))); [|discriminate]. injection H as <-. cbn.
        specialize (H6 i f Ef). now rewrite Es in H6.
      * intros Hd. apply In_upd in Hd. destruct Hd as [Hd|Hd]; [discriminate|now apply H7].
  - (* Finish *)
    unfold do_finish in H. destruct (nth_error (wks c) w) as [[| |i| | | | |]|] eqn:Ew; try discriminate. injection H as <- _.
    destruct HI as [H1 H2 H3 H4 H5 H6 H7].
    split; unfold stat; cbn [queue wks started ended futs]; intros.
    + pose proof (sumf_upd (have1 i0) _ _ _ (WDone i o) Ew) as HS. cbn [have1] in HS. specialize (H1 i0). unfold stat in H1. lia.
    + pose proof (sumf_upd (run1 i0) _ _ _ (WDone i o) Ew) as HS. cbn [run1] in HS. specialize (H2 i0). unfold stat in H2. lia.
    + apply H3.
    + pose proof (sumf_upd (done1 i0) _ _ _ (WDone i o) Ew) as HS. cbn [done1] in HS. specialize (H4 i0). unfold stat in H4.
      rewrite sumf_app. cbn [sumf fst]. lia.
    + apply in_app_iff. apply In_upd in H. destruct H as [H|H]; [injection H as <- <-; right; now left|left; auto].
    + specialize (H6 i0 f H). destruct (st f); auto. destruct H6 as (o' & Ho & Hi). exists o'. split; [exact Ho|]. apply in_app_iff. auto.
    + intros Hd. apply In_upd in Hd. destruct Hd as [Hd|Hd]; [discriminate|now apply H7].
  - (* Publish *)
    unfold do_publish in H. destruct (nth_error (wks c) w) as [[| | |i o| | | |]|] eqn:Ew; try discriminate.
    destruct (nth_error (futs c) i) as [f|] eqn:Ef; [|discriminate]. injection H as <- _.
    destruct HI as [H1 H2 H3 H4 H5 H6 H7].
    assert (Es : st f = RUNNING).
    { specialize (H2 i). pose proof (sumf_ge (run1 i) _ _ _ Ew) as G. cbn [run1] in G. rewrite Nat.eqb_refl in G. cbn in G.
      unfold stat in H2. rewrite Ef in H2. cbn in H2. destruct (st f); cbn in H2; try lia. reflexivity. }
    split; unfold set_wks, set_wts, set_futs, stat; cbn [queue wks started ended futs]; intros.
    + rewrite (stat_upd c i f) by exact Ef. specialize (H1 i0). pose proof (sumf_upd (have1 i0) _ _ _ (WCbs i (cbs f)) Ew) as HS.
      cbn [have1] in HS. rewrite (Nat.eqb_sym i0 i). destruct (Nat.eqb i i0) eqn:Ei.
      * apply Nat.eqb_eq in Ei. subst. unfold stat in H1. rewrite Ef in H1. cbn in H1. rewrite Es in H1. cbn in *. lia.
      * lia.
    + rewrite (stat_upd c i f) by exact Ef. specialize (H2 i0). pose proof (sumf_upd (run1 i0) _ _ _ (WCbs i (cbs f)) Ew) as HS.
      cbn [run1] in HS. rewrite (Nat.eqb_sym i0 i). destruct (Nat.eqb i i0) eqn:Ei; cbn in HS.
      * apply Nat.eqb_eq in Ei. subst. unfold stat in H2. rewrite Ef in H2. cbn in H2. rewrite Es in H2. cbn in *. lia.
      * lia.
    + rewrite (stat_upd c i f) by exact Ef. specialize (H3 i0).
      rewrite (Nat.eqb_sym i0 i). destruct (Nat.eqb i i0) eqn:Ei; cbn.
      * apply Nat.eqb_eq in Ei. subst. unfold stat in H3. rewrite Ef in H3. cbn in H3. rewrite Es in H3. cbn in *. lia.
      * lia.
    + rewrite (stat_upd c i f) by exact Ef. specialize (H4 i0). pose proof (sumf_upd (done1 i0) _ _ _ (WCbs i (cbs f)) Ew) as HS.
      cbn [done1] in HS. rewrite (Nat.eqb_sym i0 i). destruct (Nat.eqb i i0) eqn:Ei; cbn in HS.
      * apply Nat.eqb_eq in Ei. subst. unfold stat in H4. rewrite Ef in H4. cbn in H4. rewrite Es in H4. cbn in *. lia.
      * lia.
    + apply In_upd in H. destruct H as [H|H]; [discriminate|auto].
    + rewrite nth_upd in H. destruct (Nat.eqb i0 i) eqn:Ei; [|now apply H6].
      destruct (Nat.ltb i (length (futs c))); [|discriminate]. injection H as <-. cbn. apply Nat.eqb_eq in Ei. subst.
      exists o. split; [reflexivity|]. apply H5. eapply nth_error_In; eauto.
    + intros Hd. apply In_upd in Hd. destruct Hd as [Hd|Hd]; [discriminate|now apply H7].
  - (* WorkerCallback *)
    unfold do_worker_callback in H. destruct (nth_error (wks c) w) as [[| | | |i [|n rest]| | |]|] eqn:Ew; try discriminate; injection H as <- _.
    + destruct HI as [H1 H2 H3 H4 H5 H6 H7].
      split; unfold set_wks, stat; cbn [queue wks started ended futs]; intros.
      * pose proof (sumf_upd (have1 i0) _ _ _ WIdle Ew) as HS. cbn [have1] in HS. specialize (H1 i0). unfold stat in H1. lia.
      * pose proof (sumf_upd (run1 i0) _ _ _ WIdle Ew) as HS. cbn [run1] in HS. specialize (H2 i0). unfold stat in H2. lia.
      * apply H3.
      * pose proof (sumf_upd (done1 i0) _ _ _ WIdle Ew) as HS. cbn [done1] in HS. specialize (H4 i0). unfold stat in H4. lia.
      * apply In_upd in H. destruct H as [H|H]; [discriminate|auto].
      * apply (H6 i0 f H).
      * intros Hd. apply In_upd in Hd. destruct Hd as [Hd|Hd]; [discriminate|now apply H7].
    + destruct HI as [H1 H2 H3 H4 H5 H6 H7]. set (x := if cb_fatal n then WDead else WCbs i rest).
      split; unfold add_called, set_wks, stat; cbn [queue wks started ended futs]; intros.
      * pose proof (sumf_upd (have1 i0) _ _ _ x Ew) as HS. cbn [have1] in HS. specialize (H1 i0). unfold stat in H1.
        assert (have1 i0 x = 0) by (unfold x; now destruct (cb_fatal n)). lia.
      * pose proof (sumf_upd (run1 i0) _ _ _ x Ew) as HS. cbn [run1] in HS. specialize (H2 i0). unfold stat in H2.
        assert (run1 i0 x = 0) by (unfold x; now destruct (cb_fatal n)). lia.
      * apply H3.
      * pose proof (sumf_upd (done1 i0) _ _ _ x Ew) as HS. cbn [done1] in HS. specialize (H4 i0). unfold stat in H4.
        assert (done1 i0 x = 0) by (unfold x; now destruct (cb_fatal n)). lia.
      * apply In_upd in H. destruct H as [H|H]; [unfold x in H; destruct (cb_fatal n); discriminate|auto].
      * apply (H6 i0 f H).
      * intros Hd. apply In_upd in Hd. destruct Hd as [Hd|Hd]; [unfold x in Hd; rewrite H in Hd; discriminate|now apply H7].
  - (* Check *)
    unfold do_check in H. destruct (nth_error (wks c) w) as [[| | | | | | |]|] eqn:Ew; try discriminate.
    destruct HI as [H1 H2 H3 H4 H5 H6 H7].
    destruct (closed c); injection H as <- _;
    (split; unfold set_wks, set_queue, stat; cbn [queue wks started ended futs]; intros;
     [ match goal with |- context [upd _ _ ?x] => pose proof (sumf_upd (have1 i) _ _ _ x Ew) as HS end; cbn [have1] in HS;
       specialize (H1 i); unfold stat in H1; rewrite ?sumf_app; cbn [sumf q1]; lia
     | match goal with |- context [upd _ _ ?x] => pose proof (sumf_upd (run1 i) _ _ _ x Ew) as HS end; cbn [run1] in HS;
       specialize (H2 i); unfold stat in H2; lia
     | apply H3
     | match goal with |- context [upd _ _ ?x] => pose proof (sumf_upd (done1 i) _ _ _ x Ew) as HS end; cbn [done1] in HS;
       specialize (H4 i); unfold stat in H4; lia
     | apply In_upd in H; destruct H as [H|H]; [discriminate|auto]
     | apply (H6 i f H)
     | intros Hd; apply In_upd in Hd; destruct Hd as [Hd|Hd]; [discriminate|now apply H7] ]).
Qed.

Lemma Inv1_reachable c : reachable c -> Inv1 c.
Proof. induction 1; [apply Inv1_init|eapply Inv1_step; eauto]. Qed.
End P.
