(** Invariants of wait() and as_completed(): no wakeup is lost. *)
From Verif Require Export FutProofs.
From Coq Require Import ZifyBool ZifyNat.
Notation occ := (count_occ Nat.eq_dec).

Definition attached (w : waiter) : list nat :=
  match ph w with PWait | PYield _ => wfs w | PRemove r => r | PReturned => [] end.
Definition batch (w : waiter) : list nat := match ph w with PYield b => b | _ => [] end.
Definition reported (w : waiter) : list nat := done0 w ++ finished w.
(** number of entries of [l] that are not settled *)
Definition unsettled (S : nat -> bool) (l : list nat) : nat := length (filter (fun i => negb (S i)) l).

(** number of entries of [l] not in [r] *)
Definition missing (r l : list nat) : nat := length (filter (fun i => negb (memb i r)) l).

(** what the caller of wait asked for, in terms of settled and raised futures *)
Definition condition (S Rz : nat -> bool) (k : wkind) (fs : list nat) : Prop :=
  match k with
  | AllCompleted => forall i, In i fs -> S i = true
  | FirstCompleted => exists i, In i fs /\ S i = true
  | FirstException => (exists i, In i fs /\ Rz i = true) \/ (forall i, In i fs -> S i = true)
  | AsCompleted => True
  end.
(** the same, in terms of what the call knows and will report *)
Definition known (Rz : nat -> bool) (w : waiter) : Prop :=
  match kind w with
  | AllCompleted => incl (wfs w) (reported w)
  | FirstCompleted => exists i, In i (reported w)
  | FirstException => (exists i, In i (reported w) /\ Rz i = true) \/ incl (wfs w) (reported w)
  | AsCompleted => True
  end.

Record WI (S Rz : nat -> bool) (w : waiter) : Prop := {
  v_att : incl (attached w) (wfs w);
  v_sound : forall i, In i (reported w) -> In i (wfs w) /\ S i = true;
  v_wait : kind w <> AsCompleted -> forall b, ph w <> PYield b;
  v_seen : kind w <> AsCompleted -> ph w = PWait -> forall i, In i (wfs w) -> S i = true -> In i (reported w);
  v_pend : kind w = AllCompleted \/ kind w = FirstException -> ph w = PWait -> event w = false ->
           npend w = Z.of_nat (unsettled S (wfs w));
  v_missing : kind w = AllCompleted \/ kind w = FirstException -> ph w <> PReturned -> event w = false ->
           (Z.of_nat (missing (reported w) (wfs w)) <= npend w)%Z;
  v_event : kind w <> AsCompleted -> event w = true -> known Rz w;
  v_awake : kind w <> AsCompleted -> ph w = PWait -> event w = false ->
            (exists i, In i (wfs w) /\ ~ In i (done0 w)) -> ~ condition S Rz (kind w) (wfs w);
  v_ret : kind w <> AsCompleted -> ph w = PReturned -> forall i, In i (out w) <-> In i (reported w);
  (* as_completed *)
  a_nodup : kind w = AsCompleted -> NoDup (wfs w) /\ NoDup (attached w) /\ NoDup (out w ++ batch w ++ finished w);
  a_sound : kind w = AsCompleted -> forall i, In i (out w ++ batch w) -> In i (wfs w) /\ S i = true;
  a_seen : kind w = AsCompleted -> ph w = PWait \/ (exists b, ph w = PYield b) ->
           forall i, In i (wfs w) -> S i = true -> In i (out w ++ batch w ++ finished w);
  a_done0 : kind w = AsCompleted -> incl (done0 w) (out w ++ batch w);
  a_asked : kind w = AsCompleted -> NoDup (asked w) /\ forall i, In i (asked w) <-> In i (wfs w) /\ ~ In i (done0 w) /\ ~ In i (out w);
  a_event : kind w = AsCompleted -> (event w = true <-> finished w <> []);
  a_wait : kind w = AsCompleted -> ph w = PWait -> asked w <> []
}.

(** ** notifications *)
Definition notes (m : nat) (w : waiter) (i : nat) (n : note) : waiter := Nat.iter m (fun w => add_note w i n) w.

Lemma iter_comm {A} (f : A -> A) m x : Nat.iter m f (f x) = f (Nat.iter m f x).
Proof. induction m as [|m IH]; cbn [Nat.iter nat_rect]; [reflexivity|]. unfold Nat.iter in *. cbn. now rewrite IH. Qed.

Lemma notify_nth ids i n : forall ws k,
  nth_error (notify_all ws ids i n) k = option_map (fun w => notes (occ ids k) w i n) (nth_error ws k).
Proof.
  unfold notify_all. induction ids as [|a ids IH]; intros ws k; cbn [fold_left count_occ].
  - now destruct (nth_error ws k).
  - rewrite IH. destruct (nth_error ws a) as [w|] eqn:Ea.
    + rewrite nth_upd. assert (Hl : Nat.ltb a (length ws) = true) by (apply Nat.ltb_lt, nth_error_Some; congruence).
      rewrite Hl. destruct (Nat.eqb_spec k a), (Nat.eq_dec a k); try congruence.
      * subst. rewrite Ea. cbn. f_equal. unfold notes. rewrite (iter_comm (fun w => add_note w i n)). reflexivity.
    + destruct (Nat.eq_dec a k) as [->|]; [rewrite Ea|]; reflexivity.
Qed.
Lemma notify_length ids i n : forall ws, length (notify_all ws ids i n) = length ws.
Proof.
  unfold notify_all. induction ids as [|a ids IH]; intros ws; cbn [fold_left]; [reflexivity|].
  rewrite IH. destruct (nth_error ws a); [apply upd_length|reflexivity].
Qed.

Lemma add_note_fields w i n : kind (add_note w i n) = kind w /\ wfs (add_note w i n) = wfs w /\ done0 (add_note w i n) = done0 w /\
  ph (add_note w i n) = ph w /\ asked (add_note w i n) = asked w /\ out (add_note w i n) = out w /\
  finished (add_note w i n) = finished w ++ [i].
Proof. unfold add_note, set_event, decrement. destruct (kind w), n; cbn; auto 10. Qed.

Lemma notes_fields m w i n : kind (notes m w i n) = kind w /\ wfs (notes m w i n) = wfs w /\ done0 (notes m w i n) = done0 w /\
  ph (notes m w i n) = ph w /\ asked (notes m w i n) = asked w /\ out (notes m w i n) = out w /\
  finished (notes m w i n) = finished w ++ repeat i m.
Proof.
  induction m as [|m IH].
  - cbn. rewrite app_nil_r. auto 10.
  - destruct IH as (E1 & E2 & E3 & E4 & E5 & E6 & E7).
    change (notes (S m) w i n) with (add_note (notes m w i n) i n).
    destruct (add_note_fields (notes m w i n) i n) as (F1 & F2 & F3 & F4 & F5 & F6 & F7).
    rewrite F1, F2, F3, F4, F5, F6, F7. repeat split; try assumption. rewrite E7, <- app_assoc. f_equal.
    rewrite <- Nat.add_1_r, repeat_app. reflexivity.
Qed.

Lemma notes_dec m w i n : kind w = AllCompleted \/ (kind w = FirstException /\ n <> NException) ->
  npend (notes m w i n) = (npend w - Z.of_nat m)%Z /\
  (event w = true -> event (notes m w i n) = true) /\
  (event w = false -> (Z.of_nat m <= npend w)%Z -> event (notes m w i n) = Nat.ltb 0 m && (npend w - Z.of_nat m =? 0)%Z).
Proof.
  intros Hk. induction m as [|m IH].
  - cbn. rewrite Z.sub_0_r. auto.
  - destruct (notes_fields m w i n) as (Ek & _). destruct IH as (E1 & E2 & E3).
    change (notes (S m) w i n) with (add_note (notes m w i n) i n).
    set (w' := notes m w i n) in *. unfold add_note. rewrite Ek.
    assert (Hd : forall w1, npend (match kind w with
              | FirstCompleted | AsCompleted => set_event w1
              | FirstException => match n with NException => set_event w1 | _ => decrement w1 end
              | AllCompleted => decrement w1 end) = (npend w1 - 1)%Z /\
              event (match kind w with
              | FirstCompleted | AsCompleted => set_event w1
              | FirstException => match n with NException => set_event w1 | _ => decrement w1 end
              | AllCompleted => decrement w1 end) = event w1 || (npend w1 - 1 =? 0)%Z).
    { intros w1. destruct Hk as [->|[-> Hn]]; [now split|]. destruct n; try congruence; now split. }
    specialize (Hd (Waiter (kind w) (wfs w') (done0 w') (npend w') (finished w' ++ [i]) (event w') (ph w') (asked w') (out w'))).
    cbn [npend event] in Hd. destruct Hd as [-> ->]. rewrite E1. split; [lia|]. split.
    + intros H. rewrite E2 by exact H. reflexivity.
    + intros H Hle. rewrite E3 by (try exact H; lia). destruct m; cbn; lia.
Qed.
Lemma notes_set m w i n : kind w = FirstCompleted \/ kind w = AsCompleted \/ (kind w = FirstException /\ n = NException) ->
  event (notes m w i n) = event w || Nat.ltb 0 m.
Proof.
  intros Hk. induction m as [|m IH].
  - cbn. now rewrite orb_false_r.
  - destruct (notes_fields m w i n) as (Ek & _).
    change (notes (S m) w i n) with (add_note (notes m w i n) i n). set (w' := notes m w i n) in *.
    unfold add_note. rewrite Ek. destruct Hk as [->|[->|[-> ->]]]; cbn; now rewrite orb_true_r.
Qed.

(** ** settling a future *)
Section Settle.
Context (S Rz : nat -> bool) (i : nat) (n : note) (HSi : S i = false) (HRS : forall j, Rz j = true -> S j = true).
Let S' (j : nat) : bool := if Nat.eqb j i then true else S j.
Let Rz' (j : nat) : bool := if Nat.eqb j i then match n with NException => true | _ => false end else Rz j.

Lemma unsettled_occ l : unsettled S l = unsettled S' l + occ l i.
Proof.
  unfold unsettled. induction l as [|a l IH]; [reflexivity|]. cbn [filter count_occ]. unfold S' at 1.
  destruct (Nat.eq_dec a i) as [->|Hn].
  - rewrite HSi, Nat.eqb_refl. cbn. lia.
  - apply Nat.eqb_neq in Hn. rewrite Hn. destruct (S a); cbn; lia.
Qed.
Lemma unsettled0 S0 l : unsettled S0 l = 0 <-> forall j, In j l -> S0 j = true.
Proof.
  unfold unsettled. induction l as [|a l IH]; cbn; [tauto|]. destruct (S0 a) eqn:E; cbn.
  - rewrite IH. split; intros H; [intros j [<-|Hj]; auto|intros; auto].
  - split; [discriminate|]. intros H. rewrite H in E by auto. discriminate.
Qed.
Lemma S'_mono j : S j = true -> S' j = true.
Proof. unfold S'. now destruct (Nat.eqb j i). Qed.
Lemma Rz'_mono j : Rz j = true -> Rz' j = true.
Proof.
  intros H. unfold Rz'. destruct (Nat.eqb_spec j i); [|exact H]. subst. apply HRS in H. congruence.
Qed.

Lemma In_repeat_pos (x : nat) m : In x (repeat i m) <-> x = i /\ 0 < m.
Proof.
  split.
  - intros H. pose proof (repeat_spec _ _ _ H). destruct m; [destruct H|]. split; [auto|lia].
  - intros [-> H]. destruct m; [lia|]. now left.
Qed.

Lemma memb_In x l : memb x l = true <-> In x l.
Proof.
  unfold memb. rewrite existsb_exists. split.
  - intros (y & Hy & E). apply Nat.eqb_eq in E. now subst.
  - intros H. exists x. now rewrite Nat.eqb_refl.
Qed.
Lemma missing_new r r' l : ~ In i r -> (forall x, In x r' <-> In x r \/ x = i) -> missing r l = missing r' l + occ l i.
Proof.
  intros Hi Hr. unfold missing. induction l as [|a l IH]; [reflexivity|]. cbn [filter count_occ].
  destruct (Nat.eq_dec a i) as [->|Hn].
  - assert (E1 : memb i r = false) by (destruct (memb i r) eqn:E; [apply memb_In in E; contradiction|reflexivity]).
    assert (E2 : memb i r' = true) by (apply memb_In, Hr; auto). rewrite E1, E2. cbn. lia.
  - assert (E : memb a r = memb a r').
    { apply eq_iff_eq_true. rewrite !memb_In, Hr. split; [tauto|]. intros [?|?]; [assumption|contradiction]. }
    rewrite E. destruct (memb a r'); cbn; lia.
Qed.
Lemma missing_ext r r' l : (forall x, In x r' <-> In x r) -> missing r' l = missing r l.
Proof.
  intros Hr. unfold missing. induction l as [|a l IH]; [reflexivity|]. cbn [filter].
  assert (E : memb a r' = memb a r) by (apply eq_iff_eq_true; now rewrite !memb_In, Hr).
  rewrite E. destruct (memb a r); cbn; lia.
Qed.
Lemma missing0 r l : missing r l = 0 -> incl l r.
Proof.
  unfold missing. induction l as [|a l IH]; cbn; intros H x; [intros []|].
  destruct (memb a r) eqn:Ea; cbn in H; [|discriminate]. intros [<-|Hx]; [now apply memb_In|now apply IH].
Qed.
Lemma occ_le_incl l l' : (forall x, occ l x <= occ l' x) -> incl l l'.
Proof. intros H x Hx. apply (count_occ_In Nat.eq_dec). apply (count_occ_In Nat.eq_dec) in Hx. specialize (H x). lia. Qed.

Lemma WI_settle w : WI S Rz w -> (forall x, occ (attached w) x <= occ (wfs w) x) ->
  WI S' Rz' (notes (occ (attached w) i) w i n).
Proof.
  intros [A1 A2 A3 A4 A5 A5b A6 A7 A8 B1 B2 B3 B4 B5 B6 B7] Hocc.
  set (m := occ (attached w) i).
  destruct (notes_fields m w i n) as (E1 & E2 & E3 & E4 & E5 & E6 & E7). set (w' := notes m w i n) in *.
  assert (Ea : attached w' = attached w) by (unfold attached; now rewrite E4, E2).
  assert (Eb : batch w' = batch w) by (unfold batch; now rewrite E4).
  assert (Er : forall x, In x (reported w') <-> In x (reported w) \/ (x = i /\ 0 < m)).
  { intros x. unfold reported. rewrite E3, E7, !in_app_iff, In_repeat_pos. clear. tauto. }
  assert (Hm : 0 < m <-> In i (attached w)) by (unfold m; rewrite (count_occ_In Nat.eq_dec); lia).
  assert (Hir : ~ In i (reported w)) by (intros Hi; apply A2 in Hi; destruct Hi; congruence).
  assert (Hknown : known Rz w -> known Rz' w').
  { unfold known. rewrite E1, E2. destruct (kind w).
    - intros (x & Hx). exists x. apply Er. auto.
    - intros [(x & Hx & Hr)|Hi]; [left; exists x; split; [apply Er; auto|now apply Rz'_mono]|].
      right. intros x Hx. apply Er. left. now apply Hi.
    - intros Hi x Hx. apply Er. left. now apply Hi.
    - auto. }
  assert (Hseen : kind w <> AsCompleted -> ph w = PWait -> forall j, In j (wfs w) -> S' j = true -> In j (reported w')).
  { intros Hk Hp j Hj Hs. apply Er. unfold S' in Hs. destruct (Nat.eqb_spec j i); [|left; auto]. subst. right. split; [reflexivity|].
    apply Hm. unfold attached. now rewrite Hp. }
  assert (Hcount : ph w = PWait -> unsettled S (wfs w) = unsettled S' (wfs w) + m).
  { intros Hp. unfold m, attached. rewrite Hp. apply unsettled_occ. }
  assert (Hmiss : missing (reported w') (wfs w) + m <= missing (reported w) (wfs w)).
  { destruct (Nat.eq_dec m 0) as [Hz|Hz].
    - rewrite (missing_ext (reported w)); [lia|]. intros x. rewrite Er. split; [|auto]. intros [?|[_ ?]]; [assumption|lia].
    - rewrite (missing_new (reported w) (reported w') (wfs w) Hir).
      + specialize (Hocc i). fold m in Hocc. lia.
      + intros x. rewrite Er. split; [intros [?|[? _]]; auto|]. intros [?| ->]; [auto|]. right. split; [reflexivity|lia]. }
  assert (Hcase : (kind w = AllCompleted \/ (kind w = FirstException /\ n <> NException)) \/
                  (kind w = FirstCompleted \/ kind w = AsCompleted \/ (kind w = FirstException /\ n = NException))).
  { clear. destruct (kind w); [auto| |auto|auto]. destruct n; [left; right; split; congruence|auto 6|left; right; split; congruence]. }
  assert (Hmono : event w = true -> event w' = true).
  { intros He. unfold w'. destruct Hcase as [Hcase|Hcase].
    - destruct (notes_dec m w i n Hcase) as (_ & Hd & _). auto.
    - rewrite notes_set, He by exact Hcase. reflexivity. }
  assert (Hsame : m = 0 -> w' = w) by (unfold w'; intros ->; reflexivity).
  constructor; rewrite ?E1, ?E2, ?E3, ?E4, ?E5, ?E6, ?Ea, ?Eb; auto.
  - intros x Hx. apply Er in Hx. destruct Hx as [Hx|[-> Hx]].
    + destruct (A2 x Hx). split; [assumption|now apply S'_mono].
    + split; [apply A1, Hm, Hx|]. unfold S'. now rewrite Nat.eqb_refl.
  - (* v_pend *)
    intros Hk Hp He. destruct (event w) eqn:Ew; [rewrite Hmono in He; auto; discriminate|].
    specialize (A5 Hk Hp eq_refl). pose proof (Hcount Hp) as Hc. destruct Hcase as [Hcase|Hcase].
    + destruct (notes_dec m w i n Hcase) as (Hn & _). unfold w'. rewrite Hn, A5. lia.
    + unfold w' in He. rewrite notes_set, Ew in He by auto. cbn [orb] in He. apply Nat.ltb_ge in He.
      rewrite Hsame by lia. rewrite A5. lia.
  - (* v_missing *)
    intros Hk Hp He. destruct (event w) eqn:Ew; [rewrite Hmono in He; auto; discriminate|].
    specialize (A5b Hk Hp eq_refl). destruct Hcase as [Hcase|Hcase].
    + destruct (notes_dec m w i n Hcase) as (Hn & _). unfold w' at 2. rewrite Hn. lia.
    + unfold w' in He. rewrite notes_set, Ew in He by auto. cbn [orb] in He. apply Nat.ltb_ge in He.
      rewrite (Hsame ltac:(lia)). exact A5b.
  - (* v_event *)
    intros Hk He. destruct (event w) eqn:Ew; [apply Hknown, A6; auto|].
    destruct (Nat.eq_dec m 0) as [Hz|Hz]; [rewrite Hsame in He by exact Hz; congruence|].
    unfold w' in He. destruct Hcase as [Hcase|Hcase].
    + assert (Hk2 : kind w = AllCompleted \/ kind w = FirstException) by (clear -Hcase; tauto).
      assert (Hp : ph w <> PReturned).
      { intros Hp. unfold m, attached in Hz. rewrite Hp in Hz. cbn in Hz. lia. }
      specialize (A5b Hk2 Hp eq_refl).
      destruct (notes_dec m w i n Hcase) as (_ & _ & Hev). rewrite Hev in He by (try exact Ew; lia).
      apply andb_true_iff in He. destruct He as [_ He].
      assert (Hincl : incl (wfs w') (reported w')) by (rewrite E2; apply missing0; lia).
      unfold known. rewrite E1. destruct (kind w); auto; destruct Hk2; discriminate.
    + unfold known. rewrite E1.
      destruct Hcase as [Hcase|[Hcase|[Hcase Hn]]]; rewrite Hcase.
      * exists i. apply Er. right. split; [reflexivity|lia].
      * exact I.
      * left. exists i. split; [apply Er; right; split; [reflexivity|lia]|]. unfold Rz'. rewrite Nat.eqb_refl, Hn. reflexivity.
  - (* v_awake *)
    intros Hk Hp He Hex. destruct (event w) eqn:Ew; [rewrite Hmono in He; auto; discriminate|].
    specialize (A7 Hk Hp eq_refl Hex).
    destruct (Nat.eq_dec m 0) as [Hz|Hz].
    + assert (Hni : ~ In i (wfs w)).
      { intros Hi. assert (0 < m); [|lia]. apply Hm. unfold attached. now rewrite Hp. }
      assert (HS : forall x, In x (wfs w) -> S' x = S x /\ Rz' x = Rz x).
      { intros x Hx. unfold S', Rz'. destruct (Nat.eqb_spec x i); [subst; contradiction|auto]. }
      intros Hc. apply A7. unfold condition in *. destruct (kind w); auto.
      * destruct Hc as (x & Hx & Hs). exists x. rewrite (proj1 (HS x Hx)) in Hs. auto.
      * destruct Hc as [(x & Hx & Hs)|Hc]; [left; exists x; rewrite (proj2 (HS x Hx)) in Hs; auto|].
        right. intros x Hx. rewrite <- (proj1 (HS x Hx)). auto.
      * intros x Hx. rewrite <- (proj1 (HS x Hx)). auto.
    + destruct Hcase as [Hcase|Hcase].
      * assert (Hk2 : kind w = AllCompleted \/ kind w = FirstException) by (clear -Hcase; tauto).
        specialize (A5 Hk2 Hp eq_refl). pose proof (Hcount Hp) as Hc.
        destruct (notes_dec m w i n Hcase) as (_ & _ & Hev). unfold w' in He. rewrite Hev in He by (try exact Ew; lia).
        assert (Hu : unsettled S' (wfs w) <> 0).
        { intros Hu. apply andb_false_iff in He. destruct He; lia. }
        intros Hcond. apply Hu, unsettled0. unfold condition in *. destruct Hcase as [Hcase|[Hcase Hn]]; rewrite Hcase in *; [exact Hcond|].
        destruct Hcond as [(x & Hx & Hs)|Hcond]; [|exact Hcond]. elim A7. left. exists x. split; [exact Hx|].
        unfold Rz' in Hs. destruct (Nat.eqb x i); [destruct n; congruence|exact Hs].
      * unfold w' in He. rewrite notes_set, Ew in He by exact Hcase. cbn [orb] in He. apply Nat.ltb_ge in He. lia.
  - (* v_ret *)
    intros Hk Hp x. rewrite (A8 Hk Hp), Er. split; [auto|]. intros [?|[_ Hz]]; [auto|].
    apply Hm in Hz. unfold attached in Hz. rewrite Hp in Hz. destruct Hz.
  - (* a_nodup *)
    intros Hk. destruct (B1 Hk) as (N1 & N2 & N3). split; [exact N1|]. split; [exact N2|]. rewrite E7.
    assert (Hm1 : m = 0 \/ m = 1).
    { pose proof (proj1 (NoDup_count_occ Nat.eq_dec (attached w)) N2 i). unfold m. lia. }
    destruct Hm1 as [-> | ->]; [now rewrite app_nil_r|]. cbn [repeat].
    assert (Hni : ~ In i (out w ++ batch w ++ finished w)).
    { rewrite app_assoc, in_app_iff. intros [Hi|Hi].
      - apply (B2 Hk) in Hi. destruct Hi. congruence.
      - apply Hir. unfold reported. apply in_app_iff. auto. }
    rewrite !app_assoc in *. apply NoDup_rev in N3. rewrite <- (rev_involutive (_ ++ [i])). apply NoDup_rev.
    rewrite rev_app_distr. cbn [rev app]. constructor; [|exact N3]. intros Hi. apply Hni. now apply in_rev.
  - (* a_sound *)
    intros Hk x Hx. destruct (B2 Hk x Hx). split; [assumption|now apply S'_mono].
  - (* a_seen *)
    intros Hk Hp x Hx Hs. rewrite E7. unfold S' in Hs. destruct (Nat.eqb_spec x i).
    + subst. rewrite !in_app_iff. right. right. right. apply In_repeat_pos. split; [reflexivity|]. apply Hm.
      unfold attached. destruct Hp as [-> |[b ->]]; exact Hx.
    + specialize (B3 Hk Hp x Hx Hs). rewrite !in_app_iff in B3. rewrite !in_app_iff. clear -B3. tauto.
  - (* a_event *)
    intros Hk. unfold w' at 1. rewrite notes_set by auto. rewrite E7, orb_true_iff, (B6 Hk). split.
    + intros [Hf|Hz]; [destruct (finished w); [congruence|discriminate]|].
      apply Nat.ltb_lt in Hz. destruct m; [lia|]. destruct (finished w); discriminate.
    + destruct (finished w); [|left; discriminate]. intros Hz. right. destruct m; [now elim Hz|reflexivity].
Qed.
End Settle.

Lemma remove_first_In (x i : nat) l : NoDup l -> (In x (remove_first i l) <-> In x l /\ x <> i).
Proof.
  induction l as [|a l IH]; cbn; intros Hn; [tauto|]. inversion Hn; subst.
  destruct (Nat.eqb_spec a i).
  - subst. split; [intros Hx; split; [auto|congruence]|intros [[->|?] ?]; [congruence|auto]].
  - cbn. rewrite IH by assumption. split; [intros [->|[? ?]]; auto|intros [[->|?] ?]; auto].
Qed.
Lemma remove_first_incl (i : nat) l : incl (remove_first i l) l.
Proof.
  induction l as [|a l IH]; cbn; intros x Hx; [exact Hx|]. destruct (Nat.eqb a i); [now right|].
  destruct Hx as [->|Hx]; [now left|right; auto].
Qed.
Lemma remove_first_NoDup (i : nat) l : NoDup l -> NoDup (remove_first i l).
Proof.
  induction l as [|a l IH]; cbn; intros Hn; [exact Hn|]. inversion Hn; subst.
  destruct (Nat.eqb a i); [assumption|]. constructor; [|auto]. intros Hx. apply remove_first_incl in Hx. contradiction.
Qed.
Lemma remove_first_occ (i : nat) l x : occ (remove_first i l) x = occ l x - b2n (Nat.eqb x i).
Proof.
  induction l as [|a l IH]; cbn; [lia|]. destruct (Nat.eqb_spec a i).
  - subst. destruct (Nat.eq_dec i x); [subst; rewrite Nat.eqb_refl; cbn; lia|].
    assert (E : Nat.eqb x i = false) by (apply Nat.eqb_neq; congruence). rewrite E. cbn. lia.
  - cbn. destruct (Nat.eq_dec a x); rewrite IH; [|lia]. subst. assert (E : Nat.eqb x i = false) by (apply Nat.eqb_neq; congruence).
    rewrite E. cbn. lia.
Qed.

(** ** the calls' own steps *)
Section Own.
Context (S Rz : nat -> bool).

Lemma WI_ext S2 R2 w : (forall j, S j = S2 j) -> (forall j, Rz j = R2 j) -> WI S Rz w -> WI S2 R2 w.
Proof.
  intros HS HR [A1 A2 A3 A4 A5 A5b A6 A7 A8 B1 B2 B3 B4 B5 B6 B7].
  constructor; auto.
  - intros x Hx. rewrite <- HS. auto.
  - intros Hk Hp x Hx Hs. rewrite <- HS in Hs. eauto.
  - intros Hk Hp He. rewrite (A5 Hk Hp He). unfold unsettled. do 2 f_equal. apply filter_ext. intros x. now rewrite HS.
  - intros Hk He. specialize (A6 Hk He). unfold known in *. destruct (kind w); auto.
    destruct A6 as [(x & Hx & Hr)|?]; [left; exists x; rewrite <- HR; auto|auto].
  - intros Hk Hp He Hex Hc. apply (A7 Hk Hp He Hex). unfold condition in *. destruct (kind w); auto.
    + destruct Hc as (x & Hx & Hs). exists x. rewrite HS. auto.
    + destruct Hc as [(x & Hx & Hs)|Hc]; [left; exists x; rewrite HR; auto|right; intros x Hx; rewrite HS; auto].
    + intros x Hx. rewrite HS. auto.
  - intros Hk x Hx. rewrite <- HS. auto.
  - intros Hk Hp x Hx Hs. rewrite <- HS in Hs. eauto.
Qed.

Lemma as_set_In x l : In x (as_set l) <-> In x l.
Proof. apply nodup_In. Qed.

(** wait() and as_completed() return at once *)
Lemma WI_now k fs d : k <> AsCompleted -> (forall x, In x d -> In x fs /\ S x = true) ->
  WI S Rz (Waiter k fs d 0 [] false PReturned [] d).
Proof.
  intros Hk Hd.
  constructor; unfold attached, batch, reported; cbn [kind wfs done0 npend finished event ph asked out];
    try (intros; first [discriminate|contradiction]); auto.
  - intros x [].
  - rewrite app_nil_r. exact Hd.
  - intros _ _ x. rewrite app_nil_r. reflexivity.
Qed.

Lemma missing_set fs : missing (as_set (filter S fs) ++ []) fs = unsettled S fs.
Proof.
  unfold missing, unsettled. f_equal. apply filter_ext_in. intros x Hx. f_equal. apply eq_iff_eq_true.
  rewrite memb_In, app_nil_r, as_set_In, filter_In. tauto.
Qed.

(** ... or block *)
Lemma WI_block k fs : k <> AsCompleted ->
  (k = FirstCompleted -> as_set (filter S fs) = []) ->
  (k = FirstException -> existsb Rz (as_set (filter S fs)) = false) ->
  (forall j, Rz j = true -> S j = true) ->
  WI S Rz (Waiter k fs (as_set (filter S fs)) (Z.of_nat (unsettled S fs)) [] false PWait (filter (fun i => negb (S i)) fs) []).
Proof.
  intros Hk H1 H2 HRS.
  constructor; unfold attached, batch, reported; cbn [kind wfs done0 npend finished event ph asked out];
    try (intros; first [discriminate|contradiction]); auto.
  - intros x Hx. exact Hx.
  - intros x. rewrite app_nil_r, as_set_In, filter_In. auto.
  - intros _ _ x Hx Hs. rewrite app_nil_r, as_set_In, filter_In. auto.
  - intros _ _ _. rewrite missing_set. lia.
  - intros _ _ _ (x & Hx & Hnx) Hc. assert (Hsx : S x = false).
    { destruct (S x) eqn:Es; [|reflexivity]. elim Hnx. rewrite as_set_In, filter_In. auto. }
    destruct k; cbn [condition] in Hc.
    + destruct Hc as (y & Hy & Hs). assert (In y []) by (rewrite <- (H1 eq_refl), as_set_In, filter_In; auto). contradiction.
    + destruct Hc as [(y & Hy & Hs)|Hc]; [|rewrite (Hc x Hx) in Hsx; discriminate].
      specialize (H2 eq_refl). rewrite <- not_true_iff_false in H2. apply H2, existsb_exists. exists y.
      rewrite as_set_In, filter_In. auto.
    + rewrite (Hc x Hx) in Hsx. discriminate.
    + contradiction.
Qed.

Lemma WI_ac fs0 : let fs := as_set fs0 in
  WI S Rz (Waiter AsCompleted fs (as_set (filter S fs)) (Z.of_nat (unsettled S fs)) [] false
             (PYield (as_set (filter S fs))) (filter (fun i => negb (S i)) fs) []).
Proof.
  intros fs. assert (Hnd : NoDup fs) by apply NoDup_nodup.
  constructor; unfold attached, batch, reported; cbn [kind wfs done0 npend finished event ph asked out];
    try (intros; first [discriminate|contradiction|congruence]); auto.
  - intros x. rewrite app_nil_r, as_set_In, filter_In. auto.
  - intros [?|?]; discriminate.
  - intros _. repeat split; auto. rewrite app_nil_r. apply NoDup_nodup.
  - intros _ x. cbn [app]. rewrite as_set_In, filter_In. auto.
  - intros _ _ x Hx Hs. cbn [app]. rewrite app_nil_r, as_set_In, filter_In. auto.
  - intros _ x Hx. exact Hx.
  - intros _. split; [now apply NoDup_filter|]. intros x. rewrite as_set_In, !filter_In, negb_true_iff.
    cbn [In]. destruct (S x); intuition congruence.
  - intros _. split; [discriminate|congruence].
Qed.

(** the event wait comes back *)
Lemma WI_wake_remove w : WI S Rz w -> ph w = PWait -> WI S Rz (set_ph w (PRemove (wfs w))).
Proof.
  intros [A1 A2 A3 A4 A5 A5b A6 A7 A8 B1 B2 B3 B4 B5 B6 B7] Hp.
  unfold attached, batch, reported in *. rewrite Hp in *.
  constructor; unfold attached, batch, reported, set_ph; cbn [kind wfs done0 npend finished event ph asked out]; auto;
    try (intros; discriminate).
  - intros Hk _ He. apply A5b; auto. discriminate.
Qed.
Lemma WI_wake_yield w : WI S Rz w -> ph w = PWait -> kind w = AsCompleted ->
  WI S Rz (Waiter (kind w) (wfs w) (done0 w) (npend w) [] false (PYield (finished w)) (asked w) (out w)).
Proof.
  intros [A1 A2 A3 A4 A5 A5b A6 A7 A8 B1 B2 B3 B4 B5 B6 B7] Hp Hk.
  unfold attached, batch, reported in *. rewrite Hp, Hk in *.
  constructor; unfold attached, batch, reported; cbn [kind wfs done0 npend finished event ph asked out];
    try (intros; first [discriminate|contradiction|congruence]); auto.
  - intros x Hx. apply A2. rewrite app_nil_r in Hx. apply in_app_iff. auto.
  - intros [?|?]; discriminate.
  - intros _. destruct (B1 eq_refl) as (N1 & N2 & N3). repeat split; auto. now rewrite app_nil_r.
  - intros _ x Hx. apply in_app_iff in Hx. destruct Hx as [Hx|Hx].
    + apply B2; auto. apply in_app_iff. auto.
    + apply A2. apply in_app_iff. auto.
  - intros _ _ x Hx Hs. rewrite app_nil_r. apply (B3 eq_refl (or_introl eq_refl)); auto.
  - intros _ x Hx. specialize (B4 eq_refl x Hx). rewrite app_nil_r in B4. apply in_app_iff. auto.
  - intros _. split; [discriminate|congruence].
Qed.


Lemma WI_remove w i rest : WI S Rz w -> ph w = PRemove (i :: rest) -> WI S Rz (set_ph w (PRemove rest)).
Proof.
  intros [A1 A2 A3 A4 A5 A5b A6 A7 A8 B1 B2 B3 B4 B5 B6 B7] Hp.
  unfold attached, batch, reported in *. rewrite Hp in *.
  constructor; unfold attached, batch, reported, set_ph; cbn [kind wfs done0 npend finished event ph asked out]; auto;
    try (intros; discriminate).
  - intros x Hx. apply A1. now right.
  - intros Hk _ He. apply A5b; auto. discriminate.
  - intros Hk. destruct (B1 Hk) as (N1 & N2 & N3). repeat split; auto. now inversion N2.
  - intros _ [?|[? ?]]; discriminate.
Qed.
Lemma WI_removed w : WI S Rz w -> ph w = PRemove [] ->
  WI S Rz (Waiter (kind w) (wfs w) (done0 w) (npend w) (finished w) (event w) PReturned (asked w)
             (match kind w with AsCompleted => out w | _ => as_set (done0 w ++ finished w) end)).
Proof.
  intros [A1 A2 A3 A4 A5 A5b A6 A7 A8 B1 B2 B3 B4 B5 B6 B7] Hp.
  unfold attached, batch, reported in *. rewrite Hp in *.
  constructor; unfold attached, batch, reported; cbn [kind wfs done0 npend finished event ph asked out]; auto;
    try (intros; first [discriminate|congruence]).
  - intros Hk _ x. destruct (kind w); try apply as_set_In. congruence.
  - intros Hk. rewrite Hk. auto.
  - intros Hk. rewrite Hk. auto.
  - intros _ [?|[? ?]]; discriminate.
  - intros Hk. rewrite Hk. auto.
  - intros Hk. rewrite Hk. auto.
Qed.

Lemma WI_yield w i rest : WI S Rz w -> ph w = PYield (i :: rest) ->
  WI S Rz (Waiter (kind w) (wfs w) (done0 w) (npend w) (finished w) (event w) (PYield rest)
             (remove_first i (asked w)) (out w ++ [i])).
Proof.
  intros [A1 A2 A3 A4 A5 A5b A6 A7 A8 B1 B2 B3 B4 B5 B6 B7] Hp.
  unfold attached, batch, reported in *. rewrite Hp in *.
  assert (Hk : kind w = AsCompleted).
  { destruct (kind w); try reflexivity; (edestruct A3; [discriminate|reflexivity]). }
  rewrite Hk in *.
  constructor; unfold attached, batch, reported; cbn [kind wfs done0 npend finished event ph asked out];
    try (intros; first [discriminate|contradiction|congruence]); auto.
  - intros [?|?]; discriminate.
  - intros _. destruct (B1 eq_refl) as (N1 & N2 & N3). repeat split; auto. rewrite <- app_assoc. exact N3.
  - intros _. rewrite <- app_assoc. exact (B2 eq_refl).
  - intros _ _ x Hx Hs. rewrite <- app_assoc. apply (B3 eq_refl); eauto.
  - intros _. rewrite <- app_assoc. exact (B4 eq_refl).
  - intros _. destruct (B5 eq_refl) as (N1 & N2). split; [now apply remove_first_NoDup|].
    intros x. rewrite remove_first_In, N2, in_app_iff by exact N1. cbn [In]. split.
    + intros ((X1 & X2 & X3) & X4). repeat split; auto. intros [X|[X|[]]]; congruence.
    + intros (X1 & X2 & X3). repeat split; auto.
Qed.
Lemma WI_batch_end w : WI S Rz w -> ph w = PYield [] ->
  WI S Rz (set_ph w (match asked w with [] => PRemove (wfs w) | _ => PWait end)).
Proof.
  intros [A1 A2 A3 A4 A5 A5b A6 A7 A8 B1 B2 B3 B4 B5 B6 B7] Hp.
  unfold attached, batch, reported in *. rewrite Hp in *.
  assert (Hk : kind w = AsCompleted).
  { destruct (kind w); try reflexivity; (edestruct A3; [discriminate|reflexivity]). }
  rewrite Hk in *. destruct (asked w) as [|a0 l0] eqn:Ea.
  - constructor; unfold attached, batch, reported, set_ph; cbn [kind wfs done0 npend finished event ph asked out]; rewrite ?Ea;
      try (intros; first [discriminate|congruence]); auto.
    + intros [?|?]; congruence.
    + intros _ [?|[? ?]]; discriminate.
  - constructor; unfold attached, batch, reported, set_ph; cbn [kind wfs done0 npend finished event ph asked out]; rewrite ?Ea;
      try (intros; first [discriminate|congruence]); auto.
    + intros [?|?]; congruence.
    + intros [?|?]; congruence.
    + intros _ _ x Hx Hs. apply (B3 eq_refl); eauto.
Qed.
End Own.
