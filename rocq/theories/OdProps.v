(** Properties of the OrderedDict backport (C28). *)
From Verif Require Import OdModel OdSpec OdProofs.
From Coq Require Import Permutation.

Section Props.
Context {K V : Type} (K_eq : forall a b : K, {a = b} + {a <> b}).

(** the dictionary after a history of operations, starting empty *)
Definition after (h : list (op K V)) : od K V := fst (od_run K_eq true od_empty h).

(** Every history gives the same results and leaves the same observable state
    as the list of pairs of OdSpec: iteration, reversed iteration, items,
    length, membership and lookup. *)
Theorem ordered_dict_refines_pair_list (h : list (op K V)) :
  let '(l, rs) := spec_run K_eq [] h in
  snd (od_run K_eq true od_empty h) = rs /\
  od_iter (after h) = Some (map Some (map fst l)) /\
  od_reversed (after h) = Some (map Some (rev (map fst l))) /\
  od_items K_eq (after h) = Some l /\
  od_values K_eq (after h) = Some (map snd l) /\
  od_len (after h) = length l /\
  (forall k, od_mem K_eq (after h) k = has K_eq l k) /\
  (forall k, od_get K_eq (after h) k = lookup K_eq l k) /\
  NoDup (map fst l).
Proof.
  pose proof (R_run K_eq h od_empty [] (R_empty K_eq)) as [E H]. unfold after.
  destruct (spec_run K_eq [] h) as [l rs]. cbn [fst snd] in E, H.
  split; [exact E|]. repeat split.
  - eapply R_iter; eauto.
  - eapply R_reversed; eauto.
  - eapply R_items; eauto.
  - unfold od_values. erewrite R_items by eauto. reflexivity.
  - eapply R_len; eauto.
  - intros k. eapply R_mem; eauto.
  - intros k. eapply R_get; eauto.
  - eapply R_nodup; eauto.
Qed.

(** ** The order, in terms of the history alone *)

(** [k] was last absent after the first [n] operations of [h] *)
Definition last_absent (h : list (op K V)) (k : K) (n : nat) : Prop :=
  n <= length h /\ od_mem K_eq (after (firstn n h)) k = false /\
  forall m, n < m <= length h -> od_mem K_eq (after (firstn m h)) k = true.

Definition Before {A} (l : list A) (x y : A) : Prop := exists l1 l2, l = l1 ++ l2 /\ In x l1 /\ In y l2.

Lemma Before_in {A} (l : list A) x y : Before l x y -> In x l /\ In y l.
Proof. intros (l1 & l2 & -> & H1 & H2). rewrite !in_app_iff. auto. Qed.
Lemma Before_nil {A} (x y : A) : ~ Before [] x y.
Proof. intros H. apply Before_in in H. destruct H as [[] _]. Qed.
Lemma nth_error_firstn_lt {A} (l : list A) n i : i < n -> nth_error (firstn n l) i = nth_error l i.
Proof.
  revert n i. induction l as [|a l IH]; intros [|n] [|i] H; cbn; auto; try lia. apply IH. lia.
Qed.
Lemma Before_nth {A} (l : list A) i j x y :
  nth_error l i = Some x -> nth_error l j = Some y -> i < j -> Before l x y.
Proof.
  intros Hi Hj Hij. exists (firstn (S i) l), (skipn (S i) l). split; [now rewrite firstn_skipn|]. split.
  - apply nth_error_In with i. rewrite nth_error_firstn_lt by lia. exact Hi.
  - apply nth_error_In with (j - S i). rewrite <- Hj. clear Hi Hj. revert i j Hij. induction l as [|a l IH]; intros i j Hij.
    + cbn. destruct j; [lia|]. destruct (_ - _); reflexivity.
    + destruct j as [|j]; [lia|]. destruct i as [|i]; cbn [skipn nth_error Nat.sub].
      * now rewrite Nat.sub_0_r.
      * apply (IH i j). lia.
Qed.
Lemma Before_cons {A} (l : list A) a x y : Before l x y -> Before (a :: l) x y.
Proof. intros (l1 & l2 & -> & H1 & H2). exists (a :: l1), l2. split; [reflexivity|]. split; [now right|exact H2]. Qed.
Lemma Before_cons_inv {A} (l : list A) a x y : Before (a :: l) x y -> (x = a /\ In y l) \/ Before l x y.
Proof.
  intros (l1 & l2 & E & H1 & H2). destruct l1 as [|b l1]; [destruct H1|]. injection E as -> ->.
  destruct H1 as [->|H1].
  - left. split; [reflexivity|]. apply in_app_iff. auto.
  - right. exists l1, l2. auto.
Qed.
Lemma Before_app {A} (l : list A) a x y : Before l x y -> Before (l ++ [a]) x y.
Proof.
  intros (l1 & l2 & -> & H1 & H2). exists l1, (l2 ++ [a]). split; [symmetry; apply app_assoc|].
  split; [exact H1|]. apply in_app_iff. auto.
Qed.
Lemma Before_snoc {A} (l : list A) a x y : Before (l ++ [a]) x y -> Before l x y \/ (In x l /\ y = a).
Proof.
  intros (l1 & l2 & E & H1 & H2). destruct l2 as [|b l2] using rev_ind; [destruct H2|].
  rewrite app_assoc in E. apply app_inj_tail in E. destruct E as [-> ->].
  apply in_app_iff in H2. destruct H2 as [H2|[->|[]]].
  - left. exists l1, l2. auto.
  - right. split; [apply in_app_iff; auto|reflexivity].
Qed.
Lemma Before_filter {A} (p : A -> bool) l x y : Before (filter p l) x y -> Before l x y.
Proof.
  induction l as [|a l IH]; cbn; [auto|]. destruct (p a); [|intros H; apply Before_cons; auto].
  intros H. apply Before_cons_inv in H. destruct H as [[-> H]|H]; [|apply Before_cons; auto].
  exists [a], l. split; [reflexivity|]. split; [now left|]. apply filter_In in H. tauto.
Qed.
Lemma map_filter_keys (l : list (K * V)) k :
  map fst (drop K_eq l k) = filter (fun k' => if K_eq k' k then false else true) (map fst l).
Proof.
  unfold drop. induction l as [|[k' v'] l IH]; cbn; [reflexivity|]. destruct (K_eq k' k); cbn; now rewrite IH.
Qed.

Lemma in_keys_dec (l : list (K * V)) k : In k (map fst l) \/ ~ In k (map fst l).
Proof. destruct (in_dec K_eq k (map fst l)); auto. Qed.

Lemma assign_before (l : list (K * V)) k v x y :
  Before (map fst (assign K_eq l k v)) x y ->
  (In x (map fst l) /\ In y (map fst l) /\ Before (map fst l) x y) \/ (In x (map fst l) /\ ~ In y (map fst l)).
Proof.
  rewrite assign_keys. destruct (has K_eq l k) eqn:E; intros H.
  - left. pose proof (Before_in _ _ _ H). tauto.
  - apply Before_snoc in H. destruct H as [H|[H ->]].
    + left. pose proof (Before_in _ _ _ H). tauto.
    + right. split; [exact H|]. now apply has_false in E.
Qed.

Lemma assign_incl (l : list (K * V)) k v x : In x (map fst l) -> In x (map fst (assign K_eq l k v)).
Proof. rewrite assign_keys. destruct (has K_eq l k); [auto|]. intros. apply in_app_iff. auto. Qed.

Lemma update_before u : forall (l : list (K * V)) x y,
  Before (map fst (fold_left (fun l e => assign K_eq l (fst e) (snd e)) u l)) x y ->
  (In x (map fst l) /\ In y (map fst l) /\ Before (map fst l) x y) \/ ~ In y (map fst l).
Proof.
  induction u as [|[k v] u IH]; intros l x y H; cbn [fold_left fst snd] in H.
  - left. pose proof (Before_in _ _ _ H). tauto.
  - apply IH in H. destruct H as [(_ & _ & H)|H].
    + apply assign_before in H. tauto.
    + right. intros Hi. apply H. now apply assign_incl.
Qed.

Lemma step_before (l : list (K * V)) o x y :
  Before (map fst (fst (spec_step K_eq l o))) x y ->
  (In x (map fst l) /\ In y (map fst l) /\ Before (map fst l) x y) \/
  (In x (map fst l) /\ ~ In y (map fst l)) \/
  (~ In y (map fst l) /\ exists u, o = Update u).
Proof.
  assert (Hsame : Before (map fst l) x y -> In x (map fst l) /\ In y (map fst l) /\ Before (map fst l) x y).
  { intros H. pose proof (Before_in _ _ _ H). tauto. }
  assert (Hdrop : forall k, Before (map fst (drop K_eq l k)) x y -> Before (map fst l) x y).
  { intros k H. rewrite map_filter_keys in H. now apply Before_filter in H. }
  destruct o as [k v|k|k d|b|k v|u|]; cbn [spec_step].
  - intros H. apply assign_before in H. tauto.
  - destruct (has K_eq l k); cbn [fst]; intros H; eauto.
  - destruct (lookup K_eq l k); [|destruct d]; cbn [fst]; intros H; eauto.
  - destruct b.
    + destruct (rev l) as [|[k v] r] eqn:E; cbn [fst]; intros H; [auto|].
      assert (El : l = rev r ++ [(k, v)]). { rewrite <- (rev_involutive l), E. reflexivity. }
      left. apply Hsame. rewrite El, map_app. now apply Before_app.
    + destruct l as [|[k v] r]; cbn [fst]; intros H; [auto|]. left. apply Hsame. cbn. now apply Before_cons.
  - destruct (lookup K_eq l k) eqn:E; cbn [fst]; intros H; [auto|].
    rewrite map_app in H. apply Before_snoc in H. destruct H as [H|[H ->]]; [auto|].
    right. left. split; [exact H|]. apply lookup_none in E. now apply has_false in E.
  - cbn [fst]. intros H. apply update_before in H. destruct H as [H|H]; [auto|]. right. right. eauto.
  - cbn [fst map]. intros H. apply Before_nil in H. destruct H.
Qed.

Lemma spec_run_snoc (h : list (op K V)) : forall l o,
  fst (spec_run K_eq l (h ++ [o])) = fst (spec_step K_eq (fst (spec_run K_eq l h)) o).
Proof.
  induction h as [|a h IH]; intros l o; cbn [app spec_run].
  - cbn. now destruct (spec_step K_eq l o).
  - destruct (spec_step K_eq l a) as [l1 r]. specialize (IH l1 o).
    destruct (spec_run K_eq l1 (h ++ [o])), (spec_run K_eq l1 h). exact IH.
Qed.

Notation pairs h := (fst (spec_run K_eq [] h)).
Lemma after_mem h k : od_mem K_eq (after h) k = has K_eq (pairs h) k.
Proof.
  pose proof (ordered_dict_refines_pair_list h) as H. destruct (spec_run K_eq [] h). cbn [fst]. apply H.
Qed.

Lemma last_absent_snoc h o k n :
  last_absent (h ++ [o]) k n ->
  (n = S (length h) /\ ~ In k (map fst (pairs (h ++ [o])))) \/
  (n = length h /\ ~ In k (map fst (pairs h))) \/
  (n < length h /\ In k (map fst (pairs h)) /\ last_absent h k n).
Proof.
  intros (Hn & Ha & Hp). rewrite app_length in Hn, Hp. cbn in Hn, Hp.
  assert (Hpre : forall m, m <= length h -> firstn m (h ++ [o]) = firstn m h).
  { intros m Hm. rewrite firstn_app. replace (m - length h) with 0 by lia. cbn. now rewrite app_nil_r. }
  assert (C : n = S (length h) \/ n = length h \/ n < length h) by lia.
  destruct C as [->|[->|C]].
  - left. split; [reflexivity|]. rewrite after_mem, firstn_all2 in Ha by (rewrite app_length; cbn; lia).
    now apply has_false in Ha.
  - right. left. split; [reflexivity|]. rewrite Hpre, firstn_all, after_mem in Ha by lia. now apply has_false in Ha.
  - right. right. split; [exact C|]. split.
    + specialize (Hp (length h) ltac:(lia)). rewrite Hpre, firstn_all, after_mem in Hp by lia. now apply has_iff in Hp.
    + split; [lia|]. rewrite Hpre in Ha by lia. split; [exact Ha|]. intros m Hm.
      rewrite <- Hpre by lia. apply Hp. lia.
Qed.

(** Iteration is in order of first insertion since the key was last absent:
    a key that comes earlier was inserted earlier, or by the same [update]. *)
Theorem ordered_dict_iterates_in_insertion_order (h : list (op K V)) keys i j k1 k2 n1 n2 :
  od_iter (after h) = Some keys ->
  nth_error keys i = Some (Some k1) -> nth_error keys j = Some (Some k2) -> i < j ->
  last_absent h k1 n1 -> last_absent h k2 n2 ->
  n1 < n2 \/ (n1 = n2 /\ exists u, nth_error h n1 = Some (Update u)).
Proof.
  intros Hk Hi Hj Hij H1 H2.
  assert (HB : Before (map fst (pairs h)) k1 k2).
  { pose proof (ordered_dict_refines_pair_list h) as H. destruct (spec_run K_eq [] h) as [l rs]. cbn [fst].
    destruct H as (_ & H & _). rewrite H in Hk. injection Hk as <-.
    rewrite nth_error_map in Hi, Hj.
    destruct (nth_error (map fst l) i) eqn:Ei; [|discriminate]. injection Hi as ->.
    destruct (nth_error (map fst l) j) eqn:Ej; [|discriminate]. injection Hj as ->.
    eapply Before_nth; eauto. }
  clear keys i j Hk Hi Hj Hij. revert k1 k2 n1 n2 H1 H2 HB.
  induction h as [|o h IH] using rev_ind; intros k1 k2 n1 n2 H1 H2 HB.
  - cbn in HB. apply Before_nil in HB. destruct HB.
  - pose proof (Before_in _ _ _ HB) as [Hin1 Hin2].
    apply last_absent_snoc in H1. apply last_absent_snoc in H2.
    destruct H1 as [[_ H1]|H1]; [contradiction|]. destruct H2 as [[_ H2]|H2]; [contradiction|].
    rewrite spec_run_snoc in HB. apply step_before in HB.
    destruct HB as [(Ha & Hb & HB)|[[Ha Hb]|[Hb [u ->]]]].
    + destruct H1 as [[_ H1]|(L1 & _ & H1)]; [contradiction|]. destruct H2 as [[_ H2]|(L2 & _ & H2)]; [contradiction|].
      destruct (IH _ _ _ _ H1 H2 HB) as [C|[C [u C']]]; [auto|]. right. split; [exact C|]. exists u.
      rewrite nth_error_app1 by lia. exact C'.
    + destruct H1 as [[_ H1]|(L1 & _ & H1)]; [contradiction|]. destruct H2 as [[L2 _]|(_ & H2 & _)]; [|contradiction].
      left. lia.
    + destruct H2 as [[L2 _]|(_ & H2 & _)]; [|contradiction]. destruct H1 as [[L1 _]|(L1 & _)].
      * right. split; [lia|]. exists u. subst n1. rewrite nth_error_app2, Nat.sub_diag by lia. reflexivity.
      * left. lia.
Qed.

(** every key that is present has such a moment *)
Theorem ordered_dict_last_absent_exists (h : list (op K V)) k :
  exists n, last_absent h k n.
Proof.
  assert (G : forall d, d <= length h ->
            (forall m, length h - d < m <= length h -> od_mem K_eq (after (firstn m h)) k = true) ->
            exists n, last_absent h k n).
  { intros d. remember (length h - d) as e eqn:Ee. revert d Ee. induction e as [|e IH]; intros d Ee Hd Hm.
    - exists 0. split; [lia|]. split; [reflexivity|]. exact Hm.
    - destruct (od_mem K_eq (after (firstn (S e) h)) k) eqn:E.
      + apply (IH (S d)); [lia|lia|]. intros m Hm'. destruct (Nat.eq_dec m (S e)) as [->|]; [exact E|]. apply Hm. lia.
      + exists (S e). split; [lia|]. split; [exact E|]. exact Hm. }
  apply (G 0); lia.
Qed.

(** a copy has the same pairs in the same order and compares equal *)
Theorem ordered_dict_copy_equal (h : list (op K V)) (veq : V -> V -> bool) :
  (forall v, veq v v = true) ->
  exists c, od_copy K_eq (after h) = Some c /\ od_items K_eq c = od_items K_eq (after h) /\
            od_eq K_eq veq (after h) c = Some true.
Proof.
  intros Hv. pose proof (R_run K_eq h od_empty [] (R_empty K_eq)) as [_ H]. fold (after h) in H.
  set (l := pairs h) in *. pose proof (R_items _ _ _ H) as Hi.
  unfold od_copy. rewrite Hi. eexists. split; [reflexivity|].
  pose proof (R_update K_eq l _ _ (R_empty K_eq)) as HU.
  assert (E : forall done l' : list (K * V), NoDup (map fst (done ++ l')) ->
             fold_left (fun l e => assign K_eq l (fst e) (snd e)) l' done = done ++ l').
  { intros done l'. revert done. induction l' as [|[k v] l' IH]; intros done Hnd; [now rewrite app_nil_r|].
    cbn [fold_left fst snd]. unfold assign at 2.
    assert (Eh : has K_eq done k = false).
    { apply has_false. rewrite map_app in Hnd. cbn in Hnd. apply NoDup_remove_2 in Hnd. rewrite in_app_iff in Hnd. tauto. }
    rewrite Eh, IH; rewrite <- app_assoc; [reflexivity|exact Hnd]. }
  specialize (E [] l (R_nodup _ _ _ H)). rewrite E in HU. cbn [app] in HU.
  pose proof (R_items _ _ _ HU) as Hi2. split; [exact Hi2|].
  unfold od_eq. rewrite (R_len _ _ _ H), (R_len _ _ _ HU), Nat.eqb_refl, Hi, Hi2. f_equal.
  clear - Hv. generalize l. clear l. intros l. induction l as [|[k v] l IH]; cbn; [reflexivity|]. destruct (K_eq k k); [|congruence]. now rewrite Hv.
Qed.

(** equality of two dictionaries looks at the order (for histories h and h') *)
Theorem ordered_dict_eq_order_sensitive (h h' : list (op K V)) (veq : V -> V -> bool) :
  (forall v w, veq v w = true <-> v = w) ->
  exists b, od_eq K_eq veq (after h) (after h') = Some b /\
            (b = true <-> od_items K_eq (after h) = od_items K_eq (after h')).
Proof.
  intros Hv.
  pose proof (R_run K_eq h od_empty [] (R_empty K_eq)) as [_ H]. fold (after h) in H.
  pose proof (R_run K_eq h' od_empty [] (R_empty K_eq)) as [_ H']. fold (after h') in H'.
  rewrite (R_items _ _ _ H), (R_items _ _ _ H'). unfold od_eq.
  rewrite (R_items _ _ _ H), (R_items _ _ _ H'), (R_len _ _ _ H), (R_len _ _ _ H').
  generalize (pairs h) (pairs h'). clear - Hv. intros l l'. destruct (Nat.eqb (length l) (length l')) eqn:E.
  - eexists. split; [reflexivity|]. clear E. revert l'. induction l as [|[k v] l IH]; intros [|[k' v'] l']; cbn.
    + tauto.
    + split; discriminate.
    + split; discriminate.
    + destruct (K_eq k k') as [->|Hn]; cbn.
      * destruct (veq v v') eqn:Ev; cbn.
        -- apply Hv in Ev. subst. rewrite IH. split; intros [= ->]; reflexivity.
        -- split; [discriminate|]. intros [= -> ->]. assert (veq v' v' = true) by now apply Hv. congruence.
      * split; [discriminate|]. congruence.
  - eexists. split; [reflexivity|]. apply Nat.eqb_neq in E. split; [discriminate|]. congruence.
Qed.

(** Finding: where dictionaries have no itervalues (Python 3), clear empties
    the lookups but not the order: for every history, iteration afterwards
    still yields every key, though none of them is a member. *)
Theorem ordered_dict_clear_python3_refuted (h : list (op K V)) :
  let s := od_clear false (after h) in
  od_len s = 0 /\ (forall k, od_mem K_eq s k = false) /\
  od_iter s = od_iter (after h) /\
  (forall k, od_mem K_eq (after h) k = true -> exists keys, od_iter s = Some keys /\ In (Some k) keys).
Proof.
  cbv zeta. split; [reflexivity|]. split; [reflexivity|]. split; [reflexivity|].
  intros k Hk. pose proof (R_run K_eq h od_empty [] (R_empty K_eq)) as [_ H]. fold (after h) in H.
  rewrite (R_mem _ _ _ k H) in Hk. apply has_iff in Hk.
  change (od_iter (od_clear false (after h))) with (od_iter (after h)).
  rewrite (R_iter _ _ _ H). eexists. split; [reflexivity|]. now apply in_map.
Qed.
End Props.

(** ** Concrete cases *)
Example od_history_example :
  let h := [Set_ 1 10; Set_ 2 20; Set_ 3 30; Set_ 2 21; Del 1; Set_ 1 11; PopItem false; Pop 7 None;
            SetDefault 5 50; Update [(6, 60); (3, 33)]; Pop 3 (Some 0)] in
  od_items Nat.eq_dec (after Nat.eq_dec h) = Some [(1, 11); (5, 50); (6, 60)] /\
  od_reversed (after Nat.eq_dec h) = Some [Some 6; Some 5; Some 1] /\
  snd (od_run Nat.eq_dec true od_empty h) =
    [RNone; RNone; RNone; RNone; RNone; RNone; RItem 2 21; RKeyError; RVal 50; RNone; RVal 33].
Proof. repeat split; vm_compute; reflexivity. Qed.
Example od_last_absent_example :
  last_absent Nat.eq_dec [Set_ 1 10; Set_ 2 20; Del 1; Set_ 1 11] 1 3 /\
  last_absent Nat.eq_dec [Set_ 1 10; Set_ 2 20; Del 1; Set_ 1 11] 2 1.
Proof.
  split.
  - split; [cbn; lia|]. split; [reflexivity|]. intros m Hm. cbn in Hm. assert (m = 4) by lia. subst. reflexivity.
  - split; [cbn; lia|]. split; [reflexivity|]. intros m Hm. cbn in Hm.
    destruct (Nat.eq_dec m 2) as [->|]; [reflexivity|]. destruct (Nat.eq_dec m 3) as [->|]; [reflexivity|].
    assert (m = 4) by lia. subst. reflexivity.
Qed.
(** after such a clear, setting the old key again lists it twice *)
Example od_clear_python3_duplicates :
  od_iter (od_set Nat.eq_dec (od_clear false (after Nat.eq_dec [Set_ 1 10])) 1 11) = Some [Some 1; Some 1].
Proof. reflexivity. Qed.

Print Assumptions ordered_dict_refines_pair_list.
Print Assumptions ordered_dict_iterates_in_insertion_order.
Print Assumptions ordered_dict_last_absent_exists.
Print Assumptions ordered_dict_copy_equal.
Print Assumptions ordered_dict_eq_order_sensitive.
Print Assumptions ordered_dict_clear_python3_refuted.
