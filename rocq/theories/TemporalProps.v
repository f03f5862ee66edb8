(** C08: time series datasets. *)
From Verif Require Import TemporalModel SelProofs SelProps.
From Coq Require Import ZifyBool ZifyNat Lqa Qabs Permutation Sorted.
Open Scope Z_scope.

(** specification: what a history of add(child, set_active) calls put in *)
Definition eff_time (t : option Q) : Q := match t with Some t => t | None => 0%Q end.
Definition added (h : list (option Q * nat * bool)) : list (Q * nat) := map (fun '(t, c, _) => (eff_time t, c)) h.
Definition time_le (x y : Q * nat) : Prop := (fst x <= fst y)%Q.
Definition same_time (t : Q) (x : Q * nat) : bool := Qeq_bool (fst x) t.

Lemma t_insert_perm x l : Permutation (t_insert x l) (x :: l).
Proof.
  induction l as [|y l IH]; cbn; [reflexivity|]. destruct (Qle_bool _ _); [reflexivity|].
  rewrite IH. apply perm_swap.
Qed.
Lemma t_sort_perm l : Permutation (t_sort l) l.
Proof. induction l as [|x l IH]; cbn; [reflexivity|]. now rewrite t_insert_perm, IH. Qed.
Lemma t_insert_sorted x l : StronglySorted time_le l -> StronglySorted time_le (t_insert x l).
Proof.
  induction l as [|y l IH]; intros H; cbn.
  - constructor; [constructor|constructor].
  - apply StronglySorted_inv in H. destruct H as [H1 H2].
    destruct (Qle_bool (fst x) (fst y)) eqn:E.
    + apply Qle_bool_iff in E. constructor; [constructor; assumption|]. constructor; [exact E|].
      rewrite Forall_forall in *. intros z Hz. specialize (H2 z Hz). unfold time_le in *. lra.
    + apply Qle_bool_false in E. constructor; [apply IH; exact H1|].
      rewrite Forall_forall in *. intros z Hz. apply (Permutation_in _ (t_insert_perm x l)) in Hz.
      destruct Hz as [<-|Hz]; [unfold time_le; lra|exact (H2 z Hz)].
Qed.
Lemma t_sort_sorted l : StronglySorted time_le (t_sort l).
Proof. induction l as [|x l IH]; cbn; [constructor|apply t_insert_sorted, IH]. Qed.

Lemma t_insert_stable t x l : filter (same_time t) (t_insert x l) = filter (same_time t) (x :: l).
Proof.
  induction l as [|y l IH]; cbn [t_insert]; [reflexivity|].
  destruct (Qle_bool (fst x) (fst y)) eqn:E; [reflexivity|]. apply Qle_bool_false in E.
  cbn [filter] in *. rewrite IH. unfold same_time in *.
  destruct (Qeq_bool (fst x) t) eqn:Ex, (Qeq_bool (fst y) t) eqn:Ey; try reflexivity.
  apply Qeq_bool_iff in Ex. apply Qeq_bool_iff in Ey. lra.
Qed.
Lemma t_sort_stable t l : filter (same_time t) (t_sort l) = filter (same_time t) l.
Proof.
  induction l as [|x l IH]; cbn [t_sort]; [reflexivity|]. rewrite t_insert_stable. cbn [filter]. rewrite IH. reflexivity.
Qed.

Lemma adds_inv h : forall s, exists l, t_children (fold_left (fun s '(t, c, a) => tds_add s t c a) h s) = l /\
  Permutation l (t_children s ++ added h) /\
  (h <> [] -> StronglySorted time_le l) /\
  (forall t, filter (same_time t) l = filter (same_time t) (t_children s ++ added h)).
Proof.
  induction h as [|[[t c] b] h IH]; intros s; cbn [fold_left added map].
  - rewrite app_nil_r. eexists. split; [reflexivity|]. split; [reflexivity|]. split; [congruence|reflexivity].
  - destruct (IH (tds_add s t c b)) as (l & E & HP & HS & HF). exists l. split; [exact E|].
    cbn [tds_add t_children] in HP, HF.
    split; [|split].
    + rewrite HP, t_sort_perm, <- app_assoc. reflexivity.
    + intros _. destruct h as [|x h]; [|apply HS; discriminate].
      cbn in E. subst l. apply t_sort_sorted.
    + intros u. rewrite HF, filter_app, t_sort_stable, <- filter_app, <- app_assoc. reflexivity.
Qed.

(** C08: whatever is added, in whatever order, the dataset holds exactly those
    children, in non-decreasing time order, and children with equal times keep
    the order in which they were added. *)
Theorem temporal_children_sorted :
  forall h, let cs := t_children (tds_adds h) in
    Permutation cs (added h) /\
    StronglySorted time_le cs /\
    forall t, filter (same_time t) cs = filter (same_time t) (added h).
Proof.
  intros h. cbv zeta. unfold tds_adds. destruct (adds_inv h tds_empty) as (l & E & HP & HS & HF). rewrite E.
  cbn [tds_empty t_children app] in *. split; [exact HP|]. split; [|exact HF].
  destruct h; [|apply HS; discriminate]. cbn in E. subst l. constructor.
Qed.
Print Assumptions temporal_children_sorted.

(** C08: the active child is the last one added with set_active. *)
Theorem temporal_active_child :
  forall h, t_active (tds_adds h) =
    last (map Some (map (fun '(_, c, _) => c) (filter (fun '(_, _, a) => a) h))) None.
Proof.
  intros h. unfold tds_adds.
  assert (H : forall h s, t_active (fold_left (fun s '(t, c, a) => tds_add s t c a) h s) =
    last (map Some (map (fun '(_, c, _) => c) (filter (fun '(_, _, a) => a) h))) (t_active s)).
  { clear h. intros h. induction h as [|[[t c] b] h' IH]; intros s; [reflexivity|]. cbn [fold_left]. rewrite IH. cbn [filter tds_add t_active].
    destruct b; [|reflexivity]. cbn [map]. set (l := map Some _).
    clear. revert c. induction l as [|x l IH]; intros c; [reflexivity|]. destruct l; [reflexivity|].
    change (last (x :: o :: l) (Some c)) with (last (o :: l) (Some c)).
    change (last (Some c :: x :: o :: l) (t_active s)) with (last (o :: l) (t_active s)).
    clear IH. revert o. induction l as [|y l IH2]; intros o; [reflexivity|]. apply (IH2 y). }
  apply H.
Qed.
Print Assumptions temporal_active_child.

Example temporal_sorted_nonvacuous :
  t_children (tds_adds [(Some 3, 1%nat, true); (Some 1, 2%nat, false); (None, 3%nat, true); (Some 1, 4%nat, false)]%Q)
  = [(0, 3%nat); (1, 2%nat); (1, 4%nat); (3, 1%nat)]%Q.
Proof. vm_compute. reflexivity. Qed.

Lemma qnth_times (cs : list (Q * nat)) i c : nth_error cs i = Some c -> qnth (map fst cs) i = fst c.
Proof. intros H. unfold qnth. apply nth_error_nth. now apply map_nth_error. Qed.

(** C08: getting or activating a time given as a float finds a child whose time
    is nearest to the request, for every dataset that has children; among equally
    near children it is the earliest. *)
Theorem temporal_get_child_nearest :
  forall s v, t_children s <> [] ->
    exists t c, get_child s (TFloat v) = TOk c /\ In (t, c) (t_children s) /\
      (forall t' c', In (t', c') (t_children s) -> (Qabs (t - v) <= Qabs (t' - v))%Q) /\
      activate s (TFloat v) = TOk (TDS (t_children s) (Some c)) /\
      get_times s (TFloat v) true false = TOk [(t, c)].
Proof.
  intros s v Hne. unfold activate, get_child, get_times, slice_time. set (cs := t_children s) in *.
  assert (Hne' : map fst cs <> []) by (destruct cs; [congruence|discriminate]).
  destruct (nearest_index_is_nearest (map fst cs) v Hne') as (H1 & H2 & _).
  set (n := nearest_index (map fst cs) v) in *.
  assert (Hm : match map fst cs with [] => TIndexError | _ => TOk (IInt (Z.of_nat n)) end = TOk (IInt (Z.of_nat n)))
    by (destruct (map fst cs); [congruence|reflexivity]).
  rewrite Hm. rewrite map_length in H1, H2.
  destruct (nth_error cs n) as [[t c]|] eqn:E; [|apply nth_error_None in E; lia].
  assert (Eg : getitem cs (Z.of_nat n) = Some (t, c)).
  { unfold getitem, zget. replace (Z.of_nat n <? 0) with false by lia. rewrite Nat2Z.id. exact E. }
  rewrite Eg. exists t, c. split; [reflexivity|]. split; [exact (nth_error_In _ _ E)|]. split; [|split; reflexivity].
  intros t' c' Hin. apply In_nth_error in Hin. destruct Hin as (i & Hi).
  assert (Hil : (i < length cs)%nat) by (apply nth_error_Some; congruence).
  specialize (H2 i Hil). rewrite (qnth_times cs i _ Hi), (qnth_times cs n _ E) in H2. exact H2.
Qed.
Print Assumptions temporal_get_child_nearest.

(** C08: integers index the time-ordered children, from either end. *)
Theorem temporal_get_child_by_index :
  forall s i, let n := Z.of_nat (length (t_children s)) in
    (- n <= i < n -> exists t c, get_child s (TInt i) = TOk c /\
        nth_error (t_children s) (Z.to_nat (if i <? 0 then i + n else i)) = Some (t, c)) /\
    (~ (- n <= i < n) -> get_child s (TInt i) = TIndexError).
Proof.
  intros s i n. unfold get_child, slice_time, getitem. fold n. split; intros Hi.
  - destruct (i <? 0) eqn:E.
    + destruct (zget_Some (t_children s) (i + n)) as ((t & c) & Hx); [unfold n in *; lia|]. rewrite Hx.
      exists t, c. split; [reflexivity|]. unfold zget in Hx. destruct (i + n <? 0); [discriminate|exact Hx].
    + destruct (zget_Some (t_children s) i) as ((t & c) & Hx); [unfold n in *; lia|]. rewrite Hx.
      exists t, c. split; [reflexivity|]. unfold zget in Hx. rewrite E in Hx. exact Hx.
  - destruct (i <? 0) eqn:E.
    + rewrite (proj2 (zget_None (t_children s) (i + n))); [reflexivity|]. unfold n in *. lia.
    + rewrite (proj2 (zget_None (t_children s) i)); [reflexivity|]. unfold n in *. lia.
Qed.
Print Assumptions temporal_get_child_by_index.

(** C08: a time range returns exactly the children whose times are in the range
    (up to the tolerance of C09), in time order, when no two times are equal. *)
Theorem temporal_time_range :
  forall h v1 v2, let s := tds_adds h in
    (forall i j x y, (i < j)%nat -> nth_error (added h) i = Some x -> nth_error (added h) j = Some y -> ~ (fst x == fst y)%Q) ->
    (exists x, In x (added h) /\ (fst x <= v2)%Q) ->
    exists cs, get_times s (TSlice (BVal v1) (BVal v2) None) true false = TOk cs /\
      StronglySorted time_le cs /\
      (let tl := tol (map fst (t_children s)) in
       forall x, In x cs <-> In x (added h) /\ (v1 - tl <= fst x)%Q /\ (fst x <= v2 + tl)%Q) /\
      nr_times s (TSlice (BVal v1) (BVal v2) None) true false = TOk (length cs).
Proof.
  intros h v1 v2 s Hd (x0 & Hx0 & Hx0v).
  destruct (temporal_children_sorted h) as (HP & HS & _). fold s in HP, HS. set (cs := t_children s) in *.
  assert (Hdist : forall i j x y, (i < j)%nat -> nth_error cs i = Some x -> nth_error cs j = Some y -> (fst x < fst y)%Q).
  { assert (Hne : ForallOrdPairs (fun x y => ~ (fst x == fst y)%Q) cs).
    { assert (Ho : ForallOrdPairs (fun x y => ~ (fst x == fst y)%Q) (added h)).
      { clear - Hd. induction (added h) as [|x l IH]; [constructor|]. constructor.
        - rewrite Forall_forall. intros y Hy. apply In_nth_error in Hy. destruct Hy as (j & Hj).
          apply (Hd 0%nat (S j) x y); [lia|reflexivity|exact Hj].
        - apply IH. intros i j a b Hij Ha Hb. apply (Hd (S i) (S j) a b); [lia|exact Ha|exact Hb]. }
      clear - HP Ho. apply Permutation_sym in HP. induction HP as [|x l l' HP IH|x y l|l l' l'' H1 IH1 H2 IH2].
      - constructor.
      - inversion Ho as [|a b Hf Hr]; subst. constructor; [|apply IH; exact Hr].
        rewrite Forall_forall in *. intros z Hz. apply Hf. apply (Permutation_in _ (Permutation_sym HP)). exact Hz.
      - inversion Ho as [|a b Hf Hr]; subst. inversion Hr as [|a b Hf2 Hr2]; subst. inversion Hf as [|a b Hxy Hf3]; subst.
        constructor; [constructor; [intros Hc; apply Hxy; symmetry; exact Hc|exact Hf2]|constructor; [exact Hf3|exact Hr2]].
      - apply IH2, IH1, Ho. }
    clear - HS Hne. induction cs as [|x l IH]; intros i j a b Hij Ha Hb; [destruct i; discriminate|].
    apply StronglySorted_inv in HS. destruct HS as [HS1 HS2]. inversion Hne as [|a' b' Hf Hr]; subst.
    destruct j as [|j]; [lia|]. destruct i as [|i].
    - cbn in Ha. injection Ha as <-. cbn in Hb. apply nth_error_In in Hb.
      rewrite Forall_forall in HS2, Hf. specialize (HS2 b Hb). specialize (Hf b Hb). unfold time_le in HS2.
      destruct (Qlt_le_dec (fst x) (fst b)) as [|Hge]; [assumption|]. exfalso. apply Hf. lra.
    - apply (IH HS1 Hr i j); [lia|exact Ha|exact Hb]. }
  assert (Ha : ascending (map fst cs)).
  { intros i j [Hij Hj]. rewrite map_length in Hj.
    destruct (nth_error cs i) as [x|] eqn:Ei; [|apply nth_error_None in Ei; lia].
    destruct (nth_error cs j) as [y|] eqn:Ej; [|apply nth_error_None in Ej; lia].
    rewrite (qnth_times cs i x Ei), (qnth_times cs j y Ej). exact (Hdist i j x y Hij Ei Ej). }
  assert (Hx0' : In x0 cs) by (apply (Permutation_in _ (Permutation_sym HP)); exact Hx0).
  assert (Hne : map fst cs <> []) by (destruct cs; [contradiction|discriminate]).
  assert (H0 : (qnth (map fst cs) 0 <= v2)%Q).
  { apply In_nth_error in Hx0'. destruct Hx0' as (i & Hi).
    assert (Hil : (i < length (map fst cs))%nat) by (rewrite map_length; apply nth_error_Some; congruence).
    pose proof (ascending_nondesc _ Ha 0%nat i ltac:(lia)) as Hm. rewrite (qnth_times cs i x0 Hi) in Hm. lra. }
  destruct (slice_between_values (map fst cs) v1 v2 None Ha Hne (or_introl eq_refl) H0) as (p & is & Es & Hsel & Hin & lo & k & His).
  rewrite map_length in Hsel.
  assert (Egt : get_times s (TSlice (BVal v1) (BVal v2) None) true false = TOk (picks cs is)).
  { unfold get_times, slice_time. fold cs. rewrite Es. unfold getslice. rewrite Hsel. reflexivity. }
  exists (picks cs is). split; [exact Egt|].
  pose proof (sel_in_range (zlen cs) p is ltac:(lia) Hsel) as Hr.
  split; [|split].
  - (* sorted: a contiguous run of a sorted list *)
    clear - HS Hr His. subst is. revert lo Hr. induction k as [|k IH]; intros lo Hr; [constructor|].
    rewrite prog_S in *. cbn [picks flat_map]. change (flat_map (pick cs) (prog (lo + 1) 1 k)) with (picks cs (prog (lo + 1) 1 k)).
    assert (Hlo : 0 <= lo < zlen cs) by (apply Hr; now left).
    destruct (zget_Some cs lo Hlo) as (x & Hx). unfold pick at 1. rewrite Hx. cbn [app].
    assert (Hr' : forall i, In i (prog (lo + 1) 1 k) -> 0 <= i < zlen cs) by (intros i Hi; apply Hr; now right).
    constructor; [apply IH; exact Hr'|].
    rewrite Forall_forall. intros y Hy. apply In_nth_error in Hy. destruct Hy as (m & Hm).
    rewrite (picks_nth cs _ _ Hr') in Hm. destruct (nth_error (prog (lo + 1) 1 k) m) as [i|] eqn:Ei; [|discriminate].
    apply nth_error_In, prog_In in Ei. destruct Ei as (q & Hq & ->).
    unfold zget in Hx, Hm. destruct (lo <? 0) eqn:E1; [discriminate|]. destruct (lo + 1 + Z.of_nat q * 1 <? 0); [discriminate|].
    assert (Hlt : (Z.to_nat lo < Z.to_nat (lo + 1 + Z.of_nat q * 1))%nat) by lia.
    revert Hx Hm Hlt. generalize (Z.to_nat lo) as i0, (Z.to_nat (lo + 1 + Z.of_nat q * 1)) as j0. clear - HS.
    induction cs as [|c cs IH]; intros i0 j0 Hx Hm Hlt; [destruct i0; discriminate|].
    apply StronglySorted_inv in HS. destruct HS as [HS1 HS2]. destruct j0 as [|j0]; [lia|]. destruct i0 as [|i0].
    + cbn in Hx. injection Hx as <-. cbn in Hm. apply nth_error_In in Hm. rewrite Forall_forall in HS2. exact (HS2 y Hm).
    + apply (IH HS1 i0 j0); [exact Hx|exact Hm|lia].
  - cbv zeta. intros x. split.
    + intros Hx. apply In_nth_error in Hx. destruct Hx as (m & Hm).
      rewrite (picks_nth cs is _ Hr) in Hm. destruct (nth_error is m) as [i|] eqn:Ei; [|discriminate].
      apply nth_error_In in Ei. specialize (Hr i Ei).
      replace i with (Z.of_nat (Z.to_nat i)) in Ei by lia. apply Hin in Ei. destruct Ei as (Hi & H1 & H2).
      unfold zget in Hm. destruct (i <? 0); [discriminate|].
      rewrite (qnth_times cs _ x Hm) in H1, H2. split; [|auto].
      apply (Permutation_in _ HP). exact (nth_error_In _ _ Hm).
    + intros (Hx & H1 & H2). apply (Permutation_in _ (Permutation_sym HP)) in Hx.
      apply In_nth_error in Hx. destruct Hx as (i & Hi).
      assert (Hil : (i < length cs)%nat) by (apply nth_error_Some; congruence).
      assert (Hii : In (Z.of_nat i) is).
      { apply Hin. rewrite map_length, (qnth_times cs i x Hi). auto. }
      unfold picks. apply in_flat_map. exists (Z.of_nat i). split; [exact Hii|].
      unfold pick, zget. replace (Z.of_nat i <? 0) with false by lia. rewrite Nat2Z.id, Hi. now left.
  - unfold nr_times. rewrite Egt. reflexivity.
Qed.
Print Assumptions temporal_time_range.

Example temporal_range_nonvacuous :
  let s := tds_adds [(Some 3, 1%nat, true); (Some 1, 2%nat, false); (None, 3%nat, true); (Some 2, 4%nat, false)]%Q in
  get_times s (TSlice (BVal (1#2)) (BVal 2) None) true false = TOk [(1, 2%nat); (2, 4%nat)]%Q /\
  get_child s (TFloat (12#5)) = TOk 4%nat /\ get_child s (TInt (-1)) = TOk 1%nat.
Proof. repeat split; vm_compute; reflexivity. Qed.

(** C08: a time for which membership says yes (a positive integer index, or a
    time string) can be retrieved. *)
Theorem temporal_contains_sound :
  forall f s x, (forall c y, f c y = false) ->
    contains f s x = TOk true ->
    match x with
    | XInt i => exists c, get_child s (TInt i) = TOk c
    | XTimeStr v => exists c, get_child s (TFloat v) = TOk c
    | XOther _ => False
    end.
Proof.
  intros f s x Hf H. unfold contains in H. destruct x as [i|v|k].
  - destruct ((0 <? i) && (i <? _)) eqn:E.
    + destruct (temporal_get_child_by_index s i) as [H1 _]. destruct H1 as (t & c & Hc & _); [lia|]. eauto.
    + destruct (t_active s); [|discriminate]. rewrite Hf in H. discriminate.
  - destruct (t_children s) eqn:E; [discriminate|].
    destruct (temporal_get_child_nearest s v) as (t & c & Hc & _); [rewrite E; discriminate|]. eauto.
  - destruct (t_active s); [|discriminate]. rewrite Hf in H. discriminate.
Qed.
Print Assumptions temporal_contains_sound.

(** C08 fails in the other direction: the first time step can be retrieved by its
    index 0 but `0 in dataset` is False; the same holds for negative indices and
    for time strings outside the covered interval. *)
Theorem temporal_contains_refuted :
  exists s,
    get_child s (TInt 0) = TOk 7%nat /\
    (exists f, contains f s (XInt 0) = TOk false /\ contains f s (XInt (-1)) = TOk false /\
               contains f s (XTimeStr 9) = TOk false) /\
    get_child s (TInt (-1)) = TOk 8%nat /\ get_child s (TFloat 9) = TOk 8%nat.
Proof.
  exists (tds_adds [(Some 1%Q, 7%nat, true); (Some 2%Q, 8%nat, true)]).
  split; [vm_compute; reflexivity|split; [|split; vm_compute; reflexivity]].
  exists (fun _ _ => false). repeat split; vm_compute; reflexivity.
Qed.
Print Assumptions temporal_contains_refuted.

(** Getting a child by a time slice never works: it is always an error. *)
Theorem temporal_get_child_slice_refuted :
  forall s b1 b2 step c, get_child s (TSlice b1 b2 step) <> TOk c.
Proof.
  intros s b1 b2 step c. unfold get_child, slice_time.
  destruct (std_sel2index _ _ _ _ _ _); try discriminate.
  destruct (getslice _ _) as [[|a [|b l]]|]; discriminate.
Qed.
Print Assumptions temporal_get_child_slice_refuted.

(** Two children at the stop time of a range: the second is left out. *)
Theorem temporal_equal_times_range_refuted :
  exists s t c1 c2, In (t, c1) (t_children s) /\ In (t, c2) (t_children s) /\ c1 <> c2 /\
    exists cs, get_times s (TSlice (BVal 0) (BVal t) None) true false = TOk cs /\ In (t, c1) cs /\ ~ In (t, c2) cs.
Proof.
  exists (tds_adds [(Some 0%Q, 1%nat, true); (Some 1%Q, 2%nat, true); (Some 1%Q, 3%nat, true)]), 1%Q, 2%nat, 3%nat.
  split; [vm_compute; auto|]. split; [vm_compute; auto|]. split; [lia|].
  eexists. split; [vm_compute; reflexivity|]. split; [cbn; auto|].
  intros H. cbn in H. repeat destruct H as [H|H]; try discriminate H; exact H.
Qed.
Print Assumptions temporal_equal_times_range_refuted.

(** remove_all_items forgets the children but leaves the old child active, so
    fields are still served from a removed child. *)
Theorem temporal_remove_all_refuted :
  exists s c, let s' := tds_remove_all s in t_children s' = [] /\ t_active s' = Some c.
Proof. exists (tds_adds [(Some 1%Q, 7%nat, true)]), 7%nat. split; reflexivity. Qed.
Print Assumptions temporal_remove_all_refuted.
