From Verif Require Export SelModel.
From Coq Require Import ZifyBool ZifyNat Lqa.
Open Scope Z_scope.

Lemma Qle_bool_false x y : Qle_bool x y = false <-> (y < x)%Q.
Proof.
  split.
  - intros H. apply Qnot_le_lt. intros Hc. apply Qle_bool_iff in Hc. congruence.
  - intros H. destruct (Qle_bool x y) eqn:E; [|reflexivity]. apply Qle_bool_iff in E. lra.
Qed.
Ltac qcases := repeat match goal with
  | |- context [Qle_bool ?a ?b] => let E := fresh "E" in destruct (Qle_bool a b) eqn:E; [apply Qle_bool_iff in E|apply Qle_bool_false in E]
  | H : context [Qle_bool ?a ?b] |- _ => let E := fresh "E" in destruct (Qle_bool a b) eqn:E; [apply Qle_bool_iff in E|apply Qle_bool_false in E]
  end.

Lemma qabs_spec x : ((0 <= x)%Q /\ qabs x = x) \/ ((x < 0)%Q /\ qabs x = (- x)%Q).
Proof. unfold qabs. destruct (Qle_bool 0 x) eqn:E; [left|right]; [apply Qle_bool_iff in E|apply Qle_bool_false in E]; auto. Qed.

Definition olt_P (x y : option Q) : Prop :=
  match x, y with Some a, Some b => (a < b)%Q | Some _, None => True | None, _ => False end.
Lemma olt_iff x y : olt x y = true <-> olt_P x y.
Proof.
  destruct x as [a|], y as [b|]; cbn; try (split; auto; discriminate); try tauto.
  rewrite negb_true_iff. apply Qle_bool_false.
Qed.
Lemma olt_false x y : olt x y = false <-> ~ olt_P x y.
Proof. rewrite <- olt_iff. destruct (olt x y); split; congruence. Qed.
Lemma olt_trans x y z : olt_P x y -> olt_P y z -> olt_P x z.
Proof. destruct x, y, z; cbn; auto; try tauto. intros; lra. Qed.
Lemma not_olt_trans x y z : ~ olt_P x y -> olt_P z y -> olt_P z x.
Proof. destruct x, y, z; cbn; auto; try tauto. intros. apply Qnot_lt_le in H. lra. Qed.
Lemma not_olt_trans2 x y z : ~ olt_P x y -> ~ olt_P y z -> ~ olt_P x z.
Proof. destruct x, y, z; cbn; auto; try tauto. intros H1 H2. apply Qnot_lt_le in H1. apply Qnot_lt_le in H2. lra. Qed.

Lemma argmin_from_spec l : forall pre best bv,
  (best < length pre)%nat -> nth_error pre best = Some bv ->
  (forall j x, nth_error pre j = Some x -> ~ olt_P x bv) ->
  (forall j x, (j < best)%nat -> nth_error pre j = Some x -> olt_P bv x) ->
  let r := argmin_from (length pre) best bv l in
  exists rv, nth_error (pre ++ l) r = Some rv /\
    (forall j x, nth_error (pre ++ l) j = Some x -> ~ olt_P x rv) /\
    (forall j x, (j < r)%nat -> nth_error (pre ++ l) j = Some x -> olt_P rv x).
Proof.
  induction l as [|x l IH]; intros pre best bv Hb Hn H1 H2; cbn [argmin_from].
  - cbn zeta. rewrite app_nil_r. exists bv. auto.
  - replace (pre ++ x :: l) with ((pre ++ [x]) ++ l) by (rewrite <- app_assoc; reflexivity).
    replace (S (length pre)) with (length (pre ++ [x])) by (rewrite app_length; cbn; lia).
    assert (Hnth : forall j y, nth_error (pre ++ [x]) j = Some y -> (nth_error pre j = Some y /\ (j < length pre)%nat) \/ (j = length pre /\ y = x)).
    { intros j y Hj. destruct (lt_dec j (length pre)) as [Hlt|Hge].
      - left. rewrite nth_error_app1 in Hj by exact Hlt. auto.
      - right. rewrite nth_error_app2 in Hj by lia. destruct (j - length pre)%nat eqn:E; cbn in Hj.
        + split; [lia|congruence].
        + destruct n; discriminate. }
    destruct (olt x bv) eqn:Eo.
    + apply olt_iff in Eo. apply IH.
      * rewrite app_length. cbn. lia.
      * rewrite nth_error_app2 by lia. now rewrite Nat.sub_diag.
      * intros j y Hj. destruct (Hnth j y Hj) as [[Hj' _]|[_ ->]].
        -- intros Hc. exact (H1 j y Hj' (olt_trans _ _ _ Hc Eo)).
        -- destruct x; cbn; [lra|tauto].
      * intros j y Hjb Hj. destruct (Hnth j y Hj) as [[Hj' _]|[-> _]]; [|lia].
        apply (not_olt_trans y bv x); [exact (H1 j y Hj')|exact Eo].
    + apply olt_false in Eo. apply IH.
      * rewrite app_length. lia.
      * now rewrite nth_error_app1.
      * intros j y Hj. destruct (Hnth j y Hj) as [[Hj' _]|[_ ->]]; [exact (H1 j y Hj')|exact Eo].
      * intros j y Hjb Hj. destruct (Hnth j y Hj) as [[Hj' _]|[-> _]]; [exact (H2 j y Hjb Hj')|lia].
Qed.

Lemma argmin_spec l : l <> [] ->
  exists v, nth_error l (argmin l) = Some v /\
    (forall j x, nth_error l j = Some x -> ~ olt_P x v) /\
    (forall j x, (j < argmin l)%nat -> nth_error l j = Some x -> olt_P v x).
Proof.
  destruct l as [|x l]; [congruence|intros _]. cbn [argmin].
  apply (argmin_from_spec l [x] 0 x); cbn; auto.
  - intros [|[|j]] y; cbn; try discriminate. intros [= <-]. destruct x; cbn; [lra|tauto].
  - intros; lia.
Qed.

(** * Tolerance *)
Definition ascending (a : list Q) : Prop := forall i j, (i < j < length a)%nat -> (qnth a i < qnth a j)%Q.
Definition nondescending (a : list Q) : Prop := forall i j, (i <= j < length a)%nat -> (qnth a i <= qnth a j)%Q.

Lemma ascending_nondesc a : ascending a -> nondescending a.
Proof.
  intros H i j Hij. destruct (Nat.eq_dec i j) as [->|]; [lra|]. apply Qlt_le_weak, H. lia.
Qed.
Lemma nondesc_tl x a : nondescending (x :: a) -> nondescending a.
Proof. intros H i j Hij. apply (H (S i) (S j)). cbn. lia. Qed.
Lemma diffs_nonneg a : nondescending a -> forall d, In d (diffs a) -> (0 <= d)%Q.
Proof.
  induction a as [|x [|y r] IH]; intros H d Hd; cbn in Hd; try contradiction.
  destruct Hd as [<-|Hd].
  - pose proof (H 0%nat 1%nat ltac:(cbn; lia)) as Hxy. unfold qnth in Hxy. cbn in Hxy. lra.
  - apply (IH (nondesc_tl _ _ H) d Hd).
Qed.
Lemma fold_qmin_nonneg ds : forall d, (0 <= d)%Q -> (forall x, In x ds -> (0 <= x)%Q) -> (0 <= fold_left qmin ds d)%Q.
Proof.
  induction ds as [|x ds IH]; intros d Hd Hds; [exact Hd|]. cbn [fold_left]. apply IH.
  - unfold qmin. destruct (Qle_bool d x); [exact Hd|apply Hds; now left].
  - intros y Hy. apply Hds. now right.
Qed.
Lemma tol_nonneg a : nondescending a -> (0 <= tol a)%Q.
Proof.
  intros H. unfold tol. pose proof (diffs_nonneg a H) as Hd. destruct (diffs a) as [|d ds]; [lra|].
  assert (0 <= fold_left qmin ds d)%Q.
  { apply fold_qmin_nonneg; [apply Hd; now left|intros x Hx; apply Hd; now right]. }
  lra.
Qed.

(** * Masked lookups in a sorted array *)
Lemma nth_error_map_q (f : Q -> option Q) a i : (i < length a)%nat ->
  nth_error (map f a) i = Some (f (qnth a i)).
Proof.
  intros Hi. rewrite nth_error_map. unfold qnth. rewrite (nth_error_nth' a 0%Q Hi). reflexivity.
Qed.

(* lra after replacing every g x by x - t *)
Ltac glra := match goal with
  | Hg : (forall x, ?g x == x - ?t)%Q |- _ =>
      repeat match goal with
      | H : context [g ?y] |- _ => lazymatch goal with
          | K : (g y == y - t)%Q |- _ => fail
          | _ => pose proof (Hg y) end
      | |- context [g ?y] => lazymatch goal with
          | K : (g y == y - t)%Q |- _ => fail
          | _ => pose proof (Hg y) end
      end; lra
  end.

(** first index whose value is at least t *)
Lemma argmin_first a t g : (forall x, g x == x - t)%Q -> nondescending a -> a <> [] ->
  let m := map (fun x => masked_less (g x)) a in
  (all_masked m = true -> forall i, (i < length a)%nat -> (qnth a i < t)%Q) /\
  (all_masked m = false ->
     (argmin m < length a)%nat /\
     forall i, (i < length a)%nat -> ((argmin m <= i)%nat <-> (t <= qnth a i)%Q)).
Proof.
  intros Hg Hs Hne m.
  assert (Hm : forall i, (i < length a)%nat -> nth_error m i = Some (masked_less (g (qnth a i)))).
  { intros i Hi. apply (nth_error_map_q (fun x => masked_less (g x))). exact Hi. }
  assert (Hlen : length m = length a) by apply map_length.
  split.
  - intros Hall i Hi. unfold all_masked in Hall. rewrite forallb_forall in Hall.
    specialize (Hall _ (nth_error_In _ _ (Hm i Hi))). unfold masked_less in Hall.
    destruct (Qle_bool 0 (g (qnth a i))) eqn:E; [discriminate|]. apply Qle_bool_false in E. glra.
  - intros Hnot.
    assert (Hex : exists i, (i < length a)%nat /\ (t <= qnth a i)%Q).
    { unfold all_masked in Hnot. assert (Hex : exists o, In o m /\ o <> None).
      { clear - Hnot. induction m as [|[q|] m IH]; cbn in Hnot; [discriminate| |].
        - exists (Some q). split; [now left|discriminate].
        - destruct (IH Hnot) as (o & H1 & H2). exists o. split; [now right|exact H2]. }
      destruct Hex as (o & Ho & Hn). apply In_nth_error in Ho. destruct Ho as (i & Hi).
      assert (i < length a)%nat by (rewrite <- Hlen; apply nth_error_Some; congruence).
      exists i. split; [assumption|]. rewrite Hm in Hi by assumption. unfold masked_less in Hi.
      destruct (Qle_bool 0 (g (qnth a i))) eqn:E; [|congruence]. apply Qle_bool_iff in E. glra. }
    destruct Hex as (i0 & Hi0 & Ht0).
    assert (Hmne : m <> []) by (unfold m; destruct a; [congruence|discriminate]).
    destruct (argmin_spec m Hmne) as (v & H1 & H2 & H3).
    assert (Hlt : (argmin m < length a)%nat) by (rewrite <- Hlen; apply nth_error_Some; congruence).
    split; [exact Hlt|].
    rewrite Hm in H1 by exact Hlt. injection H1 as Ev.
    (* the minimum is unmasked *)
    assert (Hun : (t <= qnth a (argmin m))%Q).
    { specialize (H2 i0 _ (Hm i0 Hi0)). unfold masked_less in *.
      destruct (Qle_bool 0 (g (qnth a i0))) eqn:E0; [|apply Qle_bool_false in E0; glra].
      subst v. destruct (Qle_bool 0 (g (qnth a (argmin m)))) eqn:E1; [apply Qle_bool_iff in E1; glra|].
      cbn in H2. tauto. }
    intros i Hi. split.
    + intros Hle. pose proof (Hs (argmin m) i ltac:(lia)). glra.
    + intros Hti. destruct (le_lt_dec (argmin m) i) as [|Hlt']; [assumption|exfalso].
      specialize (H3 i _ Hlt' (Hm i Hi)). subst v.
      pose proof (Hs i (argmin m) ltac:(lia)) as Hmon.
      unfold masked_less, qabs in H3. qcases; cbn in H3; glra.
Qed.

(** last index whose value is at most t (needs strictly ascending values) *)
Lemma argmin_last a t g : (forall x, g x == x - t)%Q -> ascending a -> a <> [] ->
  let m := map (fun x => masked_greater (g x)) a in
  (all_masked m = true -> forall i, (i < length a)%nat -> (t < qnth a i)%Q) /\
  ((exists i, (i < length a)%nat /\ (qnth a i <= t)%Q) ->
     all_masked m = false /\ (argmin m < length a)%nat /\
     forall i, (i < length a)%nat -> ((i <= argmin m)%nat <-> (qnth a i <= t)%Q)).
Proof.
  intros Hg Hs Hne m.
  assert (Hm : forall i, (i < length a)%nat -> nth_error m i = Some (masked_greater (g (qnth a i)))).
  { intros i Hi. apply (nth_error_map_q (fun x => masked_greater (g x))). exact Hi. }
  assert (Hlen : length m = length a) by apply map_length.
  split.
  - intros Hall i Hi. unfold all_masked in Hall. rewrite forallb_forall in Hall.
    specialize (Hall _ (nth_error_In _ _ (Hm i Hi))). unfold masked_greater in Hall.
    destruct (Qle_bool (g (qnth a i)) 0) eqn:E; [discriminate|]. apply Qle_bool_false in E. glra.
  - intros (i0 & Hi0 & Ht0).
    assert (Hmne : m <> []) by (unfold m; destruct a; [congruence|discriminate]).
    destruct (argmin_spec m Hmne) as (v & H1 & H2 & H3).
    assert (Hlt : (argmin m < length a)%nat) by (rewrite <- Hlen; apply nth_error_Some; congruence).
    rewrite Hm in H1 by exact Hlt. injection H1 as Ev.
    assert (Hun : (qnth a (argmin m) <= t)%Q).
    { specialize (H2 i0 _ (Hm i0 Hi0)). unfold masked_greater in *.
      destruct (Qle_bool (g (qnth a i0)) 0) eqn:E0; [|apply Qle_bool_false in E0; glra].
      subst v. destruct (Qle_bool (g (qnth a (argmin m))) 0) eqn:E1; [apply Qle_bool_iff in E1; glra|].
      cbn in H2. tauto. }
    split.
    { destruct (all_masked m) eqn:E; [|reflexivity]. exfalso. unfold all_masked in E. rewrite forallb_forall in E.
      specialize (E _ (nth_error_In _ _ (Hm i0 Hi0))). unfold masked_greater in E.
      destruct (Qle_bool (g (qnth a i0)) 0) eqn:E0; [discriminate|]. apply Qle_bool_false in E0. glra. }
    split; [exact Hlt|].
    intros i Hi. split.
    + intros Hle. pose proof (ascending_nondesc a Hs i (argmin m) ltac:(lia)). glra.
    + intros Hti. destruct (le_lt_dec i (argmin m)) as [|Hlt']; [assumption|exfalso].
      specialize (H2 i _ (Hm i Hi)). subst v.
      pose proof (Hs (argmin m) i ltac:(lia)) as Hmon. apply H2.
      unfold masked_greater, qabs. qcases; cbn; glra.
Qed.


(** * Bounds *)
Notation zlen a := (Z.of_nat (length a)).

Lemma start_fwd a v ustep : 0 < ustep -> ascending a -> a <> [] ->
  exists lo, start_index a (BVal v) ustep = Some (Some (Z.of_nat lo)) /\ (lo <= length a)%nat /\
    forall i, (i < length a)%nat -> ((lo <= i)%nat <-> (v - tol a <= qnth a i)%Q).
Proof.
  intros Hst Ha Hne. unfold start_index. replace (0 <? ustep) with true by lia.
  rewrite map_map.
  assert (Hsgn : Z.sgn ustep = 1) by lia. rewrite Hsgn.
  destruct (argmin_first a (v - tol a) (fun x => (x - v + tol a * inject_Z 1)%Q)
              ltac:(intros x; unfold inject_Z; lra) (ascending_nondesc a Ha) Hne) as [H1 H2].
  destruct (all_masked _) eqn:E.
  - exists (length a). split; [reflexivity|]. split; [lia|]. intros i Hi. specialize (H1 eq_refl i Hi).
    split; intros; [lia|lra].
  - destruct (H2 eq_refl) as [H3 H4]. eexists. split; [reflexivity|]. split; [lia|]. exact H4.
Qed.

Lemma stop_fwd a v ustep endp : 0 < ustep -> ascending a -> a <> [] ->
  ((v < qnth a 0)%Q /\ stop_index a (BVal v) ustep endp = Some 0) \/
  ((qnth a 0 <= v)%Q /\ exists j, (j < length a)%nat /\
     stop_index a (BVal v) ustep endp = Some (if endp then Z.of_nat j + 1 else Z.of_nat j) /\
     forall i, (i < length a)%nat -> ((i <= j)%nat <-> (qnth a i <= v + tol a)%Q)).
Proof.
  intros Hst Ha Hne. unfold stop_index. replace (0 <? ustep) with true by lia.
  rewrite map_map.
  assert (Hsgn : Z.sgn ustep = 1) by lia. rewrite Hsgn.
  destruct (Qle_bool (qnth a 0) v) eqn:E; cbn [negb].
  - right. apply Qle_bool_iff in E. split; [exact E|].
    destruct (argmin_last a (v + tol a) (fun x => (x - v - tol a * inject_Z 1)%Q)
              ltac:(intros x; unfold inject_Z; lra) Ha Hne) as [_ H2].
    pose proof (tol_nonneg a (ascending_nondesc a Ha)) as Ht.
    destruct H2 as (H2 & H3 & H4).
    { exists 0%nat. split; [destruct a; [congruence|cbn; lia]|lra]. }
    eexists. split; [exact H3|]. split; [reflexivity|]. exact H4.
  - left. apply Qle_bool_false in E. auto.
Qed.

Lemma start_rev a v ustep : ustep < 0 -> ascending a -> a <> [] ->
  (start_index a (BVal v) ustep = None /\ forall i, (i < length a)%nat -> (v + tol a < qnth a i)%Q) \/
  exists j, start_index a (BVal v) ustep = Some (Some (Z.of_nat j)) /\ (j < length a)%nat /\
    forall i, (i < length a)%nat -> ((i <= j)%nat <-> (qnth a i <= v + tol a)%Q).
Proof.
  intros Hst Ha Hne. unfold start_index. replace (0 <? ustep) with false by lia.
  rewrite map_map.
  assert (Hsgn : Z.sgn ustep = -1) by lia. rewrite Hsgn.
  destruct (argmin_last a (v + tol a) (fun x => (x - v + tol a * inject_Z (-1))%Q)
              ltac:(intros x; unfold inject_Z; lra) Ha Hne) as [H1 H2].
  destruct (all_masked _) eqn:E.
  - left. split; [reflexivity|]. exact (H1 eq_refl).
  - right.
    assert (Hex : exists i, (i < length a)%nat /\ (qnth a i <= v + tol a)%Q).
    { clear H1 H2. unfold all_masked in E.
      assert (Hex : exists x, In x a /\ (x <= v + tol a)%Q).
      { revert E. generalize (tol a) as t. intros t. clear. induction a as [|x a IH]; cbn [map forallb]; [discriminate|].
        unfold masked_greater at 1. destruct (Qle_bool (x - v + t * inject_Z (-1)) 0) eqn:Ex.
        - intros _. exists x. split; [now left|]. apply Qle_bool_iff in Ex. unfold inject_Z in Ex. lra.
        - cbn [andb]. intros H. destruct (IH H) as (y & Hy & Hy'). exists y. split; [now right|exact Hy']. }
      destruct Hex as (x & Hx & Hle). apply (In_nth a x 0%Q) in Hx. destruct Hx as (i & Hi & <-).
      exists i. split; [exact Hi|exact Hle]. }
    destruct (H2 Hex) as (_ & H3 & H4). eexists. split; [reflexivity|]. split; [exact H3|exact H4].
Qed.

Lemma stop_rev a v ustep endp : ustep < 0 -> ascending a -> a <> [] ->
  ((qnth a (length a - 1) < v)%Q /\ stop_index a (BVal v) ustep endp = Some (zlen a)) \/
  ((v <= qnth a (length a - 1))%Q /\ exists j, (j < length a)%nat /\
     stop_index a (BVal v) ustep endp =
       (if endp then (if 0 <? Z.of_nat j then Some (Z.of_nat j - 1) else None) else Some (Z.of_nat j)) /\
     forall i, (i < length a)%nat -> ((j <= i)%nat <-> (v - tol a <= qnth a i)%Q)).
Proof.
  intros Hst Ha Hne. unfold stop_index. replace (0 <? ustep) with false by lia.
  rewrite map_map.
  assert (Hsgn : Z.sgn ustep = -1) by lia. rewrite Hsgn.
  destruct (Qle_bool v (qnth a (length a - 1))) eqn:E; cbn [negb].
  - right. apply Qle_bool_iff in E. split; [exact E|].
    destruct (argmin_first a (v - tol a) (fun x => (x - v - tol a * inject_Z (-1))%Q)
              ltac:(intros x; unfold inject_Z; lra) (ascending_nondesc a Ha) Hne) as [H1 H2].
    pose proof (tol_nonneg a (ascending_nondesc a Ha)) as Ht.
    assert (Hl : (length a - 1 < length a)%nat) by (destruct a; [congruence|cbn; lia]).
    destruct (all_masked _) eqn:Em.
    { specialize (H1 eq_refl _ Hl). lra. }
    destruct (H2 eq_refl) as [H3 H4]. eexists. split; [exact H3|]. split; [reflexivity|]. exact H4.
  - left. apply Qle_bool_false in E. auto.
Qed.

(** the tolerance is a ten-thousandth of the smallest spacing *)
Lemma fold_qmin_le ds : forall d, (fold_left qmin ds d <= d)%Q /\ forall x, In x ds -> (fold_left qmin ds d <= x)%Q.
Proof.
  induction ds as [|y ds IH]; intros d; cbn [fold_left]; [split; [lra|contradiction]|].
  destruct (IH (qmin d y)) as [H1 H2].
  assert (Hm : (fold_left qmin ds (qmin d y) <= d)%Q /\ (fold_left qmin ds (qmin d y) <= y)%Q).
  { assert (Hq : (qmin d y <= d /\ qmin d y <= y)%Q); [|lra]. unfold qmin. destruct (Qle_bool d y) eqn:E; [apply Qle_bool_iff in E|apply Qle_bool_false in E]; split; lra. }
  split; [apply Hm|]. intros x [<-|Hx]; [apply Hm|exact (H2 x Hx)].
Qed.
Lemma diffs_In a : forall i, (S i < length a)%nat -> In (qnth a (S i) - qnth a i)%Q (diffs a).
Proof.
  induction a as [|x [|y r] IH]; intros i Hi; cbn in Hi; try lia.
  destruct i as [|i]; [left; reflexivity|]. right. apply (IH i). cbn. lia.
Qed.
Lemma tol_small a i : (S i < length a)%nat -> ((10000 # 1) * tol a <= qnth a (S i) - qnth a i)%Q.
Proof.
  intros Hi. pose proof (diffs_In a i Hi) as Hin. unfold tol. destruct (diffs a) as [|d ds]; [contradiction|].
  destruct (fold_qmin_le ds d) as [H1 H2].
  assert (fold_left qmin ds d <= qnth a (S i) - qnth a i)%Q by (destruct Hin as [<-|Hin]; [exact H1|exact (H2 _ Hin)]).
  lra.
Qed.
