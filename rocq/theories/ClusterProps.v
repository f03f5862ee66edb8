(** C17: find_clusters returns one average per connected component. *)
From Verif Require Import ClusterProofs.
From Coq Require Import ZifyBool ZifyNat Lqa.
Open Scope Z_scope.

(** The i-th input point and its coordinates. *)
Definition pt_of (inds : list (Z * Z)) (i : nat) : Z * Z := nth i inds (0, 0).
Definition x_of (xs : list Q) (inds : list (Z * Z)) (i : nat) : Q := nth (Z.to_nat (fst (pt_of inds i))) xs 0%Q.
Definition y_of (ys : list Q) (inds : list (Z * Z)) (i : nat) : Q := nth (Z.to_nat (snd (pt_of inds i))) ys 0%Q.

(** The arithmetic mean. *)
Fixpoint total (l : list Q) : Q := match l with [] => 0 | a :: l => a + total l end%Q.
Definition mean (l : list Q) : Q := (total l / inject_Z (Z.of_nat (length l)))%Q.

(** Every index pair points into the coordinate arrays. *)
Definition in_grid (xs ys : list Q) (inds : list (Z * Z)) : Prop :=
  forall p, In p inds -> 0 <= fst p < Z.of_nat (length xs) /\ 0 <= snd p < Z.of_nat (length ys).

(** The groups of [comps] are the classes of [rel] on 0 .. n-1. *)
Definition classes_of (rel : nat -> nat -> Prop) (n : nat) (comps : list (list nat)) : Prop :=
  Permutation (concat comps) (seq 0 n) /\ (forall c, In c comps -> c <> []) /\
  forall i j, (i < n)%nat -> (j < n)%nat ->
    ((exists c, In c comps /\ In i c /\ In j c) <-> rel i j).

Lemma map_pt_of inds : map (pt_of inds) (seq 0 (length inds)) = inds.
Proof.
  unfold pt_of. induction inds as [|p inds IH]; [reflexivity|]. cbn [length seq map nth]. f_equal.
  rewrite <- seq_shift, map_map. exact IH.
Qed.

Lemma crd_in xs i : 0 <= i < Z.of_nat (length xs) -> crd xs i = Some (nth (Z.to_nat i) xs 0%Q).
Proof.
  intros H. unfold crd. replace (0 <=? i) with true by lia. apply nth_error_nth'. lia.
Qed.

Lemma in_grid_crd xs ys inds i : in_grid xs ys inds -> (i < length inds)%nat ->
  crd xs (fst (pt_of inds i)) = Some (x_of xs inds i) /\ crd ys (snd (pt_of inds i)) = Some (y_of ys inds i).
Proof.
  intros H Hi. destruct (H (pt_of inds i)) as [A B]; [apply nth_In; exact Hi|].
  split; apply crd_in; assumption.
Qed.

Lemma avg_total l : avg l = mean l.
Proof. reflexivity. Qed.

Lemma total_eq l m : Forall2 Qeq l m -> (total l == total m)%Q.
Proof. induction 1; cbn; [reflexivity|]. rewrite H, IHForall2. reflexivity. Qed.

Lemma mean_eq l m : Forall2 Qeq l m -> (mean l == mean m)%Q.
Proof.
  intros H. unfold mean. rewrite (total_eq _ _ H). replace (length m) with (length l); [reflexivity|].
  induction H; cbn; congruence.
Qed.

Lemma unwrap_zero xs v : ~ (hd 0 xs == last xs 0)%Q -> exists r, unwrap 0 xs v = Some r /\ (r == v)%Q.
Proof.
  intros H. unfold unwrap. destruct (Qeq_bool _ _) eqn:E.
  - apply Qeq_bool_iff in E. exfalso. apply H. lra.
  - eexists. split; [reflexivity|]. ring.
Qed.

Lemma same_trans n cls i j :
  partitioned n cls ->
  (exists c, In c cls /\ In i (c_mem c) /\ In j (c_mem c)) -> forall k,
  (exists c, In c cls /\ In j (c_mem c) /\ In k (c_mem c)) ->
  (exists c, In c cls /\ In i (c_mem c) /\ In k (c_mem c)).
Proof.
  intros Pt (c & Hc & Hi & Hj) k (c' & Hc' & Hj' & Hk).
  assert (Nd : NoDup (concat (map c_mem cls))).
  { eapply Permutation_NoDup; [apply Permutation_sym; exact Pt|]. apply seq_NoDup. }
  assert (G : forall l, NoDup (concat (map c_mem l)) -> forall a b, In a l -> In b l ->
              In j (c_mem a) -> In j (c_mem b) -> a = b).
  { clear. induction l as [|x l IH]; intros Nd a b Ha Hb Hja Hjb; [destruct Ha|].
    cbn [map concat] in Nd.
    assert (D : In j (c_mem x) -> forall y, In y l -> In j (c_mem y) -> False).
    { intros Hx y Hy Hjy. assert (In j (concat (map c_mem l))).
      { apply in_concat. exists (c_mem y). split; [now apply in_map|exact Hjy]. }
      revert Nd Hx H. generalize (c_mem x), (concat (map c_mem l)). clear. intros u v Nd Hu Hv.
      induction u as [|z u IH]; [destruct Hu|]. cbn in Nd. apply NoDup_cons_iff in Nd. destruct Nd as [N1 N2].
      destruct Hu as [-> |Hu]; [|auto]. apply N1, in_or_app. now right. }
    assert (Nd' : NoDup (concat (map c_mem l))).
    { clear -Nd. induction (c_mem x); auto. cbn in Nd. apply NoDup_cons_iff in Nd. apply IHl0, Nd. }
    destruct Ha as [<-|Ha], Hb as [<-|Hb]; auto.
    - destruct (D Hja b Hb Hjb).
    - destruct (D Hjb a Ha Hja). }
  rewrite (G cls Nd c c' Hc Hc' Hj Hj') in *. exists c'. auto.
Qed.

Lemma linked_imp (R S : Z * Z -> Z * Z -> Prop) pts m i j : (forall p q, R p q -> S p q) ->
  linked R pts m i j -> linked S pts m i j.
Proof.
  intros H. induction 1; [apply rt_step; intuition|apply rt_refl|eapply rt_trans; eauto].
Qed.

Lemma concat_map_in n cls i : partitioned n cls -> (i < n)%nat -> exists c, In c cls /\ In i (c_mem c).
Proof.
  intros Pt Hi. assert (In i (concat (map c_mem cls))) as Ii.
  { eapply Permutation_in; [apply Permutation_sym; exact Pt|]. apply in_seq. lia. }
  apply in_concat in Ii. destruct Ii as (l & Hl & Ii). apply in_map_iff in Hl. destruct Hl as (c & <- & Hc).
  eauto.
Qed.

(** C17: on a grid that does not repeat, for every list of index pairs in any
    order, with or without repetitions, find_clusters returns the mean position
    of each connected component of the points, one per component. *)
Theorem find_clusters_averages_connected_components :
  forall diagonals xs ys inds,
    in_grid xs ys inds -> ~ (hd 0 xs == last xs 0)%Q -> ~ (hd 0 ys == last ys 0)%Q ->
    exists comps res,
      find_clusters diagonals PNo PNo xs ys inds = Some res /\
      classes_of (linked (adj diagonals) (pt_of inds) (length inds)) (length inds) comps /\
      Forall2 (fun c r => exists vx vy, r = (Some vx, Some vy) /\
                 (vx == mean (map (x_of xs inds) c))%Q /\ (vy == mean (map (y_of ys inds) c))%Q) comps res.
Proof.
  intros dg xs ys inds Hg Hx Hy.
  destruct (loop_inv dg [] (0, 0) (0, 0)%Q xs ys (pt_of inds)) with (n := length inds) (m := 0%nat) (cls := @nil cluster)
    as (cls & E & G & P & S & C).
  - constructor.
  - constructor.
  - apply Permutation_refl.
  - intros c i j [].
  - intros i Hi. destruct (in_grid_crd xs ys inds i Hg) as [A B]; [lia|]. eauto.
  - rewrite map_pt_of in E. cbn [Nat.add] in *.
    exists (map c_mem cls). eexists. split; [|split].
    + unfold find_clusters, pdN, pdL, alts. cbn [is_per andb app]. rewrite E. reflexivity.
    + split; [exact P|]. split.
      * intros c Hc. apply in_map_iff in Hc. destruct Hc as (k & <- & Hk). rewrite Forall_forall in G.
        apply (G k Hk).
      * assert (C' : complete dg (pt_of inds) (length inds) cls).
        { apply C; [reflexivity|]. intros a b Ha. lia. }
        intros i j Hi Hj. split.
        -- intros (c & Hc & Ii & Ij). apply in_map_iff in Hc. destruct Hc as (k & <- & Hk).
           apply linked_imp with (R := padj dg (0, 0)); [|eapply S; eauto].
           intros p [q1 q2] (a & b & A). cbn [fst snd] in A. rewrite !Z.mul_0_r, !Z.add_0_r in A. exact A.
        -- intros Lk.
           enough (exists c, In c cls /\ In i (c_mem c) /\ In j (c_mem c)) as (c & Hc & Ii & Ij).
           { exists (c_mem c). split; [now apply in_map|auto]. }
           clear Hj. apply clos_rt_rt1n in Lk. induction Lk as [i|i k j (Hik & Hk & A) Lk IH].
           { destruct (concat_map_in _ _ _ P Hi) as (c & Hc & Ic). eauto. }
           eapply same_trans; [exact P| |apply IH; exact Hk]. apply C'; assumption.
    + rewrite Forall_forall in G.
      assert (Gen : forall l, (forall c, In c l -> In c cls) ->
        Forall2 (fun c r => exists vx vy, r = (Some vx, Some vy) /\
                 (vx == mean (map (x_of xs inds) c))%Q /\ (vy == mean (map (y_of ys inds) c))%Q)
          (map c_mem l)
          (map (fun c => (unwrap 0 xs (avg (map fst (c_xy c))), unwrap 0 ys (avg (map snd (c_xy c))))) l)).
      { induction l as [|c l IH]; intros Hl; cbn [map]; [constructor|]. constructor.
        - destruct (G c (Hl c (or_introl eq_refl))) as (_ & _ & F).
          destruct (unwrap_zero xs (avg (map fst (c_xy c))) Hx) as (vx & Ex & Evx).
          destruct (unwrap_zero ys (avg (map snd (c_xy c))) Hy) as (vy & Ey & Evy).
          rewrite Ex, Ey. exists vx, vy. split; [reflexivity|].
          rewrite Evx, Evy, !avg_total.
          assert (Hin : forall i, In i (c_mem c) -> (i < length inds)%nat).
          { intros i Ii. assert (In i (concat (map c_mem cls))).
            { apply in_concat. exists (c_mem c). split; [apply in_map, Hl; now left|exact Ii]. }
            eapply Permutation_in in H; [|exact P]. apply in_seq in H. lia. }
          split; apply mean_eq; clear -F Hin Hg.
          + induction F as [|i q m l (x & y & a & b & C1 & C2 & C3 & C4) F IH]; cbn [map]; constructor.
            * destruct (in_grid_crd xs ys inds i Hg) as [A B]; [apply Hin; now left|].
              rewrite C1 in A. injection A as ->. rewrite C3. cbn [fst]. ring.
            * apply IH. intros k Hk. apply Hin. now right.
          + induction F as [|i q m l (x & y & a & b & C1 & C2 & C3 & C4) F IH]; cbn [map]; constructor.
            * destruct (in_grid_crd xs ys inds i Hg) as [A B]; [apply Hin; now left|].
              rewrite C2 in B. injection B as ->. rewrite C4. cbn [snd]. ring.
            * apply IH. intros k Hk. apply Hin. now right.
        - apply IH. intros c' Hc'. apply Hl. now right. }
      apply Gen. auto.
Qed.
Print Assumptions find_clusters_averages_connected_components.

(** Two arms joined late by the fifth point, and one isolated point. *)
Example find_clusters_nonvacuous :
  let xs := map inject_Z [0; 1; 2; 3; 4; 5] in
  let inds := [(0, 0); (0, 1); (2, 0); (2, 1); (1, 1); (5, 5)] in
  in_grid xs xs inds /\ ~ (hd 0 xs == last xs 0)%Q /\
  option_map (map (fun '(a, b) => (option_map Qred a, option_map Qred b)))
    (find_clusters false PNo PNo xs xs inds)
  = Some [(Some 1, Some (3 # 5)); (Some 5, Some 5)]%Q.
Proof.
  cbv zeta. split; [|split; [intro H; vm_compute in H; discriminate|vm_compute; reflexivity]].
  intros p Hp. cbn [map length]. cbn [In] in Hp.
  repeat (destruct Hp as [<-|Hp]; [cbn; lia|]). destruct Hp.
Qed.

(** C17 on a periodic grid, the half that holds: two points are only put in one
    cluster if a chain of points adjacent across the periodic boundaries links
    them, and the clusters partition the points. *)
Theorem find_clusters_periodic_only_links_linked_points_partial :
  forall diagonals p0 p1 xs ys inds,
    in_grid xs ys inds ->
    exists comps res,
      find_clusters diagonals p0 p1 xs ys inds = Some res /\ length res = length comps /\
      Permutation (concat comps) (seq 0 (length inds)) /\ (forall c, In c comps -> c <> []) /\
      forall c i j, In c comps -> In i c -> In j c ->
        linked (padj diagonals (pdN p0 xs, pdN p1 ys)) (pt_of inds) (length inds) i j.
Proof.
  intros dg p0 p1 xs ys inds Hg.
  destruct (loop_inv dg (alts p0 p1 (pdN p0 xs) (pdN p1 ys)) (pdN p0 xs, pdN p1 ys) (pdL p0 xs, pdL p1 ys) xs ys
              (pt_of inds)) with (n := length inds) (m := 0%nat) (cls := @nil cluster)
    as (cls & E & G & P & S & C).
  - apply alts_multiples.
  - constructor.
  - apply Permutation_refl.
  - intros c i j [].
  - intros i Hi. destruct (in_grid_crd xs ys inds i Hg) as [A B]; [lia|]. eauto.
  - rewrite map_pt_of in E. cbn [Nat.add] in *.
    exists (map c_mem cls). eexists. split; [|split; [|split; [exact P|split]]].
    + unfold find_clusters. cbv zeta. rewrite E. reflexivity.
    + rewrite !map_length. reflexivity.
    + intros c Hc. apply in_map_iff in Hc. destruct Hc as (k & <- & Hk). rewrite Forall_forall in G. apply (G k Hk).
    + intros c i j Hc Ii Ij. apply in_map_iff in Hc. destruct Hc as (k & <- & Hk). eapply S; eauto.
Qed.
Print Assumptions find_clusters_periodic_only_links_linked_points_partial.

(** C17 on a grid periodic in both directions fails: two points that are diagonal
    neighbours across the corner (first column, last row) / (last column, first
    row) are reported as two clusters. *)
Theorem find_clusters_mixed_corner_refuted :
  let xs := map inject_Z [0; 1; 2; 3; 4] in
  let inds := [(0, 4); (4, 0)] in
  linked (padj true (pdN PPlus xs, pdN PPlus xs)) (pt_of inds) 2 0 1 /\
  exists a b, find_clusters true PPlus PPlus xs xs inds = Some [a; b].
Proof.
  cbv zeta. split.
  - apply rt_step. split; [lia|]. split; [lia|]. exists (-1), 1. vm_compute. split; discriminate.
  - eexists _, _. vm_compute. reflexivity.
Qed.
Print Assumptions find_clusters_mixed_corner_refuted.

(** C17 with one periodic direction fails: a chain winding around more than
    twice is split, because only wraps of one period are tried. *)
Theorem find_clusters_winding_chain_refuted :
  let xs := map inject_Z [0; 1; 2] in let ys := map inject_Z [0; 1; 2; 3; 4; 5; 6] in
  let inds := [(0, 0); (1, 1); (2, 2); (0, 3); (1, 4); (2, 5); (0, 6)] in
  (forall i, (i < 6)%nat -> padj true (pdN PPlus xs, pdN PNo ys) (pt_of inds i) (pt_of inds (S i))) /\
  exists a b, find_clusters true PPlus PNo xs ys inds = Some [a; b].
Proof.
  cbv zeta. split.
  - intros i Hi. destruct i as [|[|[|[|[|[|i]]]]]]; [| | | | | |lia].
    1,2,4,5: exists 0, 0; vm_compute; split; discriminate.
    1,2: exists 1, 0; vm_compute; split; discriminate.
  - eexists _, _. vm_compute. reflexivity.
Qed.
Print Assumptions find_clusters_winding_chain_refuted.

(** C17, multiple=False fails: only the first two points are used, and each of
    them along one axis only. *)
Theorem find_clusters_single_refuted :
  let xs := map inject_Z [0; 1; 2; 3] in let inds := [(0, 1); (2, 3); (3, 3)] in
  exists v, find_one_cluster xs xs inds = Some v /\
    (fst v == 1 # 2)%Q /\ (snd v == 5 # 2)%Q /\
    (mean (map (x_of xs inds) [0; 1; 2]%nat) == 5 # 3)%Q /\ (mean (map (y_of xs inds) [0; 1; 2]%nat) == 7 # 3)%Q.
Proof. cbv zeta. eexists. split; [reflexivity|]. vm_compute. auto. Qed.
Print Assumptions find_clusters_single_refuted.

(** C17 on an axis with one grid point fails: the average is NaN. *)
Theorem find_clusters_one_point_axis_refuted :
  forall x ys, ~ (hd 0 ys == last ys 0)%Q -> (0 < length ys)%nat ->
    exists vy, find_clusters true PNo PNo [x] ys [(0, 0)] = Some [(None, Some vy)].
Proof.
  intros x ys Hy Hl. unfold find_clusters. cbn [pdN pdL is_per andb alts app cluster_loop].
  destruct ys as [|y ys]; [cbn in Hl; lia|].
  unfold cluster_step. cbn [map all_some crd fst snd Z.leb Z.compare Z.to_nat nth_error flatnonzero c_xy].
  cbn [map app c_xy fst snd].
  destruct (unwrap_zero (y :: ys) (avg [y]) Hy) as (r & E & _). exists r. rewrite E. f_equal. f_equal. f_equal.
  unfold unwrap. cbn [hd last]. replace (Qeq_bool (x - x) 0) with true; [reflexivity|].
  symmetry. apply Qeq_bool_iff. ring.
Qed.
Print Assumptions find_clusters_one_point_axis_refuted.
