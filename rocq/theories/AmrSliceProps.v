(** C72: slicing an AMR field by value. *)
From Coq Require Import String.
From Verif Require Import AmrSliceModel SelProofs SelProps.
From Coq Require Import List Lia Lqa Qabs ZifyBool ZifyNat Sorted.
Import ListNotations.
Open Scope Z_scope.

(** ** what the user asks for: along each axis everything from [lo] to [hi] *)
Definition bnd (o : option Q) : sbound := match o with Some v => BVal v | None => BNone end.
Inductive asks : asel -> option Q * option Q -> Prop :=
| asks_val v : asks (AVal v) (Some v, Some v)
| asks_up lo hi step : 0 < step -> (forall l h, lo = Some l -> hi = Some h -> l <= h)%Q -> asks (ASlice (bnd lo) (bnd hi) step) (lo, hi)
| asks_down lo hi step : step < 0 -> (forall l h, lo = Some l -> hi = Some h -> l < h)%Q -> asks (ASlice (bnd hi) (bnd lo) step) (lo, hi).

(** the axes along which no patch extends *)
Definition flat (ps : list patch) (d : nat) : Prop := forall p, In p ps -> (qnth (p_xl p) d == qnth (p_xh p) d)%Q.
(** the patch and the region have a place in common, up to [atol] at the lower end of the patch *)
Definition meets (atol : Q) (ps : list patch) (reg : list (option Q * option Q)) (p : patch) : Prop :=
  forall d lo hi, nth_error reg d = Some (lo, hi) -> flat ps d \/
    ((forall h, hi = Some h -> qnth (p_xl p) d - atol <= h)%Q /\ (forall l, lo = Some l -> l < qnth (p_xh p) d)%Q).
(** the upper end of a patch is near the lower end of the region *)
Definition near (atol : Q) (reg : list (option Q * option Q)) (p : patch) : Prop :=
  exists d l hi, nth_error reg d = Some (Some l, hi) /\ (Qabs (qnth (p_xh p) d - l) <= atol + (1 # 100000) * Qabs l)%Q.
(** a place is in the patch, or in the region *)
Definition in_patch (ps : list patch) (p : patch) (x : list Q) : Prop :=
  forall d, (d < length x)%nat -> flat ps d \/ (qnth (p_xl p) d <= qnth x d < qnth (p_xh p) d)%Q.
Definition in_region (reg : list (option Q * option Q)) (x : list Q) : Prop :=
  length x = length reg /\ forall d lo hi, nth_error reg d = Some (lo, hi) ->
    (forall l, lo = Some l -> l <= qnth x d)%Q /\ (forall h, hi = Some h -> qnth x d <= h)%Q.

(** ** the extent *)
Definition elo (o : option Q) : ext := match o with Some v => Fin v | None => NInf end.
Definition ehi (o : option Q) : ext := match o with Some v => Fin v | None => PInf end.
Lemma qle_spec a b : Qle_bool a b = true <-> (a <= b)%Q.
Proof. apply Qle_bool_iff. Qed.
Lemma qlt_spec a b : Qle_bool a b = false <-> (b < a)%Q.
Proof.
  split.
  - intros H. destruct (Qlt_le_dec b a) as [|L]; [assumption|]. apply qle_spec in L. congruence.
  - intros H. destruct (Qle_bool a b) eqn:E; [|reflexivity]. apply qle_spec in E. lra.
Qed.
Lemma qabs_Qabs x : (qabs x == Qabs x)%Q.
Proof.
  unfold qabs. destruct (Qle_bool 0 x) eqn:E.
  - apply qle_spec in E. now rewrite Qabs_pos.
  - apply qlt_spec in E. rewrite Qabs_neg; [reflexivity|lra].
Qed.

Lemma asks_values s lo hi : asks s (lo, hi) -> let p := sel2values s in
  is_nan (fst p) || is_nan (snd p) = false /\ (if elt (snd p) (fst p) then (snd p, fst p) else p) = (elo lo, ehi hi).
Proof.
  intros H. inversion H as [v|lo' hi' step Hs Hl|lo' hi' step Hs Hl]; subst; cbn [sel2values fst snd].
  - cbn. split; [reflexivity|]. destruct (Qle_bool v v) eqn:E; [reflexivity|]. apply qlt_spec in E. lra.
  - assert (Es : 0 <? step = true) by lia. rewrite Es. destruct lo as [l|], hi as [h|]; cbn; try (split; reflexivity).
    split; [reflexivity|]. assert (E : Qle_bool l h = true) by (apply qle_spec; apply (Hl l h); reflexivity). rewrite E. reflexivity.
  - assert (Es : 0 <? step = false) by lia. assert (Es' : step <? 0 = true) by lia. rewrite Es, Es'.
    destruct lo as [l|], hi as [h|]; cbn; try (split; reflexivity).
    split; [reflexivity|]. assert (E : Qle_bool h l = false) by (apply qlt_spec; apply (Hl l h); reflexivity). rewrite E. reflexivity.
Qed.

Lemma asks_extent sels reg : Forall2 asks sels reg -> slice_extent sels = Some (map (fun r => (elo (fst r), ehi (snd r))) reg).
Proof.
  intros F. unfold slice_extent. cbv zeta.
  assert (E1 : existsb (fun p => is_nan (fst p) || is_nan (snd p)) (map sel2values sels) = false).
  { induction F as [|s [lo hi] sels reg H F IH]; [reflexivity|]. cbn [map existsb]. destruct (asks_values s lo hi H) as (-> & _). exact IH. }
  rewrite E1. f_equal. clear E1. induction F as [|s [lo hi] sels reg H F IH]; [reflexivity|]. cbn [map fst snd].
  destruct (asks_values s lo hi H) as (_ & E). cbn [fst snd] in E. rewrite E, IH. reflexivity.
Qed.

Lemma flat_spec ps d : dim_is_2d ps d = true <-> flat ps d.
Proof.
  unfold dim_is_2d, flat. rewrite forallb_forall. split; intros H p Hp; specialize (H p Hp).
  - now apply Qeq_bool_iff.
  - now apply Qeq_bool_iff.
Qed.

Lemma ex_nth (reg : list (option Q * option Q)) d lo hi : nth_error reg d = Some (lo, hi) ->
  nth d (map (fun r => (elo (fst r), ehi (snd r))) reg) (NInf, PInf) = (elo lo, ehi hi).
Proof.
  intros E. apply nth_error_nth. rewrite nth_error_map, E. reflexivity.
Qed.

Lemma overlaps_spec atol ps reg p : overlaps atol ps (map (fun r => (elo (fst r), ehi (snd r))) reg) p = true <-> meets atol ps reg p.
Proof.
  unfold overlaps, meets. rewrite forallb_forall, map_length.
  assert (One : forall d lo hi, nth_error reg d = Some (lo, hi) ->
    (let e := nth d (map (fun r => (elo (fst r), ehi (snd r))) reg) (NInf, PInf) in
     negb (elt (snd e) (esub (corner_l ps p d) atol)) && negb (ele (corner_h ps p d) (fst e)) = true) <->
    (flat ps d \/ ((forall h, hi = Some h -> qnth (p_xl p) d - atol <= h)%Q /\ (forall l, lo = Some l -> l < qnth (p_xh p) d)%Q))).
  { intros d lo hi E. cbv zeta. rewrite (ex_nth reg d lo hi E). cbn [fst snd]. unfold corner_l, corner_h.
    destruct (dim_is_2d ps d) eqn:Ef.
    - apply flat_spec in Ef. split; [auto|]. intros _. destruct lo, hi; reflexivity.
    - assert (Nf : ~ flat ps d) by (intros A; apply flat_spec in A; congruence). cbn [esub].
      rewrite andb_true_iff, !negb_true_iff. split.
      + intros [A B]. right. split.
        * intros h ->. cbn [ehi elt] in A. rewrite negb_false_iff in A. apply qle_spec in A. exact A.
        * intros l ->. cbn [elo ele] in B. now apply qlt_spec in B.
      + intros [A|[A B]]; [contradiction|]. split.
        * destruct hi as [h|]; [|reflexivity]. cbn [ehi elt]. rewrite negb_false_iff. apply qle_spec, A. reflexivity.
        * destruct lo as [l|]; [|reflexivity]. cbn [elo ele]. apply qlt_spec, B. reflexivity. }
  split.
  - intros H d lo hi E. apply (One d lo hi E), H. apply in_seq. assert (d < length reg)%nat by (apply nth_error_Some; congruence). lia.
  - intros H d Hd. apply in_seq in Hd. destruct (nth_error reg d) as [[lo hi]|] eqn:E.
    + apply (One d lo hi E), (H d lo hi E).
    + apply nth_error_None in E. lia.
Qed.

Lemma at_end_spec atol reg p : at_end atol (map (fun r => (elo (fst r), ehi (snd r))) reg) p = true <-> near atol reg p.
Proof.
  unfold at_end, near. rewrite existsb_exists, map_length. split.
  - intros (d & Hd & E). destruct (nth_error reg d) as [[lo hi]|] eqn:En.
    + rewrite (ex_nth reg d lo hi En) in E. cbn [fst] in E. destruct lo as [l|]; [|discriminate]. cbn [elo isclose] in E.
      apply qle_spec in E. exists d, l, hi. split; [exact En|]. rewrite !qabs_Qabs in E. exact E.
    + apply in_seq in Hd. apply nth_error_None in En. lia.
  - intros (d & l & hi & En & E). exists d. split.
    + apply in_seq. assert (d < length reg)%nat by (apply nth_error_Some; congruence). lia.
    + rewrite (ex_nth reg d _ hi En). cbn [fst elo isclose]. apply qle_spec. rewrite !qabs_Qabs. exact E.
Qed.

Lemma filter_sorted (f : nat -> bool) n k : StronglySorted lt (filter f (seq k n)).
Proof.
  revert k. induction n as [|n IH]; intros k; cbn [seq filter]; [constructor|]. destruct (f k); [|apply IH].
  constructor; [apply IH|]. rewrite Forall_forall. intros x Hx. apply filter_In in Hx. destruct Hx as [Hx _]. apply in_seq in Hx. lia.
Qed.
Lemma filter_sorted_gen (f : nat -> bool) l : StronglySorted lt l -> StronglySorted lt (filter f l).
Proof.
  induction 1 as [|x l S IH F]; cbn [filter]; [constructor|]. destruct (f x); [|exact IH]. constructor; [exact IH|].
  rewrite Forall_forall in *. intros y Hy. apply filter_In in Hy. apply F, Hy.
Qed.

(** if no patch ends near the beginning of the region, then the patches that are used are those which have a place in common
    with the region, each once and in their order; there is no such patch if the answer is none *)
Theorem C72_patches atol ps sels reg : ps <> [] -> Forall2 asks sels reg -> (forall p, In p ps -> ~ near atol reg p) ->
  exists l, pick_patches atol ps sels = (match l with [] => PNone | _ => PInds l end) /\ StronglySorted lt l /\
    forall i, In i l <-> exists p, nth_error ps i = Some p /\ meets atol ps reg p.
Proof.
  intros Hne F N. unfold pick_patches. destruct ps as [|p0 ps0]; [congruence|]. set (ps := p0 :: ps0) in *. rewrite (asks_extent sels reg F).
  set (ex := map _ reg). cbv zeta. set (hits := filter (fun i => overlaps atol ps ex (ith ps i)) (seq 0 (length ps))).
  assert (Hh : forall i, In i hits <-> exists p, nth_error ps i = Some p /\ meets atol ps reg p).
  { intros i. unfold hits. rewrite filter_In, in_seq. unfold ex. rewrite overlaps_spec. split.
    - intros [L M]. assert (E : nth_error ps i = Some (ith ps i)) by (apply nth_error_nth'; lia). eauto.
    - intros (p & E & M). assert (i < length ps)%nat by (apply nth_error_Some; congruence). split; [lia|]. unfold ith. rewrite (nth_error_nth ps i _ E). exact M. }
  assert (Nm : forall i, In i hits -> at_end atol ex (ith ps i) = false).
  { intros i Hi. apply Hh in Hi. destruct Hi as (p & E & M). unfold ith. rewrite (nth_error_nth ps i _ E).
    destruct (at_end atol ex p) eqn:A; [|reflexivity]. apply at_end_spec in A. exfalso. apply (N p); [|exact A]. exact (nth_error_In _ _ E). }
  assert (E1 : filter (fun i => at_end atol ex (ith ps i)) hits = []).
  { clear - Nm. induction hits as [|x l IH]; [reflexivity|]. cbn [filter]. rewrite (Nm x) by now left. apply IH. intros i Hi. apply Nm. now right. }
  assert (E2 : filter (fun i => negb (at_end atol ex (ith ps i))) hits = hits).
  { clear - Nm. induction hits as [|x l IH]; [reflexivity|]. cbn [filter]. rewrite (Nm x) by now left. cbn [negb]. f_equal. apply IH. intros i Hi. apply Nm. now right. }
  rewrite E1, E2. exists hits. split; [reflexivity|]. split; [apply filter_sorted|exact Hh].
Qed.
Print Assumptions C72_patches.

(** so a place of the region that is in a patch is in a patch that is used *)
Theorem C72_no_place_lost atol ps sels reg i p x : (0 <= atol)%Q -> Forall2 asks sels reg -> (forall p, In p ps -> ~ near atol reg p) ->
  nth_error ps i = Some p -> in_patch ps p x -> in_region reg x -> exists l, pick_patches atol ps sels = PInds l /\ In i l.
Proof.
  intros Ha F N E Hp [Hx Hr]. assert (Hne : ps <> []) by (intros ->; destruct i; discriminate).
  destruct (C72_patches atol ps sels reg Hne F N) as (l & Q & _ & M).
  assert (Hi : In i l).
  { apply M. exists p. split; [exact E|]. intros d lo hi Ed. destruct (Hr d lo hi Ed) as [R1 R2].
    assert (d < length x)%nat by (rewrite Hx; apply nth_error_Some; congruence).
    destruct (Hp d H) as [A|A]; [auto|]. right. split.
    - intros h Eh. specialize (R2 h Eh). lra.
    - intros l' El. specialize (R1 l' El). lra. }
  exists l. split; [|exact Hi]. rewrite Q. destruct l; [destruct Hi|reflexivity].
Qed.
Print Assumptions C72_no_place_lost.

(** in any case no patch is used that has no place in common with the region, and none is used twice *)
Theorem C72_no_other_patch atol ps sels reg l : Forall2 asks sels reg -> pick_patches atol ps sels = PInds l ->
  l <> [] /\ StronglySorted lt l /\ forall i, In i l -> exists p, nth_error ps i = Some p /\ meets atol ps reg p.
Proof.
  intros F. unfold pick_patches. destruct ps as [|p0 ps0]; [discriminate|]. set (ps := p0 :: ps0) in *. rewrite (asks_extent sels reg F).
  set (ex := map _ reg). cbv zeta. set (hits := filter (fun i => overlaps atol ps ex (ith ps i)) (seq 0 (length ps))).
  set (a := filter (fun i => at_end atol ex (ith ps i)) hits). set (b := filter (fun i => negb (at_end atol ex (ith ps i))) hits).
  assert (Hh : forall i, In i hits -> exists p, nth_error ps i = Some p /\ meets atol ps reg p).
  { intros i. unfold hits. rewrite filter_In, in_seq. unfold ex. rewrite overlaps_spec. intros [L M].
    exists (ith ps i). split; [apply nth_error_nth'; lia|exact M]. }
  assert (Hs : StronglySorted lt hits) by apply filter_sorted.
  assert (Ha : forall i, In i a -> In i hits) by (intros i Hi; apply filter_In in Hi; apply Hi).
  assert (Hb : forall i, In i b -> In i hits) by (intros i Hi; apply filter_In in Hi; apply Hi).
  assert (Sa : StronglySorted lt a) by (apply filter_sorted_gen, Hs).
  assert (Sb : StronglySorted lt b) by (apply filter_sorted_gen, Hs).
  intros Q. assert (C : l <> [] /\ (l = a \/ l = b)).
  { destruct a as [|a1 a2], b as [|b1 b2]; try discriminate Q; injection Q as <-; split; auto; discriminate. }
  destruct C as [Hl [-> | ->]]; split; auto.
Qed.
Print Assumptions C72_no_other_patch.

(** selections by number are refused *)
Theorem C72_by_index atol ps sels i : ps <> [] -> In (AIdx i) sels -> pick_patches atol ps sels = PRuntimeError.
Proof.
  intros Hne Hin. unfold pick_patches. destruct ps; [congruence|]. unfold slice_extent. cbv zeta.
  assert (E : existsb (fun p => is_nan (fst p) || is_nan (snd p)) (map sel2values sels) = true).
  { apply existsb_exists. exists (NaN, NaN). split; [|reflexivity]. apply in_map_iff. exists (AIdx i). auto. }
  rewrite E. reflexivity.
Qed.
Print Assumptions C72_by_index.

(** ** the grid points of a range: the patch is used and its own slice (C09) has the point *)
Lemma Forall2_nth {A B} (P : A -> B -> Prop) l r d b : Forall2 P l r -> nth_error r d = Some b -> exists a, nth_error l d = Some a /\ P a b.
Proof.
  intros F. revert d. induction F as [|x y l r H F IH]; intros d E; [destruct d; discriminate|]. destruct d; cbn in *; [injection E as <-; eauto|]. apply IH, E.
Qed.
Theorem C72_range_points atol ps (d n : nat) (v1 v2 : Q) (i j : nat) p (a : list Q) : (0 <= atol)%Q -> (d < n)%nat -> (v1 <= v2)%Q ->
  (forall p, In p ps -> ~ (Qabs (qnth (p_xh p) d - v1) <= atol + (1 # 100000) * Qabs v1)%Q) ->
  nth_error ps i = Some p -> ascending a -> (forall k, (k < length a)%nat -> qnth (p_xl p) d <= qnth a k < qnth (p_xh p) d)%Q ->
  (j < length a)%nat -> (v1 <= qnth a j <= v2)%Q ->
  (exists l, pick_patches atol ps (repeat (ASlice BNone BNone 1) d ++ ASlice (BVal v1) (BVal v2) 1 :: repeat (ASlice BNone BNone 1) (n - d - 1)) = PInds l /\ In i l) /\
  exists s is, std_sel2index a (BVal v1) (BVal v2) None true false = SSlice s /\ sel (Z.of_nat (length a)) s = Some is /\ In (Z.of_nat j) is.
Proof.
  intros Ha Hd Hv N E Ac Hg Hj Hr.
  set (reg := repeat (None, None) d ++ (Some v1, Some v2) :: repeat (@None Q, @None Q) (n - d - 1)).
  assert (F : Forall2 asks (repeat (ASlice BNone BNone 1) d ++ ASlice (BVal v1) (BVal v2) 1 :: repeat (ASlice BNone BNone 1) (n - d - 1)) reg).
  { assert (R : forall m, Forall2 asks (repeat (ASlice BNone BNone 1) m) (repeat (@None Q, @None Q) m)).
    { induction m; cbn; constructor; auto. apply (asks_up None None 1); [lia|discriminate]. }
    apply Forall2_app; [apply R|]. constructor; [|apply R]. apply (asks_up (Some v1) (Some v2) 1); [lia|]. intros l h [= <-] [= <-]. exact Hv. }
  assert (Only : forall k lo hi, nth_error reg k = Some (lo, hi) -> (k = d /\ lo = Some v1 /\ hi = Some v2) \/ (lo = None /\ hi = None)).
  { intros k lo hi Ek. unfold reg in Ek. destruct (Nat.lt_trichotomy k d) as [L|[->|L]].
    - rewrite nth_error_app1 in Ek by (rewrite repeat_length; exact L). apply nth_error_In, repeat_spec in Ek. injection Ek as <- <-. auto.
    - rewrite nth_error_app2 in Ek by (rewrite repeat_length; lia). rewrite repeat_length, Nat.sub_diag in Ek. injection Ek as <- <-. auto.
    - rewrite nth_error_app2 in Ek by (rewrite repeat_length; lia). rewrite repeat_length in Ek.
      destruct (k - d)%nat as [|m] eqn:Em; [lia|]. cbn [nth_error] in Ek. apply nth_error_In, repeat_spec in Ek. injection Ek as <- <-. auto. }
  assert (N' : forall p, In p ps -> ~ near atol reg p).
  { intros q Hq (k & l & hi & Ek & C). destruct (Only k _ _ Ek) as [(-> & El & _)|(El & _)]; [|discriminate]. injection El as ->. exact (N q Hq C). }
  split.
  - assert (Hne : ps <> []) by (intros ->; destruct i; discriminate).
    destruct (C72_patches atol ps _ reg Hne F N') as (l & Q & _ & M).
    assert (Hi : In i l).
    { apply M. exists p. split; [exact E|]. intros k lo hi Ek. right. specialize (Hg j Hj).
      destruct (Only k lo hi Ek) as [(-> & -> & ->)|(-> & ->)]; split; intros z; try discriminate; intros [= <-]; lra. }
    exists l. split; [|exact Hi]. rewrite Q. destruct l; [destruct Hi|reflexivity].
  - assert (Hn : a <> []) by (intros ->; cbn in Hj; lia).
    assert (H0 : (qnth a 0 <= v2)%Q).
    { destruct j as [|j]; [lra|]. assert (qnth a 0 < qnth a (S j))%Q by (apply Ac; lia). lra. }
    destruct (slice_between_values a v1 v2 None Ac Hn (or_introl eq_refl) H0) as (s & is & S1 & S2 & S3 & _).
    exists s, is. split; [exact S1|]. split; [exact S2|]. apply S3. split; [exact Hj|].
    assert (0 <= tol a)%Q by (apply tol_nonneg, ascending_nondesc, Ac). split; lra.
Qed.
Print Assumptions C72_range_points.

(** ** the code does not satisfy the property near the upper end of a patch *)
Definition eps100 : Q := 100 # 4503599627370496.
Definition three : list patch := [Patch [0; 0] [10; 1]; Patch [10; 0] [20; 1]; Patch [0; 1] [20; 2]]%Q.
(** the plane x = 9.99995 is in the patches 0 and 2, but only 2 is used *)
Theorem C72_hole_refuted :
  let v := (999995 # 100000)%Q in
  in_patch three (ith three 0) [v; 1#2]%Q /\ in_region [(Some v, Some v); (None, None)] [v; 1#2]%Q /\
  pick_patches eps100 three [AVal v; ASlice BNone BNone 1] = PInds [2%nat].
Proof.
  split; [|split; [|vm_compute; reflexivity]].
  - intros d Hd. right. destruct d as [|[|d]]; cbn in Hd |- *; [|..|lia]; unfold qnth; cbn; split; reflexivity || discriminate.
  - split; [reflexivity|]. intros d lo hi E. destruct d as [|[|d]]; cbn in E; [| |destruct d; discriminate]; injection E as <- <-;
      split; intros z; try discriminate; intros [= <-]; unfold qnth; cbn; discriminate.
Qed.
Print Assumptions C72_hole_refuted.
(** at the upper end of the grid, and beyond, slicing raises: there is no patch to slice (None has no slice) *)
Theorem C72_upper_end_refuted {A B} (slice1 : B -> spatch A) atol ps (fs : list B) (d n : nat) (v : Q) : ps <> [] -> (d < n)%nat -> ~ flat ps d ->
  (forall p, In p ps -> qnth (p_xh p) d <= v)%Q ->
  let sels := repeat (ASlice BNone BNone 1) d ++ AVal v :: repeat (ASlice BNone BNone 1) (n - d - 1) in
  pick_patches atol ps sels = PNone /\ amr_slice slice1 fs (pick_patches atol ps sels) = SErr.
Proof.
  intros Hne Hd Nf Hv sels.
  assert (P : pick_patches atol ps sels = PNone); [|rewrite P; split; reflexivity].
  set (reg := repeat (None, None) d ++ (Some v, Some v) :: repeat (@None Q, @None Q) (n - d - 1)).
  assert (F : Forall2 asks sels reg).
  { assert (R : forall m, Forall2 asks (repeat (ASlice BNone BNone 1) m) (repeat (@None Q, @None Q) m)).
    { induction m; cbn; constructor; auto. apply (asks_up None None 1); [lia|discriminate]. }
    apply Forall2_app; [apply R|]. constructor; [|apply R]. constructor. }
  assert (Ed : nth_error reg d = Some (Some v, Some v)).
  { unfold reg. rewrite nth_error_app2 by (rewrite repeat_length; lia). now rewrite repeat_length, Nat.sub_diag. }
  destruct (pick_patches atol ps sels) as [| | |l] eqn:Q; [|..].
  - unfold pick_patches in Q. destruct ps; [congruence|]. rewrite (asks_extent sels reg F) in Q. cbv zeta in Q.
    match type of Q with (match ?x with _ => _ end) = _ => destruct x end; discriminate.
  - unfold pick_patches in Q. destruct ps; [congruence|]. rewrite (asks_extent sels reg F) in Q. cbv zeta in Q.
    match type of Q with (match ?x with _ => _ end) = _ => destruct x end; discriminate.
  - reflexivity.
  - exfalso. destruct (C72_no_other_patch atol ps sels reg l F Q) as (Hl & _ & M). destruct l as [|i l]; [congruence|].
    destruct (M i (or_introl eq_refl)) as (p & E & Mp). destruct (Mp d _ _ Ed) as [U|[_ U]]; [contradiction|].
    specialize (U v eq_refl). specialize (Hv p (nth_error_In _ _ E)). lra.
Qed.
Print Assumptions C72_upper_end_refuted.

Example C72_patches_nonvacuous :
  let sels := [AVal 5; ASlice BNone (BVal (1#2)) 1]%Q in let reg := [(Some 5, Some 5); (None, Some (1#2))]%Q in
  Forall2 asks sels reg /\ (forall p, In p three -> ~ near eps100 reg p) /\ pick_patches eps100 three sels = PInds [0%nat] /\
  pick_patches eps100 three [AVal 10; ASlice BNone BNone 1]%Q = PInds [1; 2]%nat.
Proof.
  split; [|split; [|vm_compute; auto]].
  - constructor; [constructor|]. constructor; [|constructor]. apply (asks_up None (Some (1#2)%Q) 1); [lia|discriminate].
  - intros p Hp A. apply at_end_spec in A. destruct Hp as [<-|[<-|[<-|[]]]]; vm_compute in A; discriminate.
Qed.
Example C72_upper_end_nonvacuous : ~ flat three 0 /\ (forall p, In p three -> qnth (p_xh p) 0 <= 20)%Q.
Proof.
  split.
  - intros A. specialize (A (ith three 0) (or_introl eq_refl)). vm_compute in A. discriminate.
  - intros p [<-|[<-|[<-|[]]]]; vm_compute; discriminate.
Qed.

(** ** the result *)
(** the axes of [a] are some of those of [b], in their order *)
Inductive some_of : list string -> list string -> Prop :=
| so_nil : some_of [] []
| so_keep x a b : some_of a b -> some_of (x :: a) (x :: b)
| so_skip x a b : some_of a b -> some_of a (x :: b).

Lemma some_of_length a b : some_of a b -> (length a <= length b)%nat.
Proof. induction 1; cbn; lia. Qed.
Lemma some_of_full a b : some_of a b -> length a = length b -> a = b.
Proof.
  induction 1 as [|x a b H IH|x a b H IH]; intros E; [reflexivity| |].
  - f_equal. apply IH. cbn in E. lia.
  - apply some_of_length in H. cbn in E. lia.
Qed.
Lemma some_of_In a b x : some_of a b -> In x a -> In x b.
Proof. induction 1; cbn; intuition. Qed.
Lemma has_In x l : has x l = true <-> In x l.
Proof.
  unfold has. rewrite existsb_exists. split; [intros (y & H & E); apply String.eqb_eq in E; now subst|]. intros H. exists x. split; [exact H|apply String.eqb_refl].
Qed.
Lemma names_eqb_refl a : names_eqb a a = true.
Proof. induction a; cbn; [reflexivity|]. rewrite String.eqb_refl. exact IHa. Qed.
Lemma some_of_filter a b : some_of a b -> NoDup b ->
  forall h, (forall x, In x b -> (h x = true <-> In x a)) -> map fst (filter (fun p => negb (snd p)) (map (fun x => (x, negb (h x))) b)) = a.
Proof.
  induction 1 as [|x a b H IH|x a b H IH]; intros Nd h Hh; [reflexivity| |]; apply NoDup_cons_iff in Nd; destruct Nd as [Nx Nd]; cbn [map filter snd].
  - assert (Ex : h x = true) by (apply Hh; cbn; auto). rewrite Ex. cbn [negb map fst]. f_equal. apply IH; [exact Nd|].
    intros y Hy. rewrite (Hh y) by (cbn; auto). cbn. split; [intros [->|]; [contradiction|assumption]|auto].
  - assert (Ex : h x = false). { destruct (h x) eqn:Q; [|reflexivity]. apply Hh in Q; [|cbn; auto]. exfalso. apply Nx. exact (some_of_In _ _ _ H Q). }
    rewrite Ex. cbn [negb]. apply IH; [exact Nd|]. intros y Hy. apply Hh. cbn. auto.
Qed.

Lemma longest_full axs : forall l best, (forall a, In a (best :: l) -> some_of a axs) -> In axs (best :: l) -> longest best l = axs.
Proof.
  induction l as [|x l IH]; intros best S I; cbn [longest].
  - destruct I as [->|[]]; reflexivity.
  - apply IH.
    + intros a [<-|Ha]; [destruct (_ <? _)%nat; apply S; cbn; auto|apply S; cbn; auto].
    + destruct I as [->|[->|I]].
      * left. assert (L : some_of x axs) by (apply S; cbn; auto). apply some_of_length in L.
        destruct (Nat.ltb_spec (length axs) (length x)); [lia|reflexivity].
      * destruct (Nat.ltb_spec (length best) (length axs)) as [L|L]; [now left|]. left. apply some_of_full; [apply S; cbn; auto|].
        assert (S' : some_of best axs) by (apply S; cbn; auto). apply some_of_length in S'. lia.
      * now right.
Qed.

Lemma sequence_map {X Y} (f : X -> option Y) g l : (forall x, In x l -> f x = Some (g x)) -> sequence (map f l) = Some (map g l).
Proof.
  induction l as [|x l IH]; intros H; [reflexivity|]. cbn [map sequence]. rewrite (H x) by now left. rewrite IH; [reflexivity|]. intros y Hy. apply H. now right.
Qed.

(** the empty parts are left out; if one of the others has all the axes [axs] and the rest have some of them, then every part of the
    result has the axes [axs], with the values it had and in the order of the patches *)
Theorem C72_result {A} (l : list (spatch A)) axs : NoDup axs -> let l1 := filter (fun f => negb (s_size f =? 0)) l in
  (forall f, In f l1 -> some_of (s_axes f) axs) -> (exists f, In f l1 /\ s_axes f = axs) ->
  finalize l = SAmr (map (fun f => SPatch axs (s_size f) (s_data f)) l1).
Proof.
  intros Nd l1 S (f0 & I0 & E0). unfold finalize. cbv zeta. fold l1.
  assert (Il : In axs (map s_axes l1)) by (apply in_map_iff; eauto).
  assert (Sl : forall a, In a (map s_axes l1) -> some_of a axs) by (intros a Ha; apply in_map_iff in Ha; destruct Ha as (f & <- & Hf); auto).
  destruct (map s_axes l1) as [|a r] eqn:Em; [destruct Il|]. rewrite (longest_full axs r a Sl Il).
  rewrite (sequence_map _ (fun f => SPatch axs (s_size f) (s_data f))); [reflexivity|].
  intros f Hf. pose proof (S f Hf) as Sf. destruct (Nat.ltb_spec (length (s_axes f)) (length axs)) as [L|L].
  - unfold putback. rewrite (some_of_filter (s_axes f) axs Sf Nd (fun x => has x (s_axes f))) by (intros x _; apply has_In).
    rewrite names_eqb_refl, map_map. cbn [fst]. rewrite map_id. reflexivity.
  - assert (Ef : s_axes f = axs) by (apply some_of_full; [exact Sf|apply some_of_length in Sf; lia]).
    destruct f as [fa fs fd]. cbn [s_axes s_size s_data] in *. subst fa. reflexivity.
Qed.
Print Assumptions C72_result.

(** if the parts have lost different axes the result has parts with different axes *)
Theorem C72_axes_refuted :
  let a := SPatch ["y"; "z"]%string 4 tt in let b := SPatch ["x"; "z"]%string 4 tt in finalize [a; b] = SAmr [a; b].
Proof. reflexivity. Qed.
Print Assumptions C72_axes_refuted.
(** and if every part is empty slicing raises *)
Theorem C72_empty_refuted {A} (l : list (spatch A)) : (forall f, In f l -> s_size f = 0) -> finalize l = SErr.
Proof.
  intros H. unfold finalize. cbv zeta. replace (filter (fun f => negb (s_size f =? 0)) l) with (@nil (spatch A)); [reflexivity|].
  induction l as [|f l IH]; [reflexivity|]. cbn [filter]. rewrite (H f) by now left. cbn. apply IH. intros g Hg. apply H. now right.
Qed.
Print Assumptions C72_empty_refuted.
Example C72_result_nonvacuous :
  finalize [SPatch ["x"; "z"]%string 4 1%nat; SPatch ["x"; "y"; "z"]%string 0 2%nat; SPatch ["x"; "y"; "z"]%string 8 3%nat]
  = SAmr [SPatch ["x"; "y"; "z"]%string 4 1%nat; SPatch ["x"; "y"; "z"]%string 8 3%nat].
Proof. reflexivity. Qed.

(** ** together: slicing gives, in the order of the patches, the slices of the patches that have a place in common with the region, without
    the empty ones; with a single such patch, its slice *)
Lemma sequence_nth {B} (fs : list B) l : (forall i, In i l -> (i < length fs)%nat) ->
  exists gs, sequence (map (nth_error fs) l) = Some gs /\ Forall2 (fun i g => nth_error fs i = Some g) l gs.
Proof.
  induction l as [|i l IH]; intros H; cbn [map sequence]; [exists []; auto|].
  destruct (nth_error fs i) as [g|] eqn:E; [|apply nth_error_None in E; specialize (H i (or_introl eq_refl)); lia].
  destruct IH as (gs & E1 & F); [intros j Hj; apply H; now right|]. rewrite E1. exists (g :: gs). split; [reflexivity|]. now constructor.
Qed.
Theorem C72_slice {A B} (slice1 : B -> spatch A) (fs : list B) atol ps sels reg axs :
  ps <> [] -> length fs = length ps -> Forall2 asks sels reg -> (forall p, In p ps -> ~ near atol reg p) -> NoDup axs ->
  (forall f, In f fs -> s_axes (slice1 f) = axs) ->
  exists l gs, StronglySorted lt l /\ (forall i, In i l <-> exists p, nth_error ps i = Some p /\ meets atol ps reg p) /\
    Forall2 (fun i g => nth_error fs i = Some g) l gs /\
    amr_slice slice1 fs (pick_patches atol ps sels) =
      match gs with
      | [] => SErr
      | [g] => SOne (slice1 g)
      | _ => match filter (fun f => negb (s_size f =? 0)) (map slice1 gs) with [] => SErr | r => SAmr r end
      end.
Proof.
  intros Hne Hlen F N Nd Hax. destruct (C72_patches atol ps sels reg Hne F N) as (l & Q & Sl & M).
  assert (Hl : forall i, In i l -> (i < length fs)%nat).
  { intros i Hi. apply M in Hi. destruct Hi as (p & E & _). rewrite Hlen. apply nth_error_Some. congruence. }
  destruct (sequence_nth fs l Hl) as (gs & Eg & Fg). exists l, gs. split; [exact Sl|]. split; [exact M|]. split; [exact Fg|]. rewrite Q.
  assert (Fin : forall gs, (forall g, In g gs -> In g fs) ->
    finalize (map slice1 gs) = match filter (fun f => negb (s_size f =? 0)) (map slice1 gs) with [] => SErr | r => SAmr r end).
  { intros gs' Hin. destruct (filter (fun f => negb (s_size f =? 0)) (map slice1 gs')) as [|r0 r] eqn:Er.
    - unfold finalize. cbv zeta. rewrite Er. reflexivity.
    - assert (Hx : forall f, In f (r0 :: r) -> s_axes f = axs).
      { intros f Hf. rewrite <- Er in Hf. apply filter_In in Hf. destruct Hf as [Hf _]. apply in_map_iff in Hf. destruct Hf as (g & <- & Hg). apply Hax, Hin, Hg. }
      rewrite (C72_result (map slice1 gs') axs Nd); rewrite Er.
      + f_equal. rewrite <- (map_id (r0 :: r)) at 2. apply map_ext_in. intros f Hf. specialize (Hx f Hf). destruct f. cbn in *. now subst.
      + intros f Hf. rewrite (Hx f Hf). clear. induction axs; constructor; auto.
      + exists r0. split; [now left|]. apply Hx. now left. }
  destruct Fg as [|i g l gs Ei Fg]; [reflexivity|]. destruct Fg as [|j h l gs Ej Fg].
  - cbn [amr_slice]. rewrite Ei. reflexivity.
  - cbn [amr_slice]. rewrite Eg. apply Fin. intros x Hx.
    assert (Fall : Forall2 (fun i g => nth_error fs i = Some g) (i :: j :: l) (g :: h :: gs)) by (repeat constructor; assumption).
    clear - Fall Hx. induction Fall as [|a b la lb Hab Fr IH]; [destruct Hx|]. destruct Hx as [<-|Hx]; [exact (nth_error_In _ _ Hab)|auto].
Qed.
Print Assumptions C72_slice.

(** near the upper end of a patch too, if a patch has a place in common with the region then one is used *)
Theorem C72_some_patch atol ps sels reg p : Forall2 asks sels reg -> In p ps -> meets atol ps reg p -> exists l, pick_patches atol ps sels = PInds l /\ l <> [].
Proof.
  intros F Hp Mp. unfold pick_patches. destruct ps as [|p0 ps0]; [destruct Hp|]. set (ps := p0 :: ps0) in *. rewrite (asks_extent sels reg F).
  set (ex := map _ reg). cbv zeta. set (hits := filter (fun i => overlaps atol ps ex (ith ps i)) (seq 0 (length ps))).
  destruct (In_nth_error _ _ Hp) as (i & Ei).
  assert (Hi : In i hits).
  { unfold hits. assert (i < length ps)%nat by (apply nth_error_Some; congruence). apply filter_In. split; [apply in_seq; lia|].
    apply overlaps_spec. unfold ith. rewrite (nth_error_nth ps i _ Ei). exact Mp. }
  destruct (filter (fun i => negb (at_end atol ex (ith ps i))) hits) as [|b1 b2] eqn:Eb.
  - destruct (filter (fun i => at_end atol ex (ith ps i)) hits) as [|a1 a2] eqn:Ea.
    + exfalso. destruct (at_end atol ex (ith ps i)) eqn:A.
      * assert (Z0 : In i (@nil nat)) by (rewrite <- Ea; apply filter_In; auto). destruct Z0.
      * assert (Z0 : In i (@nil nat)) by (rewrite <- Eb; apply filter_In; rewrite A; auto). destruct Z0.
    + eexists; split; [reflexivity|discriminate].
  - exists (b1 :: b2). split; [destruct (filter (fun i => at_end atol ex (ith ps i)) hits); reflexivity|discriminate].
Qed.
Print Assumptions C72_some_patch.
