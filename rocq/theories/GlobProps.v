(** C32: slices of file lists. *)
From Coq Require Import List ZArith QArith Bool Arith Ascii Lia ZifyBool ZifyNat Lqa Permutation Sorted.
From Verif Require Import SelModel SelProofs SelProps GlobModel.
Import ListNotations.
Local Open Scope nat_scope.

(** ** specification *)
(** [l] is the sorted list of the files that have a number, in order of the number;
    files with the same number stay in the order in which they were found. *)
Definition sorted_files {A} (found : list (A * option Q)) (l : list (A * Q)) : Prop :=
  Permutation (timed found) l /\
  (forall i j x y, i < j -> nth_error l i = Some x -> nth_error l j = Some y -> (snd x <= snd y)%Q) /\
  (forall t, filter (fun x => Qeq_bool (snd x) t) l = filter (fun x => Qeq_bool (snd x) t) (timed found)).

(** ** sorting *)
Lemma insert_perm {A} (x : A * Q) l : Permutation (x :: l) (insert x l).
Proof.
  induction l as [|y l IH]; [constructor; constructor|]. cbn [insert]. destruct (Qle_bool _ _); [apply Permutation_refl|].
  eapply perm_trans; [apply perm_swap|]. apply perm_skip. exact IH.
Qed.
Lemma sort_perm {A} (l : list (A * Q)) : Permutation l (sort l).
Proof.
  induction l as [|x l IH]; [constructor|]. cbn [sort]. eapply perm_trans; [apply perm_skip, IH|apply insert_perm].
Qed.
Definition before {A} (x y : A * Q) : Prop := (snd x <= snd y)%Q.
Lemma insert_sorted {A} (x : A * Q) l : StronglySorted before l -> StronglySorted before (insert x l).
Proof.
  intros S. induction S as [|y l S IH F]; [constructor; constructor|]. cbn [insert].
  destruct (Qle_bool (snd x) (snd y)) eqn:E.
  - apply Qle_bool_iff in E. constructor; [constructor; auto|]. constructor; [exact E|].
    eapply Forall_impl; [|exact F]. unfold before. intros z Hz. lra.
  - constructor; [exact IH|]. apply Forall_forall. intros z Hz.
    apply (Permutation_in z (Permutation_sym (insert_perm x l))) in Hz. destruct Hz as [<-|Hz].
    + unfold before. destruct (Qlt_le_dec (snd y) (snd x)) as [L|L]; [lra|].
      apply Qle_bool_iff in L. congruence.
    + rewrite Forall_forall in F. auto.
Qed.
Lemma sort_sorted {A} (l : list (A * Q)) : StronglySorted before (sort l).
Proof. induction l; [constructor|]. cbn [sort]. apply insert_sorted. auto. Qed.
Lemma sorted_nth {A} (l : list (A * Q)) : StronglySorted before l ->
  forall i j x y, i < j -> nth_error l i = Some x -> nth_error l j = Some y -> (snd x <= snd y)%Q.
Proof.
  intros S. induction S as [|z l S IH F]; intros [|i] [|j] x y L Hx Hy; try lia; cbn [nth_error] in *; try discriminate.
  - injection Hx as <-. rewrite Forall_forall in F. apply F. eapply nth_error_In; eauto.
  - apply (IH i j x y); [lia|auto|auto].
Qed.
Lemma insert_filter {A} (x : A * Q) t l : StronglySorted before l ->
  filter (fun x => Qeq_bool (snd x) t) (insert x l) = filter (fun x => Qeq_bool (snd x) t) (x :: l).
Proof.
  intros S. induction S as [|y l S IH F]; [reflexivity|]. cbn [insert].
  destruct (Qle_bool (snd x) (snd y)) eqn:E; [reflexivity|].
  cbn [filter] in *. rewrite IH. destruct (Qeq_bool (snd x) t) eqn:E1, (Qeq_bool (snd y) t) eqn:E2; auto.
  exfalso. apply Qeq_bool_iff in E1, E2. rewrite <- not_true_iff_false in E. apply E. apply Qle_bool_iff. lra.
Qed.
Lemma sort_stable {A} t (l : list (A * Q)) :
  filter (fun x => Qeq_bool (snd x) t) (sort l) = filter (fun x => Qeq_bool (snd x) t) l.
Proof.
  induction l as [|x l IH]; [reflexivity|]. cbn [sort]. rewrite insert_filter by apply sort_sorted.
  cbn [filter]. rewrite IH. reflexivity.
Qed.
Lemma sort_spec {A} (found : list (A * option Q)) : sorted_files found (sort (timed found)).
Proof.
  split; [apply sort_perm|]. split; [apply sorted_nth, sort_sorted|]. intros t. apply sort_stable.
Qed.

(** ** the whitelist *)
Lemma whitelist_spec {A} is (l : list A) : forall i,
  whitelist is i l = map snd (filter (fun p => existsb (Z.eqb (Z.of_nat (fst p))) is) (combine (seq i (length l)) l)).
Proof.
  induction l as [|x l IH]; intros i; [reflexivity|]. cbn [whitelist length seq combine filter fst].
  rewrite IH. destruct (existsb _ is); reflexivity.
Qed.
Lemma whitelist_picks {A} (l : list A) : forall n i0 a d, (0 < d)%Z ->
  (Z.of_nat i0 <= a)%Z -> (forall k, k < n -> (a + Z.of_nat k * d < Z.of_nat i0 + Z.of_nat (length l))%Z) ->
  whitelist (prog a d n) i0 l = picks l (map (fun x => x - Z.of_nat i0)%Z (prog a d n)).
Proof.
  induction l as [|x l IH]; intros n i0 a d Hd Ha Hb.
  - destruct n as [|n]; [reflexivity|]. specialize (Hb 0 ltac:(lia)). cbn in Hb. lia.
  - destruct n as [|n].
    { assert (G : forall (l0 : list A) j, whitelist [] j l0 = []) by (induction l0; intros; cbn; auto).
      exact (G (x :: l) i0). }
    cbn [whitelist length] in *. rewrite prog_S. cbn [existsb map picks flat_map].
    destruct (Z.eqb_spec (Z.of_nat i0) a) as [E|N].
    + cbn [orb]. subst a. unfold pick at 1, zget at 1. rewrite Z.sub_diag. cbn [Z.ltb Z.compare Z.to_nat nth_error app].
      f_equal.
      assert (W : whitelist (Z.of_nat i0 :: prog (Z.of_nat i0 + d) d n) (S i0) l = whitelist (prog (Z.of_nat i0 + d) d n) (S i0) l).
      { assert (G : forall j (l0 : list A), i0 < j -> whitelist (Z.of_nat i0 :: prog (Z.of_nat i0 + d) d n) j l0 = whitelist (prog (Z.of_nat i0 + d) d n) j l0).
        { intros j l0. revert j. induction l0 as [|y l0 IHl]; intros j Hj; [reflexivity|].
          cbn [whitelist existsb]. replace (Z.of_nat j =? Z.of_nat i0)%Z with false by lia. cbn [orb].
          rewrite IHl by lia. reflexivity. }
        apply G. lia. }
      rewrite W, (IH n (S i0) (Z.of_nat i0 + d)%Z d); [|lia|lia|].
      * unfold picks. clear -Hd. rewrite !flat_map_concat_map, !map_map. f_equal. apply map_ext_in.
        intros y Hy. apply prog_In in Hy as (k & Hk & ->). unfold pick, zget.
        destruct (Z.ltb_spec (Z.of_nat i0 + d + Z.of_nat k * d - Z.of_nat (S i0)) 0); [nia|].
        destruct (Z.ltb_spec (Z.of_nat i0 + d + Z.of_nat k * d - Z.of_nat i0) 0); [nia|].
        replace (Z.to_nat (Z.of_nat i0 + d + Z.of_nat k * d - Z.of_nat i0)) with
          (S (Z.to_nat (Z.of_nat i0 + d + Z.of_nat k * d - Z.of_nat (S i0)))) by nia. reflexivity.
      * intros k Hk. specialize (Hb (S k) ltac:(lia)). lia.
    + cbn [orb].
      assert (X : existsb (Z.eqb (Z.of_nat i0)) (prog (a + d) d n) = false).
      { apply not_true_iff_false. intros K. apply existsb_exists in K as (y & Hy & K). apply prog_In in Hy as (k & Hk & ->). nia. }
      rewrite X. rewrite <- prog_S. rewrite (IH (S n) (S i0) a d); [|lia|lia|].
      * change (flat_map (pick (x :: l))) with (picks (x :: l)).
        change (pick (x :: l) (a - Z.of_nat i0) ++ picks (x :: l) (map (fun z => (z - Z.of_nat i0)%Z) (prog (a + d) d n)))
          with (picks (x :: l) (map (fun z => (z - Z.of_nat i0)%Z) (a :: prog (a + d) d n))).
        rewrite <- prog_S. unfold picks. rewrite !flat_map_concat_map, !map_map. f_equal. apply map_ext_in.
        intros y Hy. apply prog_In in Hy as (k & Hk & ->). unfold pick, zget.
        destruct (Z.ltb_spec (a + Z.of_nat k * d - Z.of_nat (S i0)) 0); [nia|].
        destruct (Z.ltb_spec (a + Z.of_nat k * d - Z.of_nat i0) 0); [nia|].
        replace (Z.to_nat (a + Z.of_nat k * d - Z.of_nat i0)) with
          (S (Z.to_nat (a + Z.of_nat k * d - Z.of_nat (S i0)))) by nia. reflexivity.
      * intros k Hk. specialize (Hb k ltac:(lia)). lia.
Qed.

(** ** membership: for every selection *)
(** The files returned are those at the selected positions of the sorted list, each
    once, in the order of the sorted list. *)
Theorem C32_selected_files : forall A (found : list (A * option Q)) s r,
  slice_globbed (Some s) found = GOk r ->
  exists l is, sorted_files found l /\ indices (map snd l) s = GOk is /\
    r = map (fun p => fst (snd p)) (filter (fun p => existsb (Z.eqb (Z.of_nat (fst p))) is) (combine (seq 0 (length l)) l)).
Proof.
  intros A found s r. unfold slice_globbed. destruct found as [|f0 fs0]; [discriminate|].
  remember (f0 :: fs0) as found eqn:Ef. destruct (indices _ s) as [is|] eqn:Ei; [|discriminate]. intros [= <-].
  exists (sort (timed found)), is. split; [apply sort_spec|]. split; [exact Ei|].
  rewrite whitelist_spec, map_length. generalize 0. generalize (sort (timed found)). clear.
  intros l. induction l as [|x l IH]; intros i; [reflexivity|]. cbn [map length seq combine filter fst].
  destruct (existsb _ is); cbn [map snd]; rewrite IH; reflexivity.
Qed.
Print Assumptions C32_selected_files.

(** ** slices with positive step: Python's slice of the sorted list *)
Lemma whitelist_fwd {A} (l : list A) p : (0 < step_of p)%Z ->
  exists is, sel (Z.of_nat (length l)) p = Some is /\ getslice l p = Some (whitelist is 0 l).
Proof.
  intros Hs. unfold getslice, sel. replace (step_of p =? 0)%Z with false by lia. eexists. split; [reflexivity|]. f_equal.
  unfold prange. set (a := slice_start _ p). set (b := slice_stop _ p).
  assert (Ha : (0 <= a)%Z).
  { unfold a, slice_start. replace (0 <? step_of p)%Z with true by lia. destruct (p_start p); unfold adj; lia. }
  assert (Hb : (b <= Z.of_nat (length l))%Z).
  { unfold b, slice_stop. replace (0 <? step_of p)%Z with true by lia. destruct (p_stop p); unfold adj; lia. }
  rewrite whitelist_picks with (i0 := 0); [|exact Hs|lia|].
  - f_equal. rewrite map_ext with (g := fun x => x) by (intros; lia). rewrite map_id. reflexivity.
  - intros k Hk. unfold range_len in Hk. replace (0 <? step_of p)%Z with true in Hk by lia.
    destruct (Z.ltb_spec a b); [|lia].
    pose proof (Z.mul_div_le (b - a - 1) (step_of p) Hs).
    set (q := ((b - a - 1) / step_of p)%Z) in *. assert (Z.of_nat k <= q)%Z by lia. nia.
Qed.

Theorem C32_index_slice : forall A (found : list (A * option Q)) a b st,
  found <> [] -> (0 < odef st 1)%Z ->
  let bound o := match o with None => BNone | Some i => BIdx i end in
  exists l r, sorted_files found l /\ getslice (map fst l) (PS a b st) = Some r /\
    slice_globbed (Some (GSlice (bound a) (bound b) st)) found = GOk r.
Proof.
  intros A found a b st NE Hs bound. set (l := sort (timed found)).
  destruct (whitelist_fwd (map fst l) (PS a b st) Hs) as (is & Ei & Eg).
  exists l. eexists. split; [apply sort_spec|]. split; [exact Eg|].
  unfold slice_globbed. destruct found as [|f0 fs0]; [contradiction|].
  unfold indices. fold l. unfold bound. rewrite slice_by_index_untouched.
  rewrite map_length in Ei |- *. rewrite Ei. reflexivity.
Qed.
Print Assumptions C32_index_slice.

(** With values as bounds (the numbers in the names being different): the files whose
    number is between the bounds, as [lower] and [upper] say, in increasing order. *)
Theorem C32_value_slice : forall A (found : list (A * option Q)) b1 b2 st,
  timed found <> [] -> (0 < odef st 1)%Z ->
  (forall l, sorted_files found l -> ascending (map snd l)) ->
  exists l r lo hi, sorted_files found l /\
    lower (map snd l) b1 lo /\ upper (map snd l) true b2 hi /\
    r = picks (map fst l) (prange lo hi (odef st 1)) /\
    slice_globbed (Some (GSlice b1 b2 st)) found = GOk r.
Proof.
  intros A found b1 b2 st NE Hs Ha. set (l := sort (timed found)).
  assert (Sl : sorted_files found l) by apply sort_spec.
  assert (Nl : map snd l <> []).
  { intros E. apply map_eq_nil in E. pose proof (sort_perm (timed found)) as P. fold l in P. rewrite E in P.
    apply Permutation_sym, Permutation_nil in P. contradiction. }
  destruct (slice_by_value_forward (map snd l) b1 b2 st true (Ha l Sl) Nl Hs) as (p & lo & hi & E & Hl & Hu & Hsel).
  exists l. do 3 eexists. split; [exact Sl|]. split; [exact Hl|]. split; [exact Hu|]. split; [reflexivity|].
  unfold slice_globbed. destruct found as [|f0 fs0]; [cbn in NE; contradiction|].
  unfold indices. fold l. rewrite E, Hsel. f_equal.
  assert (Hlo : (0 <= lo)%Z) by (destruct b1; cbn [lower] in Hl; [lia|subst lo; unfold adj; lia|lia]).
  assert (Hhi : (hi <= Z.of_nat (length l))%Z).
  { destruct b2; cbn [upper] in Hu; rewrite map_length in Hu; [lia|subst hi; unfold adj; lia|lia]. }
  unfold prange. rewrite whitelist_picks with (i0 := 0); [|exact Hs|lia|].
  - f_equal. rewrite map_ext with (g := fun x => x) by (intros; lia). rewrite map_id. reflexivity.
  - intros k Hk. rewrite map_length. unfold range_len in Hk. replace (0 <? odef st 1)%Z with true in Hk by lia.
    destruct (Z.ltb_spec lo hi); [|lia].
    pose proof (Z.mul_div_le (hi - lo - 1) (odef st 1) Hs).
    set (q := ((hi - lo - 1) / odef st 1)%Z) in *. assert (Z.of_nat k <= q)%Z by lia. nia.
Qed.
Print Assumptions C32_value_slice.

(** A single index or value gives one file. *)
Theorem C32_single : forall A (found : list (A * option Q)) s r,
  (exists i, s = GInt i) \/ (exists v, s = GVal v) ->
  slice_globbed (Some s) found = GOk r ->
  exists l x, sorted_files found l /\ r = [fst x] /\
    match s with
    | GInt i => getitem l i = Some x
    | GVal v => In x l /\ forall y, In y l -> (Qabs.Qabs (snd x - v) <= Qabs.Qabs (snd y - v))%Q
    | _ => False
    end.
Proof.
  intros A found s r Hs. unfold slice_globbed. destruct found as [|f0 fs0]; [discriminate|].
  remember (f0 :: fs0) as found eqn:Ef. set (l := sort (timed found)).
  assert (W : forall k x, nth_error l k = Some x -> whitelist [Z.of_nat k] 0 (map fst l) = [fst x]).
  { intros k x Hx. assert (E : [Z.of_nat k] = prog (Z.of_nat k) 1 1) by (rewrite prog_S; reflexivity).
    assert (k < length l) by (apply nth_error_Some; congruence).
    rewrite E, whitelist_picks with (i0 := 0); [|lia|lia|intros j Hj; rewrite map_length; lia].
    rewrite <- E. cbn [map picks flat_map]. unfold pick, zget.
    replace (Z.of_nat k - Z.of_nat 0 <? 0)%Z with false by lia.
    replace (Z.to_nat (Z.of_nat k - Z.of_nat 0)) with k by lia. rewrite nth_error_map, Hx. reflexivity. }
  destruct Hs as [[i ->]|[v ->]]; cbn [indices].
  - rewrite map_length. destruct ((i <? - Z.of_nat (length l))%Z || (Z.of_nat (length l) <=? i)%Z) eqn:E; [discriminate|].
    apply orb_false_iff in E as [E1 E2]. intros [= <-].
    set (k := Z.to_nat (if (i <? 0)%Z then i + Z.of_nat (length l) else i)%Z).
    assert (Ek : (if (i <? 0)%Z then i + Z.of_nat (length l) else i)%Z = Z.of_nat k) by (unfold k; destruct (i <? 0)%Z eqn:?; lia).
    assert (Lk : k < length l) by (destruct (i <? 0)%Z eqn:?; lia).
    destruct (nth_error l k) as [x|] eqn:Ex; [|apply nth_error_None in Ex; lia].
    exists l, x. split; [apply sort_spec|]. rewrite Ek. split; [apply W; exact Ex|].
    unfold getitem, zget. destruct (i <? 0)%Z eqn:Ei.
    + rewrite Ek. replace (Z.of_nat k <? 0)%Z with false by lia. rewrite Nat2Z.id. exact Ex.
    + rewrite ?Ei. rewrite Ek, Nat2Z.id. exact Ex.
  - destruct (map snd l) as [|t0 ts0] eqn:Em; [discriminate|]. rewrite <- Em. intros [= <-].
    destruct (nearest_index_is_nearest (map snd l) v) as (H1 & H2 & _); [rewrite Em; discriminate|].
    set (k := nearest_index (map snd l) v) in *. rewrite map_length in H1.
    destruct (nth_error l k) as [x|] eqn:Ex; [|apply nth_error_None in Ex; lia].
    exists l, x. split; [apply sort_spec|]. split; [apply W; exact Ex|]. split; [eapply nth_error_In; eauto|].
    assert (QN : forall j y, nth_error l j = Some y -> qnth (map snd l) j = snd y).
    { intros j y Hy. unfold qnth. apply nth_error_nth. rewrite nth_error_map, Hy. reflexivity. }
    intros y Hy. apply In_nth_error in Hy as [j Hj]. rewrite <- (QN k x Ex), <- (QN j y Hj). apply H2.
    rewrite map_length. apply nth_error_Some. congruence.
Qed.
Print Assumptions C32_single.

(** No slice: all the files found, in the order in which they were found. *)
Theorem C32_no_slice : forall A (found : list (A * option Q)),
  slice_globbed None found = GOk (map fst found).
Proof. reflexivity. Qed.

(** ** where it fails *)
(** A slice with negative step gives the right files in increasing order. *)
Theorem C32_reversed_refuted :
  exists (found : list (nat * option Q)) a b st l r,
    sorted_files found l /\ getslice (map fst l) (PS (Some a) (Some b) (Some st)) = Some r /\
    slice_globbed (Some (GSlice (BIdx a) (BIdx b) (Some st))) found = GOk (rev r) /\ r <> rev r.
Proof.
  exists [(10, Some 10%Q); (20, Some 20%Q); (30, Some 30%Q)], 2%Z, 0%Z, (-1)%Z. eexists. eexists.
  split; [apply sort_spec|]. split; [vm_compute; reflexivity|]. split; [vm_compute; reflexivity|].
  vm_compute. discriminate.
Qed.
Print Assumptions C32_reversed_refuted.

(** ** slices that are not seen *)
Definition has_double_colon (s : list ascii) : Prop := exists a b, s = a ++ ":"%char :: ":"%char :: b.
Definition clean (s : list ascii) : Prop :=
  ~ has_double_colon s /\ (forall s', s <> ":"%char :: s') /\ (forall s', s <> s' ++ [":"%char]).
Definition clean_lang (l : lang) : Prop := forall s, l s -> clean s.
Definition nonempty_lang (l : lang) : Prop := forall s, l s -> s <> [].

Lemma app_eq_split {A} (a b c d : list A) : a ++ b = c ++ d ->
  (exists e, a = c ++ e /\ d = e ++ b) \/ (exists e, c = a ++ e /\ b = e ++ d).
Proof.
  revert c. induction a as [|x a IH]; intros [|y c] H; cbn in H.
  - left. exists []. auto.
  - right. exists (y :: c). auto.
  - left. exists (x :: a). auto.
  - injection H as -> H. destruct (IH c H) as [(e & -> & ->)|(e & -> & ->)]; [left|right]; exists e; auto.
Qed.
(** two colons side by side lie in one part or across the border *)
Lemma double_app x y : has_double_colon (x ++ y) -> has_double_colon x \/ has_double_colon y \/
  (exists x' y', x = x' ++ [":"%char] /\ y = ":"%char :: y').
Proof.
  intros (a & b & E). destruct (app_eq_split _ _ _ _ E) as [(e & -> & E')|(e & -> & E')].
  - destruct e as [|c1 [|c2 e]]; cbn in E'.
    + right; left. exists [], b. exact (eq_sym E').
    + injection E' as <- <-. right; right. exists a, b. auto.
    + injection E' as <- <- E''. left. exists a, e. reflexivity.
  - right; left. exists e, b. exact E'.
Qed.
Lemma snoc_app {A} (x y s : list A) c : x ++ y = s ++ [c] -> (y = [] /\ x = s ++ [c]) \/ exists y', y = y' ++ [c].
Proof.
  intros H. destruct y as [|y0 y] using rev_ind; [left; rewrite app_nil_r in H; auto|].
  right. rewrite app_assoc in H. apply app_inj_tail in H as [_ ->]. eauto.
Qed.
Lemma clean_app x y : clean x -> clean y -> clean (x ++ y).
Proof.
  intros (A1 & A2 & A3) (B1 & B2 & B3). split; [|split].
  - intros H. apply double_app in H as [H|[H|(x' & y' & -> & ->)]]; auto. apply (A3 x'). reflexivity.
  - intros s' H. destruct x as [|c x]; [apply (B2 s'); exact H|]. cbn in H. injection H as -> _. apply (A2 x). reflexivity.
  - intros s' H. apply snoc_app in H as [[_ H]|[y' H]]; [apply (A3 s'); exact H|apply (B3 y'); exact H].
Qed.
Lemma clean_colon x y : clean x -> clean y -> x <> [] -> y <> [] -> clean (x ++ ":"%char :: y).
Proof.
  intros (A1 & A2 & A3) (B1 & B2 & B3) Nx Ny. split; [|split].
  - intros H. apply double_app in H as [H|[H|(x' & y' & -> & _)]]; [auto| |apply (A3 x'); reflexivity].
    destruct H as ([|c a] & b & H); cbn in H; [injection H as H; apply (B2 b); exact H|injection H as H0 H].
    apply B1. exists a, b. exact H.
  - intros s' H. destruct x as [|c x]; [contradiction|]. cbn in H. injection H as -> _. apply (A2 x). reflexivity.
  - intros s' H. apply snoc_app in H as [[H _]|[y' H]]; [discriminate|].
    destruct y' as [|c y']; cbn in H; [injection H as H; subst y; contradiction|injection H as H0 H]. apply (B3 y'). exact H.
Qed.
Lemma clean_nil : clean [].
Proof. split; [|split]; [intros ([|] & b & H); discriminate|discriminate|intros [|] H; discriminate]. Qed.
Lemma clean_chr p : p ":"%char = false -> clean_lang (chr p).
Proof.
  intros Hp s (c & -> & Hc). assert (N : c <> ":"%char) by (intros ->; congruence). split; [|split].
  - intros ([|x [|y a]] & b & H); cbn in H; discriminate.
  - intros s' H. inversion H; subst; contradiction.
  - intros [|x [|y s']] H; cbn in H; [inversion H; subst; contradiction|discriminate|discriminate].
Qed.
Lemma clean_cat a b : clean_lang a -> clean_lang b -> clean_lang (cat a b).
Proof. intros A B s (x & y & -> & Hx & Hy). apply clean_app; auto. Qed.
Lemma clean_alt a b : clean_lang a -> clean_lang b -> clean_lang (alt a b).
Proof. intros A B s [H|H]; auto. Qed.
Lemma clean_opt a : clean_lang a -> clean_lang (opt a).
Proof. intros A s [H|H]; [auto|]. cbv in H. subst. apply clean_nil. Qed.
Lemma clean_star a : clean_lang a -> clean_lang (star a).
Proof. intros A s H. induction H; [apply clean_nil|]. apply clean_app; auto. Qed.
Lemma clean_plus a : clean_lang a -> clean_lang (plus a).
Proof. intros A. apply clean_cat; [exact A|apply clean_star; exact A]. Qed.
Lemma nonempty_chr p : nonempty_lang (chr p).
Proof. intros s (c & -> & _). discriminate. Qed.
Lemma nonempty_cat_l a b : nonempty_lang a -> nonempty_lang (cat a b).
Proof. intros A s (x & y & -> & Hx & _) E. apply app_eq_nil in E as [-> _]. apply (A [] Hx). reflexivity. Qed.
Lemma nonempty_cat_r a b : nonempty_lang b -> nonempty_lang (cat a b).
Proof. intros B s (x & y & -> & _ & Hy) E. apply app_eq_nil in E as [_ ->]. apply (B [] Hy). reflexivity. Qed.
Lemma clean_cat_colon a b : clean_lang a -> clean_lang b -> nonempty_lang a -> nonempty_lang b ->
  clean_lang (cat a (cat colon b)).
Proof.
  intros A B NA NB s (x & y & -> & Hx & (c & z & -> & (c' & -> & Hc) & Hz)).
  unfold one_of in Hc. cbn in Hc. rewrite orb_false_r in Hc. apply Ascii.eqb_eq in Hc. subst c'.
  apply clean_colon; auto.
Qed.

Lemma clean_digit : clean_lang digit. Proof. apply clean_chr; reflexivity. Qed.
Lemma clean_dd : clean_lang dd. Proof. apply clean_cat; apply clean_digit. Qed.
Lemma nonempty_dd : nonempty_lang dd. Proof. apply nonempty_cat_l, nonempty_chr. Qed.
Lemma clean_time02 : clean_lang time02.
Proof.
  apply clean_cat.
  - apply clean_alt; [apply clean_dd|]. apply clean_alt.
    + apply clean_cat_colon; (apply clean_dd || apply nonempty_dd).
    + apply clean_cat_colon; [apply clean_dd| |apply nonempty_dd|apply nonempty_cat_l, nonempty_dd].
      apply clean_cat_colon; (apply clean_dd || apply nonempty_dd).
  - apply clean_opt, clean_cat; [apply clean_chr; reflexivity|apply clean_plus, clean_digit].
Qed.
Lemma clean_element : clean_lang element.
Proof.
  apply clean_alt.
  - apply clean_cat; [apply clean_plus, clean_chr; reflexivity|]. apply clean_alt; [|apply clean_time02].
    apply clean_cat.
    + apply clean_cat; [apply clean_cat; apply clean_dd|]. apply clean_cat; [apply clean_chr; reflexivity|].
      apply clean_cat; [apply clean_dd|]. apply clean_cat; [apply clean_chr; reflexivity|apply clean_dd].
    + apply clean_opt, clean_cat; [apply clean_chr; reflexivity|apply clean_time02].
  - apply clean_alt.
    + apply clean_cat; [apply clean_opt, clean_chr; reflexivity|]. apply clean_cat; [apply clean_star, clean_digit|].
      apply clean_cat; [apply clean_opt, clean_chr; reflexivity|].
      apply clean_cat; [apply clean_plus, clean_digit|apply clean_opt, clean_chr; reflexivity].
    + apply clean_cat; [apply clean_opt, clean_chr; reflexivity|].
      apply clean_alt; [apply clean_digit|apply clean_chr; reflexivity].
Qed.
Lemma nonempty_element : nonempty_lang element.
Proof.
  intros s [H|[H|H]].
  - revert H. apply nonempty_cat_l, nonempty_cat_l, nonempty_chr.
  - revert H. apply nonempty_cat_r, nonempty_cat_r, nonempty_cat_r, nonempty_cat_l, nonempty_cat_l, nonempty_chr.
  - revert H. apply nonempty_cat_r. intros t [H|H]; revert H; apply nonempty_chr.
Qed.

(** Text with an empty middle ([::2], [1::3], the documented [10.0j::2]) is never taken
    as a slice: the bracket is then a set of characters for [glob]. *)
Theorem C32_open_slice_with_step_refuted : forall s, slice_text s -> ~ has_double_colon s.
Proof.
  intros s (x & y & -> & Hx & (y1 & y2 & -> & H1 & H2)).
  pose proof (clean_opt _ clean_element x Hx) as (A1 & A2 & A3).
  assert (T : clean_lang (cat (opt sign) (star digit))).
  { apply clean_cat; [apply clean_opt, clean_chr; reflexivity|apply clean_star, clean_digit]. }
  (* the tail: nothing, or a colon and something clean *)
  assert (K2 : y2 = [] \/ exists t, y2 = ":"%char :: t /\ clean t).
  { destruct H2 as [(c & t & -> & (c' & -> & Hc) & Ht)|H2]; [right|left; exact H2].
    unfold one_of in Hc. cbn in Hc. rewrite orb_false_r in Hc. apply Ascii.eqb_eq in Hc. subst c'.
    exists t. split; [reflexivity|]. apply T. exact Ht. }
  assert (K1 : y1 = [] \/ exists t, y1 = ":"%char :: t /\ clean t /\ t <> []).
  { destruct H1 as [(c & t & -> & (c' & -> & Hc) & Ht)|H1]; [right|left; exact H1].
    unfold one_of in Hc. cbn in Hc. rewrite orb_false_r in Hc. apply Ascii.eqb_eq in Hc. subst c'.
    exists t. split; [reflexivity|]. split; [apply clean_element|apply nonempty_element]; exact Ht. }
  assert (C : forall t, clean t -> ~ has_double_colon (":"%char :: t)).
  { intros t (B1 & B2 & _) ([|c a] & b & H); cbn in H; [injection H as H; apply (B2 b); exact H|injection H as H0 H].
    apply B1. exists a, b. exact H. }
  assert (Y2 : ~ has_double_colon y2).
  { destruct K2 as [->|(t & -> & Ct)]; [apply clean_nil|apply C; exact Ct]. }
  assert (Y : ~ has_double_colon (y1 ++ y2)).
  { destruct K1 as [->|(t & -> & Ct & Nt)]; [exact Y2|]. intros H.
    apply double_app in H as [H|[H|(x' & y' & E & _)]]; [revert H; apply C; exact Ct|auto|].
    destruct x' as [|c x']; cbn in E; [injection E as E; subst t; contradiction|injection E as E0 E].
    destruct Ct as (_ & _ & Ct). apply (Ct x'). exact E. }
  intros H. apply double_app in H as [H|[H|(x' & y' & E & _)]]; auto. apply (A3 x'). exact E.
Qed.
Print Assumptions C32_open_slice_with_step_refuted.

(** ** examples *)
Definition ex_found : list (nat * option Q) :=
  [(30, Some 30%Q); (99, None); (10, Some 10%Q); (40, Some 40%Q); (20, Some 20%Q)].
Example C32_ex1 : slice_globbed (Some (GSlice BNone (BIdx 2) None)) ex_found = GOk [10; 20].
Proof. vm_compute. reflexivity. Qed.
Example C32_ex2 : slice_globbed (Some (GSlice (BVal 20) (BVal 40) (Some 2%Z))) ex_found = GOk [20; 40].
Proof. vm_compute. reflexivity. Qed.
Example C32_ex3 : slice_globbed (Some (GInt (-1))) ex_found = GOk [40] /\
  slice_globbed (Some (GVal 19)) ex_found = GOk [20] /\
  slice_globbed (Some (GInt 4)) ex_found = GErr GIndexError.
Proof. repeat split; vm_compute; reflexivity. Qed.
Example C32_ex_ascending : timed ex_found <> [] /\ forall l, sorted_files ex_found l -> ascending (map snd l).
Proof.
  split; [discriminate|]. intros l (P & S & _).
  assert (ND : forall i j x y, i < j -> nth_error l i = Some x -> nth_error l j = Some y -> ~ (snd x == snd y)%Q).
  { intros i j x y L Hx Hy E.
    assert (K : NoDup (map (fun z => Qnum (snd z)) l) /\ forall z, In z l -> Qden (snd z) = 1%positive).
    { split.
      - apply (Permutation_NoDup (l := map (fun z => Qnum (snd z)) (timed ex_found))); [apply Permutation_map; exact P|].
        cbn. repeat constructor; cbn; lia.
      - intros z Hz. apply (Permutation_in z (Permutation_sym P)) in Hz. cbn in Hz.
        repeat (destruct Hz as [<-|Hz]; [reflexivity|]). destruct Hz. }
    destruct K as [K1 K2]. unfold Qeq in E. rewrite (K2 x), (K2 y) in E by (eapply nth_error_In; eauto).
    rewrite NoDup_nth_error in K1. assert (i = j); [|lia]. apply K1.
    - rewrite map_length. apply nth_error_Some. congruence.
    - rewrite !nth_error_map, Hx, Hy. cbn. f_equal. lia. }
  intros i j [L1 L2]. rewrite map_length in L2. unfold qnth.
  destruct (nth_error l i) as [x|] eqn:Ex; [|apply nth_error_None in Ex; lia].
  destruct (nth_error l j) as [y|] eqn:Ey; [|apply nth_error_None in Ey; lia].
  rewrite (nth_error_nth (map snd l) i 0%Q (x := snd x)) by (rewrite nth_error_map, Ex; reflexivity).
  rewrite (nth_error_nth (map snd l) j 0%Q (x := snd y)) by (rewrite nth_error_map, Ey; reflexivity).
  pose proof (S i j x y L1 Ex Ey) as Hle. pose proof (ND i j x y L1 Ex Ey) as Hne.
  destruct (Qlt_le_dec (snd x) (snd y)); [auto|]. exfalso. apply Hne. lra.
Qed.
Lemma cat_intro (a b : lang) x y : a x -> b y -> cat a b (x ++ y).
Proof. intros. exists x, y. auto. Qed.
(** [1:5:2] is a slice, [1::2] is not *)
Example C32_ex_text : slice_text ["1"; ":"; "5"; ":"; "2"]%char /\ ~ slice_text ["1"; ":"; ":"; "2"]%char.
Proof.
  assert (D : forall c, is_digit c = true -> digit [c]) by (intros c H; exists c; auto).
  assert (E : forall c, is_digit c = true -> element [c]).
  { intros c H. right. right. apply (cat_intro _ _ [] [c]); [right; reflexivity|left; auto]. }
  assert (CC : colon [":"%char]) by (exists ":"%char; auto).
  split.
  - apply (cat_intro _ _ ["1"%char] [":"; "5"; ":"; "2"]%char); [left; apply E; reflexivity|].
    apply (cat_intro _ _ [":"; "5"]%char [":"; "2"]%char).
    + left. apply (cat_intro _ _ [":"%char] ["5"%char]); [exact CC|apply E; reflexivity].
    + left. apply (cat_intro _ _ [":"%char] ["2"%char]); [exact CC|].
      apply (cat_intro _ _ [] ["2"%char]); [right; reflexivity|].
      apply (star_cons _ ["2"%char] []); [apply D; reflexivity|constructor].
  - intros H. apply (C32_open_slice_with_step_refuted _ H). exists ["1"%char], ["2"%char]. reflexivity.
Qed.
