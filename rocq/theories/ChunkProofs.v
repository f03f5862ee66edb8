From Verif Require Export ChunkModel.
From Coq Require Import ZifyBool ZifyNat.
Open Scope Z_scope.
Ltac Zify.zify_post_hook ::= Z.div_mod_to_equations.

(* ------------------------------------------------------------------ *)
(** ** contiguous chunks *)

Lemma chunk_run_length s len n : length (chunk_run s len n) = n.
Proof. revert s. induction n as [|n IH]; intros s; cbn [chunk_run length]; [reflexivity|]. now rewrite IH. Qed.

Lemma chunk_run_nth s len n i : (i < n)%nat ->
  nth_error (chunk_run s len n) i = Some (s + Z.of_nat i * len, s + Z.of_nat i * len + len).
Proof.
  revert s i. induction n as [|n IH]; intros s i Hi; [lia|].
  destruct i as [|i]; cbn [chunk_run nth_error].
  - f_equal. f_equal; lia.
  - rewrite IH by lia. f_equal. f_equal; lia.
Qed.

(** the bounds of chunk [i] in closed form *)
Definition cut (nel n i : Z) : Z := i * (nel / n) + Z.min i (nel mod n).

Lemma cut_0 nel n : 0 < n -> 0 <= nel -> cut nel n 0 = 0.
Proof. intros. unfold cut. pose proof (Z.mod_pos_bound nel n ltac:(lia)). lia. Qed.
Lemma cut_n nel n : 0 < n -> 0 <= nel -> cut nel n n = nel.
Proof.
  intros Hn He. unfold cut. pose proof (Z.mod_pos_bound nel n ltac:(lia)).
  pose proof (Z.div_mod nel n ltac:(lia)). rewrite Z.min_r by lia. lia.
Qed.
Lemma cut_step nel n i : 0 < n ->
  cut nel n (i + 1) - cut nel n i = nel / n + (if i <? nel mod n then 1 else 0).
Proof. intros Hn. unfold cut. destruct (i <? nel mod n) eqn:E; nia. Qed.
Lemma cut_mono nel n i j : 0 < n -> 0 <= nel -> 0 <= i <= j -> cut nel n i <= cut nel n j.
Proof.
  intros Hn He Hij. unfold cut. pose proof (Z.mod_pos_bound nel n ltac:(lia)).
  pose proof (Z.div_pos nel n ltac:(lia) ltac:(lia)). nia.
Qed.

Lemma chunk_slices_spec nel n : 0 < n -> 0 <= nel ->
  exists cs, chunk_slices nel n None = Some cs /\ Z.of_nat (length cs) = n /\
    forall i, (i < length cs)%nat ->
      nth_error cs i = Some (cut nel n (Z.of_nat i), cut nel n (Z.of_nat i + 1)).
Proof.
  intros Hn He. pose proof (Z.mod_pos_bound nel n ltac:(lia)) as Hm.
  unfold chunk_slices. cbn [eff_nchunks].
  replace (n =? 0) with false by lia. replace (n <? 0) with false by lia.
  eexists. split; [reflexivity|].
  rewrite app_length, !chunk_run_length. split; [lia|].
  intros i Hi.
  destruct (Nat.ltb i (Z.to_nat (nel mod n))) eqn:E.
  - rewrite nth_error_app1 by (rewrite chunk_run_length; lia).
    rewrite chunk_run_nth by lia. f_equal. unfold cut. f_equal; nia.
  - rewrite nth_error_app2 by (rewrite chunk_run_length; lia).
    rewrite chunk_run_length, chunk_run_nth by lia. f_equal. unfold cut.
    rewrite Nat2Z.inj_sub by lia. rewrite Z2Nat.id by lia. f_equal; nia.
Qed.

Lemma sel_ab L a b : 0 <= a <= b -> b <= L ->
  sel L (PS (Some a) (Some b) None) = Some (prog a 1 (Z.to_nat (b - a))).
Proof.
  intros Ha Hb. unfold sel, step_of, slice_start, slice_stop, prange, range_len, adj. cbn.
  replace (a <? 0) with false by lia. replace (b <? 0) with false by lia.
  replace (Z.max 0 (Z.min L a)) with a by lia. replace (Z.max 0 (Z.min L b)) with b by lia.
  destruct (a <? b) eqn:E.
  - rewrite Z.div_1_r. do 2 f_equal. lia.
  - replace (b - a) with 0 by lia. reflexivity.
Qed.

Lemma prog_app a d m n : prog a d (m + n) = prog a d m ++ prog (a + Z.of_nat m * d) d n.
Proof.
  revert a. induction m as [|m IH]; intros a.
  - cbn [Nat.add]. change (prog a d 0) with (@nil Z). cbn [app]. f_equal. lia.
  - cbn [Nat.add]. rewrite !prog_S, IH. cbn [app]. do 3 f_equal. lia.
Qed.

Lemma take_slices_nth {A} (l : list A) cs :
  (forall i a b, nth_error cs i = Some (a, b) -> 0 <= a <= b /\ b <= Z.of_nat (length l)) ->
  exists xs, take_slices l cs = Some xs /\ length xs = length cs /\
    forall i a b, nth_error cs i = Some (a, b) -> nth_error xs i = Some (picks l (prog a 1 (Z.to_nat (b - a)))).
Proof.
  induction cs as [|[a b] cs IH]; intros H.
  - exists []. repeat split; intros i a b Hi; now destruct i.
  - destruct IH as (xs & E & Hl & Hn).
    { intros i x y Hi. exact (H (S i) x y Hi). }
    destruct (H 0%nat a b eq_refl) as [H1 H2].
    cbn [take_slices]. unfold getslice. rewrite sel_ab by lia. rewrite E.
    eexists. split; [reflexivity|]. cbn [length]. split; [now rewrite Hl|].
    intros [|i] x y Hi; cbn in Hi |- *.
    + now injection Hi as <- <-.
    + now apply Hn.
Qed.

(** concatenating pieces cut at increasing points gives the whole *)
Lemma concat_cut {A} (l : list A) (xs : list (list A)) (c : Z -> Z) :
  c 0 = 0 ->
  (forall i, (i < length xs)%nat -> 0 <= c (Z.of_nat i) <= c (Z.of_nat i + 1)) ->
  (forall i, (i < length xs)%nat ->
     nth_error xs i = Some (picks l (prog (c (Z.of_nat i)) 1 (Z.to_nat (c (Z.of_nat i + 1) - c (Z.of_nat i)))))) ->
  concat xs = picks l (prog 0 1 (Z.to_nat (c (Z.of_nat (length xs))))).
Proof.
  intros H0. induction xs as [|x xs IH] using rev_ind; intros Hm Hn.
  - cbn. now rewrite H0.
  - rewrite app_length in *. cbn [length] in *.
    rewrite concat_app. cbn [concat]. rewrite app_nil_r.
    rewrite IH.
    + pose proof (Hn (length xs) ltac:(lia)) as Hx. rewrite nth_error_app2 in Hx by lia.
      rewrite Nat.sub_diag in Hx. cbn in Hx. injection Hx as ->.
      rewrite <- picks_app. f_equal.
      pose proof (Hm (length xs) ltac:(lia)) as Hc.
      replace (Z.of_nat (length xs + 1)) with (Z.of_nat (length xs) + 1) by lia.
      set (u := c (Z.of_nat (length xs))) in *. set (v := c (Z.of_nat (length xs) + 1)) in *.
      replace (Z.to_nat v) with (Z.to_nat u + Z.to_nat (v - u))%nat by lia.
      rewrite prog_app. do 2 f_equal. lia.
    + intros i Hi. apply Hm. lia.
    + intros i Hi. rewrite <- Hn by lia. now rewrite nth_error_app1 by lia.
Qed.

Lemma chunk_list_spec {A} (l : list A) n : 0 < n ->
  exists cs, chunk_list l n None = Some cs /\ Z.of_nat (length cs) = n /\ concat cs = l /\
    forall i c, nth_error cs i = Some c ->
      Z.of_nat (length c) = Z.of_nat (length l) / n + (if Z.of_nat i <? Z.of_nat (length l) mod n then 1 else 0).
Proof.
  intros Hn. set (L := Z.of_nat (length l)). assert (HL : 0 <= L) by lia.
  unfold chunk_list. cbn [eff_nchunks]. fold L.
  destruct (chunk_slices_spec L n Hn HL) as (sl & E & Hlen & Hnth). rewrite E.
  assert (Hb : forall i a b, nth_error sl i = Some (a, b) ->
     a = cut L n (Z.of_nat i) /\ b = cut L n (Z.of_nat i + 1) /\ (i < length sl)%nat).
  { intros i a b Hi. assert (i < length sl)%nat by (apply nth_error_Some; congruence).
    rewrite Hnth in Hi by assumption. injection Hi as <- <-. auto. }
  destruct (take_slices_nth l sl) as (xs & E2 & Hl2 & Hn2).
  { intros i a b Hi. destruct (Hb i a b Hi) as (-> & -> & Hlt).
    pose proof (cut_mono L n 0 (Z.of_nat i) Hn HL ltac:(lia)) as M1.
    pose proof (cut_mono L n (Z.of_nat i) (Z.of_nat i + 1) Hn HL ltac:(lia)) as M2.
    pose proof (cut_mono L n (Z.of_nat i + 1) n Hn HL ltac:(lia)) as M3.
    rewrite cut_0 in M1 by lia. rewrite cut_n in M3 by lia. fold L. lia. }
  exists xs. rewrite E2. split; [reflexivity|]. split; [lia|].
  assert (HH : forall i, (i < length xs)%nat -> nth_error xs i =
     Some (picks l (prog (cut L n (Z.of_nat i)) 1 (Z.to_nat (cut L n (Z.of_nat i + 1) - cut L n (Z.of_nat i)))))).
  { intros i Hi. apply Hn2. apply Hnth. lia. }
  split.
  - rewrite (concat_cut l xs (cut L n)).
    + replace (Z.of_nat (length xs)) with n by lia. rewrite cut_n by lia.
      unfold L. rewrite Nat2Z.id. apply picks_seq.
    + apply cut_0; lia.
    + intros i Hi. pose proof (cut_mono L n 0 (Z.of_nat i) Hn HL ltac:(lia)) as M1.
      pose proof (cut_mono L n (Z.of_nat i) (Z.of_nat i + 1) Hn HL ltac:(lia)) as M2.
      rewrite cut_0 in M1 by lia. lia.
    + exact HH.
  - intros i c Hi. assert (Hlt : (i < length xs)%nat) by (apply nth_error_Some; congruence).
    rewrite HH in Hi by assumption. injection Hi as <-.
    pose proof (cut_mono L n 0 (Z.of_nat i) Hn HL ltac:(lia)) as M1.
    pose proof (cut_mono L n (Z.of_nat i) (Z.of_nat i + 1) Hn HL ltac:(lia)) as M2.
    pose proof (cut_mono L n (Z.of_nat i + 1) n Hn HL ltac:(lia)) as M3.
    rewrite cut_0 in M1 by lia. rewrite cut_n in M3 by lia.
    rewrite picks_length, prog_length.
    + rewrite <- (cut_step L n (Z.of_nat i) Hn). lia.
    + intros j Hj. apply prog_In in Hj. destruct Hj as (k & Hk & ->). fold L. lia.
Qed.

(* ------------------------------------------------------------------ *)
(** ** interleaved chunks *)

Definition icount (L n i : Z) : Z := (L - i + n - 1) / n.

Lemma icount_nonneg L n i : 0 <= L -> 0 <= i < n -> 0 <= icount L n i.
Proof. intros. unfold icount. apply Z.div_pos; lia. Qed.

Lemma icount_sizes L n i : 0 <= L -> 0 <= i < n ->
  icount L n i = L / n + (if i <? L mod n then 1 else 0).
Proof.
  intros HL Hi. unfold icount. pose proof (Z.div_mod L n ltac:(lia)) as D.
  pose proof (Z.mod_pos_bound L n ltac:(lia)) as M.
  symmetry. destruct (i <? L mod n) eqn:E.
  - apply Z.div_unique with (r := L mod n - i - 1); lia.
  - apply Z.div_unique with (r := L mod n - i + n - 1); lia.
Qed.

Lemma inter_sel L n i : 0 <= L -> 0 <= i < n ->
  sel L (PS (Some i) None (Some n)) = Some (prog i n (Z.to_nat (icount L n i))).
Proof.
  intros HL Hi. unfold sel, step_of, slice_start, slice_stop, prange, range_len, adj, step_of. cbn.
  replace (n =? 0) with false by lia. replace (0 <? n) with true by lia.
  replace (i <? 0) with false by lia.
  destruct (i <? L) eqn:E.
  - replace (Z.max 0 (Z.min L i)) with i by lia. rewrite E. f_equal. f_equal. f_equal.
    unfold icount. replace (L - i + n - 1) with (L - i - 1 + 1 * n) by lia.
    now rewrite Z.div_add by lia.
  - replace (Z.max 0 (Z.min L i)) with L by lia. replace (L <? L) with false by lia.
    unfold icount. rewrite Z.div_small by lia. reflexivity.
Qed.

Lemma inter_in L n i k : 0 <= L -> 0 <= i < n ->
  In k (prog i n (Z.to_nat (icount L n i))) <-> 0 <= k < L /\ k mod n = i.
Proof.
  intros HL Hi. rewrite prog_In. pose proof (icount_nonneg L n i HL Hi) as Hc.
  assert (Hmul : icount L n i * n < L - i + n /\ L - i <= icount L n i * n).
  { unfold icount. pose proof (Z.div_mod (L - i + n - 1) n ltac:(lia)).
    pose proof (Z.mod_pos_bound (L - i + n - 1) n ltac:(lia)). lia. }
  split.
  - intros (j & Hj & ->). split; [nia|]. rewrite Z.mod_add by lia. apply Z.mod_small. lia.
  - intros [Hk Hm]. exists (Z.to_nat (k / n)).
    pose proof (Z.div_mod k n ltac:(lia)) as D. pose proof (Z.div_pos k n ltac:(lia) ltac:(lia)).
    rewrite Z2Nat.id by lia. split; [nia|]. lia.
Qed.

Lemma prog_NoDup a d n : d <> 0 -> NoDup (prog a d n).
Proof.
  intros Hd. revert a. induction n as [|n IH]; intros a; [constructor|].
  rewrite prog_S. constructor; [|apply IH].
  intros Hin. apply prog_In in Hin. destruct Hin as (k & _ & E). nia.
Qed.

Lemma chunk_interslices_nth n i : (i < Z.to_nat n)%nat ->
  nth_error (chunk_interslices n) i = Some (PS (Some (Z.of_nat i)) None (Some n)).
Proof.
  intros Hi. unfold chunk_interslices. rewrite nth_error_map, (nth_error_nth' _ 0%nat) by (rewrite seq_length; lia).
  rewrite seq_nth by lia. reflexivity.
Qed.
Lemma chunk_interslices_length n : length (chunk_interslices n) = Z.to_nat n.
Proof. unfold chunk_interslices. now rewrite map_length, seq_length. Qed.

Lemma nth_error_repeat_some {A} (x : A) n i : (i < n)%nat -> nth_error (repeat x n) i = Some x.
Proof. revert i; induction n as [|n IH]; intros [|i] H; cbn; try lia; auto. apply IH. lia. Qed.

Lemma chunk_sizes_spec L n : 0 <= L -> 0 < n ->
  exists zs, chunk_sizes L n None = Some zs /\ length zs = Z.to_nat n /\
    forall i, (i < Z.to_nat n)%nat -> nth_error zs i = Some (L / n + (if Z.of_nat i <? L mod n then 1 else 0)).
Proof.
  intros HL Hn. pose proof (Z.mod_pos_bound L n ltac:(lia)) as M.
  unfold chunk_sizes. cbn [eff_nchunks]. replace (n <=? 0) with false by lia.
  eexists. split; [reflexivity|]. rewrite app_length, !repeat_length. split; [lia|].
  intros i Hi. destruct (Z.of_nat i <? L mod n) eqn:E.
  - rewrite nth_error_app1 by (rewrite repeat_length; lia). rewrite nth_error_repeat_some by lia. reflexivity.
  - rewrite nth_error_app2 by (rewrite repeat_length; lia). rewrite repeat_length, nth_error_repeat_some by lia.
    f_equal. lia.
Qed.

(* ------------------------------------------------------------------ *)
(** ** workers and re-assembly *)

Definition hit (i n k : Z) : bool := (i <=? k) && ((k - i) mod n =? 0).

Lemma islice_from_picks {A} (pts : list A) i n : forall k (pre : list A), length pre = k ->
  islice_from k pts i n
    = picks (pre ++ pts) (filter (hit i n) (prog (Z.of_nat k) 1 (length pts))).
Proof.
  induction pts as [|p pts IH]; intros k pre Hk; [reflexivity|].
  cbn [islice_from length]. rewrite prog_S. cbn [filter].
  rewrite (IH (S k) (pre ++ [p])) by (rewrite app_length; cbn; lia).
  rewrite <- app_assoc. cbn [app]. replace (Z.of_nat (S k)) with (Z.of_nat k + 1) by lia.
  change ((i <=? Z.of_nat k) && ((Z.of_nat k - i) mod n =? 0)) with (hit i n (Z.of_nat k)).
  destruct (hit i n (Z.of_nat k)); [|reflexivity].
  cbn [picks flat_map]. f_equal. unfold pick, zget.
  replace (Z.of_nat k <? 0) with false by lia. rewrite Nat2Z.id, nth_error_app2 by lia.
  now replace (k - length pre)%nat with 0%nat by lia.
Qed.

Lemma filter_hit i n m : 0 <= i < n ->
  filter (hit i n) (prog 0 1 m) = prog i n (Z.to_nat (icount (Z.of_nat m) n i)).
Proof.
  intros Hi. induction m as [|m IH].
  - cbn [Z.of_nat prog seq map filter]. unfold icount. rewrite Z.div_small by lia. reflexivity.
  - rewrite prog_snoc, filter_app, IH. cbn [filter].
    replace (0 + Z.of_nat m * 1) with (Z.of_nat m) by lia.
    pose proof (icount_nonneg (Z.of_nat m) n i ltac:(lia) Hi) as H0.
    assert (Hs : icount (Z.of_nat (S m)) n i
       = icount (Z.of_nat m) n i + (if hit i n (Z.of_nat m) then 1 else 0) /\
       (hit i n (Z.of_nat m) = true -> i + icount (Z.of_nat m) n i * n = Z.of_nat m)).
    { unfold icount, hit. destruct (i <=? Z.of_nat m) eqn:E1; cbn [andb].
      - destruct ((Z.of_nat m - i) mod n =? 0) eqn:E2.
        + assert (Hd : Z.of_nat m - i = n * ((Z.of_nat m - i) / n)).
          { pose proof (Z.div_mod (Z.of_nat m - i) n ltac:(lia)). lia. }
          set (q := (Z.of_nat m - i) / n) in *.
          assert (Hq : (Z.of_nat m - i + n - 1) / n = q).
          { symmetry. apply Z.div_unique with (r := n - 1); lia. }
          rewrite Hq. split.
          * symmetry. apply Z.div_unique with (r := 0); lia.
          * intros _. lia.
        + split; [|discriminate].
          pose proof (Z.div_mod (Z.of_nat m - i) n ltac:(lia)) as D.
          pose proof (Z.mod_pos_bound (Z.of_nat m - i) n ltac:(lia)) as M.
          set (q := (Z.of_nat m - i) / n) in *. set (r := (Z.of_nat m - i) mod n) in *.
          transitivity (q + 1).
          * symmetry. apply Z.div_unique with (r := r); lia.
          * rewrite Z.add_0_r. apply Z.div_unique with (r := r - 1); lia.
      - split; [|discriminate]. rewrite !Z.div_small by lia. reflexivity. }
    destruct Hs as [Hs1 Hs2]. rewrite Hs1. destruct (hit i n (Z.of_nat m)).
    + replace (Z.to_nat (icount (Z.of_nat m) n i + 1)) with (S (Z.to_nat (icount (Z.of_nat m) n i))) by lia.
      rewrite prog_snoc. rewrite Z2Nat.id by lia. rewrite Hs2 by reflexivity. reflexivity.
    + rewrite app_nil_r. f_equal. lia.
Qed.

Lemma islice_spec {A} (pts : list A) i n : 0 <= i < n ->
  islice pts i n = picks pts (prog i n (Z.to_nat (icount (Z.of_nat (length pts)) n i))).
Proof.
  intros Hi. unfold islice. rewrite (islice_from_picks pts i n 0%nat []) by reflexivity.
  cbn [app]. change (Z.of_nat 0) with 0. now rewrite filter_hit.
Qed.

Lemma inter_in_range L n i : 0 <= L -> 0 <= i < n ->
  forall k, In k (prog i n (Z.to_nat (icount L n i))) -> 0 <= k < L.
Proof. intros HL Hi k Hk. apply (inter_in L n i k HL Hi) in Hk. lia. Qed.

Section W.
Context {P B St : Type} (trace : St -> P -> B * St) (Inv : St -> Prop) (g : P -> B).
Hypothesis trace_inv : forall st p, Inv st -> fst (trace st p) = g p /\ Inv (snd (trace st p)).

Lemma trace_all_map pts : forall st, Inv st -> trace_all trace st pts = map g pts.
Proof.
  induction pts as [|p pts IH]; intros st Hst; [reflexivity|].
  cbn [trace_all map]. destruct (trace_inv st p Hst) as [H1 H2].
  destruct (trace st p) as [b st'] eqn:E. cbn in H1, H2. rewrite H1. f_equal. now apply IH.
Qed.

Lemma picks_map {A C} (h : A -> C) (l : list A) is : picks (map h l) is = map h (picks l is).
Proof.
  induction is as [|i is IH]; [reflexivity|].
  cbn [picks flat_map]. rewrite map_app. f_equal; [|exact IH].
  unfold pick, zget. destruct (i <? 0); [reflexivity|].
  rewrite nth_error_map. destruct (nth_error l (Z.to_nat i)); reflexivity.
Qed.

Lemma worker_spec st seeds n i : Inv st -> 0 <= i < n ->
  worker trace st (icount (Z.of_nat (length seeds)) n i) seeds (PS (Some i) None (Some n))
  = Some (picks (map (fun p => Some (g p)) seeds) (prog i n (Z.to_nat (icount (Z.of_nat (length seeds)) n i)))).
Proof.
  intros Hst Hi. unfold worker. cbn [p_start odef]. unfold step_of. cbn [p_step odef].
  rewrite islice_spec by assumption.
  rewrite picks_length, prog_length by (apply inter_in_range; lia).
  pose proof (icount_nonneg (Z.of_nat (length seeds)) n i ltac:(lia) Hi).
  rewrite Z2Nat.id by lia. rewrite Z.ltb_irrefl, Z.sub_diag. cbn [repeat Z.to_nat].
  rewrite app_nil_r, trace_all_map by assumption. f_equal.
  now rewrite map_map, <- picks_map.
Qed.
End W.

Lemma set_nth_length {A} (l : list A) i v : length (set_nth l i v) = length l.
Proof. revert i; induction l as [|x l IH]; intros [|i]; cbn; auto. Qed.
Lemma set_nth_nth {A} (l : list A) i v k : (i < length l)%nat ->
  nth_error (set_nth l i v) k = if Nat.eqb k i then Some v else nth_error l k.
Proof.
  revert i k. induction l as [|x l IH]; intros i k Hi; cbn in Hi; [lia|].
  destruct i as [|i], k as [|k]; cbn; auto. apply IH. lia.
Qed.

Lemma set_all_picks {A} (T l : list A) is : length l = length T ->
  (forall i, In i is -> 0 <= i < Z.of_nat (length T)) ->
  length (set_all l is (picks T is)) = length T /\
  forall k, (In (Z.of_nat k) is -> nth_error (set_all l is (picks T is)) k = nth_error T k) /\
    (~ In (Z.of_nat k) is -> nth_error (set_all l is (picks T is)) k = nth_error l k).
Proof.
  revert l. induction is as [|i is IH]; intros l Hl Hin.
  - cbn [set_all]. split; [assumption|]. intros k. split; [intros []|reflexivity].
  - assert (Hi : 0 <= i < Z.of_nat (length T)) by (apply Hin; now left).
    destruct (zget_Some T i Hi) as [v Hv].
    cbn [picks flat_map]. change (flat_map (pick T) is) with (picks T is).
    unfold pick. rewrite Hv. cbn [app set_all].
    assert (Hv' : nth_error T (Z.to_nat i) = Some v).
    { unfold zget in Hv. destruct (i <? 0) eqn:E; [lia|exact Hv]. }
    destruct (IH (set_nth l (Z.to_nat i) v)) as [IHl IHk].
    { now rewrite set_nth_length. } { intros j Hj. apply Hin. now right. }
    split; [exact IHl|]. intros k. destruct (IHk k) as [K1 K2].
    destruct (in_dec Z.eq_dec (Z.of_nat k) is) as [Hd|Hd].
    + split; [intros _; now apply K1|]. intros Hno. elim Hno. now right.
    + rewrite K2 by assumption. rewrite set_nth_nth by lia.
      destruct (Nat.eqb k (Z.to_nat i)) eqn:E.
      * apply Nat.eqb_eq in E. subst k. split; [intros _; now rewrite Hv'|].
        intros Hno. elim Hno. left. lia.
      * split; [|reflexivity]. intros [Hk|Hk]; [lia|contradiction].
Qed.

Lemma all_some_map {A C} (h : A -> option C) (h' : A -> C) l :
  (forall x, In x l -> h x = Some (h' x)) -> all_some (map h l) = Some (map h' l).
Proof.
  induction l as [|x l IH]; intros H; [reflexivity|].
  cbn [map all_some]. rewrite H by now left. rewrite IH; [reflexivity|]. intros y Hy. apply H. now right.
Qed.

Lemma all_some_nth {A} (l : list (option A)) (r : list A) :
  length l = length r -> (forall i, (i < length l)%nat -> nth_error l i = option_map Some (nth_error r i)) ->
  all_some l = Some r.
Proof.
  revert r. induction l as [|x l IH]; intros [|y r] Hl Hn; cbn in Hl; try lia; [reflexivity|].
  pose proof (Hn 0%nat ltac:(cbn; lia)) as H0. cbn in H0. injection H0 as ->.
  cbn [all_some]. rewrite (IH r); [reflexivity|lia|].
  intros i Hi. exact (Hn (S i) ltac:(cbn; lia)).
Qed.

(** re-assembling the pieces of [T] cut by the interleaved slices gives [T] *)
Lemma reassemble_spec {A} (T : list A) n m : forall j out,
  0 < n -> (Z.of_nat (j + m) = n) -> length out = length T ->
  (forall k, (k < length T)%nat -> Z.of_nat k mod n < Z.of_nat j -> nth_error out k = nth_error T k) ->
  reassemble out (map (fun i => PS (Some (Z.of_nat i)) None (Some n)) (seq j m))
     (map (fun i => picks T (prog (Z.of_nat i) n (Z.to_nat (icount (Z.of_nat (length T)) n (Z.of_nat i))))) (seq j m))
  = Some T.
Proof.
  induction m as [|m IH]; intros j out Hn Hj Hl Hk.
  - cbn [seq map reassemble]. f_equal. apply list_nth_error_ext. intros k.
    destruct (lt_dec k (length T)) as [H|H].
    + apply Hk; [assumption|]. pose proof (Z.mod_pos_bound (Z.of_nat k) n Hn). lia.
    + rewrite (proj2 (nth_error_None _ _)) by lia. symmetry. apply nth_error_None. lia.
  - cbn [seq map reassemble]. unfold assign_slice. rewrite Hl.
    rewrite inter_sel by lia.
    set (is := prog (Z.of_nat j) n (Z.to_nat (icount (Z.of_nat (length T)) n (Z.of_nat j)))).
    assert (Hr : forall k, In k is -> 0 <= k < Z.of_nat (length T)) by (apply inter_in_range; lia).
    rewrite picks_length by assumption. rewrite Nat.eqb_refl.
    destruct (set_all_picks T out is Hl Hr) as [S1 S2].
    apply IH; [assumption|lia|assumption|].
    intros k Hk1 Hk2. destruct (S2 k) as [K1 K2].
    destruct (in_dec Z.eq_dec (Z.of_nat k) is) as [Hd|Hd].
    + now apply K1.
    + rewrite K2 by assumption. apply Hk; [assumption|].
      assert (Z.of_nat k mod n <> Z.of_nat j).
      { intros E. apply Hd. apply inter_in; [lia|lia|]. split; [lia|assumption]. }
      lia.
Qed.

Lemma calc_streams_spec {P B St} (trace : St -> P -> B * St) (Inv : St -> Prop) (g : P -> B)
  (start_state : nat -> St) seeds nr_procs chunk_factor :
  (forall st p, Inv st -> fst (trace st p) = g p /\ Inv (snd (trace st p))) ->
  (forall k, Inv (start_state k)) ->
  calc_streams trace start_state seeds nr_procs chunk_factor = Some (map (fun p => Some (g p)) seeds).
Proof.
  intros Htr Hst. unfold calc_streams.
  set (L := Z.of_nat (length seeds)).
  set (n := Z.max 1 (Z.min (chunk_factor * nr_procs) L)). assert (Hn : 0 < n) by lia.
  destruct (chunk_sizes_spec L n ltac:(lia) Hn) as (zs & -> & Hzl & Hzn).
  set (T := map (fun p => Some (g p)) seeds).
  assert (HT : Z.of_nat (length T) = L) by (unfold T; now rewrite map_length).
  rewrite (all_some_nth _ (map (fun i => picks T (prog (Z.of_nat i) n (Z.to_nat (icount L n (Z.of_nat i)))))
                             (seq 0 (Z.to_nat n)))).
  - unfold chunk_interslices. rewrite <- HT. apply reassemble_spec; [assumption|lia| |].
    + rewrite repeat_length. unfold T. now rewrite map_length.
    + intros k _ H. pose proof (Z.mod_pos_bound (Z.of_nat k) n Hn). lia.
  - rewrite !map_length, !combine_length, chunk_interslices_length, !seq_length, Hzl. lia.
  - intros i Hi. rewrite !map_length, !combine_length, chunk_interslices_length, !seq_length, Hzl in Hi.
    assert (Hi' : (i < Z.to_nat n)%nat) by lia. clear Hi.
    rewrite chunk_interslices_length.
    assert (Hcomb : nth_error (combine (seq 0 (Z.to_nat n)) (combine zs (chunk_interslices n))) i
      = Some (i, (icount L n (Z.of_nat i), PS (Some (Z.of_nat i)) None (Some n)))).
    { assert (NC : forall {X Y} (l1 : list X) (l2 : list Y) k a b, nth_error l1 k = Some a -> nth_error l2 k = Some b ->
                nth_error (combine l1 l2) k = Some (a, b)).
      { intros X Y l1. induction l1 as [|x l1 IH]; intros [|y l2] [|k] a b; cbn; try discriminate.
        - now intros [= ->] [= ->].
        - apply IH. }
      apply NC.
      - rewrite (nth_error_nth' _ 0%nat) by (rewrite seq_length; lia). now rewrite seq_nth by lia.
      - apply NC.
        + rewrite Hzn by assumption. now rewrite icount_sizes by lia.
        + now apply chunk_interslices_nth. }
    rewrite !nth_error_map, Hcomb. cbn [option_map].
    rewrite (nth_error_nth' _ 0%nat) by (rewrite seq_length; lia). rewrite seq_nth by lia. cbn [option_map Nat.add].
    f_equal. unfold L. apply (worker_spec trace Inv g Htr); [apply Hst|lia].
Qed.
