(** Python's own sequence slicing, as defined by the language reference and
    CPython's [PySlice_Unpack]/[PySlice_AdjustIndices].  This is a small
    independent specification: several parts of Viscid promise to select "what
    the slice would select", and the theorems are stated against this file. *)
From Coq Require Export List ZArith Lia Bool.
From Coq Require Import ZifyBool ZifyNat.
Export ListNotations.
Open Scope Z_scope.

(** [slice(start, stop, step)]; [None] is Python's [None]. *)
Record pslice := PS { p_start : option Z; p_stop : option Z; p_step : option Z }.

Definition odef (o : option Z) (d : Z) : Z := match o with Some x => x | None => d end.

Definition step_of (s : pslice) : Z := odef (p_step s) 1.

(** adjust a given bound: negative counts from the end, then clamp to [lo..hi] *)
Definition adj (L lo hi x : Z) : Z :=
  let y := if x <? 0 then x + L else x in
  Z.max lo (Z.min hi y).

(** [slice.indices(L)] for a non-zero step *)
Definition slice_start (L : Z) (s : pslice) : Z :=
  if 0 <? step_of s
  then match p_start s with None => 0 | Some x => adj L 0 L x end
  else match p_start s with None => L - 1 | Some x => adj L (-1) (L - 1) x end.

Definition slice_stop (L : Z) (s : pslice) : Z :=
  if 0 <? step_of s
  then match p_stop s with None => L | Some x => adj L 0 L x end
  else match p_stop s with None => -1 | Some x => adj L (-1) (L - 1) x end.

(** [len(range(start, stop, step))] *)
Definition range_len (start stop step : Z) : Z :=
  if 0 <? step then (if start <? stop then (stop - start - 1) / step + 1 else 0)
  else (if stop <? start then (start - stop - 1) / (- step) + 1 else 0).

(** arithmetic progression of [n] elements from [a] by [d] *)
Definition prog (a d : Z) (n : nat) : list Z := map (fun k => a + Z.of_nat k * d) (seq 0 n).

(** [list(range(start, stop, step))] *)
Definition prange (start stop step : Z) : list Z :=
  prog start step (Z.to_nat (range_len start stop step)).

(** the indices [seq[s]] reads, in order, from a sequence of length [L];
    [None] is the ValueError "slice step cannot be zero" *)
Definition sel (L : Z) (s : pslice) : option (list Z) :=
  if step_of s =? 0 then None
  else Some (prange (slice_start L s) (slice_stop L s) (step_of s)).

(** non-negative list indexing *)
Definition zget {A} (l : list A) (i : Z) : option A :=
  if i <? 0 then None else nth_error l (Z.to_nat i).

(** Python integer indexing [l[i]]; [None] is IndexError *)
Definition getitem {A} (l : list A) (i : Z) : option A :=
  if i <? 0 then zget l (i + Z.of_nat (length l)) else zget l i.

Definition pick {A} (l : list A) (i : Z) : list A :=
  match zget l i with Some x => [x] | None => [] end.
Definition picks {A} (l : list A) (is : list Z) : list A := flat_map (pick l) is.

(** [l[s]] for a slice [s] *)
Definition getslice {A} (l : list A) (s : pslice) : option (list A) :=
  match sel (Z.of_nat (length l)) s with
  | None => None
  | Some is => Some (picks l is)
  end.

(** [l[::-1]] *)
Definition full_rev : pslice := PS None None (Some (-1)).
Definition full_fwd : pslice := PS None None (Some 1).

(* ------------------------------------------------------------------ *)
(** * Facts *)

Lemma prog_length a d n : length (prog a d n) = n.
Proof. unfold prog. now rewrite map_length, seq_length. Qed.

Lemma prog_nth a d n k : (k < n)%nat -> nth_error (prog a d n) k = Some (a + Z.of_nat k * d).
Proof.
  intros Hk. unfold prog. rewrite nth_error_map.
  rewrite (nth_error_nth' _ 0%nat) by (rewrite seq_length; lia).
  rewrite seq_nth by lia. reflexivity.
Qed.

Lemma prog_S a d n : prog a d (S n) = a :: prog (a + d) d n.
Proof.
  unfold prog. cbn [seq map]. f_equal; [lia|].
  rewrite <- seq_shift, map_map. apply map_ext. intros k. lia.
Qed.

Lemma prog_snoc a d n : prog a d (S n) = prog a d n ++ [a + Z.of_nat n * d].
Proof. unfold prog. rewrite seq_S, map_app. cbn. do 2 f_equal. Qed.

Lemma prog_rev a d n : rev (prog a d n) = prog (a + (Z.of_nat n - 1) * d) (- d) n.
Proof.
  revert a. induction n as [|n IH]; intros a; [reflexivity|].
  rewrite prog_snoc, rev_app_distr. cbn [rev app]. rewrite IH, prog_S.
  f_equal; [f_equal; lia|]. f_equal. lia.
Qed.

Lemma prog_map_flip c a d n : map (fun i => c - i) (prog a d n) = prog (c - a) (- d) n.
Proof. unfold prog. rewrite map_map. apply map_ext. intros; lia. Qed.

Lemma prog_In a d n x : In x (prog a d n) <-> exists k, (k < n)%nat /\ x = a + Z.of_nat k * d.
Proof.
  unfold prog. rewrite in_map_iff. split.
  - intros (k & <- & Hk). apply in_seq in Hk. exists k. split; [lia|reflexivity].
  - intros (k & Hk & ->). exists k. split; [reflexivity|]. apply in_seq. lia.
Qed.

Lemma prog_comp a d n b e m :
  (forall k, (k < m)%nat -> 0 <= b + Z.of_nat k * e < Z.of_nat n) ->
  picks (prog a d n) (prog b e m) = prog (a + b * d) (d * e) m.
Proof.
  revert b. induction m as [|m IH]; intros b Hb; [reflexivity|].
  rewrite !prog_S. cbn [picks flat_map]. change (flat_map (pick (prog a d n))) with (picks (prog a d n)).
  pose proof (Hb 0%nat ltac:(lia)) as H0.
  unfold pick, zget. destruct (b <? 0) eqn:E; [lia|].
  rewrite prog_nth by lia. cbn [app]. f_equal; [rewrite Z2Nat.id by lia; reflexivity|].
  rewrite IH.
  - f_equal. ring.
  - intros k Hk. specialize (Hb (S k) ltac:(lia)). lia.
Qed.

Lemma range_len_nonneg a b s : s <> 0 -> 0 <= range_len a b s.
Proof.
  intros Hs. unfold range_len.
  destruct (0 <? s) eqn:E.
  - destruct (a <? b) eqn:E2; [|lia].
    pose proof (Z.div_pos (b - a - 1) s ltac:(lia) ltac:(lia)). lia.
  - destruct (b <? a) eqn:E2; [|lia].
    pose proof (Z.div_pos (a - b - 1) (-s) ltac:(lia) ltac:(lia)). lia.
Qed.

(** every index a slice reads is in range *)
Lemma sel_in_range L s is : 0 <= L -> sel L s = Some is -> forall i, In i is -> 0 <= i < L.
Proof.
  intros HL. unfold sel. destruct (step_of s =? 0) eqn:E0; [discriminate|].
  intros [= <-] i Hi. unfold prange in Hi. apply prog_In in Hi. destruct Hi as (k & Hk & ->).
  set (a := slice_start L s) in *. set (b := slice_stop L s) in *. set (st := step_of s) in *.
  assert (Ha : (0 < st -> 0 <= a) /\ (st < 0 -> a <= L - 1)).
  { subst a st. unfold slice_start, adj. split; intros Hst; destruct (0 <? step_of s) eqn:E; try lia;
      destruct (p_start s) as [x|]; try lia; destruct (x <? 0); lia. }
  assert (Hb : (0 < st -> b <= L) /\ (st < 0 -> -1 <= b)).
  { subst b st. unfold slice_stop, adj. split; intros Hst; destruct (0 <? step_of s) eqn:E; try lia;
      destruct (p_stop s) as [x|]; try lia; destruct (x <? 0); lia. }
  clearbody a b st. unfold range_len in Hk.
  destruct (0 <? st) eqn:E1.
  - destruct (a <? b) eqn:E2; [|lia].
    pose proof (Z.mul_div_le (b - a - 1) st ltac:(lia)) as Hq.
    set (q := (b - a - 1) / st) in *. assert (0 <= q) by (subst q; apply Z.div_pos; lia).
    assert (Z.of_nat k <= q) by lia. nia.
  - destruct (b <? a) eqn:E2; [|lia].
    pose proof (Z.mul_div_le (a - b - 1) (-st) ltac:(lia)) as Hq.
    set (q := (a - b - 1) / -st) in *. assert (0 <= q) by (subst q; apply Z.div_pos; lia).
    assert (Z.of_nat k <= q) by lia. nia.
Qed.

Lemma zget_Some {A} (l : list A) i : 0 <= i < Z.of_nat (length l) -> exists x, zget l i = Some x.
Proof.
  intros Hi. unfold zget. destruct (i <? 0) eqn:E; [lia|].
  destruct (nth_error l (Z.to_nat i)) eqn:E2; [eauto|].
  apply nth_error_None in E2. lia.
Qed.

Lemma zget_None {A} (l : list A) i : zget l i = None <-> (i < 0 \/ Z.of_nat (length l) <= i).
Proof.
  unfold zget. destruct (i <? 0) eqn:E.
  - split; [left; lia | reflexivity].
  - rewrite nth_error_None. split; lia.
Qed.

Lemma picks_length {A} (l : list A) is :
  (forall i, In i is -> 0 <= i < Z.of_nat (length l)) -> length (picks l is) = length is.
Proof.
  induction is as [|i is IH]; intros H; [reflexivity|].
  cbn [picks flat_map]. rewrite app_length. change (flat_map (pick l) is) with (picks l is).
  rewrite IH by (intros; apply H; now right).
  destruct (zget_Some l i (H i (or_introl eq_refl))) as (x & Hx).
  unfold pick. rewrite Hx. reflexivity.
Qed.

Lemma picks_app {A} (l : list A) a b : picks l (a ++ b) = picks l a ++ picks l b.
Proof. apply flat_map_app. Qed.

Lemma picks_nth {A} (l : list A) is k :
  (forall i, In i is -> 0 <= i < Z.of_nat (length l)) ->
  nth_error (picks l is) k = match nth_error is k with Some i => zget l i | None => None end.
Proof.
  revert k. induction is as [|i is IH]; intros k H; [destruct k; reflexivity|].
  cbn [picks flat_map]. change (flat_map (pick l) is) with (picks l is).
  destruct (zget_Some l i (H i (or_introl eq_refl))) as (x & Hx).
  unfold pick at 1. rewrite Hx. destruct k; cbn [app nth_error]; [now rewrite Hx|].
  apply IH. intros; apply H; now right.
Qed.

Lemma picks_picks {A} (l : list A) is js :
  (forall i, In i is -> 0 <= i < Z.of_nat (length l)) ->
  picks (picks l is) js = picks l (picks is js).
Proof.
  intros H. induction js as [|j js IH]; [reflexivity|].
  change (picks (picks l is) (j :: js)) with (pick (picks l is) j ++ picks (picks l is) js).
  change (picks is (j :: js)) with (pick is j ++ picks is js).
  rewrite IH. rewrite picks_app. f_equal.
  unfold pick, zget. destruct (j <? 0) eqn:E; [reflexivity|].
  rewrite (picks_nth l is _ H). destruct (nth_error is (Z.to_nat j)) as [i|] eqn:E2; [|reflexivity].
  cbn. rewrite app_nil_r. reflexivity.
Qed.

Lemma picks_rev {A} (l : list A) is :
  picks (rev l) is = picks l (map (fun i => Z.of_nat (length l) - 1 - i) is).
Proof.
  induction is as [|i is IH]; [reflexivity|].
  cbn [picks flat_map map]. f_equal; [|exact IH].
  unfold pick.
  enough (zget (rev l) i = zget l (Z.of_nat (length l) - 1 - i)) as -> by reflexivity.
  destruct (Z_lt_dec i 0) as [Hn|Hn]; [|destruct (Z_lt_dec i (Z.of_nat (length l))) as [Hl|Hl]].
  - transitivity (@None A); [|symmetry]; apply zget_None; rewrite ?rev_length; lia.
  - unfold zget. destruct (i <? 0) eqn:E1; [lia|].
    destruct (Z.of_nat (length l) - 1 - i <? 0) eqn:E2; [lia|].
    assert (exists d : A, True) as (d & _) by (destruct l as [|d l']; [cbn in Hl; lia | now exists d]).
    rewrite (nth_error_nth' (rev l) d) by (rewrite rev_length; lia).
    rewrite (nth_error_nth' l d) by lia.
    f_equal. rewrite rev_nth by lia. f_equal. lia.
  - transitivity (@None A); [|symmetry]; apply zget_None; rewrite ?rev_length; lia.
Qed.

Lemma list_nth_error_ext {A} (l1 l2 : list A) :
  (forall k, nth_error l1 k = nth_error l2 k) -> l1 = l2.
Proof.
  revert l2. induction l1 as [|a l1 IH]; intros [|b l2] H.
  - reflexivity.
  - specialize (H 0%nat). discriminate.
  - specialize (H 0%nat). discriminate.
  - pose proof (H 0%nat) as H0. injection H0 as ->. f_equal. apply IH. intros k. exact (H (S k)).
Qed.

Lemma picks_seq {A} (l : list A) : picks l (prog 0 1 (length l)) = l.
Proof.
  apply list_nth_error_ext. intros k. rewrite picks_nth.
  - destruct (lt_dec k (length l)) as [H|H].
    + rewrite prog_nth by lia. unfold zget. destruct (_ <? 0) eqn:E; [lia|]. f_equal. lia.
    + assert (nth_error (prog 0 1 (length l)) k = None) as -> by (apply nth_error_None; rewrite prog_length; lia).
      symmetry. apply nth_error_None. lia.
  - intros i Hi. apply prog_In in Hi. destruct Hi as (j & Hj & ->). lia.
Qed.

Lemma sel_full_rev L : 0 <= L -> sel L full_rev = Some (prog (L - 1) (-1) (Z.to_nat L)).
Proof.
  intros HL. unfold sel, full_rev, prange, slice_start, slice_stop, step_of, range_len. cbn.
  destruct (-1 <? L - 1) eqn:E.
  - f_equal. f_equal. rewrite Z.div_1_r. f_equal. lia.
  - f_equal. assert (L = 0) as -> by lia. reflexivity.
Qed.

Lemma sel_full_fwd L : 0 <= L -> sel L full_fwd = Some (prog 0 1 (Z.to_nat L)).
Proof.
  intros HL. unfold sel, full_fwd, prange, slice_start, slice_stop, step_of, range_len. cbn.
  destruct (0 <? L) eqn:E.
  - f_equal. f_equal. rewrite Z.div_1_r. f_equal. lia.
  - f_equal. assert (L = 0) as -> by lia. reflexivity.
Qed.

Lemma rev_as_prog {A} (l : list A) :
  rev l = picks l (prog (Z.of_nat (length l) - 1) (-1) (length l)).
Proof.
  rewrite <- (picks_seq (rev l)) at 1. rewrite picks_rev, rev_length, prog_map_flip.
  f_equal. f_equal. lia.
Qed.

(** sanity: [l[::-1]] is list reversal, [l[:]] is the list *)
Lemma getslice_full_rev {A} (l : list A) : getslice l full_rev = Some (rev l).
Proof. unfold getslice. rewrite sel_full_rev by lia. rewrite Nat2Z.id. now rewrite <- rev_as_prog. Qed.
Lemma getslice_full_fwd {A} (l : list A) : getslice l full_fwd = Some l.
Proof. unfold getslice. rewrite sel_full_fwd by lia. rewrite Nat2Z.id. now rewrite picks_seq. Qed.
