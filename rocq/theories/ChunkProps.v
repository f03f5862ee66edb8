(** C02 (chunking is a partition) and the streamline half of C03. *)
From Verif Require Import ChunkProofs.
From Coq Require Import ZifyBool ZifyNat.
Open Scope Z_scope.

(** C02, lists: n chunks, which concatenate to the list, whose lengths are all
    floor(len/n) or that plus one, the longer ones first. *)
Theorem chunk_list_is_partition :
  forall (A : Type) (l : list A) (n : Z), 0 < n ->
    exists cs, chunk_list l n None = Some cs /\ Z.of_nat (length cs) = n /\ concat cs = l /\
      forall i c, nth_error cs i = Some c ->
        Z.of_nat (length c) = Z.of_nat (length l) / n + (if Z.of_nat i <? Z.of_nat (length l) mod n then 1 else 0).
Proof. exact @chunk_list_spec. Qed.
Print Assumptions chunk_list_is_partition.

Example chunk_list_nonvacuous :
  chunk_list [1;2;3;4;5;6;7;8] 3 None = Some [[1;2;3];[4;5;6];[7;8]] /\
  chunk_list [1;2] 4 None = Some [[1];[2];[];[]].
Proof. split; vm_compute; reflexivity. Qed.

(** C02: chunk lengths differ by at most one. *)
Theorem chunk_list_balanced :
  forall (A : Type) (l : list A) (n : Z) cs a b, 0 < n ->
    chunk_list l n None = Some cs -> In a cs -> In b cs ->
    (length a <= length b + 1)%nat.
Proof.
  intros A l n cs a b Hn E Ha Hb. destruct (chunk_list_spec l n Hn) as (cs' & E' & _ & _ & H).
  rewrite E in E'. injection E' as <-.
  apply In_nth_error in Ha. apply In_nth_error in Hb. destruct Ha as [i Hi], Hb as [j Hj].
  apply H in Hi. apply H in Hj. destruct (_ <? _), (_ <? _); lia.
Qed.
Print Assumptions chunk_list_balanced.

(** C02, index pairs: the (start, stop) pairs cover [0, nel) and are disjoint. *)
Theorem chunk_slices_cover_once :
  forall nel n k, 0 < n -> 0 <= k < nel ->
    exists cs, chunk_slices nel n None = Some cs /\ Z.of_nat (length cs) = n /\
      (exists i a b, nth_error cs i = Some (a, b) /\ a <= k < b) /\
      (forall i j a b a' b', nth_error cs i = Some (a, b) -> nth_error cs j = Some (a', b') ->
         a <= k < b -> a' <= k < b' -> i = j) /\
      (forall i a b, nth_error cs i = Some (a, b) -> 0 <= a <= b /\ b <= nel).
Proof.
  intros nel n k Hn Hk. destruct (chunk_slices_spec nel n Hn ltac:(lia)) as (cs & E & Hl & Hnth).
  exists cs. split; [exact E|]. split; [exact Hl|].
  assert (Hb : forall i a b, nth_error cs i = Some (a, b) ->
     a = cut nel n (Z.of_nat i) /\ b = cut nel n (Z.of_nat i + 1) /\ (i < length cs)%nat).
  { intros i a b Hi. assert (i < length cs)%nat by (apply nth_error_Some; congruence).
    rewrite Hnth in Hi by assumption. injection Hi as <- <-. auto. }
  split; [|split].
  - assert (H : forall m, (m <= length cs)%nat -> k < cut nel n (Z.of_nat m) ->
        exists i, (i < m)%nat /\ cut nel n (Z.of_nat i) <= k < cut nel n (Z.of_nat i + 1)).
    { induction m as [|m IH]; intros Hm Hc.
      - change (Z.of_nat 0) with 0 in Hc. rewrite cut_0 in Hc by lia. lia.
      - destruct (Z.lt_ge_cases k (cut nel n (Z.of_nat m))) as [H|H].
        + destruct (IH ltac:(lia) H) as (i & Hi & Hc'). exists i. split; [lia|exact Hc'].
        + exists m. split; [lia|]. replace (Z.of_nat m + 1) with (Z.of_nat (S m)) by lia. lia. }
    destruct (H (length cs) ltac:(lia)) as (i & Hi & Hc).
    { rewrite Hl, cut_n by lia. lia. }
    exists i. eexists. eexists. split; [apply Hnth; exact Hi|exact Hc].
  - intros i j a b a' b' Hi Hj H1 H2.
    destruct (Hb i a b Hi) as (-> & -> & Li). destruct (Hb j a' b' Hj) as (-> & -> & Lj).
    destruct (lt_eq_lt_dec i j) as [[Hlt|Heq]|Hgt]; [|exact Heq|].
    + pose proof (cut_mono nel n (Z.of_nat i + 1) (Z.of_nat j) Hn ltac:(lia) ltac:(lia)). lia.
    + pose proof (cut_mono nel n (Z.of_nat j + 1) (Z.of_nat i) Hn ltac:(lia) ltac:(lia)). lia.
  - intros i a b Hi. destruct (Hb i a b Hi) as (-> & -> & Li).
    pose proof (cut_mono nel n 0 (Z.of_nat i) Hn ltac:(lia) ltac:(lia)) as M1.
    pose proof (cut_mono nel n (Z.of_nat i) (Z.of_nat i + 1) Hn ltac:(lia) ltac:(lia)) as M2.
    pose proof (cut_mono nel n (Z.of_nat i + 1) n Hn ltac:(lia) ltac:(lia)) as M3.
    rewrite cut_0 in M1 by lia. rewrite cut_n in M3 by lia. lia.
Qed.
Print Assumptions chunk_slices_cover_once.

(** C02, interleaved slices: position k is selected by exactly one slice (the
    one numbered k mod n), once. *)
Theorem chunk_interslices_partition :
  forall nel n, 0 < n -> 0 <= nel ->
    length (chunk_interslices n) = Z.to_nat n /\
    forall i s, nth_error (chunk_interslices n) i = Some s ->
      exists is, sel nel s = Some is /\ NoDup is /\
        (forall k, In k is <-> 0 <= k < nel /\ k mod n = Z.of_nat i).
Proof.
  intros nel n Hn He. split; [apply chunk_interslices_length|].
  intros i s Hs. assert (Hi : (i < Z.to_nat n)%nat).
  { rewrite <- chunk_interslices_length. apply nth_error_Some. congruence. }
  rewrite chunk_interslices_nth in Hs by assumption. injection Hs as <-.
  eexists. split; [apply inter_sel; lia|]. split; [apply prog_NoDup; lia|].
  intros k. apply inter_in; lia.
Qed.
Print Assumptions chunk_interslices_partition.

(** C02: the reported sizes are the sizes of the contiguous chunks and of the
    interleaved chunks. *)
Theorem chunk_sizes_agree :
  forall (A : Type) (l : list A) (n : Z), 0 < n ->
    exists zs cs, chunk_sizes (Z.of_nat (length l)) n None = Some zs /\
      chunk_list l n None = Some cs /\ zs = map (fun c => Z.of_nat (length c)) cs /\
      forall i s z, nth_error (chunk_interslices n) i = Some s -> nth_error zs i = Some z ->
        exists xs, getslice l s = Some xs /\ Z.of_nat (length xs) = z.
Proof.
  intros A l n Hn.
  destruct (chunk_sizes_spec (Z.of_nat (length l)) n ltac:(lia) Hn) as (zs & E1 & L1 & N1).
  destruct (chunk_list_spec l n Hn) as (cs & E2 & L2 & _ & N2).
  exists zs, cs. split; [exact E1|]. split; [exact E2|]. split.
  - apply list_nth_error_ext. intros i. rewrite nth_error_map.
    destruct (lt_dec i (Z.to_nat n)) as [H|H].
    + rewrite N1 by assumption. destruct (nth_error cs i) as [c|] eqn:Ec.
      * cbn. f_equal. symmetry. now apply N2.
      * apply nth_error_None in Ec. lia.
    + rewrite (proj2 (nth_error_None zs i)) by lia. rewrite (proj2 (nth_error_None cs i)) by lia. reflexivity.
  - intros i s z Hs Hz. assert (Hi : (i < Z.to_nat n)%nat).
    { rewrite <- chunk_interslices_length. apply nth_error_Some. congruence. }
    rewrite chunk_interslices_nth in Hs by assumption. injection Hs as <-.
    rewrite N1 in Hz by assumption. injection Hz as <-.
    unfold getslice. rewrite inter_sel by lia. eexists. split; [reflexivity|].
    rewrite picks_length, prog_length by (apply inter_in_range; lia).
    pose proof (icount_nonneg (Z.of_nat (length l)) n (Z.of_nat i) ltac:(lia) ltac:(lia)).
    rewrite Z2Nat.id by lia. apply icount_sizes; lia.
Qed.
Print Assumptions chunk_sizes_agree.

(** FINDING: the documented [size] argument is not read: any two sizes give the
    same chunks ("if given, set nchunks such that chunks have about 'size'
    elements" does not hold). *)
Theorem chunk_slices_size_value_ignored :
  forall nel n size1 size2, chunk_slices nel n (Some size1) = chunk_slices nel n (Some size2).
Proof. reflexivity. Qed.
Theorem chunk_size_argument_refuted :
  exists nel n size cs, 0 < n /\ chunk_slices nel n (Some size) = Some cs /\
    forall a b, In (a, b) cs -> b - a = 5 /\ size = 1.
Proof.
  exists 10, 5, 1, [(0, 5); (5, 10)]. split; [lia|]. split; [reflexivity|].
  intros a b [H|[H|[]]]; injection H as <- <-; lia.
Qed.
Print Assumptions chunk_size_argument_refuted.

(** C03: the streamline driver returns, in seed order, exactly the per-seed
    results, for every number of processes and chunk factor, whatever state the
    workers start in, provided one seed's result does not depend on the state
    left by previous seeds (that is C12/C18). *)
Theorem calc_streams_matches_serial :
  forall (P B St : Type) (trace : St -> P -> B * St) (Inv : St -> Prop) (g : P -> B)
         (start_state : nat -> St) (seeds : list P) (nr_procs chunk_factor : Z),
    (forall st p, Inv st -> fst (trace st p) = g p /\ Inv (snd (trace st p))) ->
    (forall k, Inv (start_state k)) ->
    calc_streams trace start_state seeds nr_procs chunk_factor = Some (map (fun p => Some (g p)) seeds).
Proof. exact @calc_streams_spec. Qed.
Print Assumptions calc_streams_matches_serial.

Example calc_streams_nonvacuous :
  calc_streams (fun (st p : Z) => (p * p, st + 1)) (fun k => Z.of_nat k) [1;2;3;4;5;6;7] 2 2
    = Some [Some 1; Some 4; Some 9; Some 16; Some 25; Some 36; Some 49] /\
  (forall st p : Z, True -> fst (p * p, st + 1) = p * p /\ True).
Proof. split; [vm_compute; reflexivity|]. intros; split; auto. Qed.
