(** C04: the jrrle run length codec. *)
From Verif Require Import JrrleProofs.
From Coq Require Import ZifyBool ZifyNat.
Open Scope Z_scope.

(** One record: every non-empty sequence of at most 64 codes in the writer's
    range [33, 126] is written, in at most 65 characters, and read back exactly. *)
Theorem jrrle_record_roundtrip :
  forall codes, codes <> [] -> (length codes <= 64)%nat -> Forall (fun c => 33 <= c <= 126) codes ->
    exists line, wrnenc codes = Some line /\ (length line <= 65)%nat /\ wrndec line = DOk codes.
Proof. exact roundtrip. Qed.
Print Assumptions jrrle_record_roundtrip.

Example jrrle_record_nonvacuous :
  wrnenc [65;65;65;70;33;33] = Some [88; 173; 65; 70; 172; 33] /\
  wrndec [88; 173; 65; 70; 172; 33] = DOk [65;65;65;70;33;33].
Proof. split; vm_compute; reflexivity. Qed.

(** No written character is the blank that ends a record: each is a 7 bit code
    or a repeat count above 127. *)
Theorem jrrle_record_characters :
  forall codes line c, codes <> [] -> (length codes <= 64)%nat -> Forall (fun c => 33 <= c <= 126) codes ->
    wrnenc codes = Some line -> In c line -> 33 <= c <= 126 \/ 172 <= c <= 234.
Proof.
  intros codes line c Hne Hl Hc E Hin.
  destruct (wrnenc_shape codes Hne Hl Hc) as (x & rest & -> & E2 & _). assert (line = (33 + fmod (sum (x :: rest)) 92) :: ebody rest x 1) as -> by congruence.
  pose proof (fmod_bound _ (sum_nonneg _ Hc)). apply Forall_cons_iff in Hc. destruct Hc as [Hx Hr].
  destruct Hin as [<-|Hin]; [lia|].
  apply (ebody_chars rest x 1 c); try assumption; cbn [length] in Hl; lia.
Qed.
Print Assumptions jrrle_record_characters.

(** A whole field: every list of (sign, level) pairs, of any length, with levels
    in the quantizer's range, survives writing and reading the record pairs. *)
Theorem jrrle_levels_roundtrip :
  forall vs : list (bool * Z), Forall (fun v => 0 <= snd v <= 4414) vs ->
    exists recs, write_levels vs (length vs) = Some recs /\
      (forall r, In r recs -> (length r <= 65)%nat) /\
      read_levels recs (Z.of_nat (length vs)) (length vs) = Some vs.
Proof. intros vs H. exact (levels_roundtrip (length vs) vs (le_n _) H). Qed.
Print Assumptions jrrle_levels_roundtrip.

Example jrrle_levels_nonvacuous :
  exists vs, length vs = 70%nat /\ Forall (fun v : bool * Z => 0 <= snd v <= 4414) vs /\
    In (true, 4414) vs /\ In (false, 0) vs.
Proof.
  exists ([(true, 4414); (false, 0); (true, 93); (false, 94)] ++ repeat (true, 2205) 66).
  split; [reflexivity|]. split; [|split; cbn; auto].
  apply Forall_app. split; [repeat constructor; cbn; lia|].
  apply Forall_forall. intros x Hx. apply repeat_spec in Hx. subst x. cbn. lia.
Qed.

(** Overwriting one character that is not a repeat count nor the value of a
    repeat count (including the checksum itself) is reported as a checksum error,
    unless old and new code differ by exactly the modulus 92. *)
Theorem jrrle_corruption_detected :
  forall pre suf v v' data,
    wrndec (pre ++ v :: suf) = DOk data -> Forall (fun c => 0 <= c) data ->
    (pre = [] \/ last pre 0 <= 127) -> ~ In 32 pre -> (length pre < 72)%nat ->
    33 <= v <= 126 -> 33 <= v' <= 126 -> v <> v' -> Z.abs (v - v') <> 92 ->
    wrndec (pre ++ v' :: suf) = DSum.
Proof. exact corruption. Qed.
Print Assumptions jrrle_corruption_detected.

Example jrrle_corruption_nonvacuous :
  wrndec ([88; 173; 65] ++ 70 :: [172; 33]) = DOk [65;65;65;70;33;33] /\
  wrndec ([88; 173; 65] ++ 71 :: [172; 33]) = DSum.
Proof. split; vm_compute; reflexivity. Qed.

(** FINDING: a difference of 92 is not detected ... *)
Theorem jrrle_corruption_undetected_refuted :
  exists line line' d d', wrndec line = DOk d /\ wrndec line' = DOk d' /\ d <> d' /\
    length line = length line' /\ nth_error line 0 = nth_error line' 0.
Proof.
  exists [66; 33; 92], [66; 125; 92]. exists [33; 92], [125; 92].
  repeat split; try (vm_compute; reflexivity). discriminate.
Qed.
Print Assumptions jrrle_corruption_undetected_refuted.

(** FINDING: a corrupted repeat count makes the decoder write outside its work
    array (no bounds check before the copy). *)
Theorem jrrle_corrupt_count_overruns_refuted :
  exists line, length line = 3%nat /\ Forall (fun c => 0 <= c <= 255) line /\ wrndec line = DUndef.
Proof. exists [44; 255; 65]. split; [reflexivity|]. split; [repeat constructor; lia|vm_compute; reflexivity]. Qed.
Print Assumptions jrrle_corrupt_count_overruns_refuted.
