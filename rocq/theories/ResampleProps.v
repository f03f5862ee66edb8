(** C84: lines with more or fewer points are the same lines. *)
From Verif Require Import ResampleModel.
From Coq Require Import List ZArith QArith Qround Lia Lqa ZifyBool ZifyNat.
Import ListNotations.
Open Scope Q_scope.
Definition at_ (l : list Q) (i : nat) : Q := nth i l 0.
(** [v] is the value of the broken line through the values of [row] at the parameter [t], which is i at the i-th point. *)
Definition on_line (row : list Q) (t v : Q) : Prop :=
  exists i w, (S i < length row)%nat /\ 0 <= w <= 1 /\ t == inject_Z (Z.of_nat i) + w /\ v == (1 - w) * at_ row i + w * at_ row (S i).

Lemma linspace_length n : length (linspace01 n) = n.
Proof. unfold linspace01. rewrite map_length, seq_length. reflexivity. Qed.
Lemma nth_linspace n i : (i < n)%nat -> (2 <= n)%nat -> nth i (linspace01 n) 0 = inject_Z (Z.of_nat i) / inject_Z (Z.of_nat n - 1).
Proof.
  intros Hi Hn. unfold linspace01. set (g := fun i : nat => if (n =? 1)%nat then 0 else inject_Z (Z.of_nat i) / inject_Z (Z.of_nat n - 1)). rewrite (nth_indep _ 0 (g 0%nat)) by (rewrite map_length, seq_length; exact Hi).
  rewrite (map_nth g), seq_nth by exact Hi. unfold g. destruct (Nat.eqb_spec n 1); [lia|]. reflexivity.
Qed.
Lemma interp_from_spec xs : forall ys x y s, length ys = length xs -> (forall i, (i < length xs)%nat -> at_ (x :: xs) i < at_ xs i) -> x <= s -> s <= at_ (x :: xs) (length xs) -> (0 < length xs)%nat ->
  exists i, (i < length xs)%nat /\ at_ (x :: xs) i <= s <= at_ xs i /\ interp_from x y xs ys s == at_ (y :: ys) i + (at_ ys i - at_ (y :: ys) i) / (at_ xs i - at_ (x :: xs) i) * (s - at_ (x :: xs) i).
Proof.
  induction xs as [|x' xs IH]; intros ys x y s L Inc H1 H2 Hn; [cbn in Hn; lia|]. destruct ys as [|y' ys]; [cbn in L; lia|]. cbn [interp_from]. destruct (Qle_bool s x') eqn:E.
  - apply Qle_bool_iff in E. exists 0%nat. split; [cbn; lia|]. split; [split; assumption|]. reflexivity.
  - assert (E' : x' < s) by (apply Qnot_le_lt; intros C; apply Qle_bool_iff in C; congruence). destruct xs as [|x'' xs]; [exfalso; unfold at_ in H2; cbn [length nth] in H2; Lqa.lra|].
    destruct (IH ys x' y' s) as (i & Hi & Hs & Hv); [cbn in L; cbn; lia| |Lqa.lra|exact H2|cbn; lia|].
    + intros i Hi. apply (Inc (S i)). cbn [length] in *. lia.
    + exists (S i). split; [cbn [length] in *; lia|]. split; [exact Hs|]. exact Hv.
Qed.
Lemma interp_spec xs ys s : length ys = length xs -> (2 <= length xs)%nat -> (forall i, (S i < length xs)%nat -> at_ xs i < at_ xs (S i)) -> at_ xs 0 <= s <= at_ xs (length xs - 1) ->
  exists i, (S i < length xs)%nat /\ at_ xs i <= s <= at_ xs (S i) /\ interp s xs ys == at_ ys i + (at_ ys (S i) - at_ ys i) / (at_ xs (S i) - at_ xs i) * (s - at_ xs i).
Proof.
  intros L Hn Inc (H1 & H2). destruct xs as [|x xs]; [cbn in Hn; lia|]. destruct ys as [|y ys]; [cbn in L; lia|]. cbn [length] in *. unfold interp. destruct (Qle_bool s x) eqn:E.
  - apply Qle_bool_iff in E. assert (s == x) by (unfold at_ in H1; cbn [nth] in H1; Lqa.lra). exists 0%nat. split; [lia|]. pose proof (Inc 0%nat ltac:(lia)) as I0. unfold at_ in *. cbn [nth] in *. split; [Lqa.lra|]. rewrite H. setoid_replace (x - x) with 0 by ring. ring.
  - assert (E' : x < s) by (apply Qnot_le_lt; intros C; apply Qle_bool_iff in C; congruence).
    destruct (interp_from_spec xs ys x y s) as (i & Hi & Hs & Hv); [lia|intros i Hi; apply (Inc i); lia|Lqa.lra|replace (length xs) with (S (length xs) - 1)%nat by lia; exact H2|lia|].
    exists i. split; [lia|]. split; [exact Hs|exact Hv].
Qed.
Lemma inj_pos n : (2 <= n)%nat -> 0 < inject_Z (Z.of_nat n - 1).
Proof. intros H. replace 0 with (inject_Z 0) by reflexivity. rewrite <- Zlt_Qlt. lia. Qed.
Lemma div_le a b c : 0 < c -> (a / c <= b / c <-> a <= b).
Proof.
  intros Hc. split; intros H.
  - assert (E : a == a / c * c) by (field; Lqa.lra). assert (E' : b == b / c * c) by (field; Lqa.lra). rewrite E, E'. apply Qmult_le_compat_r; [exact H|Lqa.lra].
  - unfold Qdiv. apply Qmult_le_compat_r; [exact H|]. apply Qlt_le_weak, Qinv_lt_0_compat. exact Hc.
Qed.
(** Interpolation at equal steps, as a function of the number of the point. *)
Lemma interp_row row s : (2 <= length row)%nat -> 0 <= s <= 1 -> on_line row (s * inject_Z (Z.of_nat (length row) - 1)) (interp s (linspace01 (length row)) row).
Proof.
  intros Hn (H0 & H1). set (n := length row) in *. set (d := inject_Z (Z.of_nat n - 1)). pose proof (inj_pos n Hn) as Dp. fold d in Dp. set (xs := linspace01 n).
  assert (Lx : length xs = n) by apply linspace_length. assert (X : forall i, (i < n)%nat -> at_ xs i = inject_Z (Z.of_nat i) / d) by (intros i Hi; apply nth_linspace; assumption).
  assert (Sc : forall i, inject_Z (Z.of_nat (S i)) == inject_Z (Z.of_nat i) + 1) by (intros i; rewrite Nat2Z.inj_succ; unfold Z.succ; rewrite inject_Z_plus; reflexivity).
  destruct (interp_spec xs row s) as (i & Hi & Hs & Hv).
  - rewrite Lx. reflexivity.
  - lia.
  - intros i Hi. rewrite Lx in Hi. rewrite !X by lia. rewrite Sc. setoid_replace ((inject_Z (Z.of_nat i) + 1) / d) with (inject_Z (Z.of_nat i) / d + / d) by (field; Lqa.lra). pose proof (Qinv_lt_0_compat d Dp). Lqa.lra.
  - rewrite Lx. rewrite !X by lia. replace (Z.of_nat (n - 1)) with (Z.of_nat n - 1)%Z by lia. fold d. setoid_replace (d / d) with 1 by (field; Lqa.lra). setoid_replace (inject_Z (Z.of_nat 0) / d) with 0 by (change (inject_Z (Z.of_nat 0)) with 0; field; Lqa.lra). split; assumption.
  - rewrite Lx in Hi. rewrite !X in Hs, Hv by lia. exists i, (s * d - inject_Z (Z.of_nat i)). split; [exact Hi|].
    assert (E : s == s * d / d) by (field; Lqa.lra). destruct Hs as (S1 & S2). rewrite E in S1, S2. apply div_le in S1; [|exact Dp]. apply div_le in S2; [|exact Dp]. rewrite Sc in S2. split; [split; Lqa.lra|]. split; [ring|].
    rewrite Hv, Sc. field. split; [Lqa.lra|]. intros C. Lqa.lra.
Qed.
Lemma inj_eq_Z (a b : Z) : inject_Z a == inject_Z b -> a = b.
Proof. unfold Qeq, inject_Z. cbn [Qnum Qden]. lia. Qed.
Lemma inj_plus1 (a : Z) : inject_Z (a + 1) == inject_Z a + 1.
Proof. rewrite inject_Z_plus. reflexivity. Qed.
Lemma ceil_nonneg q : 0 <= q -> (0 <= Qceiling q)%Z.
Proof. intros H. change 0%Z with (Qceiling 0). apply Qceiling_resp_le. exact H. Qed.
(** A line that is made new has ceil(factor (n - 1)) + 1 points, at equal steps along the points of the old line, on the old line, from its first point to its last. *)
Theorem C84_on_the_line : forall row factor, (2 <= length row)%nat -> 0 < factor ->
  let new := resample_row factor row in let steps := Qceiling (factor * inject_Z (Z.of_nat (length row) - 1)) in
  Z.of_nat (length new) = (steps + 1)%Z /\ (1 <= steps)%Z /\
  (forall j, (j < length new)%nat -> on_line row (inject_Z (Z.of_nat j) * inject_Z (Z.of_nat (length row) - 1) / inject_Z steps) (at_ new j)) /\
  at_ new 0 == at_ row 0 /\ at_ new (length new - 1) == at_ row (length row - 1).
Proof.
  intros row factor Hn Hf new steps. pose proof (inj_pos _ Hn) as Dp. set (d := inject_Z (Z.of_nat (length row) - 1)) in *.
  assert (Ps : (1 <= steps)%Z). { unfold steps. assert (0 < factor * d) by (apply Qmult_lt_0_compat; assumption). pose proof (Qle_ceiling (factor * d)) as C. enough (0 < Qceiling (factor * d))%Z by lia. rewrite Zlt_Qlt. eapply Qlt_le_trans; [|exact C]. exact H. }
  assert (Ln : length new = Z.to_nat (steps + 1)) by (unfold new, resample_row; rewrite map_length, linspace_length; reflexivity).
  assert (L2 : (2 <= length new)%nat) by lia.
  assert (V : forall j, (j < length new)%nat -> at_ new j = interp (inject_Z (Z.of_nat j) / inject_Z steps) (linspace01 (length row)) row).
  { intros j Hj. unfold at_, new, resample_row. rewrite (nth_indep _ 0 (interp 0 (linspace01 (length row)) row)) by (rewrite map_length, linspace_length; unfold new_count; fold d; fold steps; lia).
    rewrite (map_nth (fun s => interp s (linspace01 (length row)) row)). f_equal. unfold new_count. fold d. fold steps. rewrite <- Ln. rewrite nth_linspace by lia. replace (Z.of_nat (length new) - 1)%Z with steps by lia. reflexivity. }
  assert (Sp : 0 < inject_Z steps) by (replace 0 with (inject_Z 0) by reflexivity; rewrite <- Zlt_Qlt; lia).
  assert (On : forall j, (j < length new)%nat -> on_line row (inject_Z (Z.of_nat j) * d / inject_Z steps) (at_ new j)).
  { intros j Hj. rewrite (V j Hj). destruct (interp_row row (inject_Z (Z.of_nat j) / inject_Z steps) Hn) as (i & w & A & B & C & D).
    - split; [apply Qle_shift_div_l; [exact Sp|]; rewrite Qmult_0_l; replace 0 with (inject_Z 0) by reflexivity; rewrite <- Zle_Qle; lia|]. apply Qle_shift_div_r; [exact Sp|]. rewrite Qmult_1_l. rewrite <- Zle_Qle. lia.
    - exists i, w. split; [exact A|]. split; [exact B|]. split; [|exact D]. rewrite <- C. fold d. field. Lqa.lra. }
  split; [lia|]. split; [exact Ps|]. split; [exact On|]. split.
  - destruct (On 0%nat ltac:(lia)) as (i & w & A & B & C & D). change (inject_Z (Z.of_nat 0)) with 0 in C. assert (Z0 : inject_Z (Z.of_nat i) + w == 0) by (rewrite <- C; field; Lqa.lra).
    assert (0 <= inject_Z (Z.of_nat i)) by (replace 0 with (inject_Z 0) by reflexivity; rewrite <- Zle_Qle; lia). assert (Ei : inject_Z (Z.of_nat i) == inject_Z 0) by (change (inject_Z 0) with 0; Lqa.lra). apply inj_eq_Z in Ei. assert (i = 0%nat) by lia. subst i.
    rewrite D. assert (w == 0) by (change (inject_Z (Z.of_nat 0)) with 0 in Z0; Lqa.lra). rewrite H0. ring.
  - destruct (On (length new - 1)%nat ltac:(lia)) as (i & w & A & B & C & D). assert (Es : Z.of_nat (length new - 1) = steps) by lia. rewrite Es in C. assert (Z0 : inject_Z (Z.of_nat i) + w == d) by (rewrite <- C; field; Lqa.lra).
    assert (Ei : inject_Z (Z.of_nat i) <= inject_Z (Z.of_nat (length row) - 2)) by (rewrite <- Zle_Qle; lia). assert (Ed : d == inject_Z (Z.of_nat (length row) - 2) + 1) by (unfold d; rewrite <- inj_plus1; replace (Z.of_nat (length row) - 2 + 1)%Z with (Z.of_nat (length row) - 1)%Z by lia; reflexivity).
    assert (E2 : inject_Z (Z.of_nat i) == inject_Z (Z.of_nat (length row) - 2)) by Lqa.lra. apply inj_eq_Z in E2. rewrite D. assert (Hw : w == 1) by (rewrite E2 in Z0; Lqa.lra). replace (length row - 1)%nat with (S i) by lia. rewrite Hw. ring.
Qed.
Print Assumptions C84_on_the_line.
Lemma on_line_inner row t v i w : on_line row t v -> (S i < length row)%nat -> 0 <= w <= 1 -> t == inject_Z (Z.of_nat i) + w -> v == (1 - w) * at_ row i + w * at_ row (S i).
Proof.
  intros (i' & w' & Hi' & Hw' & Ht' & Hv) Hi Hw Ht. rewrite Hv. assert (E : inject_Z (Z.of_nat i') + w' == inject_Z (Z.of_nat i) + w) by (rewrite <- Ht, <- Ht'; reflexivity).
  destruct (lt_eq_lt_dec i' i) as [[L|L]|L].
  - assert (Le : inject_Z (Z.of_nat i') + 1 <= inject_Z (Z.of_nat i)) by (rewrite <- inj_plus1, <- Zle_Qle; lia). assert (W1 : w' == 1) by Lqa.lra. assert (W0 : w == 0) by Lqa.lra.
    assert (Ei : inject_Z (Z.of_nat i) == inject_Z (Z.of_nat i' + 1)) by (rewrite inj_plus1; Lqa.lra). apply inj_eq_Z in Ei. replace i with (S i') by lia. rewrite W1, W0. ring.
  - subst i'. assert (Ew : w' == w) by Lqa.lra. rewrite Ew. reflexivity.
  - assert (Le : inject_Z (Z.of_nat i) + 1 <= inject_Z (Z.of_nat i')) by (rewrite <- inj_plus1, <- Zle_Qle; lia). assert (W1 : w == 1) by Lqa.lra. assert (W0 : w' == 0) by Lqa.lra.
    assert (Ei : inject_Z (Z.of_nat i') == inject_Z (Z.of_nat i + 1)) by (rewrite inj_plus1; Lqa.lra). apply inj_eq_Z in Ei. replace i' with (S i) by lia. rewrite W1, W0. ring.
Qed.
(** With a whole factor k all the old points stay, with k - 1 new points at equal distances between each two. *)
Theorem C84_whole_factor : forall row k i r, (2 <= length row)%nat -> (1 <= k)%nat -> (S i < length row)%nat -> (r <= k)%nat ->
  let new := resample_row (inject_Z (Z.of_nat k)) row in let w := inject_Z (Z.of_nat r) / inject_Z (Z.of_nat k) in
  length new = (k * (length row - 1) + 1)%nat /\ at_ new (k * i + r) == (1 - w) * at_ row i + w * at_ row (S i).
Proof.
  intros row k i r Hn Hk Hi Hr new w. assert (Kp : 0 < inject_Z (Z.of_nat k)) by (replace 0 with (inject_Z 0) by reflexivity; rewrite <- Zlt_Qlt; lia).
  destruct (C84_on_the_line row (inject_Z (Z.of_nat k)) Hn Kp) as (L & _ & On & _). fold new in L, On.
  assert (St : Qceiling (inject_Z (Z.of_nat k) * inject_Z (Z.of_nat (length row) - 1)) = (Z.of_nat k * (Z.of_nat (length row) - 1))%Z) by (rewrite <- inject_Z_mult; apply Qceiling_Z). rewrite St in *.
  assert (Ln : length new = (k * (length row - 1) + 1)%nat) by lia. split; [exact Ln|]. pose proof (inj_pos _ Hn) as Dp. set (d := inject_Z (Z.of_nat (length row) - 1)) in *.
  assert (Hj : (k * i + r < length new)%nat) by (rewrite Ln; nia). eapply on_line_inner; [exact (On _ Hj)|exact Hi| |].
  - unfold w. split; [apply Qle_shift_div_l; [exact Kp|]; rewrite Qmult_0_l; replace 0 with (inject_Z 0) by reflexivity; rewrite <- Zle_Qle; lia|]. apply Qle_shift_div_r; [exact Kp|]. rewrite Qmult_1_l, <- Zle_Qle. lia.
  - unfold w. rewrite Nat2Z.inj_add, Nat2Z.inj_mul, inject_Z_plus, !inject_Z_mult. fold d. field. split; Lqa.lra.
Qed.
Print Assumptions C84_whole_factor.
(** What the function does with each row of each line, where sizes may be floats; a factor of one changes nothing, one that is not positive is refused. *)
Theorem C84_lines : forall lines factor b,
  (factor <= 0 -> resample_lines b lines factor = ValueError) /\ (factor == 1 -> resample_lines b lines factor = Lines lines) /\
  (0 < factor -> ~ factor == 1 -> exists new, resample_lines true lines factor = Lines new /\ length new = length lines /\
     forall q line line', nth_error lines q = Some line -> nth_error new q = Some line' -> length line' = length line /\
       forall c row row', nth_error line c = Some row -> nth_error line' c = Some row' -> row' = resample_row factor row).
Proof.
  intros lines factor b. unfold resample_lines. split; [intros H; apply Qle_bool_iff in H; rewrite H; reflexivity|]. split.
  - intros H. destruct (Qle_bool factor 0) eqn:E; [apply Qle_bool_iff in E; exfalso; Lqa.lra|]. apply Qeq_bool_iff in H. rewrite H. reflexivity.
  - intros H N. destruct (Qle_bool factor 0) eqn:E; [apply Qle_bool_iff in E; exfalso; Lqa.lra|]. destruct (Qeq_bool factor 1) eqn:E1; [apply Qeq_bool_iff in E1; contradiction|].
    exists (map (map (resample_row factor)) lines). split; [destruct lines; reflexivity|]. split; [apply map_length|]. intros q line line' Hl Hl'. rewrite nth_error_map, Hl in Hl'. injection Hl' as <-. split; [apply map_length|].
    intros c row row' Hr Hr'. rewrite nth_error_map, Hr in Hr'. injection Hr' as <-. reflexivity.
Qed.
Print Assumptions C84_lines.
(** Refuted: with numpy 1.12 or later no line can be made new, because the number of points is a float. *)
Theorem C84_float_size_refuted : forall lines factor, lines <> [] -> 0 < factor -> ~ factor == 1 -> resample_lines false lines factor = TypeError.
Proof.
  intros lines factor Hl H N. unfold resample_lines. destruct (Qle_bool factor 0) eqn:E; [apply Qle_bool_iff in E; exfalso; Lqa.lra|]. destruct (Qeq_bool factor 1) eqn:E1; [apply Qeq_bool_iff in E1; contradiction|]. destruct lines; [contradiction|reflexivity].
Qed.
Print Assumptions C84_float_size_refuted.
Example C84_case : map (fun q => Qred q) (resample_row 2 [0; 4; 10]) = [0; 2; 4; 7; 10] /\ map (fun q => Qred q) (resample_row (1 # 2) [0; 4; 10; 1; 3]) = [0; 10; 3] /\ length (resample_row (1 # 3) [0; 4; 10; 1; 3]) = 3%nat.
Proof. repeat split; vm_compute; reflexivity. Qed.
