From Coq Require Import List Arith ZArith QArith Qround Qabs Bool Lia Lqa ZifyBool ZifyNat Permutation.
From Verif Require Import StreamModel StreamProofs InterpModel InterpSpec.
Import ListNotations.
Local Open Scope Q_scope.

Lemma increasing_le c n i j : increasing c n -> (i <= j < n)%nat -> c i <= c j.
Proof.
  intros H Hij. destruct (Nat.eq_dec i j) as [->|E]; [lra|].
  apply Qlt_le_weak, H. lia.
Qed.

Lemma search_up_spec c v n k : forall i,
  (i < n)%nat -> k = (n - 1 - i)%nat -> c i <= v -> increasing c n ->
  last_not_above c n v (search_up c v n i k).
Proof.
  induction k as [|k IH]; intros i Hi Hk Hc Hinc; cbn [search_up].
  - replace (n - 1)%nat with i by lia. repeat split; auto. intros j Hj. lia.
  - destruct (Qltb v (c (S i))) eqn:E.
    + apply Qltb_lt in E. repeat split; auto. intros j Hj.
      pose proof (increasing_le c n (S i) j Hinc ltac:(lia)). lra.
    + apply Qltb_ge in E. apply IH; auto; lia.
Qed.

Lemma search_down_spec f m d v k :
  (1 <= nn f d)%nat -> increasing (crd f m d) (nn f d) ->
  (forall j, (k <= j < nn f d)%nat -> v < crd f m d j) ->
  last_not_above (crd f m d) (nn f d) v (search_down (read f m d) v k).
Proof.
  intros Hn Hinc. induction k as [|k IH]; intros Hk; cbn [search_down].
  - split; [lia|split; [auto|]]. intros j Hj. apply Hk. lia.
  - unfold read at 1. destruct (Nat.ltb_spec k (nn f d)) as [L|L].
    + destruct (Qle_bool (crd f m d k) v) eqn:E.
      * apply Qle_bool_iff in E. split; [auto|split; [auto|]]. intros j Hj. apply Hk. lia.
      * apply Qleb_gt in E. apply IH. intros j Hj.
        destruct (Nat.eq_dec j k) as [->|]; auto. apply Hk. lia.
    + assert (last_not_above (crd f m d) (nn f d) v (search_down (read f m d) v k))
        by (apply IH; intros j Hj; lia).
      destruct (k <? smax f)%nat; auto.
Qed.

Lemma last_not_above_unique c n v i j :
  last_not_above c n v i -> last_not_above c n v j -> increasing c n -> i = j.
Proof.
  intros (Hi & Ai & Bi) (Hj & Aj & Bj) Hinc.
  destruct (Nat.lt_trichotomy i j) as [L|[E|L]]; auto.
  - specialize (Bi j ltac:(lia)). destruct Aj as [Aj|Aj]; [lra|lia].
  - specialize (Bj i ltac:(lia)). destruct Ai as [Ai|Ai]; [lra|lia].
Qed.

Lemma smax_ge f d : (d < 3)%nat -> (nn f d <= smax f)%nat.
Proof. unfold smax. destruct d as [|[|[|]]]; lia. Qed.

(** the search *)
Lemma search_result f m d v start :
  (1 < nn f d)%nat -> increasing (crd f m d) (nn f d) -> unif f = false ->
  (start < smax f)%nat ->
  exists i, closest_preceeding_ind f m d v start = Some i /\
            last_not_above (crd f m d) (nn f d) v i.
Proof.
  intros Hn Hinc Hu Hs. unfold closest_preceeding_ind.
  destruct (Nat.eqb_spec (nn f d) 1) as [|_]; [lia|]. rewrite Hu.
  unfold read at 1. destruct (Nat.ltb_spec start (nn f d)) as [L|L].
  - destruct (Qle_bool (crd f m d start) v) eqn:E.
    + apply Qle_bool_iff in E. eexists; split; [reflexivity|].
      apply search_up_spec; auto.
    + apply Qleb_gt in E. eexists; split; [reflexivity|].
      apply search_down_spec; auto; [lia|]. intros j Hj.
      pose proof (increasing_le _ _ start j Hinc ltac:(lia)). lra.
  - destruct (Nat.ltb_spec start (smax f)); [|lia]. eexists; split; [reflexivity|].
    apply search_down_spec; auto; [lia|]. intros j Hj. lia.
Qed.

Definition bracket (c : nat -> Q) (n : nat) (v : Q) (i : nat) : Prop :=
  (i < n)%nat /\ (c i <= v \/ i = 0%nat) /\ (v < c (S i) \/ (n <= i + 2)%nat).

Lemma last_not_above_bracket c n v i : last_not_above c n v i -> bracket c n v i.
Proof.
  intros (H & A & B). repeat split; auto.
  destruct (Nat.leb_spec n (i + 2)); auto. left. apply B. lia.
Qed.

Lemma uniform_result c n v :
  (2 <= n)%nat -> increasing c n -> evenly_spaced c n ->
  let t := Qfloor (inject_Z (Z.of_nat n - 1) * ((v - c 0%nat) / (c (n - 1)%nat - c 0%nat))) in
  let i := Z.to_nat (Z.min (Z.max t 0) (Z.of_nat n - 2)) in
  (i + 2 <= n)%nat /\ bracket c n v i.
Proof.
  intros Hn Hinc Hev t i.
  assert (HL : 0 < c (n - 1)%nat - c 0%nat)
    by (pose proof (Hinc 0%nat (n - 1)%nat ltac:(lia)); lra).
  set (L := c (n - 1)%nat - c 0%nat) in *.
  assert (Hi : (i + 2 <= n)%nat) by (unfold i; lia).
  assert (HN : 0 < inject_Z (Z.of_nat n - 1))
    by (unfold inject_Z, Qlt; cbn [Qnum Qden]; lia).
  set (N := inject_Z (Z.of_nat n - 1)) in *.
  set (w := N * ((v - c 0%nat) / L)) in *.
  assert (Hw : w * L == N * (v - c 0%nat)) by (unfold w; field; lra).
  assert (F1 : inject_Z t <= w) by apply Qfloor_le.
  assert (F2 : w < inject_Z (t + 1)) by apply Qlt_floor.
  (* key: compare coordinates through their index *)
  assert (Kle : forall j, (j < n)%nat -> inject_Z (Z.of_nat j) <= w -> c j <= v).
  { intros j Hj Hle. specialize (Hev j Hj). fold N L in Hev.
    apply Qnot_lt_le. intro Hlt.
    assert (inject_Z (Z.of_nat j) * L <= w * L)
      by (apply Qmult_le_compat_r; [exact Hle|lra]).
    assert (N * (v - c 0%nat) < N * (c j - c 0%nat))
      by (apply Qmult_lt_l; [exact HN|lra]).
    lra. }
  assert (Klt : forall j, (j < n)%nat -> w < inject_Z (Z.of_nat j) -> v < c j).
  { intros j Hj Hle. specialize (Hev j Hj). fold N L in Hev.
    apply Qnot_le_lt. intro Hlt.
    assert (w * L < inject_Z (Z.of_nat j) * L)
      by (apply Qmult_lt_r; [exact HL|exact Hle]).
    assert (N * (c j - c 0%nat) <= N * (v - c 0%nat))
      by (apply Qmult_le_l; [exact HN|lra]).
    lra. }
  assert (INJ : forall a b : Z, (a <= b)%Z -> inject_Z a <= inject_Z b)
    by (intros a b Hab; rewrite <- Zle_Qle; exact Hab).
  split; [exact Hi|]. repeat split.
  - lia.
  - destruct (Z.le_gt_cases 0 t) as [T|T].
    + left. apply Kle; [lia|].
      assert (Z.of_nat i <= t)%Z by (unfold i; lia).
      pose proof (INJ _ _ H). lra.
    + right. unfold i. lia.
  - destruct (Z.le_gt_cases (t + 1) (Z.of_nat n - 2 + 0)) as [T|T].
    + left. apply Klt; [lia|].
      assert (t + 1 <= Z.of_nat (S i))%Z by (unfold i; lia).
      pose proof (INJ _ _ H). lra.
    + right. unfold i. lia.
Qed.

Lemma prec_bracket f m d v start :
  prepared f -> (d < 3)%nat -> (start < smax f)%nat ->
  exists i, closest_preceeding_ind f m d v start = Some i /\
            bracket (crd f m d) (nn f d) v i.
Proof.
  intros P Hd Hs. pose proof (pr_n f P d Hd) as Hn. pose proof (pr_inc f P m d Hd) as Hinc.
  destruct (Nat.eqb_spec (nn f d) 1) as [E1|E1].
  - exists 0%nat. unfold closest_preceeding_ind. rewrite E1. cbn [Nat.eqb]. split; auto.
    repeat split; auto; right; lia.
  - destruct (unif f) eqn:U.
    + pose proof (uniform_result (crd f m d) (nn f d) v ltac:(lia) Hinc
                    (pr_uni f P m d Hd U)) as HU. cbn zeta in HU.
      unfold closest_preceeding_ind. apply Nat.eqb_neq in E1. rewrite E1, U.
      eexists; split; [reflexivity|]. apply HU.
    + destruct (search_result f m d v start ltac:(lia) Hinc U Hs) as (i & Hi & Hl).
      exists i. split; auto. apply last_not_above_bracket; auto.
Qed.

Lemma prec_start f m d v s s' :
  prepared f -> (d < 3)%nat -> (s < smax f)%nat -> (s' < smax f)%nat ->
  closest_preceeding_ind f m d v s = closest_preceeding_ind f m d v s'.
Proof.
  intros P Hd Hs Hs'. pose proof (pr_n f P d Hd) as Hn. pose proof (pr_inc f P m d Hd) as Hinc.
  destruct (Nat.eqb_spec (nn f d) 1) as [E1|E1].
  - unfold closest_preceeding_ind. rewrite E1. reflexivity.
  - destruct (unif f) eqn:U.
    + unfold closest_preceeding_ind. rewrite U. reflexivity.
    + destruct (search_result f m d v s ltac:(lia) Hinc U Hs) as (i & Hi & Hl).
      destruct (search_result f m d v s' ltac:(lia) Hinc U Hs') as (i' & Hi' & Hl').
      rewrite Hi, Hi'. f_equal. eapply last_not_above_unique; eauto.
Qed.

(** the nearest index *)
Lemma bracket_nearest c n v p :
  increasing c n -> bracket c n v p ->
  is_nearest c n v
    (if (p =? n - 1)%nat then (n - 1)%nat
     else if Qle_bool (Qabs (c p - v)) (Qabs (c (S p) - v)) then p else S p).
Proof.
  intros Hinc (Hp & A & B).
  pose proof (fun i j => increasing_le c n i j Hinc) as Hle.
  destruct (Nat.eqb_spec p (n - 1)) as [->|E].
  - split; [lia|]. intros j Hj. destruct A as [A|A].
    + specialize (Hle j (n - 1)%nat ltac:(lia)).
      rewrite (Qabs_neg (c (n-1)%nat - v)), (Qabs_neg (c j - v)); lra.
    + replace j with (n - 1)%nat by lia. lra.
  - destruct (Qle_bool (Qabs (c p - v)) (Qabs (c (S p) - v))) eqn:D.
    + apply Qle_bool_iff in D. split; [lia|]. intros j Hj.
      destruct (Nat.leb_spec j p) as [L|L].
      * destruct A as [A|A].
        -- specialize (Hle j p ltac:(lia)).
           rewrite (Qabs_neg (c p - v)), (Qabs_neg (c j - v)); lra.
        -- replace j with p by lia. lra.
      * apply (Qle_trans _ _ _ D). destruct B as [B|B].
        -- specialize (Hle (S p) j ltac:(lia)).
           rewrite (Qabs_pos (c (S p) - v)), (Qabs_pos (c j - v)); lra.
        -- replace j with (S p) by lia. lra.
    + apply Qleb_gt in D. split; [lia|]. intros j Hj.
      destruct (Nat.leb_spec j p) as [L|L].
      * assert (D' := Qlt_le_weak _ _ D). apply (Qle_trans _ _ _ D'). destruct A as [A|A].
        -- specialize (Hle j p ltac:(lia)).
           rewrite (Qabs_neg (c p - v)), (Qabs_neg (c j - v)); lra.
        -- replace j with p by lia. lra.
      * destruct B as [B|B].
        -- specialize (Hle (S p) j ltac:(lia)).
           rewrite (Qabs_pos (c (S p) - v)), (Qabs_pos (c j - v)); lra.
        -- replace j with (S p) by lia. lra.
Qed.

Lemma closest_ind_nearest f m d v start :
  prepared f -> (d < 3)%nat -> (start < smax f)%nat ->
  exists i s', closest_ind f m d v start = Some (i, s') /\ (s' < nn f d)%nat /\
    is_nearest (crd f m d) (nn f d) v i.
Proof.
  intros P Hd Hs. destruct (prec_bracket f m d v start P Hd Hs) as (p & Hp & Hb).
  pose proof (bracket_nearest _ _ v p (pr_inc f P m d Hd) Hb) as Hn.
  unfold closest_ind. rewrite Hp.
  destruct (p =? nn f d - 1)%nat; [|destruct (Qle_bool _ _)];
    do 2 eexists; (split; [reflexivity|]); (split; [apply Hb|exact Hn]).
Qed.

Lemma closest_ind_start f m d v s s' :
  prepared f -> (d < 3)%nat -> (s < smax f)%nat -> (s' < smax f)%nat ->
  closest_ind f m d v s = closest_ind f m d v s'.
Proof.
  intros. unfold closest_ind. rewrite (prec_start f m d v s s') by auto. reflexivity.
Qed.

(** one axis of the trilinear kernel *)
Record located (c : nat -> Q) (n : nat) (v : Q) (i p : nat) (t : Q) : Prop := mkloc {
  lo_range : (i + p < n)%nat;
  lo_p : (p <= 1)%nat;
  lo_t : 0 <= t /\ t <= 1;
  lo_lerp : c i + t * (c (i + p)%nat - c i) == clamp (c 0%nat) (c (n - 1)%nat) v;
  lo_below : c i <= clamp (c 0%nat) (c (n - 1)%nat) v;
  lo_above : clamp (c 0%nat) (c (n - 1)%nat) v <= c (i + p)%nat }.

Lemma locate_spec f m d v s :
  prepared f -> (d < 3)%nat -> (s < smax f)%nat ->
  exists i p t s', locate f m d v s = Some (i, p, t, s') /\ (s' < smax f)%nat /\
    located (crd f m d) (nn f d) v i p t.
Proof.
  intros P Hd Hs. pose proof (pr_n f P d Hd) as Hn. pose proof (pr_inc f P m d Hd) as Hinc.
  pose proof (smax_ge f d Hd) as Hsm.
  unfold locate, xl, xh. destruct (Nat.eqb_spec (nn f d) 1) as [E1|E1]; cbn [orb].
  { exists 0%nat, 0%nat, 0, s. repeat split; auto; try lia; try lra;
      unfold clamp; rewrite E1; cbn [Nat.sub Nat.add].
    all: destruct (Qle_bool v (crd f m d 0)) eqn:E; [lra|].
    all: destruct (Qle_bool (crd f m d 0) v) eqn:E'; [lra|].
    all: apply Qleb_gt in E; apply Qleb_gt in E'; lra. }
  destruct (Qle_bool v (crd f m d 0%nat)) eqn:Elo.
  { exists 0%nat, 0%nat, 0, s. repeat split; auto; try lia; try lra;
      unfold clamp; rewrite Elo; cbn [Nat.add]; lra. }
  destruct (Qle_bool (crd f m d (nn f d - 1)%nat) v) eqn:Ehi.
  { exists (nn f d - 1)%nat, 0%nat, 0, s. repeat split; auto; try lia; try lra;
      unfold clamp; rewrite Elo, Ehi; rewrite ?Nat.add_0_r; lra. }
  destruct (prec_bracket f m d v s P Hd Hs) as (i & Hi & (B1 & B2 & B3)).
  rewrite Hi. exists i, 1%nat, ((v - crd f m d i) / (crd f m d (S i) - crd f m d i)), i.
  apply Qleb_gt in Elo as Elo'. apply Qleb_gt in Ehi as Ehi'.
  assert (A1 : crd f m d i <= v).
  { destruct B2 as [B2| ->]; [exact B2|lra]. }
  assert (A2 : (S i < nn f d)%nat).
  { destruct (Nat.leb_spec (nn f d) (S i)); [|lia]. exfalso.
    replace (nn f d - 1)%nat with i in Ehi' by lia. lra. }
  assert (A3 : v < crd f m d (S i)).
  { destruct B3 as [B3|B3]; [exact B3|].
    replace (nn f d - 1)%nat with (S i) in Ehi' by lia. lra. }
  pose proof (Hinc i (S i) ltac:(lia)) as Hd'.
  split; [reflexivity|]. split; [lia|].
  unfold clamp; constructor; rewrite ?Elo, ?Ehi; rewrite ?Nat.add_1_r; try lia.
  - split.
    + apply Qle_shift_div_l; lra.
    + apply Qle_shift_div_r; lra.
  - unfold clamp. rewrite Elo, Ehi. field. lra.
  - unfold clamp. rewrite Elo, Ehi. exact A1.
  - unfold clamp. rewrite Elo, Ehi. lra.
Qed.

Lemma locate_start f m d v s s2 :
  prepared f -> (d < 3)%nat -> (s < smax f)%nat -> (s2 < smax f)%nat ->
  forall i p t s', locate f m d v s = Some (i, p, t, s') ->
  exists s2', locate f m d v s2 = Some (i, p, t, s2').
Proof.
  intros P Hd Hs Hs2 i p t s'. unfold locate.
  rewrite (prec_start f m d v s s2) by auto.
  destruct ((nn f d =? 1)%nat || Qle_bool v (xl f m d))%bool.
  { intros [= <- <- <- _]. eexists; reflexivity. }
  destruct (Qle_bool (xh f m d) v).
  { intros [= <- <- <- _]. eexists; reflexivity. }
  destruct (closest_preceeding_ind f m d v s2); [|discriminate].
  intros [= <- <- <- _]. eexists; reflexivity.
Qed.

Definition cache_ok (f : cfield) (h : cache) : Prop :=
  let '(a, b, c) := h in (a < smax f)%nat /\ (b < smax f)%nat /\ (c < smax f)%nat.

Lemma cache0_ok f : prepared f -> cache_ok f cache0.
Proof.
  intros P. pose proof (pr_n f P 0 ltac:(lia)). pose proof (smax_ge f 0 ltac:(lia)).
  unfold cache_ok, cache0. lia.
Qed.

Lemma trilin1_located f m x h :
  prepared f -> cache_ok f h ->
  exists i j k p q r tx ty tz h',
    interp_trilin1 f m x h =
      Some (trilin (fun a b c => dat f a b c m) i j k p q r tx ty tz, h') /\
    cache_ok f h' /\
    located (crd f m 0) (nn f 0) (px x) i p tx /\
    located (crd f m 1) (nn f 1) (py x) j q ty /\
    located (crd f m 2) (nn f 2) (pz x) k r tz.
Proof.
  intros P Hh. destruct h as [[h0 h1] h2]. destruct Hh as (H0 & H1 & H2).
  destruct (locate_spec f m 0 (px x) h0 P ltac:(lia) H0) as (i & p & tx & h0' & E0 & S0 & L0).
  destruct (locate_spec f m 1 (py x) h1 P ltac:(lia) H1) as (j & q & ty & h1' & E1 & S1 & L1).
  destruct (locate_spec f m 2 (pz x) h2 P ltac:(lia) H2) as (k & r & tz & h2' & E2 & S2 & L2).
  exists i, j, k, p, q, r, tx, ty, tz, (h0', h1', h2').
  cbn [interp_trilin1]. rewrite E0, E1, E2. repeat (split; [solve [auto|reflexivity|repeat split; auto]|]).
  auto.
Qed.

(** A kernel that is total on prepared fields, keeps the cached indices valid and
    gives values that do not depend on them. *)
Definition steady (K : kernel) : Prop :=
  forall f m x h h2, prepared f -> cache_ok f h -> cache_ok f h2 ->
  exists v h' h2', K f m x h = Some (v, h') /\ K f m x h2 = Some (v, h2') /\ cache_ok f h'.

Lemma trilin1_steady : steady interp_trilin1.
Proof.
  intros f m x h h2 P Hh Hh2.
  destruct h as [[a0 a1] a2], h2 as [[b0 b1] b2].
  destruct Hh as (A0 & A1 & A2). destruct Hh2 as (B0 & B1 & B2).
  destruct (locate_spec f m 0 (px x) a0 P ltac:(lia) A0) as (i & p & tx & h0' & E0 & S0 & L0).
  destruct (locate_spec f m 1 (py x) a1 P ltac:(lia) A1) as (j & q & ty & h1' & E1 & S1 & L1).
  destruct (locate_spec f m 2 (pz x) a2 P ltac:(lia) A2) as (k & r & tz & h2' & E2 & S2 & L2).
  destruct (locate_start f m 0 (px x) a0 b0 P ltac:(lia) A0 B0 _ _ _ _ E0) as (g0 & F0).
  destruct (locate_start f m 1 (py x) a1 b1 P ltac:(lia) A1 B1 _ _ _ _ E1) as (g1 & F1).
  destruct (locate_start f m 2 (pz x) a2 b2 P ltac:(lia) A2 B2 _ _ _ _ E2) as (g2 & F2).
  cbn [interp_trilin1]. rewrite E0, E1, E2, F0, F1, F2.
  do 3 eexists. split; [reflexivity|]. split; [reflexivity|]. repeat split; auto.
Qed.

Lemma nearest1_steady : steady interp_nearest1.
Proof.
  intros f m x h h2 P Hh Hh2.
  destruct h as [[a0 a1] a2], h2 as [[b0 b1] b2].
  destruct Hh as (A0 & A1 & A2). destruct Hh2 as (B0 & B1 & B2).
  pose proof (smax_ge f 0 ltac:(lia)). pose proof (smax_ge f 1 ltac:(lia)).
  pose proof (smax_ge f 2 ltac:(lia)).
  destruct (closest_ind_nearest f m 0 (px x) a0 P ltac:(lia) A0) as (i & s0 & E0 & S0 & _).
  destruct (closest_ind_nearest f m 1 (py x) a1 P ltac:(lia) A1) as (j & s1 & E1 & S1 & _).
  destruct (closest_ind_nearest f m 2 (pz x) a2 P ltac:(lia) A2) as (k & s2 & E2 & S2 & _).
  cbn [interp_nearest1].
  rewrite (closest_ind_start f m 0 (px x) b0 a0), (closest_ind_start f m 1 (py x) b1 a1),
    (closest_ind_start f m 2 (pz x) b2 a2), E0, E1, E2 by (auto; lia).
  do 3 eexists. split; [reflexivity|]. split; [reflexivity|]. cbn [cache_ok]. lia.
Qed.
