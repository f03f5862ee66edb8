(** C90: slices that interpolate. *)
From Verif Require Import SelModel SelProps StreamModel InterpModel InterpSpec InterpProofs InterpProps IntSliceModel.
From Coq Require Import List Arith ZArith QArith Qabs Bool Lia Lqa ZifyBool ZifyNat.
Import ListNotations.
Local Open Scope Q_scope.

(** A field that can be interpolated: axes with at least one place, places that increase, evenly if the coordinates are uniform. *)
Definition good (f : field) : Prop :=
  (forall d, (d < 3)%nat -> (1 <= length (places f d))%nat /\ increasing (fun i => nth i (places f d) 0) (length (places f d)) /\
     (even f = true -> evenly_spaced (fun i => nth i (places f d) 0) (length (places f d)))).
Lemma good_prepared f : good f -> prepared (prep f).
Proof. intros H. constructor; cbn; intros; apply H; assumption. Qed.

Lemma put_length l : forall i v, length (put i v l) = length l.
Proof. induction l as [|x l IH]; intros i v; [reflexivity|]. destruct i; cbn [put length]; [reflexivity|]. rewrite IH. reflexivity. Qed.
Lemma put_same l : forall i v, (i < length l)%nat -> nth i (put i v l) 0 = v.
Proof. induction l as [|x l IH]; intros i v H; cbn [length] in H; [lia|]. destruct i; cbn [put nth]; [reflexivity|]. apply IH. lia. Qed.
Lemma put_other l : forall i j v, i <> j -> nth j (put i v l) 0 = nth j l 0.
Proof. induction l as [|x l IH]; intros i j v H; [reflexivity|]. destruct i, j; cbn [put nth]; try reflexivity; try lia. apply IH. lia. Qed.

(** ** the axis whose place has moved *)
Lemma nearest_between c n v i : increasing c n -> is_nearest c n v i -> (forall j, (j < i)%nat -> c j < v) /\ (forall j, (i < j < n)%nat -> v < c j).
Proof.
  intros Hinc [Hi Hn]. split; intros j Hj.
  - pose proof (Hinc j i ltac:(lia)) as L. specialize (Hn j ltac:(lia)). destruct (Qlt_le_dec (c j) v) as [?|G]; [assumption|]. rewrite !Qabs_pos in Hn by lra. lra.
  - pose proof (Hinc i j ltac:(lia)) as L. specialize (Hn j ltac:(lia)). destruct (Qlt_le_dec v (c j)) as [?|G]; [assumption|]. rewrite !Qabs_neg in Hn by lra. lra.
Qed.
Lemma locate_moved f f' m d v i s :
  prepared f -> (d < 3)%nat -> (s < smax f')%nat -> nn f' d = nn f d -> unif f' = unif f -> is_nearest (crd f m d) (nn f d) v i ->
  crd f' m d i = v -> (forall j, j <> i -> crd f' m d j = crd f m d j) ->
  exists i0 p t s', locate f' m d v s = Some (i0, p, t, s') /\ forall g : nat -> Q, lerp1 (g i0) (g (i0 + p)%nat) t == g i.
Proof.
  intros P Hd Hs Hn Hu Near Ci Cj. pose proof (pr_n f P d Hd) as N1. pose proof (pr_inc f P m d Hd) as Hinc. destruct (nearest_between _ _ _ _ Hinc Near) as [Lo Hi]. destruct Near as [Ri Near].
  unfold locate, xl, xh. rewrite Hn. destruct (Nat.eqb_spec (nn f d) 1) as [E1|E1]; cbn [orb].
  { exists 0%nat, 0%nat, 0, s. split; [reflexivity|]. intros g. replace i with 0%nat by lia. unfold lerp1. cbn [Nat.add]. ring. }
  destruct (Qle_bool v (crd f' m d 0%nat)) eqn:Elo.
  { exists 0%nat, 0%nat, 0, s. split; [reflexivity|]. intros g. apply Qle_bool_iff in Elo. assert (i = 0)%nat as ->. { destruct i as [|i]; [reflexivity|]. rewrite Cj in Elo by lia. specialize (Lo 0%nat ltac:(lia)). lra. } unfold lerp1. cbn [Nat.add]. ring. }
  destruct (Qle_bool (crd f' m d (nn f d - 1)%nat) v) eqn:Ehi.
  { exists (nn f d - 1)%nat, 0%nat, 0, s. split; [reflexivity|]. intros g. apply Qle_bool_iff in Ehi. assert (i = nn f d - 1)%nat as ->.
    { destruct (Nat.eq_dec i (nn f d - 1)) as [?|Ne]; [assumption|]. rewrite Cj in Ehi by lia. specialize (Hi (nn f d - 1)%nat ltac:(lia)). lra. } unfold lerp1. rewrite Nat.add_0_r. ring. }
  assert (I0 : i <> 0%nat). { intros ->. rewrite Ci in Elo. assert (Qle_bool v v = true) by (apply Qle_bool_iff; lra). congruence. }
  assert (I1 : i <> (nn f d - 1)%nat). { intros ->. rewrite Ci in Ehi. assert (Qle_bool v v = true) by (apply Qle_bool_iff; lra). congruence. }
  destruct (unif f) eqn:U.
  - assert (E : closest_preceeding_ind f' m d v s = closest_preceeding_ind f m d v 0).
    { unfold closest_preceeding_ind, xL, xl, xh. rewrite Hn, Hu, U, !Cj by lia. reflexivity. }
    pose proof (smax_ge f d Hd) as Sm. destruct (prec_bracket f m d v 0 P Hd ltac:(lia)) as [p [Ep [B1 [B2 B3]]]]. rewrite E, Ep. eexists p, 1%nat, _, p. split; [reflexivity|]. intros g. rewrite Nat.add_1_r.
    assert (A1 : crd f m d p <= v). { destruct B2 as [B2| ->]; [exact B2|]. specialize (Lo 0%nat ltac:(lia)). lra. }
    assert (Pi : (p <= i)%nat). { destruct (Nat.leb_spec p i); [assumption|]. specialize (Hi p ltac:(lia)). lra. }
    assert (A2 : (i <= S p)%nat). { destruct (Nat.leb_spec i (S p)); [assumption|]. destruct B3 as [B3|B3]; [|lia]. specialize (Lo (S p) ltac:(lia)). lra. }
    destruct (Nat.eq_dec i p) as [->|Ne].
    + rewrite Ci. assert (Z : (v - v) / (crd f' m d (S p) - v) == 0) by (unfold Qdiv; setoid_replace (v - v) with 0 by ring; ring). unfold lerp1. rewrite Z. ring.
    + assert (i = S p) as -> by lia. rewrite Ci, Cj by lia. pose proof (Lo p ltac:(lia)) as L. assert (Z : (v - crd f m d p) / (v - crd f m d p) == 1) by (field; lra). unfold lerp1. rewrite Z. ring.
  - assert (Inc' : increasing (crd f' m d) (nn f' d)).
    { intros a b Hab. rewrite Hn in Hab. destruct (Nat.eq_dec a i) as [->|Na]; destruct (Nat.eq_dec b i) as [->|Nb]; try lia.
      - rewrite Ci, Cj by assumption. apply Hi. lia.
      - rewrite Ci, Cj by assumption. apply Lo. lia.
      - rewrite !Cj by assumption. apply Hinc. lia. }
    destruct (search_result f' m d v s ltac:(lia) Inc' ltac:(congruence) Hs) as [p [Ep [R1 [R2 R3]]]]. rewrite Ep. rewrite Hn in *. eexists p, 1%nat, _, p. split; [reflexivity|]. intros g.
    assert (p = i) as ->.
    { destruct (Nat.lt_trichotomy p i) as [L|[E|L]]; [|exact E|].
      - specialize (R3 i ltac:(lia)). rewrite Ci in R3. lra.
      - destruct R2 as [R2|R2]; [|lia]. rewrite Cj in R2 by lia. specialize (Hi p ltac:(lia)). lra. }
    rewrite Ci. assert (Z : (v - v) / (crd f' m d (S i) - v) == 0) by (unfold Qdiv; setoid_replace (v - v) with 0 by ring; ring). unfold lerp1. rewrite Z. ring.
Qed.
Lemma locate_node f m d s n : prepared f -> (d < 3)%nat -> (s < smax f)%nat -> (n < nn f d)%nat ->
  exists i p t s', locate f m d (crd f m d n) s = Some (i, p, t, s') /\ forall g : nat -> Q, lerp1 (g i) (g (i + p)%nat) t == g n.
Proof.
  intros P Hd Hs Hn. destruct (locate_spec f m d (crd f m d n) s P Hd Hs) as [i [p [t [s' [E [_ L]]]]]]. exists i, p, t, s'. split; [exact E|]. intros g.
  apply (located_node _ _ _ n _ _ _ g (pr_inc f P m d Hd) Hn (Qeq_refl _) L).
Qed.
Lemma trilin_pick g i j k p q r tx ty tz (a b c : nat) :
  (forall u : nat -> Q, lerp1 (u i) (u (i + p)%nat) tx == u a) -> (forall u : nat -> Q, lerp1 (u j) (u (j + q)%nat) ty == u b) -> (forall u : nat -> Q, lerp1 (u k) (u (k + r)%nat) tz == u c) ->
  trilin g i j k p q r tx ty tz == g a b c.
Proof.
  intros Hx Hy Hz. unfold trilin. cbv beta zeta. rewrite <- (Hz (fun n => g a b n)). apply lerp1_eq.
  - rewrite <- (Hy (fun n => g a n k)). apply lerp1_eq; [exact (Hx (fun n => g n j k))|exact (Hx (fun n => g n (j + q)%nat k))].
  - rewrite <- (Hy (fun n => g a n (k + r)%nat)). apply lerp1_eq; [exact (Hx (fun n => g n j (k + r)%nat))|exact (Hx (fun n => g n (j + q)%nat (k + r)%nat))].
Qed.
Lemma nearest_ok l v : l <> [] -> is_nearest (fun i => nth i l 0) (length l) v (nearest_index l v).
Proof. intros H. destruct (nearest_index_is_nearest l v H) as [H1 [H2 _]]. split; [exact H1|]. intros j Hj. apply (H2 j Hj). Qed.
(** The indices of the place: [i], [j], [k], but the nearest one on the axis [d]. *)
Definition at_axis (d e : nat) (a n : nat) : nat := if (e =? d)%nat then a else n.

(** What should be: on the axis [d] the value is on the straight line between the two neighbours (at the ends, the value there). *)
Definition line (f : field) (d : nat) (i j k n : nat) : Q := values f (at_axis d 0 n i) (at_axis d 1 n j) (at_axis d 2 n k).
Definition linear_at (c : nat -> Q) (n : nat) (u : nat -> Q) (v q : Q) : Prop :=
  (v <= c 0%nat /\ q == u 0%nat) \/ (c (n - 1)%nat <= v /\ q == u (n - 1)%nat) \/
  (exists p, (S p < n)%nat /\ c p <= v /\ v <= c (S p) /\ q * (c (S p) - c p) == u p * (c (S p) - v) + u (S p) * (v - c p)).
Lemma locate_line f m d v s : prepared f -> (d < 3)%nat -> (s < smax f)%nat ->
  exists i p t s', locate f m d v s = Some (i, p, t, s') /\ forall u : nat -> Q, linear_at (crd f m d) (nn f d) u v (lerp1 (u i) (u (i + p)%nat) t).
Proof.
  intros P Hd Hs. destruct (locate_spec f m d v s P Hd Hs) as [i [p [t [s' [E [_ L]]]]]]. exists i, p, t, s'. split; [exact E|]. intros u. destruct L as [Lr Lp Lt Ll Lb La]. pose proof (pr_inc f P m d Hd) as Hinc. pose proof (pr_n f P d Hd) as N1.
  unfold clamp in *. destruct (Qle_bool v (crd f m d 0%nat)) eqn:E0.
  - left. apply Qle_bool_iff in E0. split; [exact E0|]. assert (i = 0)%nat as ->. { destruct i as [|i]; [reflexivity|]. pose proof (Hinc 0%nat (S i) ltac:(lia)). lra. }
    destruct p as [|p]; [unfold lerp1; cbn [Nat.add]; ring|]. assert (p = 0)%nat as -> by lia. cbn [Nat.add] in *. pose proof (Hinc 0%nat 1%nat ltac:(lia)). assert (M : t * (crd f m d 1%nat - crd f m d 0%nat) == 0) by lra. apply Qmult_integral in M as [M|M]; [|lra]. unfold lerp1. rewrite M. ring.
  - destruct (Qle_bool (crd f m d (nn f d - 1)%nat) v) eqn:E1.
    + right. left. apply Qle_bool_iff in E1. split; [exact E1|]. assert (Ip : (i + p = nn f d - 1)%nat). { destruct (Nat.eq_dec (i + p) (nn f d - 1)) as [?|Ne]; [assumption|]. pose proof (Hinc (i + p)%nat (nn f d - 1)%nat ltac:(lia)). lra. }
      destruct p as [|p]; [rewrite Nat.add_0_r in *; subst i; unfold lerp1; ring|]. rewrite Ip in *. pose proof (Hinc i (nn f d - 1)%nat ltac:(lia)). assert (M : (1 - t) * (crd f m d (nn f d - 1)%nat - crd f m d i) == 0) by lra. apply Qmult_integral in M as [M|M]; [|lra]. assert (T : t == 1) by lra. unfold lerp1. rewrite T. ring.
    + right. right. assert (N2 : ~ nn f d = 1%nat). { intros X. rewrite X in E1. cbn [Nat.sub] in E1. destruct (Qlt_le_dec v (crd f m d 0%nat)) as [G|G]; [apply Qlt_le_weak, Qle_bool_iff in G; congruence|apply Qle_bool_iff in G; congruence]. }
      destruct p as [|p].
      * rewrite Nat.add_0_r in *. assert (V : crd f m d i == v) by lra. destruct (Nat.eq_dec i (nn f d - 1)) as [X|X]; [exfalso; assert (F : crd f m d (nn f d - 1)%nat <= v) by (rewrite <- X; lra); apply Qle_bool_iff in F; congruence|].
        exists i. pose proof (Hinc i (S i) ltac:(lia)). repeat split; try lia; try lra. unfold lerp1. rewrite <- V. ring.
      * assert (p = 0)%nat as -> by lia. rewrite Nat.add_1_r in *. exists i. repeat split; try lia; try lra. unfold lerp1. setoid_replace v with (crd f m d i + t * (crd f m d (S i) - crd f m d i)) by (symmetry; exact Ll). ring.
Qed.
(** A field with its values at the cells: every value of the slice is interpolated linearly along the axis. *)
Theorem C90_cells : forall f d v i j k h, good f -> at_cells f = true -> (d < 3)%nat -> cache_ok (prep f) h ->
  (d <> 0%nat -> (i < length (cells f 0))%nat) -> (d <> 1%nat -> (j < length (cells f 1))%nat) -> (d <> 2%nat -> (k < length (cells f 2))%nat) ->
  exists q, fst (interpolated_slice f d v i j k h) = Some q /\ linear_at (fun n => nth n (cells f d) 0) (length (cells f d)) (line f d i j k) v q.
Proof.
  intros f d v i j k h G C Hd Hh Hi Hj Hk. pose proof (good_prepared f G) as P. destruct h as [[h0 h1] h2]. destruct Hh as [S0 [S1 S2]].
  unfold interpolated_slice. cbv zeta. cbn [fst]. assert (E : prep (write f d v) = prep f) by (unfold prep, write, places; cbn; rewrite C; reflexivity). rewrite E. clear E.
  assert (Pl : forall e, places f e = cells f e) by (intros e; unfold places; rewrite C; reflexivity). unfold interp_trilin1.
  destruct d as [|[|[|d]]]; [| | |lia]; unfold seed; cbn [Nat.eqb px py pz].
  - destruct (locate_line (prep f) 0 0 v h0 P ltac:(lia) S0) as [a [p [tx [s0 [-> Lx]]]]].
    destruct (locate_node (prep f) 0 1 h1 j P ltac:(lia) S1) as [b [q [ty [s1 [Ey Ly]]]]]; [cbn; rewrite Pl; apply Hj; lia|]. cbn in Ey. rewrite Ey. clear Ey.
    destruct (locate_node (prep f) 0 2 h2 k P ltac:(lia) S2) as [c [r [tz [s2 [Ez Lz]]]]]; [cbn; rewrite Pl; apply Hk; lia|]. cbn in Ez. rewrite Ez. clear Ez.
    eexists. split; [reflexivity|]. pose proof (Lx (line f 0 i j k)) as L. cbn in L. rewrite !Pl in L.
    assert (T : trilin (fun a b c => dat (prep f) a b c 0) a b c p q r tx ty tz == lerp1 (line f 0 i j k a) (line f 0 i j k (a + p)%nat) tx).
    { unfold trilin, line, at_axis. cbn [Nat.eqb prep dat]. cbv beta zeta. transitivity (lerp1 (lerp1 (values f a b k) (values f (a + p)%nat b k) tx) (lerp1 (values f a (b + q)%nat k) (values f (a + p)%nat (b + q)%nat k) tx) ty).
      - exact (Lz (fun n => lerp1 (lerp1 (values f a b n) (values f (a + p)%nat b n) tx) (lerp1 (values f a (b + q)%nat n) (values f (a + p)%nat (b + q)%nat n) tx) ty)).
      - exact (Ly (fun n => lerp1 (values f a n k) (values f (a + p)%nat n k) tx)). }
    unfold linear_at in *. setoid_rewrite T. exact L.
  - destruct (locate_node (prep f) 0 0 h0 i P ltac:(lia) S0) as [a [p [tx [s0 [Ex Lx]]]]]; [cbn; rewrite Pl; apply Hi; lia|]. cbn in Ex. rewrite Ex. clear Ex.
    destruct (locate_line (prep f) 0 1 v h1 P ltac:(lia) S1) as [b [q [ty [s1 [-> Ly]]]]].
    destruct (locate_node (prep f) 0 2 h2 k P ltac:(lia) S2) as [c [r [tz [s2 [Ez Lz]]]]]; [cbn; rewrite Pl; apply Hk; lia|]. cbn in Ez. rewrite Ez. clear Ez.
    eexists. split; [reflexivity|]. pose proof (Ly (line f 1 i j k)) as L. cbn in L. rewrite !Pl in L.
    assert (T : trilin (fun a b c => dat (prep f) a b c 0) a b c p q r tx ty tz == lerp1 (line f 1 i j k b) (line f 1 i j k (b + q)%nat) ty).
    { unfold trilin, line, at_axis. cbn [Nat.eqb prep dat]. cbv beta zeta. transitivity (lerp1 (lerp1 (values f a b k) (values f (a + p)%nat b k) tx) (lerp1 (values f a (b + q)%nat k) (values f (a + p)%nat (b + q)%nat k) tx) ty).
      - exact (Lz (fun n => lerp1 (lerp1 (values f a b n) (values f (a + p)%nat b n) tx) (lerp1 (values f a (b + q)%nat n) (values f (a + p)%nat (b + q)%nat n) tx) ty)).
      - apply lerp1_eq; [exact (Lx (fun n => values f n b k))|exact (Lx (fun n => values f n (b + q)%nat k))]. }
    unfold linear_at in *. setoid_rewrite T. exact L.
  - destruct (locate_node (prep f) 0 0 h0 i P ltac:(lia) S0) as [a [p [tx [s0 [Ex Lx]]]]]; [cbn; rewrite Pl; apply Hi; lia|]. cbn in Ex. rewrite Ex. clear Ex.
    destruct (locate_node (prep f) 0 1 h1 j P ltac:(lia) S1) as [b [q [ty [s1 [Ey Ly]]]]]; [cbn; rewrite Pl; apply Hj; lia|]. cbn in Ey. rewrite Ey. clear Ey.
    destruct (locate_line (prep f) 0 2 v h2 P ltac:(lia) S2) as [c [r [tz [s2 [-> Lz]]]]].
    eexists. split; [reflexivity|]. pose proof (Lz (line f 2 i j k)) as L. cbn in L. rewrite !Pl in L.
    assert (T : trilin (fun a b c => dat (prep f) a b c 0) a b c p q r tx ty tz == lerp1 (line f 2 i j k c) (line f 2 i j k (c + r)%nat) tz).
    { unfold trilin, line, at_axis. cbn [Nat.eqb prep dat]. cbv beta zeta. apply lerp1_eq.
      - transitivity (lerp1 (values f i b c) (values f i (b + q)%nat c) ty); [apply lerp1_eq; [exact (Lx (fun n => values f n b c))|exact (Lx (fun n => values f n (b + q)%nat c))]|exact (Ly (fun n => values f i n c))].
      - transitivity (lerp1 (values f i b (c + r)%nat) (values f i (b + q)%nat (c + r)%nat) ty); [apply lerp1_eq; [exact (Lx (fun n => values f n b (c + r)%nat))|exact (Lx (fun n => values f n (b + q)%nat (c + r)%nat))]|exact (Ly (fun n => values f i n (c + r)%nat))]. }
    unfold linear_at in *. setoid_rewrite T. exact L.
Qed.
Print Assumptions C90_cells.

(** With its values at the nodes nothing is interpolated: each value of the slice is the one stored at the nearest node, because the node itself has been moved to the value before. *)
Theorem C90_nodes_refuted : forall f d v i j k h, good f -> at_cells f = false -> (d < 3)%nat -> cache_ok (prep f) h ->
  (d <> 0%nat -> (i < length (nodes f 0))%nat) -> (d <> 1%nat -> (j < length (nodes f 1))%nat) -> (d <> 2%nat -> (k < length (nodes f 2))%nat) ->
  exists n q, is_nearest (fun a => nth a (nodes f d) 0) (length (nodes f d)) v n /\ fst (interpolated_slice f d v i j k h) = Some q /\ q == line f d i j k n.
Proof.
  intros f d v i j k h G C Hd Hh Hi Hj Hk. pose proof (good_prepared f G) as P. assert (Pl : forall e, places f e = nodes f e) by (intros e; unfold places; rewrite C; reflexivity).
  set (n := nearest_index (places f d) v). set (f' := write f d v).
  assert (Ne : nodes f d <> []). { destruct (G d Hd) as [L _]. rewrite Pl in L. destruct (nodes f d); [cbn in L; lia|discriminate]. }
  assert (Near : is_nearest (fun a => nth a (nodes f d) 0) (length (nodes f d)) v n) by (unfold n; rewrite Pl; apply nearest_ok, Ne).
  assert (Pl' : forall e, places f' e = if (e =? d)%nat then put n v (nodes f e) else nodes f e).
  { intros e. unfold places, f', write. cbn [at_cells nodes]. rewrite C. destruct (Nat.eqb_spec e d) as [->|X]; [|reflexivity]. fold n. reflexivity. }
  assert (Ln : forall e, nn (prep f') e = nn (prep f) e). { intros e. cbn. rewrite Pl', Pl. destruct (e =? d)%nat; [apply put_length|reflexivity]. }
  assert (Sm : smax (prep f') = smax (prep f)) by (unfold smax; rewrite !Ln; reflexivity).
  assert (Mv : forall s, (s < smax (prep f))%nat -> exists i0 p t s', locate (prep f') 0 d v s = Some (i0, p, t, s') /\ forall g : nat -> Q, lerp1 (g i0) (g (i0 + p)%nat) t == g n).
  { intros s Hs. apply (locate_moved (prep f) (prep f') 0 d v n s P Hd); [rewrite Sm; exact Hs|apply Ln|reflexivity| | |].
    - cbn. rewrite Pl. exact Near.
    - cbn. rewrite Pl', Nat.eqb_refl. apply put_same, Near.
    - intros a Ha. cbn. rewrite Pl', Nat.eqb_refl, Pl. apply put_other. lia. }
  assert (Oth : forall e s w, e <> d -> locate (prep f') 0 e w s = locate (prep f) 0 e w s).
  { intros e s w Hed. assert (Cr : crd (prep f') 0 e = crd (prep f) 0 e). { cbn. rewrite Pl', Pl. destruct (Nat.eqb_spec e d); [congruence|reflexivity]. }
    unfold locate, closest_preceeding_ind, xL, xl, xh. change (unif (prep f')) with (unif (prep f)). rewrite Ln, Cr.
    assert (Rd : read (prep f') 0 e = read (prep f) 0 e) by (unfold read; rewrite Ln, Sm, Cr; reflexivity). rewrite Rd. reflexivity. }
  assert (Nd : forall e s a, (e < 3)%nat -> e <> d -> (s < smax (prep f))%nat -> (a < length (nodes f e))%nat ->
    exists i0 p t s', locate (prep f') 0 e (nth a (places f e) 0) s = Some (i0, p, t, s') /\ forall g : nat -> Q, lerp1 (g i0) (g (i0 + p)%nat) t == g a).
  { intros e s a He Hed Hs Ha. rewrite Oth by exact Hed. apply (locate_node (prep f) 0 e s a P He Hs). cbn. rewrite Pl. exact Ha. }
  destruct h as [[h0 h1] h2]. destruct Hh as [S0 [S1 S2]]. exists n. unfold interpolated_slice. cbv zeta. cbn [fst]. fold f'. unfold interp_trilin1.
  destruct d as [|[|[|d]]]; [| | |lia]; unfold seed; cbn [Nat.eqb px py pz].
  - destruct (Mv h0 S0) as [a [p [tx [s0 [-> Lx]]]]]. destruct (Nd 1%nat h1 j ltac:(lia) ltac:(lia) S1 (Hj ltac:(lia))) as [b [q [ty [s1 [-> Ly]]]]]. destruct (Nd 2%nat h2 k ltac:(lia) ltac:(lia) S2 (Hk ltac:(lia))) as [c [r [tz [s2 [-> Lz]]]]].
    eexists. split; [exact Near|]. split; [reflexivity|]. apply (trilin_pick (fun a b c => dat (prep f') a b c 0) _ _ _ _ _ _ _ _ _ n j k Lx Ly Lz).
  - destruct (Nd 0%nat h0 i ltac:(lia) ltac:(lia) S0 (Hi ltac:(lia))) as [a [p [tx [s0 [-> Lx]]]]]. destruct (Mv h1 S1) as [b [q [ty [s1 [-> Ly]]]]]. destruct (Nd 2%nat h2 k ltac:(lia) ltac:(lia) S2 (Hk ltac:(lia))) as [c [r [tz [s2 [-> Lz]]]]].
    eexists. split; [exact Near|]. split; [reflexivity|]. apply (trilin_pick (fun a b c => dat (prep f') a b c 0) _ _ _ _ _ _ _ _ _ i n k Lx Ly Lz).
  - destruct (Nd 0%nat h0 i ltac:(lia) ltac:(lia) S0 (Hi ltac:(lia))) as [a [p [tx [s0 [-> Lx]]]]]. destruct (Nd 1%nat h1 j ltac:(lia) ltac:(lia) S1 (Hj ltac:(lia))) as [b [q [ty [s1 [-> Ly]]]]]. destruct (Mv h2 S2) as [c [r [tz [s2 [-> Lz]]]]].
    eexists. split; [exact Near|]. split; [reflexivity|]. apply (trilin_pick (fun a b c => dat (prep f') a b c 0) _ _ _ _ _ _ _ _ _ i j n Lx Ly Lz).
Qed.
Print Assumptions C90_nodes_refuted.

(** The field that is sliced is changed: at the nodes, the node nearest to the value is now at the value; at the cells, both nodes of the nearest cell are, which then has no width.
    Nothing else of the field is changed. *)
Theorem C90_changed_refuted : forall f d v i j k h, let f' := snd (interpolated_slice f d v i j k h) in
  places f d <> [] -> (at_cells f = true -> length (nodes f d) = S (length (cells f d))) ->
  exists n, is_nearest (fun a => nth a (places f d) 0) (length (places f d)) v n /\
    (forall a, nth a (nodes f' d) 0 = if (a =? n)%nat || (at_cells f && (a =? S n)%nat) then v else nth a (nodes f d) 0) /\
    (forall e, length (nodes f' e) = length (nodes f e)) /\ (forall e, e <> d -> nodes f' e = nodes f e) /\ cells f' = cells f /\ values f' = values f.
Proof.
  intros f d v i j k h f' Ne Lc. exists (nearest_index (places f d) v). pose proof (nearest_ok _ v Ne) as Near. split; [exact Near|]. destruct Near as [Rn _]. set (n := nearest_index (places f d) v) in *.
  unfold f', interpolated_slice. cbv zeta. cbn [snd]. unfold write. fold n. cbv zeta. cbn [nodes cells values]. repeat split.
  - intros a. rewrite Nat.eqb_refl. destruct (at_cells f) eqn:C; cbn [andb].
    + unfold places in Rn. rewrite C in Rn. specialize (Lc eq_refl). destruct (Nat.eqb_spec a (S n)) as [->|X]; [rewrite orb_true_r; apply put_same; rewrite put_length; lia|]. rewrite orb_false_r, put_other by lia.
      destruct (Nat.eqb_spec a n) as [->|Y]; [apply put_same; lia|apply put_other; lia].
    + unfold places in Rn. rewrite C in Rn. rewrite orb_false_r. destruct (Nat.eqb_spec a n) as [->|Y]; [apply put_same; lia|apply put_other; lia].
  - intros e. destruct (Nat.eqb_spec e d) as [->|X]; [|reflexivity]. destruct (at_cells f); rewrite ?put_length; reflexivity.
  - intros e He. destruct (Nat.eqb_spec e d); [congruence|reflexivity].
Qed.
Print Assumptions C90_changed_refuted.

(** Non-vacuity: a field with nodes 0, 1, 2, 4 along x and the value 10 x; the slice at 1.25 should be 12.5 everywhere, at the cells (0.5, 1.5, 3) it is; at the nodes it is 10, and the node at 1 is then at 1.25. *)
Definition case_nodes (d : nat) : list Q := if (d =? 0)%nat then [0; 1; 2; 4] else [0; 1].
Definition case_cells (d : nat) : list Q := if (d =? 0)%nat then [1#2; 3#2; 3] else [1#2].
Definition case_fld (c : bool) : field := Fld case_nodes case_cells (fun i _ _ => 10 * nth i (if c then case_cells 0 else case_nodes 0)%nat 0) c false.
Example C90_case_good : good (case_fld true) /\ good (case_fld false).
Proof.
  assert (I : forall l : list Q, forallb (fun i => negb (Qle_bool (nth (S i) l 0) (nth i l 0))) (seq 0 (length l - 1)) = true -> increasing (fun i => nth i l 0) (length l)).
  { intros l Hl i j [Hij Hj]. rewrite forallb_forall in Hl. assert (St : forall a, (S a < length l)%nat -> nth a l 0 < nth (S a) l 0).
    { intros a Ha. specialize (Hl a). assert (In a (seq 0 (length l - 1))) by (apply in_seq; lia). specialize (Hl H). apply negb_true_iff in Hl. destruct (Qlt_le_dec (nth a l 0) (nth (S a) l 0)) as [?|X]; [assumption|]. apply Qle_bool_iff in X. congruence. }
    induction Hij as [|j Hij IH]; [apply St; exact Hj|]. specialize (IH ltac:(lia)). specialize (St j ltac:(lia)). lra. }
  split; intros d Hd; destruct d as [|[|[|d]]]; try lia; (split; [cbn; lia|]; split; [apply I; reflexivity|discriminate]).
Qed.
Example C90_case : (match fst (interpolated_slice (case_fld true) 0 (5#4) 0 0 0 cache0) with Some q => Qeq_bool q (25#2) | None => false end) = true /\
  (match fst (interpolated_slice (case_fld false) 0 (5#4) 0 1 1 cache0) with Some q => Qeq_bool q 10 | None => false end) = true /\ nodes (snd (interpolated_slice (case_fld false) 0 (5#4) 0 1 1 cache0)) 0%nat = [0; 5#4; 2; 4].
Proof. vm_compute. repeat split. Qed.
