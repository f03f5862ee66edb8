(** C46: the coordinates of a slice describe the selected data. *)
From Verif Require Import CrdModel CrdProps.
From Coq Require Import ZifyNat ZifyBool Lqa Qfield.

(** ** specification *)
Definition unit_step (s : pslice) : Prop := p_step s = None \/ p_step s = Some 1%Z.
Definition start_not_negative (s : pslice) : Prop := match p_start s with Some a => (0 <= a)%Z | None => True end.
(** the cells a slice selects, as indices *)
Definition selected (cc : list Q) (s : pslice) (ix : list Z) : Prop := sel (Z.of_nat (length cc)) s = Some ix /\ ix <> [].

(** ** helpers *)
Lemma getslice_prog (l : list Q) s a d n : sel (Z.of_nat (length l)) s = Some (prog a d n) ->
  exists y, getslice l s = Some y /\ length y = n /\ forall k, (k < n)%nat -> (0 <= a + Z.of_nat k * d < Z.of_nat (length l))%Z /\ qat y k = qat l (Z.to_nat (a + Z.of_nat k * d)).
Proof.
  intros H. pose proof (sel_in_range _ _ _ (Nat2Z.is_nonneg _) H) as R. unfold getslice. rewrite H. eexists. split; [reflexivity|].
  split; [rewrite picks_length by exact R; apply prog_length|]. intros k Hk.
  assert (Rk : (0 <= a + Z.of_nat k * d < Z.of_nat (length l))%Z) by (apply R, prog_In; exists k; split; [exact Hk|reflexivity]).
  split; [exact Rk|]. unfold qat. apply nth_error_nth. rewrite picks_nth by exact R. rewrite prog_nth by exact Hk. unfold zget.
  destruct (Z.ltb_spec (a + Z.of_nat k * d) 0); [lia|]. apply nth_error_nth'. lia.
Qed.
Lemma sel_unit L s : unit_step s -> sel L s = Some (prog (slice_start L s) 1 (Z.to_nat (slice_stop L s - slice_start L s))).
Proof.
  intros U. unfold sel. assert (E : step_of s = 1%Z) by (unfold step_of; destruct U as [->| ->]; reflexivity). rewrite E. cbn [Z.eqb Pos.eqb]. f_equal. unfold prange. f_equal.
  unfold range_len. replace (0 <? 1)%Z with true by reflexivity. rewrite Z.div_1_r. destruct (Z.ltb_spec (slice_start L s) (slice_stop L s)); lia.
Qed.
Lemma start_unit L s : unit_step s -> slice_start L s = match p_start s with None => 0%Z | Some x => adj L 0 L x end.
Proof. intros U. unfold slice_start. assert (E : step_of s = 1%Z) by (unfold step_of; destruct U as [->| ->]; reflexivity). rewrite E. reflexivity. Qed.
Lemma stop_unit L s : unit_step s -> slice_stop L s = match p_stop s with None => L | Some x => adj L 0 L x end.
Proof. intros U. unfold slice_stop. assert (E : step_of s = 1%Z) by (unfold step_of; destruct U as [->| ->]; reflexivity). rewrite E. reflexivity. Qed.

Definition node_slice (s : pslice) : pslice :=
  PS (p_start s) (match p_stop s with Some t => Some (if (0 <=? t)%Z then t + 1 else t)%Z | None => None end) (p_step s).
Lemma cc_slice_unit nc cc s : unit_step s -> cc_slice nc cc s = option_map (fun x => (x, None)) (getslice nc (node_slice s)).
Proof.
  intros [E|E]; unfold cc_slice, node_slice; rewrite E; [reflexivity|]. cbn [Z.eqb Pos.eqb orb negb].
  destruct (p_stop s) as [t|]; [|reflexivity]. replace (0 <? 1)%Z with true by reflexivity. reflexivity.
Qed.

Lemma unit_nodes (nc cc : list Q) s (ix : list Z) : length nc = S (length cc) -> unit_step s -> start_not_negative s -> selected cc s ix ->
  exists a, ix = prog a 1 (length ix) /\ (0 <= a)%Z /\ (a + Z.of_nat (length ix) <= Z.of_nat (length cc))%Z /\
    sel (Z.of_nat (length nc)) (node_slice s) = Some (prog a 1 (S (length ix))).
Proof.
  intros HL U St (Hs & Ne). rewrite (sel_unit _ _ U) in Hs. injection Hs as Hix.
  assert (U' : unit_step (node_slice s)) by exact U.
  rewrite (sel_unit _ _ U').
  assert (Lx : length ix = Z.to_nat (slice_stop (Z.of_nat (length cc)) s - slice_start (Z.of_nat (length cc)) s)) by (rewrite <- Hix; apply prog_length).
  assert (Pos : (0 < length ix)%nat) by (destruct ix; [contradiction|cbn; lia]).
  exists (slice_start (Z.of_nat (length cc)) s).
  rewrite (start_unit _ _ U), (stop_unit _ _ U) in *. rewrite (start_unit _ _ U'), (stop_unit _ _ U').
  unfold start_not_negative in St. cbn [node_slice p_start p_stop]. clear U U'.
  split; [rewrite <- Hix at 1; rewrite Lx; reflexivity|]. rewrite Lx in *. clear Hix Lx Ne. unfold adj in *. rewrite HL.
  destruct (p_start s) as [u|]; destruct (p_stop s) as [t|].
  - destruct (Z.leb_spec 0 t), (Z.ltb_spec u 0), (Z.ltb_spec t 0); try lia; try (destruct (Z.ltb_spec (t + 1) 0); try lia); repeat split; try lia; f_equal; f_equal; lia.
  - destruct (Z.ltb_spec u 0); try lia; repeat split; try lia; f_equal; f_equal; lia.
  - destruct (Z.leb_spec 0 t), (Z.ltb_spec t 0); try lia; try (destruct (Z.ltb_spec (t + 1) 0); try lia); repeat split; try lia; f_equal; f_equal; lia.
  - repeat split; try lia; f_equal; f_equal; lia.
Qed.

(** ** without a step *)
(** The sliced coordinates have one node more than there are selected cells, the nodes are
    those around the selected cells, and the centres are those of the selected cells. *)
Theorem C46_slice : forall nc s (ix : list Z), (2 <= length nc)%nat -> unit_step s -> start_not_negative s ->
  selected (cells nc) s ix ->
  exists nc' cc' data, sliced_axis false nc (cells nc) s = Some (nc', cc') /\ getslice (cells nc) s = Some data /\
    same cc' data /\ length nc' = S (length ix) /\ length cc' = length ix /\
    forall k i, nth_error ix k = Some i -> qat nc' k = qat nc (Z.to_nat i) /\ qat nc' (S k) = qat nc (Z.to_nat i + 1).
Proof.
  intros nc s ix H2 U St Hs. assert (HL : length nc = S (length (cells nc))) by (rewrite length_cells by exact H2; lia).
  destruct (unit_nodes nc (cells nc) s ix HL U St Hs) as (a & Hix & Ha & Hb & Hn). destruct Hs as (Hs & Ne).
  assert (Pos : (0 < length ix)%nat) by (destruct ix; [contradiction|cbn; lia]). rewrite Hix in Hs.
  destruct (getslice_prog nc (node_slice s) a 1 (S (length ix)) Hn) as (nc' & E1 & L1 & G1).
  destruct (getslice_prog (cells nc) s a 1 (length ix) Hs) as (data & E2 & L2 & G2).
  exists nc', (cells nc'), data. unfold sliced_axis. rewrite (cc_slice_unit _ _ _ U), E1. cbn [option_map].
  destruct nc' as [|n0 nc'']; [cbn in L1; lia|]. set (nc' := n0 :: nc'') in *. cbn [andb axis_arrays].
  assert (L1' : (2 <= length nc')%nat) by lia.
  split; [reflexivity|]. split; [exact E2|]. split; [|split; [exact L1|split; [rewrite length_cells by exact L1'; lia|]]].
  - split; [rewrite length_cells by exact L1'; lia|]. intros k Hk. rewrite length_cells in Hk by exact L1'.
    rewrite qat_cells by lia. destruct (G1 k ltac:(lia)) as (R1 & ->). destruct (G1 (S k) ltac:(lia)) as (R2 & ->). destruct (G2 k ltac:(lia)) as (R3 & ->).
    rewrite qat_cells by lia. replace (Z.to_nat (a + Z.of_nat (S k) * 1)) with (S (Z.to_nat (a + Z.of_nat k * 1))) by lia. reflexivity.
  - intros k i Hk. assert (Hkl : (k < length ix)%nat) by (apply nth_error_Some; rewrite Hk; discriminate).
    rewrite Hix, prog_nth in Hk by exact Hkl. injection Hk as <-.
    destruct (G1 k ltac:(lia)) as (R1 & ->). destruct (G1 (S k) ltac:(lia)) as (R2 & ->). split; f_equal; lia.
Qed.
Print Assumptions C46_slice.

(** The same for uniform coordinates. *)
Theorem C46_slice_uniform : forall nc s (ix : list Z) x0 d, (2 <= length nc)%nat -> evenly nc x0 d -> unit_step s -> start_not_negative s ->
  selected (cells nc) s ix ->
  exists nc' cc' data, sliced_axis true nc (cells nc) s = Some (nc', cc') /\ getslice (cells nc) s = Some data /\
    same cc' data /\ length nc' = S (length ix) /\ length cc' = length ix.
Proof.
  intros nc s ix x0 d H2 Hev U St Hs. unfold evenly in Hev.
  destruct (C46_slice nc s ix H2 U St Hs) as (nc' & cc' & data & E & Ed & Sm & L1 & L2 & _).
  assert (HL : length nc = S (length (cells nc))) by (rewrite length_cells by exact H2; lia).
  destruct (unit_nodes nc (cells nc) s ix HL U St Hs) as (a & Hix & Ha & Hb & Hn). destruct Hs as (Hs & Ne).
  assert (Pos : (0 < length ix)%nat) by (destruct ix; [contradiction|cbn; lia]).
  destruct (getslice_prog nc (node_slice s) a 1 (S (length ix)) Hn) as (m & E1 & Lm & Gm).
  unfold sliced_axis in *. rewrite (cc_slice_unit _ _ _ U), E1 in *. cbn [option_map] in *. destruct m as [|m0 m']; [cbn in Lm; lia|]. set (m := m0 :: m') in *.
  cbn [andb axis_arrays] in E. assert (Em : m = nc' /\ cells m = cc') by (injection E as -> ->; split; reflexivity). destruct Em as [<- <-]. clear E.
  assert (Lm2 : (2 <= length m)%nat) by lia.
  assert (Hm : forall k, (k < length m)%nat -> qat m k == (x0 + inject_Z a * d) + qn k * d).
  { intros k Hk. destruct (Gm k ltac:(lia)) as (R & ->). rewrite Hev by lia. unfold qn. rewrite Z2Nat.id by lia. rewrite Z.mul_1_r, inject_Z_plus. ring. }
  destruct (true && ((length m =? 1)%nat || allclose (qat (np_diff m) 0) (np_diff m))).
  2:{ exists m, (cells m), data. cbn [axis_arrays]. split; [reflexivity|]. split; [exact Ed|]. split; [exact Sm|]. split; [exact L1|exact L2]. }
  set (lin := linspace (qat m 0) (qat m (length m - 1)) (length m)). exists lin, (cells lin), data. cbn [axis_arrays].
  assert (Ll : length lin = length m) by apply length_linspace.
  assert (Hl : forall k, (k < length m)%nat -> qat lin k == qat m k).
  { intros k Hk. unfold lin. rewrite qat_linspace by lia. rewrite !Hm by lia. rewrite qn_sub by lia. rewrite qn_0, qn_1. pose proof (qn_minus_1 (length m) Lm2). field. lra. }
  split; [reflexivity|]. split; [exact Ed|]. destruct Sm as (S1 & S2). rewrite length_cells in S1, S2, L2 by exact Lm2. split; [|split; [lia|rewrite length_cells by lia; lia]].
  split; [rewrite length_cells by lia; lia|]. intros k Hk. rewrite length_cells in Hk by lia. rewrite qat_cells by lia. rewrite !Hl by lia. rewrite <- qat_cells by lia. apply S2. lia.
Qed.
Print Assumptions C46_slice_uniform.

(** Reversing the whole axis. *)
Theorem C46_reverse : forall nc, (2 <= length nc)%nat ->
  exists cc', sliced_axis false nc (cells nc) (PS None None (Some (-1)%Z)) = Some (rev nc, cc') /\ same cc' (rev (cells nc)).
Proof.
  intros nc H2. assert (E : cc_slice nc (cells nc) (PS None None (Some (-1)%Z)) = Some (rev nc, None)).
  { unfold cc_slice. cbn [p_step p_start p_stop]. change (negb ((-1 =? 1) || (-1 =? -1)))%Z with false. cbv iota. fold full_rev. rewrite getslice_full_rev. reflexivity. }
  exists (cells (rev nc)). unfold sliced_axis. rewrite E. destruct (rev nc) as [|r0 r] eqn:Er; [apply (f_equal (@length Q)) in Er; rewrite rev_length in Er; cbn in Er; lia|].
  cbn [andb axis_arrays]. split; [reflexivity|]. rewrite <- Er. assert (Lr : (2 <= length (rev nc))%nat) by (rewrite rev_length; exact H2).
  split; [rewrite rev_length, !length_cells, rev_length by assumption; reflexivity|]. intros i Hi. rewrite length_cells, rev_length in Hi by exact Lr.
  rewrite qat_cells by (rewrite ?rev_length; lia). rewrite !qat_rev by (rewrite ?length_cells by exact H2; lia). rewrite length_cells by exact H2. rewrite qat_cells by lia.
  replace (length nc - 1 - S i)%nat with (length nc - S (S i))%nat by lia. replace (S (length nc - S (S i))) with (length nc - S i)%nat by lia. field.
Qed.
Print Assumptions C46_reverse.

(** ** with a step *)
(** Coordinates that are not uniform, step at least 2: one node more than selected cells, the
    centres are exactly those of the selected cells, the nodes between two centres are
    half way, and the first is the lower node of the first selected cell. *)
Theorem C46_strided : forall (nc cc : list Q) s k (ix : list Z), length nc = S (length cc) -> p_step s = Some k -> (2 <= k)%Z -> start_not_negative s ->
  selected cc s ix ->
  exists nc' data, sliced_axis false nc cc s = Some (nc', data) /\ getslice cc s = Some data /\
    length nc' = S (length ix) /\ length data = length ix /\
    (forall j i, nth_error ix j = Some i -> qat data j = qat cc (Z.to_nat i)) /\
    (forall j, (S j < length ix)%nat -> qat nc' (S j) == (qat data j + qat data (S j)) / 2) /\
    qat nc' 0 = qat nc (Z.to_nat (hd 0%Z ix)).
Proof.
  intros nc cc s k ix HL Hk Hk2 St (Hs & Ne). pose proof Hs as Hs0.
  assert (Ek : step_of s = k) by (unfold step_of; rewrite Hk; reflexivity).
  unfold sel in Hs. rewrite Ek in Hs. destruct (Z.eqb_spec k 0); [lia|]. injection Hs as Hix. unfold prange in Hix.
  assert (Lx : length ix = Z.to_nat (range_len (slice_start (Z.of_nat (length cc)) s) (slice_stop (Z.of_nat (length cc)) s) k)) by (rewrite <- Hix; apply prog_length).
  assert (Pos : (0 < length ix)%nat) by (destruct ix; [contradiction|cbn; lia]).
  assert (Hlt : (slice_start (Z.of_nat (length cc)) s < slice_stop (Z.of_nat (length cc)) s)%Z).
  { rewrite Lx in Pos. unfold range_len in Pos. destruct (Z.ltb_spec 0 k); [|lia]. destruct (Z.ltb_spec (slice_start (Z.of_nat (length cc)) s) (slice_stop (Z.of_nat (length cc)) s)); lia. }
  set (a := slice_start (Z.of_nat (length cc)) s) in *.
  rewrite <- Lx in Hix. rewrite <- Hix in Hs0. destruct (getslice_prog cc s a k (length ix) Hs0) as (data & Ed & Ld & Gd).
  set (s1 := PS (p_start s) (p_stop s) (Some (k / Z.abs k)%Z)).
  assert (Es1 : step_of s1 = 1%Z) by (unfold step_of, s1; cbn [p_step odef]; rewrite Z.abs_eq, Z.div_same by lia; reflexivity).
  assert (U : unit_step s1) by (right; unfold s1; cbn [p_step]; rewrite Z.abs_eq, Z.div_same by lia; reflexivity).
  pose proof (sel_unit (Z.of_nat (length nc)) s1 U) as Hn. apply getslice_prog in Hn. destruct Hn as (all & Ea & La & Ga).
  assert (Hst : slice_start (Z.of_nat (length nc)) s1 = a /\ (slice_start (Z.of_nat (length nc)) s1 < slice_stop (Z.of_nat (length nc)) s1)%Z).
  { rewrite (start_unit _ _ U), (stop_unit _ _ U). subst a. unfold slice_start, slice_stop, start_not_negative in *. rewrite Ek in *. destruct (Z.ltb_spec 0 k); [|lia].
    cbn [s1 p_start p_stop]. unfold adj in *. rewrite HL. destruct (p_start s) as [u|], (p_stop s) as [t|]; repeat match goal with |- context [(?p <? 0)%Z] => destruct (Z.ltb_spec p 0) | Hh : context [(?p <? 0)%Z] |- _ => destruct (Z.ltb_spec p 0) end; try lia. }
  destruct Hst as (Hst & Hne). rewrite Hst in *.
  destruct all as [|n0 all']; [cbn in La; lia|].
  unfold sliced_axis, cc_slice. rewrite Hk. destruct (Z.eqb_spec k 1); [lia|]. destruct (Z.eqb_spec k (-1)); [lia|]. cbn [orb negb].
  fold s1. rewrite Ed, Ea. cbn [andb axis_arrays]. eexists. exists data. split; [reflexivity|]. split; [reflexivity|].
  split; [cbn [length]; rewrite app_length, map_length, seq_length; cbn [length]; lia|]. split; [exact Ld|]. split; [|split].
  - intros j i Hj. assert (Hjl : (j < length ix)%nat) by (apply nth_error_Some; rewrite Hj; discriminate). rewrite <- Hix, prog_nth in Hj by exact Hjl. injection Hj as <-. apply Gd. exact Hjl.
  - intros j Hj. unfold qat at 1. cbn [nth]. rewrite app_nth1 by (rewrite map_length, seq_length; lia).
    match goal with |- nth j ?l 0 == _ => change (nth j l 0) with (qat l j) end. rewrite qat_map by lia. field.
  - unfold qat at 1. cbn [nth]. destruct (Ga 0%nat ltac:(lia)) as (_ & G0). unfold qat at 1 in G0. cbn [nth] in G0. rewrite G0. rewrite <- Hix. destruct (length ix) as [|m]; [lia|]. rewrite prog_S. cbn [hd]. f_equal. lia.
Qed.
Print Assumptions C46_strided.

(** ** selecting one cell and keeping its axis *)
Lemma slice_two (nc : list Q) (i j : Z) : (0 <= i)%Z -> (i <= j)%Z -> (j <= Z.of_nat (length nc))%Z ->
  exists y, getslice nc (PS (Some i) (Some j) None) = Some y /\ length y = Z.to_nat (j - i) /\ forall k, (k < Z.to_nat (j - i))%nat -> qat y k = qat nc (Z.to_nat i + k).
Proof.
  intros Hi Hij Hj. assert (U : unit_step (PS (Some i) (Some j) None)) by (left; reflexivity). pose proof (sel_unit (Z.of_nat (length nc)) _ U) as E.
  rewrite (start_unit _ _ U), (stop_unit _ _ U) in E. cbn [p_start p_stop] in E. unfold adj in E. destruct (Z.ltb_spec i 0); [lia|]. destruct (Z.ltb_spec j 0); [lia|].
  replace (Z.max 0 (Z.min (Z.of_nat (length nc)) j)) with j in E by lia. replace (Z.max 0 (Z.min (Z.of_nat (length nc)) i)) with i in E by lia.
  destruct (getslice_prog _ _ _ _ _ E) as (y & Ey & Ly & Gy). exists y. split; [exact Ey|]. split; [exact Ly|]. intros k Hk. destruct (Gy k Hk) as (_ & ->). f_equal. lia.
Qed.
(** The new nodes are those of the selected cell: indices that are not negative, and -1 *)
Theorem C46_keep : forall (nc cc : list Q) i, length nc = S (length cc) -> (i < length cc)%nat ->
  forall loc, loc = Z.of_nat i \/ (loc = -1)%Z /\ i = (length cc - 1)%nat ->
  exists y d, fst (keep_axis_cc nc loc) = Some y /\ getslice cc (snd (keep_axis_cc nc loc)) = Some d /\
    same y [qat nc i; qat nc (i + 1)] /\ same d [qat cc i].
Proof.
  intros nc cc i HL Hi loc [-> | [-> Ei]].
  - unfold keep_axis_cc. destruct (Z.eqb_spec (Z.of_nat i) (-1)); [lia|]. destruct (Z.eqb_spec (Z.of_nat i) (-2)); [lia|]. cbn [fst snd].
    destruct (slice_two nc (Z.of_nat i) (Z.of_nat i + 2)) as (y & Ey & Ly & Gy); try lia.
    destruct (slice_two cc (Z.of_nat i) (Z.of_nat i + 1)) as (d & Edd & Ld & Gd); try lia. exists y, d. split; [exact Ey|]. split; [exact Edd|].
    split; (split; [cbn [length]; lia|]).
    + intros [|[|k]] Hk; [rewrite Gy by lia|rewrite Gy by lia|lia]; rewrite Nat2Z.id, ?Nat.add_0_r; reflexivity.
    + intros [|k] Hk; [rewrite Gd by lia|lia]; rewrite Nat2Z.id, ?Nat.add_0_r; reflexivity.
  - unfold keep_axis_cc. cbn [Z.eqb Pos.eqb fst snd].
    assert (Tail : forall (l : list Q) m, (0 < m)%nat -> (m <= length l)%nat -> exists y, getslice l (PS (Some (- Z.of_nat m)%Z) None None) = Some y /\ length y = m /\ forall k, (k < m)%nat -> qat y k = qat l (length l - m + k)).
    { intros l m Hm0 Hm. assert (U : unit_step (PS (Some (- Z.of_nat m)%Z) None None)) by (left; reflexivity). pose proof (sel_unit (Z.of_nat (length l)) _ U) as E.
      rewrite (start_unit _ _ U), (stop_unit _ _ U) in E. cbn [p_start p_stop] in E. unfold adj in E. destruct (Z.ltb_spec (- Z.of_nat m) 0); [|lia].
      replace (Z.max 0 (Z.min (Z.of_nat (length l)) (- Z.of_nat m + Z.of_nat (length l)))) with (Z.of_nat (length l - m)) in E by lia.
      destruct (getslice_prog _ _ _ _ _ E) as (y & Ey & Ly & Gy). exists y. split; [exact Ey|]. split; [lia|]. intros k Hk. destruct (Gy k ltac:(lia)) as (_ & ->). f_equal. lia. }
    destruct (Tail nc 2%nat) as (y & Ey & Ly & Gy); try lia. destruct (Tail cc 1%nat) as (d & Edd & Ld & Gd); try lia. exists y, d. split; [exact Ey|]. split; [exact Edd|].
    split; (split; [cbn [length]; lia|]).
    + intros [|[|k]] Hk; [rewrite Gy by lia|rewrite Gy by lia|lia]; unfold qat; cbn [nth]; (replace (nth _ nc 0) with (qat nc i) by (unfold qat; f_equal; lia)) || (replace (nth _ nc 0) with (qat nc (i + 1)) by (unfold qat; f_equal; lia)); unfold qat; repeat f_equal; try lia; apply Qeq_refl.
    + intros [|k] Hk; [rewrite Gd by lia|lia]. unfold qat. cbn [nth]. replace (length cc - 1 + 0)%nat with i by lia. reflexivity.
Qed.
Print Assumptions C46_keep.
(** Refuted for every other index counted from the end: the nodes belong to the next cell. *)
Theorem C46_keep_negative_refuted : forall (nc cc : list Q) i, length nc = S (length cc) -> (S i < length cc)%nat ->
  exists y d, fst (keep_axis_cc nc (Z.of_nat i - Z.of_nat (length cc))) = Some y /\
    getslice cc (snd (keep_axis_cc nc (Z.of_nat i - Z.of_nat (length cc)))) = Some d /\
    same d [qat cc i] /\ same y [qat nc (i + 1); qat nc (i + 2)].
Proof.
  intros nc cc i HL Hi. set (loc := (Z.of_nat i - Z.of_nat (length cc))%Z).
  assert (Sl : forall (l : list Q) u v, (u < 0)%Z -> (0 <= u + Z.of_nat (length l))%Z -> (u <= v)%Z -> (v < 0)%Z ->
    exists y, getslice l (PS (Some u) (Some v) None) = Some y /\ length y = Z.to_nat (v - u) /\ forall k, (k < Z.to_nat (v - u))%nat -> qat y k = qat l (Z.to_nat (u + Z.of_nat (length l)) + k)).
  { intros l u v Hu Hu0 Huv Hv. assert (U : unit_step (PS (Some u) (Some v) None)) by (left; reflexivity). pose proof (sel_unit (Z.of_nat (length l)) _ U) as E.
    rewrite (start_unit _ _ U), (stop_unit _ _ U) in E. cbn [p_start p_stop] in E. unfold adj in E. destruct (Z.ltb_spec u 0); [|lia]. destruct (Z.ltb_spec v 0); [|lia].
    destruct (getslice_prog _ _ _ _ _ E) as (y & Ey & Ly & Gy). exists y. split; [exact Ey|]. split; [lia|]. intros k Hk. destruct (Gy k ltac:(lia)) as (_ & ->). f_equal. lia. }
  unfold keep_axis_cc. destruct (Z.eqb_spec loc (-1)); [lia|]. destruct (Z.eqb_spec loc (-2)) as [E2|E2]; cbn [fst snd].
  - destruct (Sl cc (-2)%Z (-1)%Z) as (d & Edd & Ld & Gd); try lia.
    assert (U : unit_step (PS (Some (-2)%Z) None None)) by (left; reflexivity). pose proof (sel_unit (Z.of_nat (length nc)) _ U) as E.
    rewrite (start_unit _ _ U), (stop_unit _ _ U) in E. cbn [p_start p_stop] in E. unfold adj in E. destruct (Z.ltb_spec (-2) 0); [|lia].
    destruct (getslice_prog _ _ _ _ _ E) as (y & Ey & Ly & Gy). exists y, d. split; [exact Ey|]. split; [exact Edd|]. split; (split; [cbn [length]; lia|]).
    + intros [|k] Hk; [rewrite Gd by lia|lia]. unfold qat. cbn [nth]. apply Qeq_refl' || (replace (Z.to_nat (-2 + Z.of_nat (length cc)) + 0)%nat with i by lia; reflexivity).
    + intros [|[|k]] Hk; [destruct (Gy 0%nat ltac:(lia)) as (_ & ->)|destruct (Gy 1%nat ltac:(lia)) as (_ & ->)|lia]; unfold qat; cbn [nth].
      * match goal with |- nth ?p nc 0 == _ => replace p with (i + 1)%nat by lia end. reflexivity.
      * match goal with |- nth ?p nc 0 == _ => replace p with (i + 2)%nat by lia end. reflexivity.
  - destruct (Sl cc loc (loc + 1)%Z) as (d & Edd & Ld & Gd); try lia. destruct (Sl nc loc (loc + 2)%Z) as (y & Ey & Ly & Gy); try lia.
    exists y, d. split; [exact Ey|]. split; [exact Edd|]. split; (split; [cbn [length]; lia|]).
    + intros [|k] Hk; [rewrite Gd by lia|lia]. unfold qat. cbn [nth]. match goal with |- nth ?p cc 0 == _ => replace p with i by lia end. reflexivity.
    + intros [|[|k]] Hk; [rewrite Gy by lia|rewrite Gy by lia|lia]; unfold qat; cbn [nth].
      * match goal with |- nth ?p nc 0 == _ => replace p with (i + 1)%nat by lia end. reflexivity.
      * match goal with |- nth ?p nc 0 == _ => replace p with (i + 2)%nat by lia end. reflexivity.
Qed.
Print Assumptions C46_keep_negative_refuted.

(** Node centred: the node is kept, for indices from either end. *)
Theorem C46_keep_nodes : forall (nc : list Q) i, (i < length nc)%nat ->
  forall loc, loc = Z.of_nat i \/ loc = (Z.of_nat i - Z.of_nat (length nc))%Z ->
  exists y, fst (keep_axis_nc nc loc) = Some y /\ getslice nc (snd (keep_axis_nc nc loc)) = Some y /\ same y [qat nc i].
Proof.
  intros nc i Hi loc Hloc. assert (U : unit_step (snd (keep_axis_nc nc loc))) by (unfold keep_axis_nc; destruct (loc =? -1)%Z; left; reflexivity).
  assert (F : fst (keep_axis_nc nc loc) = getslice nc (snd (keep_axis_nc nc loc))) by (unfold keep_axis_nc; destruct (Z.eqb_spec loc (-1)); subst; reflexivity).
  pose proof (sel_unit (Z.of_nat (length nc)) _ U) as E. destruct (getslice_prog _ _ _ _ _ E) as (y & Ey & Ly & Gy).
  assert (St : slice_start (Z.of_nat (length nc)) (snd (keep_axis_nc nc loc)) = Z.of_nat i /\ slice_stop (Z.of_nat (length nc)) (snd (keep_axis_nc nc loc)) = (Z.of_nat i + 1)%Z).
  { rewrite (start_unit _ _ U), (stop_unit _ _ U). unfold keep_axis_nc, adj. destruct (Z.eqb_spec loc (-1)); cbn [snd p_start p_stop].
    - destruct (Z.ltb_spec (-1) 0); lia.
    - destruct (Z.ltb_spec loc 0), (Z.ltb_spec (loc + 1) 0); lia. }
  destruct St as (S1 & S2). rewrite S1, S2 in *. exists y. split; [rewrite F; exact Ey|]. split; [exact Ey|]. split; [cbn [length]; lia|].
  intros [|k] Hk; [|lia]. destruct (Gy 0%nat ltac:(lia)) as (_ & ->). unfold qat. cbn [nth]. replace (Z.to_nat (Z.of_nat i + Z.of_nat 0 * 1)) with i by lia. reflexivity.
Qed.
Print Assumptions C46_keep_nodes.

(** ** refuted: concrete slices of the unit cells of a grid with nodes 0..6 *)
Definition nodes6 : list Q := [0; 1; 2; 3; 4; 5; 6].
Definition cells6 : list Q := Eval vm_compute in map Qred (cells nodes6).
Definition red (r : option (list Q * list Q)) := option_map (fun p => (map Qred (fst p), map Qred (snd p))) r.
Definition sliced (u : bool) s := red (sliced_axis u nodes6 cells6 s).
(** a start counted from the end gives one node too few: [-2:] *)
Theorem C46_negative_start_refuted :
  getslice cells6 (PS (Some (-2)%Z) None None) = Some [9 # 2; 11 # 2] /\ sliced false (PS (Some (-2)%Z) None None) = Some ([5; 6], [11 # 2]).
Proof. split; vm_compute; reflexivity. Qed.
(** backward with bounds: [5:2:-1] is shifted and [3::-1] one node short *)
Theorem C46_backward_refuted :
  (getslice cells6 (PS (Some 5%Z) (Some 2%Z) (Some (-1)%Z)) = Some [11 # 2; 9 # 2; 7 # 2] /\
   sliced false (PS (Some 5%Z) (Some 2%Z) (Some (-1)%Z)) = Some ([5; 4; 3; 2], [9 # 2; 7 # 2; 5 # 2])) /\
  (getslice cells6 (PS (Some 3%Z) None (Some (-1)%Z)) = Some [7 # 2; 5 # 2; 3 # 2; 1 # 2] /\
   sliced false (PS (Some 3%Z) None (Some (-1)%Z)) = Some ([3; 2; 1; 0], [5 # 2; 3 # 2; 1 # 2])).
Proof. repeat split; vm_compute; reflexivity. Qed.
(** uniform with a step: [0:4:2] *)
Theorem C46_uniform_strided_refuted :
  getslice cells6 (PS (Some 0%Z) (Some 4%Z) (Some 2%Z)) = Some [1 # 2; 5 # 2] /\
  sliced true (PS (Some 0%Z) (Some 4%Z) (Some 2%Z)) = Some ([0; 3 # 2; 3], [3 # 4; 9 # 4]).
Proof. split; vm_compute; reflexivity. Qed.
(** the last node is below the last centre: [0:3:2] *)
Theorem C46_last_node_refuted : sliced false (PS (Some 0%Z) (Some 3%Z) (Some 2%Z)) = Some ([0; 3 # 2; 2], [1 # 2; 5 # 2]).
Proof. vm_compute. reflexivity. Qed.
(** slicing again moves the centres: [::3] then [1:] *)
Theorem C46_slice_again_refuted : exists nc cc, sliced false (PS None None (Some 3%Z)) = Some (nc, cc) /\
  cc = [1 # 2; 7 # 2] /\ red (sliced_axis false nc cc (PS (Some 1%Z) None None)) = Some ([2; 6], [4]).
Proof. eexists. eexists. split; [vm_compute; reflexivity|]. split; vm_compute; reflexivity. Qed.
(** bounds of both kinds with a step raise an IndexError although a cell is selected: [-2:5:2] *)
Theorem C46_mixed_bounds_refuted : getslice cells6 (PS (Some (-2)%Z) (Some 5%Z) (Some 2%Z)) = Some [9 # 2] /\ sliced false (PS (Some (-2)%Z) (Some 5%Z) (Some 2%Z)) = None.
Proof. split; vm_compute; reflexivity. Qed.
(** an empty selection gets one node and one centre: [2:2] *)
Theorem C46_empty_refuted : getslice cells6 (PS (Some 2%Z) (Some 2%Z) None) = Some [] /\ sliced false (PS (Some 2%Z) (Some 2%Z) None) = Some ([2], [2]).
Proof. split; vm_compute; reflexivity. Qed.
Print Assumptions C46_negative_start_refuted.
Print Assumptions C46_backward_refuted.
Print Assumptions C46_uniform_strided_refuted.
Print Assumptions C46_last_node_refuted.
Print Assumptions C46_slice_again_refuted.
Print Assumptions C46_mixed_bounds_refuted.
Print Assumptions C46_empty_refuted.

(** ** non-trivial cases *)
Example C46_ex : selected cells6 (PS (Some 1%Z) (Some (-2)%Z) None) [1; 2; 3]%Z /\ selected cells6 (PS (Some 1%Z) None (Some 2%Z)) [1; 3; 5]%Z.
Proof. split; (split; [reflexivity|discriminate]). Qed.
Example C46_ex_slice : sliced true (PS (Some 1%Z) (Some (-2)%Z) None) = Some ([1; 2; 3; 4], [3 # 2; 5 # 2; 7 # 2]).
Proof. vm_compute. reflexivity. Qed.
