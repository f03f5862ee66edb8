(** C92: fields made from arrays. *)
From Verif Require Import CrdModel FldModel FldProofs LayoutProps MakeModel.
From Coq Require Import List ZArith QArith Qabs Bool Lia Lqa Arith ZifyBool ZifyNat.
Import ListNotations.
Open Scope Z_scope.

(** ** specification *)
(** coordinates as they can be given: one to six axes with at least one node each *)
Definition good (arrs : list (list Q)) : Prop := (1 <= length arrs <= 6)%nat /\ forall x, In x arrs -> x <> [].
(** the shape of data at the nodes, and at the cells between the nodes *)
Definition at_shape (k : centre) (arrs : list (list Q)) : list Z :=
  map (fun x => match k with Node => Z.of_nat (length x) | Cell => Z.of_nat (length x) - 1 end) arrs.
Definition wide (arrs : list (list Q)) : Prop := forall x, In x arrs -> (2 <= length x)%nat.
Definition other (k : centre) : centre := match k with Node => Cell | Cell => Node end.
(** the steps of an axis differ from the first by at most [e] *)
Definition steps_within (e : Q) (x : list Q) : Prop := forall j, (S j < length x)%nat -> (Qabs ((qat x 1 - qat x 0) - (qat x (S j) - qat x j)) <= e)%Q.

(** ** proofs: axes *)
Lemma linspace_length a b n : length (linspace a b n) = n.
Proof. unfold linspace. rewrite map_length, seq_length. reflexivity. Qed.
Lemma linspace_nth a b n i : (i < n)%nat -> qat (linspace a b n) i = if (n =? 1)%nat then a else (a + qn i * ((b - a) / (qn n - 1)))%Q.
Proof. intros H. unfold linspace, qat. set (g := fun i => if (n =? 1)%nat then a else (a + qn i * ((b - a) / (qn n - 1)))%Q). rewrite (nth_indep _ 0%Q (g 0%nat)) by (rewrite map_length, seq_length; exact H). rewrite map_nth, seq_nth by exact H. reflexivity. Qed.
Lemma qn_S n : (qn (S n) == qn n + 1)%Q.
Proof. unfold qn. rewrite Nat2Z.inj_succ, <- Z.add_1_r, inject_Z_plus. reflexivity. Qed.
Lemma qn_pos n : (0 <= qn n)%Q.
Proof. unfold qn. change 0%Q with (inject_Z 0). rewrite <- Zle_Qle. lia. Qed.
Lemma qabs_le a e : (Qabs a <= e <-> - e <= a /\ a <= e)%Q.
Proof. apply Qabs_Qle_condition. Qed.
Lemma drift x e : (0 <= e)%Q -> steps_within e x -> forall i, (i < length x)%nat -> (Qabs (qat x i - qat x 0 - qn i * (qat x 1 - qat x 0)) <= qn i * e)%Q.
Proof.
  intros He H. induction i as [|i IH]; intros L.
  - assert (E : (qat x 0 - qat x 0 - qn 0 * (qat x 1 - qat x 0) == 0)%Q) by (change (qn 0) with 0%Q; ring). rewrite E. change (qn 0) with 0%Q. cbn. lra.
  - specialize (IH ltac:(lia)). specialize (H i L). apply qabs_le in IH. apply qabs_le in H. apply qabs_le. rewrite qn_S.
    set (d := (qat x 1 - qat x 0)%Q) in *. set (q := qn i) in *. assert (X : ((q + 1) * e == q * e + e)%Q) by ring. assert (Y : ((q + 1) * d == q * d + d)%Q) by ring. rewrite X, Y. lra.
Qed.
Lemma lin_near x e i : (0 <= e)%Q -> steps_within e x -> (i < length x)%nat ->
  (Qabs (qat (linspace (qat x 0) (qat x (length x - 1)) (length x)) i - qat x i) <= 2 * qn i * e)%Q.
Proof.
  intros He H L. rewrite linspace_nth by exact L. destruct (Nat.eqb_spec (length x) 1) as [E|E].
  - assert (i = 0%nat) by lia. subst i. assert (X : (qat x 0 - qat x 0 == 0)%Q) by ring. rewrite X. change (qn 0) with 0%Q. cbn. lra.
  - pose proof (drift x e He H i L) as Di. pose proof (drift x e He H (length x - 1) ltac:(lia)) as Dn.
    destruct (length x) as [|[|N]] eqn:Ln; try lia. replace (S (S N) - 1)%nat with (S N) in * by lia.
    pose proof (qn_pos N) as PN. pose proof (qn_pos i) as Pi. pose proof (qn_S N) as EN. pose proof (qn_S (S N)) as EN'.
    set (D := (qat x (S N) - qat x 0)%Q) in *. set (d := (qat x 1 - qat x 0)%Q) in *. set (w := qn (S N)) in *. assert (Pw : (0 < w)%Q) by lra.
    assert (Em : (w * (D / (qn (S (S N)) - 1)) == D)%Q). { rewrite EN'. field. lra. }
    set (m := (D / (qn (S (S N)) - 1))%Q) in *. apply qabs_le in Di. apply qabs_le in Dn. apply qabs_le.
    assert (M1 : (m - d <= e)%Q). { apply Qnot_lt_le. intros X. assert (w * e < w * (m - d))%Q by (apply Qmult_lt_l; assumption). assert (w * (m - d) == D - w * d)%Q by (rewrite <- Em; ring). lra. }
    assert (M2 : (- e <= m - d)%Q). { apply Qnot_lt_le. intros X. assert (w * (m - d) < w * - e)%Q by (apply Qmult_lt_l; assumption). assert (w * (m - d) == D - w * d)%Q by (rewrite <- Em; ring). assert (w * - e == - (w * e))%Q by ring. lra. }
    set (q := qn i) in *. assert (q * (m - d) <= q * e)%Q by (rewrite !(Qmult_comm q); apply Qmult_le_compat_r; assumption). assert (q * - e <= q * (m - d))%Q by (rewrite !(Qmult_comm q); apply Qmult_le_compat_r; assumption).
    assert (q * (m - d) == q * m - q * d)%Q by ring. assert (q * - e == - (q * e))%Q by ring. assert (2 * q * e == q * e + q * e)%Q by ring. lra.
Qed.
Lemma crds_good arrs : good arrs -> arrays2crds arrs = Some (if forallb even arrs then Crds true (map (fun x => linspace (qat x 0) (qat x (length x - 1)) (length x)) arrs) else Crds false arrs).
Proof.
  intros [L N]. unfold arrays2crds. rewrite firstn_all2 by lia. cbv zeta.
  assert (E : (length arrs =? 0)%nat || existsb (fun x => (length x =? 0)%nat) arrs = false).
  { apply orb_false_iff. split; [lia|]. destruct (existsb _ arrs) eqn:X; [|reflexivity]. apply existsb_exists in X as [x [Hx Hl]]. destruct x; [exfalso; apply (N [] Hx); reflexivity|discriminate Hl]. }
  rewrite E. destruct (forallb even arrs); reflexivity.
Qed.
Lemma diff_length x : length (np_diff x) = (length x - 1)%nat.
Proof. unfold np_diff. rewrite map_length, seq_length. reflexivity. Qed.
Lemma diff_nth x j : (S j < length x)%nat -> qat (np_diff x) j = (qat x (S j) - qat x j)%Q.
Proof. intros H. unfold np_diff. unfold qat at 1. rewrite (nth_indep _ 0%Q ((fun i => (qat x (S i) - qat x i)%Q) 0%nat)) by (rewrite map_length, seq_length; lia). rewrite (map_nth (fun i => (qat x (S i) - qat x i)%Q)), seq_nth by lia. reflexivity. Qed.
Lemma even_spec x : even x = true <-> forall j, (S j < length x)%nat -> (Qabs ((qat x 1 - qat x 0) - (qat x (S j) - qat x j)) <= atol + rtol * Qabs (qat x (S j) - qat x j))%Q.
Proof.
  unfold even. destruct (Nat.leb_spec (length x) 1) as [L|L]; cbn [orb]; [split; [intros _ j H; lia|reflexivity]|].
  unfold allclose. rewrite forallb_forall, diff_nth by lia. split.
  - intros H j Hj. rewrite <- (diff_nth x j Hj). apply Qle_bool_iff. apply H. unfold qat. apply nth_In. rewrite diff_length. lia.
  - intros H d Hd. apply Qle_bool_iff. apply (In_nth _ _ 0%Q) in Hd as [j [Hj <-]]. rewrite diff_length in Hj. change (nth j (np_diff x) 0%Q) with (qat (np_diff x) j). rewrite diff_nth by lia. apply H. lia.
Qed.
(** The axes are those given: as they are if one of them has steps that differ by more than rounding, and otherwise with the same ends and number, and each node as near to the given one as the
    steps are to each other; evenly spaced nodes are the given ones. *)
Theorem C92_axes : forall arrs, good arrs -> exists c, arrays2crds arrs = Some c /\ length (axes c) = length arrs /\
  ((exists x j, In x arrs /\ (S j < length x)%nat /\ ((1 # 100000000) + (4 # (2 ^ 52)) * Qabs (qat x (S j) - qat x j) < Qabs ((qat x 1 - qat x 0) - (qat x (S j) - qat x j)))%Q) -> axes c = arrs) /\
  forall k x y, nth_error arrs k = Some x -> nth_error (axes c) k = Some y -> length y = length x /\ (qat y 0 == qat x 0)%Q /\ (qat y (length x - 1) == qat x (length x - 1))%Q /\
    forall e i, (0 <= e)%Q -> steps_within e x -> (i < length x)%nat -> (Qabs (qat y i - qat x i) <= 2 * qn i * e)%Q.
Proof.
  intros arrs G. rewrite crds_good by exact G. eexists. split; [reflexivity|].
  assert (Same : forall x e i, (0 <= e)%Q -> (Qabs (qat x i - qat x i) <= 2 * qn i * e)%Q).
  { intros x e i He. assert (X : (qat x i - qat x i == 0)%Q) by ring. rewrite X. change (Qabs 0) with 0%Q. apply Qmult_le_0_compat; [|exact He]. apply Qmult_le_0_compat; [lra|apply qn_pos]. }
  destruct (forallb even arrs) eqn:E; cbn [axes].
  - split; [apply map_length|]. split.
    + intros [x [j [Hx [Hj Hd]]]]. exfalso. rewrite forallb_forall in E. pose proof (proj1 (even_spec x) (E x Hx) j Hj) as Le. unfold atol, rtol in Le. apply (Qlt_not_le _ _ Hd Le).
    + intros k x y Hx Hy. rewrite nth_error_map, Hx in Hy. cbn in Hy. assert (Ey : linspace (qat x 0) (qat x (length x - 1)) (length x) = y) by congruence. subst y.
      assert (Nx : x <> []) by (destruct G as [_ G]; apply G; eapply nth_error_In; exact Hx). assert (Lx : (0 < length x)%nat) by (destruct x; [congruence|cbn; lia]).
      split; [apply linspace_length|]. split; [|split].
      * rewrite linspace_nth by exact Lx. destruct (length x =? 1)%nat; [reflexivity|]. change (qn 0) with 0%Q. ring.
      * rewrite linspace_nth by lia. destruct (Nat.eqb_spec (length x) 1) as [->|X]; [reflexivity|]. destruct (length x) as [|[|N]]; try lia. replace (S (S N) - 1)%nat with (S N) by lia. pose proof (qn_S (S N)) as E1. pose proof (qn_S N). pose proof (qn_pos N). rewrite E1. field. lra.
      * intros e i He Hs Hi. apply lin_near; assumption.
  - split; [reflexivity|]. split; [reflexivity|]. intros k x y Hx Hy. assert (y = x) by congruence. subst y. split; [reflexivity|]. split; [reflexivity|]. split; [reflexivity|]. intros e i He _ _. apply Same, He.
Qed.
Print Assumptions C92_axes.
(** But an axis whose steps are all below 5e-9, as of lengths in metres of small things, is made uniform however uneven it is. *)
Theorem C92_small_refuted : forall x, x <> [] -> (forall j, (S j < length x)%nat -> (Qabs (qat x (S j) - qat x j) <= 5 # 1000000000)%Q) ->
  exists y, arrays2crds [x] = Some (Crds true [y]) /\ forall i, (i < length x)%nat -> length x <> 1%nat -> qat y i = (qat x 0 + qn i * ((qat x (length x - 1) - qat x 0) / (qn (length x) - 1)))%Q.
Proof.
  intros x Nx H. assert (G : good [x]) by (split; [cbn; lia|intros z [<-|[]]; exact Nx]). rewrite crds_good by exact G.
  assert (E : even x = true).
  { apply even_spec. intros j Hj. pose proof (H j Hj) as Hj'. pose proof (H 0%nat ltac:(lia)) as H0. apply qabs_le in H0. pose proof (Qabs_nonneg (qat x (S j) - qat x j)) as P. apply qabs_le in Hj'.
    assert (R : (0 <= rtol * Qabs (qat x (S j) - qat x j))%Q) by (apply Qmult_le_0_compat; [unfold rtol; discriminate|exact P]).
    apply Qle_trans with atol; [|lra]. apply qabs_le. unfold atol. lra. }
  cbn [forallb]. rewrite E. cbn [andb map]. eexists. split; [reflexivity|]. intros i Hi L1. rewrite linspace_nth by exact Hi. destruct (Nat.eqb_spec (length x) 1); [congruence|reflexivity].
Qed.
Print Assumptions C92_small_refuted.

(** ** fields *)
(** a field of numbers with the values of [dat] *)
Definition is_scalar {V} (m : @made V) (k : centre) (sh : list Z) (dat : nd V) : Prop :=
  at_ m = k /\ sshape (fld_ m) = sh /\ nr_comps (fld_ m) = Some 0 /\ exists d, load (fld_ m) = Some d /\ nd_eq d dat.
(** a field of vectors with [n] components with the values of [dat], components last or first *)
Definition is_vector {V} (m : @made V) (k : centre) (sh : list Z) (l : layout) (n : Z) (dat : nd V) : Prop :=
  at_ m = k /\ sshape (fld_ m) = sh /\ nr_comps (fld_ m) = Some n /\ layout_of (fld_ m) = l /\
  exists d, load (fld_ m) = Some d /\ shape d = lay_shape l sh n /\ forall c js, 0 <= c < n -> in_shape sh js -> comp_at l d c js = comp_at l dat c js.

Lemma sshape_combine {A} (g : list Q -> list Q) (l : list (list Q)) (s : list A) : length s = length l -> map (fun c => Z.of_nat (length (snd c))) (combine s (map g l)) = map (fun x => Z.of_nat (length (g x))) l.
Proof. revert s. induction l as [|x l IH]; intros s H; destruct s as [|a s]; try discriminate H; [reflexivity|]. cbn [map combine snd]. f_equal. apply IH. cbn in H. lia. Qed.
Lemma sshape_wrap {V} (dat : nd V) c vec k : sshape (fld_ (wrap_field dat c vec k)) = shape_of c k.
Proof. unfold wrap_field, sshape, sshape_of, shape_of. cbn [fld_ f_crds]. apply sshape_combine, seq_length. Qed.
Lemma flip_none {A} sh : forall (l : list A) js, flip_idx sh (map (fun _ => false) l) js = js.
Proof. induction sh as [|n sh IH]; intros l js; [destruct js; reflexivity|]. destruct l as [|a l]; [destruct js; reflexivity|]. destruct js as [|j js]; [reflexivity|]. cbn [map flip_idx]. rewrite IH. reflexivity. Qed.
Lemma wrap_crds_len {V} (dat : nd V) c vec k : length (f_crds (fld_ (wrap_field dat c vec k))) = length (axes c).
Proof. unfold wrap_field. cbn [fld_ f_crds]. etransitivity; [apply combine_length|]. rewrite seq_length, map_length. lia. Qed.
Lemma wrap_vec {V} (dat : nd V) c k l n : vector_layout l -> 0 < n -> shape dat = lay_shape l (shape_of c k) n -> (l = LInter -> ~ ambiguous (shape_of c k) n) ->
  is_vector (wrap_field dat c true k) k (shape_of c k) l n dat.
Proof.
  intros Hl Hn Hs Ha. set (m := wrap_field dat c true k). pose proof (sshape_wrap dat c true k : sshape (fld_ m) = shape_of c k) as Es.
  assert (Hh : holds (fld_ m) l n).
  { split; [reflexivity|]. split; [exact Hn|]. split; [unfold m; rewrite wrap_crds_len; cbn; apply map_length|]. change (vector_layout l /\ shape dat = lay_shape l (native_sshape (fld_ m)) n /\ (l = LInter -> ~ ambiguous (sshape (fld_ m)) n)). split; [exact Hl|]. split.
    - change (native_sshape (fld_ m)) with (sshape (fld_ m)). rewrite Es. exact Hs.
    - intros X. rewrite Es. apply Ha, X. }
  assert (El : layout_of (fld_ m) = l) by (change (layout_of (fld_ m)) with (src_layout (fld_ m)); apply (holds_src_layout _ _ _ Hh)).
  split; [reflexivity|]. split; [exact Es|]. split; [apply (holds_nr_comps _ _ _ Hh)|]. split; [exact El|].
  destruct (C37_load _ _ (fld_ m) l n Hh) as [d [Ed [Sd Gd]]]; [rewrite El; exact Hl|left; exact El|]. exists d. rewrite El, Es in *. split; [exact Ed|]. split; [exact Sd|].
  intros x js Hx Hj. specialize (Gd x js Hx Hj). unfold stored, mirrored in Gd. cbn [m wrap_field fld_ f_src f_zyx f_refl] in Gd. rewrite flip_none in Gd. symmetry. exact Gd.
Qed.
Lemma wrap_scalar {V} (dat : nd V) c k : shape dat = shape_of c k -> is_scalar (wrap_field dat c false k) k (shape_of c k) dat.
Proof.
  intros Hs. set (m := wrap_field dat c false k). pose proof (sshape_wrap dat c false k : sshape (fld_ m) = shape_of c k) as Es.
  assert (Ev : f_vec (fld_ m) = false).
  { unfold m, wrap_field. cbn [fld_ f_vec]. rewrite Hs. cbn [orb]. set (s := FldModel.prod (shape_of c k)). destruct (Z.eq_dec s 0) as [->|N]; [reflexivity|]. rewrite Z.div_same by exact N. apply andb_false_r. }
  assert (Nc : nr_comp (fld_ m) = None) by (unfold nr_comp; rewrite Ev; reflexivity). assert (Ns : nr_comps (fld_ m) = Some 0) by (unfold nr_comps; rewrite Ev; reflexivity).
  split; [reflexivity|]. split; [exact Es|]. split; [exact Ns|].
  change (load (fld_ m)) with (dat_to_nd (fld_ m) (SArr dat)). unfold dat_to_nd, fshape. rewrite Nc, Es. unfold nd_reshape. rewrite <- Hs, leqb_refl. unfold reflect_arr. rewrite Nc, Es.
  destruct (reflect_whole dat (shape_of c k) (f_refl (fld_ m))) as (fs & ss & b & d & M1 & M2 & M3 & M4).
  - exact Hs.
  - apply Forall_forall. intros x Hx. unfold shape_of in Hx. apply in_map_iff in Hx as [y [<- _]]. lia.
  - cbn. unfold shape_of. rewrite !map_length. reflexivity.
  - rewrite M1, M2. exists d. split; [exact M3|]. destruct M4 as [S4 G4]. cbn [nd_flip shape get] in S4, G4. split; [exact S4|]. intros js Hj. rewrite G4 by exact Hj. cbn [m wrap_field fld_ f_refl]. rewrite flip_none. reflexivity.
Qed.
Lemma shape_good arrs c k : good arrs -> (k = Cell -> wide arrs) -> arrays2crds arrs = Some c -> shape_of c k = at_shape k arrs.
Proof.
  intros G W H. rewrite crds_good in H by exact G. unfold shape_of, at_shape, places.
  assert (L : forall u x y, length y = length x -> In x arrs -> Z.of_nat (length (match k with Node => y | Cell => if uniform u && (length y =? 1)%nat then [] else cells y end)) = match k with Node => Z.of_nat (length x) | Cell => Z.of_nat (length x) - 1 end).
  { intros u x y E Hx. destruct k; [rewrite E; reflexivity|]. specialize (W eq_refl x Hx). replace (length y =? 1)%nat with false by lia. rewrite andb_false_r. unfold cells. replace (length y =? 1)%nat with false by lia. rewrite map_length, seq_length. lia. }
  destruct (forallb even arrs); assert (Hc : Some c = Some c) by reflexivity; inversion H; subst c; cbn [axes].
  - rewrite map_map. apply map_ext_in. intros x Hx. apply L; [apply linspace_length|exact Hx].
  - apply map_ext_in. intros x Hx. apply L; [reflexivity|exact Hx].
Qed.
Lemma node_cell arrs k : good arrs -> at_shape k arrs <> at_shape (other k) arrs.
Proof. intros [L _] H. destruct arrs as [|x arrs]; [cbn in L; lia|]. destruct k; cbn in H; inversion H; lia. Qed.
Lemma at_len k arrs : length (at_shape k arrs) = length arrs.
Proof. apply map_length. Qed.
(** Data of the shape of the nodes, or of the cells, become a field of numbers there, with the data as they are. *)
Theorem C92_scalar : forall (V : Type) arrs (dat : nd V) k, good arrs -> wide arrs -> shape dat = at_shape k arrs ->
  exists m, arrays2field arrs dat = Some m /\ is_scalar m k (at_shape k arrs) dat.
Proof.
  intros V arrs dat k G W Hs. destruct (C92_axes arrs G) as [c [Ec _]]. pose proof (shape_good arrs c Node G (fun _ => W) Ec) as En. pose proof (shape_good arrs c Cell G (fun _ => W) Ec) as El.
  unfold arrays2field. rewrite Ec. cbv zeta. rewrite En, El, Hs, !at_len, Nat.eqb_refl. destruct k.
  - rewrite leqb_refl. eexists. split; [reflexivity|]. rewrite <- En. apply wrap_scalar. congruence.
  - rewrite (leqb_neq (at_shape Node arrs)) by (apply (node_cell arrs Node G)). rewrite leqb_refl. eexists. split; [reflexivity|]. rewrite <- El. apply wrap_scalar. congruence.
Qed.
Print Assumptions C92_scalar.
Lemma lay_len l s n : length (lay_shape l s n) = S (length s).
Proof. destruct l; cbn; rewrite ?app_length; cbn; lia. Qed.
(** Data with one more axis, first or last, become a field of vectors there with the data as they are, if the shape can be read in one way. *)
Theorem C92_vector : forall (V : Type) arrs (dat : nd V) k l n, good arrs -> wide arrs -> vector_layout l -> 0 < n -> shape dat = lay_shape l (at_shape k arrs) n ->
  (l = LInter -> ~ (forall s, In s (at_shape k arrs) -> s = n)) -> (l = LFlat -> removelast (n :: at_shape k arrs) <> at_shape (other k) arrs) ->
  exists m, arrays2field arrs dat = Some m /\ is_vector m k (at_shape k arrs) l n dat.
Proof.
  intros V arrs dat k l n G W Hl Hn Hs Ha Hf. destruct (C92_axes arrs G) as [c [Ec _]]. pose proof (shape_good arrs c Node G (fun _ => W) Ec) as En. pose proof (shape_good arrs c Cell G (fun _ => W) Ec) as El. assert (Ek : shape_of c k = at_shape k arrs) by (destruct k; assumption).
  assert (R : is_vector (wrap_field dat c true k) k (at_shape k arrs) l n dat).
  { rewrite <- Ek. apply wrap_vec; [exact Hl|exact Hn|congruence|]. intros X Y. apply (Ha X). intros s Hs'. rewrite Ek in Y. unfold ambiguous in Y. rewrite Forall_forall in Y. symmetry. apply Y, Hs'. }
  unfold arrays2field. rewrite Ec. cbv zeta. rewrite En, El, Hs, lay_len, !at_len. replace (S (length arrs) =? length arrs)%nat with false by lia. rewrite Nat.eqb_refl.
  pose proof (node_cell arrs k G) as NC. exists (wrap_field dat c true k). split; [|exact R]. destruct Hl as [-> | ->]; cbn [lay_shape].
  - specialize (Hf eq_refl). set (r := removelast (n :: at_shape k arrs)) in *. cbn [tl]. destruct k; cbn [other] in *.
    + destruct (leqb (at_shape Node arrs) r) eqn:E1; [reflexivity|]. rewrite (leqb_neq (at_shape Cell arrs) r) by congruence. rewrite leqb_refl. reflexivity.
    + rewrite (leqb_neq (at_shape Node arrs) r) by congruence. destruct (leqb (at_shape Cell arrs) r) eqn:E1; [reflexivity|]. rewrite (leqb_neq (at_shape Node arrs)) by congruence. rewrite leqb_refl. reflexivity.
  - rewrite removelast_snoc. destruct k; cbn [other] in *.
    + rewrite leqb_refl. reflexivity.
    + rewrite (leqb_neq (at_shape Node arrs)) by congruence. rewrite leqb_refl. reflexivity.
Qed.
Print Assumptions C92_vector.
(** But data with the components first whose shape without the last axis is that of the other centering are taken for vectors at these other places, with as many components as the last axis has places:
    three components at the nodes of one axis with four nodes are taken for four components at its three cells. *)
Theorem C92_flat_refuted : forall (V : Type) arrs (dat : nd V) k n, good arrs -> wide arrs -> 0 < n -> shape dat = n :: at_shape k arrs -> removelast (n :: at_shape k arrs) = at_shape (other k) arrs ->
  exists m, arrays2field arrs dat = Some m /\ is_vector m (other k) (at_shape (other k) arrs) LInter (last (at_shape k arrs) 0) dat.
Proof.
  intros V arrs dat k n G W Hn Hs Hr. destruct (C92_axes arrs G) as [c [Ec _]]. pose proof (shape_good arrs c Node G (fun _ => W) Ec) as En. pose proof (shape_good arrs c Cell G (fun _ => W) Ec) as El. assert (Ek : shape_of c (other k) = at_shape (other k) arrs) by (destruct k; assumption).
  assert (A : exists ar x, arrs = ar ++ [x]) by (destruct G as [G _]; destruct arrs as [|x ar] using rev_ind; [cbn in G; lia|exists ar, x; reflexivity]). destruct A as [ar [x Ea]].
  assert (Hx : (2 <= length x)%nat) by (apply W; rewrite Ea; apply in_or_app; right; left; reflexivity).
  set (z := last (at_shape k arrs) 0) in *. assert (Ez : z = match k with Node => Z.of_nat (length x) | Cell => Z.of_nat (length x) - 1 end) by (unfold z, at_shape; rewrite Ea, map_app; cbn [map]; rewrite last_snoc; reflexivity).
  assert (Ds : n :: at_shape k arrs = at_shape (other k) arrs ++ [z]).
  { rewrite <- Hr. unfold z. replace (last (at_shape k arrs) 0) with (last (n :: at_shape k arrs) 0); [apply app_removelast_last; discriminate|]. destruct (at_shape k arrs) eqn:X; [apply (f_equal (@length Z)) in X; rewrite at_len in X; rewrite Ea, app_length in X; cbn in X; lia|reflexivity]. }
  assert (NA : ~ ambiguous (at_shape (other k) arrs) z).
  { unfold ambiguous. intros F. rewrite Forall_forall in F. assert (I : In (match other k with Node => Z.of_nat (length x) | Cell => Z.of_nat (length x) - 1 end) (at_shape (other k) arrs)) by (unfold at_shape; rewrite Ea, map_app; apply in_or_app; right; left; reflexivity). specialize (F _ I). rewrite Ez in F. destruct k; cbn [other] in F; lia. }
  exists (wrap_field dat c true (other k)). split.
  - unfold arrays2field. rewrite Ec. cbv zeta. rewrite En, El, Hs. cbn [length]. rewrite !at_len. replace (S (length arrs) =? length arrs)%nat with false by lia. rewrite Nat.eqb_refl, Hr. pose proof (node_cell arrs k G) as NC. destruct k; cbn [other] in *.
    + rewrite (leqb_neq (at_shape Node arrs)) by congruence. rewrite leqb_refl. reflexivity.
    + rewrite leqb_refl. reflexivity.
  - rewrite <- Ek. apply wrap_vec; [right; reflexivity| |rewrite Hs, Ek; exact Ds|intros _; rewrite Ek; exact NA]. rewrite Ez. destruct k; lia.
Qed.
Print Assumptions C92_flat_refuted.
Lemma arange_length n : 0 <= n -> length (arange n) = Z.to_nat n.
Proof. intros _. unfold arange. rewrite map_length, seq_length. reflexivity. Qed.
Lemma arange_nth n i : (i < Z.to_nat n)%nat -> qat (arange n) i = inject_Z (Z.of_nat i).
Proof. intros H. unfold arange, qat. rewrite (nth_indep _ 0%Q ((fun i => inject_Z (Z.of_nat i)) 0%nat)) by (rewrite map_length, seq_length; exact H). rewrite (map_nth (fun i => inject_Z (Z.of_nat i))), seq_nth by exact H. reflexivity. Qed.
Lemma arange_good s : (1 <= length s <= 6)%nat -> (forall n, In n s -> 1 <= n) -> good (map arange s).
Proof. intros L H. split; [rewrite map_length; exact L|]. intros x Hx. apply in_map_iff in Hx as [n [<- Hn]]. intros E. apply (f_equal (@length Q)) in E. specialize (H n Hn). rewrite arange_length in E by lia. cbn in E. lia. Qed.
Lemma arange_wide s : (forall n, In n s -> 2 <= n) -> wide (map arange s).
Proof. intros H x Hx. apply in_map_iff in Hx as [n [<- Hn]]. specialize (H n Hn). rewrite arange_length by lia. lia. Qed.
Lemma arange_shape s k : (forall n, In n s -> 0 <= n) -> at_shape k (map arange s) = map (fun n => match k with Node => n | Cell => n - 1 end) s.
Proof. intros H. unfold at_shape. rewrite map_map. apply map_ext_in. intros n Hn. specialize (H n Hn). rewrite arange_length by exact H. destruct k; lia. Qed.
Lemma arange_node s : (forall n, In n s -> 0 <= n) -> at_shape Node (map arange s) = s.
Proof. intros H. rewrite arange_shape by exact H. apply map_id. Qed.
Lemma arange_steps n : steps_within 0 (arange n).
Proof.
  intros j Hj. unfold arange in Hj at 1. rewrite map_length, seq_length in Hj. rewrite !arange_nth by lia.
  assert (E : (inject_Z (Z.of_nat 1) - inject_Z (Z.of_nat 0) - (inject_Z (Z.of_nat (S j)) - inject_Z (Z.of_nat j)) == 0)%Q). { rewrite (Nat2Z.inj_succ j), <- Z.add_1_r, inject_Z_plus. change (inject_Z (Z.of_nat 1)) with 1%Q. change (inject_Z (Z.of_nat 0)) with 0%Q. change (inject_Z 1) with 1%Q. ring. }
  rewrite E. cbn. lra.
Qed.
(** the nodes of each axis are 0, 1, 2, ... *)
Definition counted {V} (m : @made V) (s : list Z) : Prop :=
  length (axes (on m)) = length s /\ forall k n y, nth_error s k = Some n -> nth_error (axes (on m)) k = Some y -> Z.of_nat (length y) = n /\ forall i, (i < length y)%nat -> (qat y i == inject_Z (Z.of_nat i))%Q.
Lemma arange_counted {V} (m : @made V) s : (1 <= length s <= 6)%nat -> (forall n, In n s -> 1 <= n) -> arrays2crds (map arange s) = Some (on m) -> counted m s.
Proof.
  intros L H E. destruct (C92_axes _ (arange_good s L H)) as [c [Ec [Lc [_ Hc]]]]. assert (c = on m) by congruence. subst c. split; [rewrite Lc; apply map_length|].
  intros k n y Hk Hy. destruct (Hc k (arange n) y) as [Ly [_ [_ Hd]]]; [rewrite nth_error_map, Hk; reflexivity|exact Hy|]. assert (Hn : 1 <= n) by (apply H; eapply nth_error_In; exact Hk). rewrite arange_length in * by lia. split; [lia|].
  intros i Hi. specialize (Hd 0%Q i ltac:(lra) (arange_steps n) ltac:(lia)). rewrite arange_nth in Hd by lia. apply qabs_le in Hd. assert (X : (2 * qn i * 0 == 0)%Q) by ring. rewrite X in Hd. lra.
Qed.
Lemma a2f_on {V} arrs (dat : nd V) m : arrays2field arrs dat = Some m -> arrays2crds arrs = Some (on m).
Proof.
  unfold arrays2field. destruct (arrays2crds arrs) as [c|]; [|discriminate]. cbv zeta. intros H.
  repeat match type of H with context [if ?b then _ else _] => destruct b end; try discriminate H; inversion H; reflexivity.
Qed.
(** dat2field puts the data at nodes that are counted from 0. *)
Theorem C92_dat : forall (V : Type) (dat : nd V) (s : list Z) (lay : option (layout * Z)), (1 <= length s <= 6)%nat -> (forall n, In n s -> 2 <= n) ->
  match lay with
  | None => shape dat = s
  | Some (l, n) => vector_layout l /\ 0 < n /\ shape dat = lay_shape l s n /\ (l = LInter -> ~ (forall x, In x s -> x = n)) /\ (l = LFlat -> removelast (n :: s) <> map (fun x => x - 1) s)
  end ->
  exists m, dat2field dat (option_map fst lay) = Some m /\ counted m s /\ match lay with None => is_scalar m Node s dat | Some (l, n) => is_vector m Node s l n dat end.
Proof.
  intros V dat s lay L H Hl. assert (G : good (map arange s)) by (apply arange_good; [exact L|intros n Hn; specialize (H n Hn); lia]). assert (W : wide (map arange s)) by (apply arange_wide, H).
  assert (P : forall n, In n s -> 0 <= n) by (intros n Hn; specialize (H n Hn); lia). pose proof (arange_node s P) as En.
  assert (X : exists m, dat2field dat (option_map fst lay) = Some m /\ match lay with None => is_scalar m Node s dat | Some (l, n) => is_vector m Node s l n dat end).
  { unfold dat2field. destruct lay as [[l n]|]; cbn [option_map fst].
    - destruct Hl as [Hv [Hn [Hs [Ha Hf]]]]. assert (E : match l with LInter => removelast (shape dat) | _ => tl (shape dat) end = s) by (rewrite Hs; destruct Hv as [-> | ->]; cbn [lay_shape tl]; [reflexivity|apply removelast_snoc]). rewrite E.
      destruct (C92_vector V (map arange s) dat Node l n) as [m [E1 E2]]; try assumption; rewrite ?En; try assumption; [intros Y; specialize (Hf Y); cbn [other]; rewrite (arange_shape s Cell P); exact Hf|]. rewrite En in E2. exists m. split; assumption.
    - rewrite Hl. destruct (C92_scalar V (map arange s) dat Node) as [m [E1 E2]]; try assumption; [rewrite En; exact Hl|]. rewrite En in E2. exists m. split; assumption. }
  destruct X as [m [Em Hm]]. exists m. split; [exact Em|]. split; [|exact Hm]. apply arange_counted; [exact L|intros n Hn; specialize (H n Hn); lia|].
  unfold dat2field in Em. apply a2f_on in Em. rewrite <- Em. f_equal. f_equal. destruct lay as [[l n]|]; cbn [option_map fst].
  - destruct Hl as [Hv [_ [Hs _]]]. rewrite Hs. destruct Hv as [-> | ->]; cbn [lay_shape tl]; [reflexivity|symmetry; apply removelast_snoc].
  - symmetry. exact Hl.
Qed.
Print Assumptions C92_dat.
Lemma repeat_snoc {A} (x : A) n : repeat x n ++ [x] = x :: repeat x n.
Proof. induction n as [|n IH]; [reflexivity|]. cbn [repeat app]. rewrite IH. reflexivity. Qed.
(** But data whose axes are all as long as there are components are taken for data with the components first, also if the caller says that they are last. *)
Theorem C92_layout_refuted : forall (V : Type) (dat : nd V) d n, (1 <= d <= 6)%nat -> 1 <= n -> shape dat = repeat n d ++ [n] ->
  exists m, dat2field dat (Some LInter) = Some m /\ is_vector m Node (repeat n d) LFlat n dat.
Proof.
  intros V dat d n Hd Hn Hs. unfold dat2field. rewrite Hs, removelast_snoc. assert (P : forall x, In x (repeat n d) -> 0 <= x) by (intros x Hx; apply repeat_spec in Hx; lia). pose proof (arange_node (repeat n d) P) as En.
  assert (G : good (map arange (repeat n d))) by (apply arange_good; [rewrite repeat_length; exact Hd|intros x Hx; apply repeat_spec in Hx; lia]). destruct (C92_axes _ G) as [c [Ec _]]. pose proof (shape_good _ c Node G ltac:(discriminate) Ec) as Es. rewrite En in Es.
  exists (wrap_field dat c true Node). split.
  - unfold arrays2field. rewrite Ec. cbv zeta. rewrite Es, Hs, app_length, repeat_length. cbn [length]. replace (d + 1 =? d)%nat with false by lia. replace (d + 1 =? S d)%nat with true by lia. rewrite removelast_snoc, leqb_refl. reflexivity.
  - rewrite <- Es. apply wrap_vec; [left; reflexivity|lia|rewrite Hs, Es; apply repeat_snoc|discriminate].
Qed.
Print Assumptions C92_layout_refuted.
(** Data at the cells of evenly spaced coordinates are refused if one of the axes has a single node (with unevenly spaced ones they are taken, see the example). *)
Theorem C92_one_node_refuted : forall (V : Type) arrs (dat : nd V), good arrs -> (forall x, In x arrs -> steps_within (1 # 100000000) x) -> (exists x, In x arrs /\ length x = 1%nat) -> (exists x, In x arrs /\ (2 <= length x)%nat) ->
  shape dat = map (fun x => Z.max 1 (Z.of_nat (length x) - 1)) arrs -> arrays2field arrs dat = None.
Proof.
  intros V arrs dat G Ev [x [Hx Lx]] [y [Hy Ly]] Hs. unfold arrays2field. pose proof (crds_good arrs G) as Ec.
  assert (E : forallb even arrs = true).
  { apply forallb_forall. intros z Hz. apply even_spec. intros j Hj. eapply Qle_trans; [apply (Ev z Hz j Hj)|]. assert (R : (0 <= rtol * Qabs (qat z (S j) - qat z j))%Q) by (apply Qmult_le_0_compat; [unfold rtol; discriminate|apply Qabs_nonneg]). unfold atol. lra. }
  rewrite E in Ec. rewrite Ec. cbv zeta. unfold shape_of, places. cbn [axes uniform andb]. rewrite !map_map, Hs, !map_length, Nat.eqb_refl.
  assert (D : forall (g h : list Q -> Z) z, In z arrs -> g z <> h z -> map g arrs <> map h arrs).
  { intros g h z Hz N M. apply N. clear - Hz M. induction arrs as [|a l IH]; [destruct Hz|]. cbn [map] in M. inversion M. destruct Hz as [->|Hz]; [assumption|apply IH; assumption]. }
  rewrite leqb_neq by (apply (D _ _ y Hy); rewrite linspace_length; lia). rewrite leqb_neq; [reflexivity|]. apply (D _ _ x Hx). rewrite linspace_length, Lx. discriminate.
Qed.
Print Assumptions C92_one_node_refuted.
(** full, zeros and ones make fields of the shape of the nodes or cells and the number of components asked for, with the value everywhere. *)
Theorem C92_full : forall (V : Type) arrs (v : V) k comps, good arrs -> wide arrs -> match comps with None => True | Some (l, n) => vector_layout l /\ 0 < n end ->
  exists m d, full arrs v k comps = Some m /\ at_ m = k /\ arrays2crds arrs = Some (on m) /\ sshape (fld_ m) = at_shape k arrs /\
    nr_comps (fld_ m) = Some (match comps with None => 0 | Some (_, n) => n end) /\ load (fld_ m) = Some d /\ (forall js, in_shape (shape d) js -> get d js = v) /\
    match comps with
    | None => shape d = at_shape k arrs
    | Some (l, n) => shape d = lay_shape l (at_shape k arrs) n /\ (~ (l = LInter /\ forall s, In s (at_shape k arrs) -> s = n) -> layout_of (fld_ m) = l)
    end.
Proof.
  intros V arrs v k comps G W Hc. destruct (C92_axes arrs G) as [c [Ec _]]. pose proof (shape_good arrs c k G (fun _ => W) Ec) as Ek. unfold full. rewrite Ec, Ek.
  destruct comps as [[l n]|].
  - destruct Hc as [Hl Hn]. set (dat := ND match l with LInter => at_shape k arrs ++ [n] | _ => n :: at_shape k arrs end (fun _ : list Z => v)). set (m := wrap_field dat c true k).
    assert (Sd : shape dat = lay_shape l (at_shape k arrs) n) by (destruct Hl as [-> | ->]; reflexivity).
    assert (Main : forall l', vector_layout l' -> shape dat = lay_shape l' (at_shape k arrs) n -> (l' = LInter -> ~ ambiguous (at_shape k arrs) n) ->
      exists d, sshape (fld_ m) = at_shape k arrs /\ nr_comps (fld_ m) = Some n /\ load (fld_ m) = Some d /\ (forall js, in_shape (shape d) js -> get d js = v) /\ shape d = lay_shape l' (at_shape k arrs) n /\ layout_of (fld_ m) = l').
    { intros l' Hl' Sd' Ha. destruct (wrap_vec dat c k l' n Hl' Hn) as [_ [Es [Nc [La [d [Ed [Shd Gd]]]]]]]; [rewrite Ek; exact Sd'|rewrite Ek; exact Ha|]. fold m in Es, Nc, La, Ed. rewrite Ek in *. exists d. repeat split; try assumption.
      intros js Hj. rewrite Shd in Hj. destruct Hl' as [-> | ->]; cbn [lay_shape] in Hj.
      - inversion Hj as [|L j sh' js' Hj0 Hj' E1 E2]; subst. specialize (Gd j js' Hj0 Hj'). exact Gd.
      - apply in_shape_snoc_inv in Hj as [r [j [-> [Hr Hj]]]]. specialize (Gd j r Hj Hr). exact Gd. }
    destruct Hl as [-> | ->].
    + destruct (Main LFlat (or_introl eq_refl) Sd ltac:(discriminate)) as [d [H1 [H2 [H3 [H4 [H5 H6]]]]]]. exists m, d. repeat split; try assumption. intros _. exact H6.
    + destruct (Forall_dec (eq n) (fun x => Z.eq_dec n x) (at_shape k arrs)) as [A|A].
      * assert (Sd' : shape dat = lay_shape LFlat (at_shape k arrs) n). { rewrite Sd. cbn [lay_shape]. clear - A. induction A as [|x l E A IH]; [reflexivity|]. subst x. cbn [app]. rewrite IH. reflexivity. }
        destruct (Main LFlat (or_introl eq_refl) Sd' ltac:(discriminate)) as [d [H1 [H2 [H3 [H4 [H5 H6]]]]]]. exists m, d. split; [reflexivity|]. split; [reflexivity|]. split; [reflexivity|]. split; [exact H1|]. split; [exact H2|]. split; [exact H3|]. split; [exact H4|]. split; [congruence|]. intros N. exfalso. apply N. split; [reflexivity|]. intros s Hs. rewrite Forall_forall in A. symmetry. apply A, Hs.
      * destruct (Main LInter (or_intror eq_refl) Sd (fun _ => A)) as [d [H1 [H2 [H3 [H4 [H5 H6]]]]]]. exists m, d. repeat split; try assumption. intros _. exact H6.
  - set (dat := ND (at_shape k arrs) (fun _ : list Z => v)). destruct (wrap_scalar dat c k) as [_ [Es [Nc [d [Ed [Sd Gd]]]]]]; [rewrite Ek; reflexivity|]. exists (wrap_field dat c false k), d. split; [reflexivity|]. split; [reflexivity|]. split; [reflexivity|]. split; [rewrite Es; exact Ek|]. split; [exact Nc|]. split; [exact Ed|]. split; [|exact Sd].
    intros js Hj. rewrite (Gd js Hj). reflexivity.
Qed.
Print Assumptions C92_full.
(** Integers for the axes count nodes: fields at cells (the default) have one place fewer per axis than asked for, and so none at all along an axis asked to have one. *)
Theorem C92_ints_refuted : forall (V : Type) ns (v : V), (1 <= length ns <= 6)%nat -> (forall n, In n ns -> 1 <= n) ->
  exists m, full_ints ns v Cell None = Some m /\ sshape (fld_ m) = map (fun n => n - 1) ns.
Proof.
  intros V ns v L H. pose proof (arange_good ns L H) as G. unfold full_ints, full. rewrite crds_good by exact G.
  assert (E : forallb even (map arange ns) = true).
  { apply forallb_forall. intros z Hz. apply in_map_iff in Hz as [n [<- _]]. apply even_spec. intros j Hj. eapply Qle_trans; [apply (arange_steps n j Hj)|]. assert (R : (0 <= rtol * Qabs (qat (arange n) (S j) - qat (arange n) j))%Q) by (apply Qmult_le_0_compat; [unfold rtol; discriminate|apply Qabs_nonneg]). unfold atol. lra. }
  rewrite E. eexists. split; [reflexivity|]. rewrite sshape_wrap. unfold shape_of, places. cbn [axes uniform andb]. rewrite !map_map. apply map_ext_in. intros n Hn. specialize (H n Hn). rewrite !linspace_length, arange_length by lia.
  destruct (Nat.eqb_spec (Z.to_nat n) 1) as [X|X]; [cbn; lia|]. unfold cells. rewrite linspace_length. destruct (Nat.eqb_spec (Z.to_nat n) 1); [congruence|]. rewrite map_length, seq_length. lia.
Qed.
Print Assumptions C92_ints_refuted.

(** Non-vacuity *)
Definition ex_axes : list (list Q) := [[0; 1; 3]; [0; 1; 2; 3]]%Q.
Definition ex_small : list Q := [0; 1 # 1000000000; 3 # 1000000000]%Q.
Example C92_case_good : good ex_axes /\ wide ex_axes /\ at_shape Node ex_axes = [3; 4] /\ at_shape Cell ex_axes = [2; 3].
Proof. repeat split; cbn; try lia; intros x [<-|[<-|[]]]; cbn; try lia; discriminate. Qed.
(** two components at three by four nodes, components first, become four components at two by three cells *)
Example C92_case_flat : removelast (2 :: at_shape Node ex_axes) = at_shape (other Node) ex_axes /\ removelast (3 :: at_shape Node ex_axes) <> at_shape (other Node) ex_axes.
Proof. split; [reflexivity|discriminate]. Qed.
Example C92_case_uneven : option_map (fun c => (uniform c, axes c)) (arrays2crds ex_axes) = Some (false, ex_axes) /\ option_map uniform (arrays2crds [ex_small]) = Some true.
Proof. split; vm_compute; reflexivity. Qed.
Example C92_case_one_node : option_map at_ (arrays2field [[0; 1; 3]; [0]]%Q (ND [2; 1] (fun _ => 7))) = Some Cell /\ option_map at_ (arrays2field [[0; 1; 2]; [0]]%Q (ND [2; 1] (fun _ => 7))) = None.
Proof. split; vm_compute; reflexivity. Qed.
