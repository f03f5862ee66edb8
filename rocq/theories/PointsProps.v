(** C34: point lists and data arrays enumerate the grid in the same order. *)
From Verif Require Import PointsModel.
From Coq Require Import ZifyNat.

(** ** specification *)
(** number of elements of an array of the given shape *)
Fixpoint volume (sh : list nat) : nat := match sh with [] => 1 | s :: r => s * volume r end.
(** place of element [js] in the raveled array (last index fastest) *)
Fixpoint ravel (sh js : list nat) : nat :=
  match sh, js with
  | _ :: sh', j :: js' => j * volume sh' + ravel sh' js'
  | _, _ => 0
  end.
Definition in_bounds (sh js : list nat) : Prop := Forall2 (fun s j => j < s) sh js.
Definition shape_of {A} (crds : list (list A)) : list nat := map (@length A) crds.
(** [p] is the position of element [js] of the grid *)
Definition position {A} (crds : list (list A)) (js : list nat) (p : list A) : Prop :=
  length p = length crds /\
  forall i c j, nth_error crds i = Some c -> nth_error js i = Some j -> nth_error p i = nth_error c j.

(** ** the ravel order *)
Lemma volume_prod sh : volume sh = np_prod sh.
Proof. unfold np_prod. induction sh as [|s sh IH]; cbn [volume fold_right]; congruence. Qed.
Lemma ravel_lt sh js : in_bounds sh js -> ravel sh js < volume sh.
Proof. intros H. unfold in_bounds in H. induction H as [|s j sh js Hj _ IH]; cbn [ravel volume]; [lia|]. nia. Qed.
Lemma ravel_onto sh : forall n, n < volume sh -> exists js, in_bounds sh js /\ ravel sh js = n.
Proof.
  induction sh as [|s sh IH]; intros n Hn; cbn [volume] in Hn.
  - exists []. split; [constructor|cbn; lia].
  - assert (Hv : volume sh <> 0) by nia. destruct (IH (n mod volume sh)) as (js & Hb & E); [apply Nat.mod_upper_bound; exact Hv|].
    exists (n / volume sh :: js). split.
    + constructor; [|exact Hb]. apply Nat.div_lt_upper_bound; [exact Hv|]. lia.
    + cbn [ravel]. rewrite E, Nat.mul_comm. symmetry. apply Nat.div_mod. exact Hv.
Qed.
Lemma ravel_inj sh : forall js ks, in_bounds sh js -> in_bounds sh ks -> ravel sh js = ravel sh ks -> js = ks.
Proof.
  induction sh as [|s sh IH]; intros js ks Hj Hk E; inversion Hj; inversion Hk; subst; [reflexivity|].
  cbn [ravel] in E. match goal with A : Forall2 _ sh ?a, B : Forall2 _ sh ?b |- _ => pose proof (ravel_lt _ _ A); pose proof (ravel_lt _ _ B) end.
  match goal with |- ?a :: ?x = ?b :: ?y => assert (Eh : a = b) by nia; subst b; f_equal; apply IH; auto; nia end.
Qed.

(** ** lists *)
Section L.
Context {A : Type}.
Implicit Types (l c : list A).

Lemma repeat_snoc (x : list A) n : concat (repeat x (S n)) = concat (repeat x n) ++ x.
Proof. induction n as [|n IH]; cbn; [rewrite app_nil_r; reflexivity|]. cbn in IH. rewrite <- app_assoc, <- IH. reflexivity. Qed.
Lemma length_tile c n : length (tile c n) = n * length c.
Proof. unfold tile. induction n as [|n IH]; cbn; [reflexivity|]. rewrite app_length, IH. reflexivity. Qed.
Lemma nth_tile c n : forall k j, k < n -> j < length c -> nth_error (tile c n) (k * length c + j) = nth_error c j.
Proof.
  unfold tile. induction n as [|n IH]; intros k j Hk Hj; [lia|]. cbn [repeat concat]. destruct k as [|k].
  - rewrite nth_error_app1 by lia. reflexivity.
  - rewrite nth_error_app2 by nia. replace (S k * length c + j - length c) with (k * length c + j) by nia. apply IH; lia.
Qed.
Lemma length_np_repeat l m : length (np_repeat l m) = length l * m.
Proof. unfold np_repeat. induction l as [|x l IH]; cbn; [reflexivity|]. rewrite app_length, repeat_length, IH. reflexivity. Qed.
Lemma nth_repeat_some (x : A) m j : j < m -> nth_error (repeat x m) j = Some x.
Proof. revert j. induction m as [|m IH]; intros [|j] H; cbn; try lia; [reflexivity|]. apply IH. lia. Qed.
Lemma nth_np_repeat m : forall l k j, k < length l -> j < m -> nth_error (np_repeat l m) (k * m + j) = nth_error l k.
Proof.
  unfold np_repeat. induction l as [|x l IH]; intros k j Hk Hj; cbn in Hk; [lia|]. cbn [flat_map]. destruct k as [|k].
  - rewrite nth_error_app1 by (rewrite repeat_length; lia). cbn [nth_error Nat.mul Nat.add]. apply nth_repeat_some. exact Hj.
  - rewrite nth_error_app2 by (rewrite repeat_length; nia). rewrite repeat_length. replace (S k * m + j - m) with (k * m + j) by nia. apply IH; lia.
Qed.
End L.

Lemma volume_app a b : volume (a ++ b) = volume a * volume b.
Proof. induction a as [|x a IH]; cbn [app volume]; [lia|]. rewrite IH. ring. Qed.
Lemma ravel_app a b js ks : in_bounds a js -> ravel (a ++ b) (js ++ ks) = ravel a js * volume b + ravel b ks.
Proof.
  intros H. unfold in_bounds in H. induction H as [|s j a js Hj _ IH]; cbn [app ravel]; [lia|]. rewrite IH, volume_app. ring.
Qed.
Lemma split_at {X} (l : list X) i x : nth_error l i = Some x -> l = firstn i l ++ x :: skipn (S i) l.
Proof.
  revert l. induction i as [|i IH]; intros [|y l] H; cbn in H; try discriminate.
  - injection H as ->. reflexivity.
  - cbn [firstn skipn app]. f_equal. apply IH. exact H.
Qed.
Lemma Forall2_firstn {X Y} (R : X -> Y -> Prop) k a b : Forall2 R a b -> Forall2 R (firstn k a) (firstn k b).
Proof. intros H. revert k. induction H as [|x y a b Hxy H IH]; intros [|k]; cbn; constructor; auto. Qed.
Lemma Forall2_skipn {X Y} (R : X -> Y -> Prop) k a b : Forall2 R a b -> Forall2 R (skipn k a) (skipn k b).
Proof. intros H. revert k. induction H as [|x y a b Hxy H IH]; intros [|k]; cbn; auto. Qed.
Lemma Forall2_at {X Y} (R : X -> Y -> Prop) a b i x y : Forall2 R a b -> nth_error a i = Some x -> nth_error b i = Some y -> R x y.
Proof.
  intros H. revert i. induction H as [|x' y' a b Hxy H IH]; intros [|i] Ha Hb; cbn in *; try discriminate.
  - injection Ha as ->. injection Hb as ->. exact Hxy.
  - eauto.
Qed.

Lemma Some_inj {X} (x y : X) : Some x = Some y -> x = y.
Proof. congruence. Qed.

Section P.
Context {A : Type}.
Implicit Types (crds : list (list A)).

Lemma row_at crds i : i < length crds -> nth_error (get_points crds) i =
  Some (np_repeat (tile (nth i crds []) (np_prod (firstn i (shape_of crds)))) (np_prod (skipn (S i) (shape_of crds)))).
Proof.
  intros Hi. unfold get_points. rewrite nth_error_map. replace (nth_error (seq 0 (length crds)) i) with (Some i); [reflexivity|].
  symmetry. rewrite (nth_error_nth' _ 0) by (rewrite seq_length; exact Hi). rewrite seq_nth by exact Hi. reflexivity.
Qed.

(** Row [i] of the points holds, at the place of element [js] in the raveled data, the
    coordinate number [js i] of axis [i]. *)
Theorem C34_get_points : forall crds js,
  in_bounds (shape_of crds) js ->
  length (get_points crds) = length crds /\
  forall i row c j, nth_error (get_points crds) i = Some row -> nth_error crds i = Some c -> nth_error js i = Some j ->
    length row = volume (shape_of crds) /\ nth_error row (ravel (shape_of crds) js) = nth_error c j.
Proof.
  intros crds js Hb. split; [unfold get_points; rewrite map_length, seq_length; reflexivity|].
  intros i row c j Hrow Hc Hj.
  assert (Hi : i < length crds) by (apply nth_error_Some; congruence).
  rewrite row_at in Hrow by exact Hi. apply Some_inj in Hrow. subst row.
  assert (Hs : nth_error (shape_of crds) i = Some (length c)) by (unfold shape_of; rewrite nth_error_map, Hc; reflexivity).
  rewrite (nth_error_nth _ _ [] Hc).
  pose proof (split_at _ _ _ Hs) as Es. pose proof (split_at _ _ _ Hj) as Ej.
  set (sh := shape_of crds) in *. set (a := firstn i sh) in *. set (b := skipn (S i) sh) in *.
  set (ja := firstn i js) in *. set (jb := skipn (S i) js) in *.
  pose proof (Forall2_firstn _ i _ _ Hb : in_bounds a ja) as Ba. pose proof (Forall2_skipn _ (S i) _ _ Hb : in_bounds b jb) as Bb.
  pose proof (Forall2_at _ _ _ _ _ _ Hb Hs Hj) as Hlt. cbv beta in Hlt.
  rewrite <- !volume_prod. split.
  - rewrite length_np_repeat, length_tile. transitivity (volume (a ++ length c :: b)); [|f_equal; symmetry; exact Es].
    rewrite volume_app. cbn [volume]. change (skipn (S i) sh) with b. rewrite <- (volume_prod b). ring.
  - replace (ravel sh js) with (ravel (a ++ length c :: b) (ja ++ j :: jb)) by (f_equal; symmetry; assumption).
    rewrite ravel_app by exact Ba. cbn [ravel volume]. change (skipn (S i) sh) with b. rewrite <- ?volume_prod.
    pose proof (ravel_lt _ _ Ba). pose proof (ravel_lt _ _ Bb).
    replace (ravel a ja * (length c * volume b) + (j * volume b + ravel b jb)) with ((ravel a ja * length c + j) * volume b + ravel b jb) by ring.
    rewrite nth_np_repeat; [|rewrite length_tile; nia|assumption]. apply nth_tile; assumption.
Qed.

Lemma length_product crds : length (iter_points crds) = volume (shape_of crds).
Proof.
  induction crds as [|c r IH]; [reflexivity|]. cbn [iter_points shape_of map volume]. fold (shape_of r). rewrite <- IH.
  induction c as [|x c IHc]; cbn [flat_map length]; [reflexivity|]. rewrite app_length, map_length, IHc. reflexivity.
Qed.
Lemma nth_flat_map_const {X Y} (f : X -> list Y) m : forall l k j x, (forall y, length (f y) = m) -> nth_error l k = Some x -> j < m ->
  nth_error (flat_map f l) (k * m + j) = nth_error (f x) j.
Proof.
  induction l as [|y l IH]; intros k j x Hf Hk Hj; [destruct k; discriminate|]. cbn [flat_map]. destruct k as [|k].
  - injection Hk as ->. cbn [Nat.mul Nat.add]. rewrite nth_error_app1 by (rewrite Hf; exact Hj). reflexivity.
  - cbn in Hk. rewrite nth_error_app2 by (rewrite Hf; nia). rewrite Hf. replace (S k * m + j - m) with (k * m + j) by nia. apply IH; auto.
Qed.

(** The iterator yields at that place the position of the element. *)
Theorem C34_iter_points : forall crds js,
  in_bounds (shape_of crds) js ->
  length (iter_points crds) = volume (shape_of crds) /\ get_nr_points crds = volume (shape_of crds) /\
  exists p, nth_error (iter_points crds) (ravel (shape_of crds) js) = Some p /\ position crds js p.
Proof.
  intros crds js Hb. split; [apply length_product|]. split; [symmetry; apply volume_prod|].
  revert js Hb. induction crds as [|c r IH]; intros js Hb; inversion Hb as [|s j sh js' Hj Hb']; subst.
  - exists []. split; [reflexivity|]. split; [reflexivity|]. intros [|i] c j H; discriminate.
  - destruct (IH js' Hb') as (p & Hp & Hlen & Hpos).
    destruct (nth_error c j) as [x|] eqn:Ex; [|apply nth_error_None in Ex; lia].
    exists (x :: p). split.
    + cbn [iter_points shape_of map ravel]. fold (shape_of r). rewrite (nth_flat_map_const _ (volume (shape_of r)) _ _ _ x).
      * rewrite nth_error_map, Hp. reflexivity.
      * intros y. rewrite map_length. apply length_product.
      * exact Ex.
      * apply ravel_lt. exact Hb'.
    + split; [cbn; congruence|]. intros [|i] c' j' Hc Hj'; cbn in *.
      * injection Hc as <-. injection Hj' as <-. symmetry. exact Ex.
      * apply Hpos; assumption.
Qed.

(** The array and the iterator give the same points in the same order. *)
Theorem C34_array_and_iterator_agree : forall crds n i row c p,
  nth_error (get_points crds) i = Some row -> nth_error crds i = Some c -> nth_error (iter_points crds) n = Some p ->
  nth_error row n = nth_error p i.
Proof.
  intros crds n i row c p Hr Hc Hp.
  assert (Hn : n < volume (shape_of crds)) by (rewrite <- length_product; apply nth_error_Some; congruence).
  destruct (ravel_onto _ _ Hn) as (js & Hb & <-).
  destruct (C34_iter_points crds js Hb) as (_ & _ & p' & Hp' & _ & Hpos). rewrite Hp in Hp'. injection Hp' as <-.
  destruct (C34_get_points crds js Hb) as [_ Hg].
  assert (Hi : i < length crds) by (apply nth_error_Some; congruence).
  assert (Hl : length (shape_of crds) = length js) by (clear - Hb; unfold in_bounds in Hb; induction Hb; cbn; congruence).
  destruct (nth_error js i) as [j|] eqn:Ej; [|apply nth_error_None in Ej; unfold shape_of in Hl; rewrite map_length in Hl; lia].
  destruct (Hg i row c j Hr Hc Ej) as [_ ->]. symmetry. eapply Hpos; eassumption.
Qed.

(** Distinct elements are at distinct places and every place is one element's: the
    list is an enumeration of the grid. *)
Theorem C34_enumeration : forall crds,
  (forall n, n < get_nr_points crds -> exists js, in_bounds (shape_of crds) js /\ ravel (shape_of crds) js = n) /\
  (forall js ks, in_bounds (shape_of crds) js -> in_bounds (shape_of crds) ks -> ravel (shape_of crds) js = ravel (shape_of crds) ks -> js = ks).
Proof.
  intros crds. split; [|apply ravel_inj]. intros n Hn. apply ravel_onto. unfold get_nr_points in Hn. rewrite <- volume_prod in Hn. exact Hn.
Qed.

(** ** meshes *)
Lemma skip_skip {X} a : forall b (l : list X), skipn a (skipn b l) = skipn (b + a) l.
Proof. induction b as [|b IH]; intros [|x l]; cbn; try reflexivity; [destruct a; reflexivity|]. apply IH. Qed.
Lemma nth_rows nv : forall nu (l : list A) u, length l = nu * nv -> u < nu ->
  nth_error (rows nu nv l) u = Some (firstn nv (skipn (u * nv) l)).
Proof.
  induction nu as [|nu IH]; intros l u Hl Hu; [lia|]. destruct u as [|u]; [reflexivity|]. cbn [rows nth_error Nat.mul].
  rewrite IH; [|rewrite skipn_length; lia|lia]. rewrite skip_skip. do 3 f_equal.
Qed.
Lemma nth_firstn_lt {X} (l : list X) n k : k < n -> nth_error (firstn n l) k = nth_error l k.
Proof. revert l k. induction n as [|n IH]; intros [|x l] [|k] H; cbn; try lia; try reflexivity. apply IH. lia. Qed.
Lemma nth_skipn {X} (l : list X) n k : nth_error (skipn n l) k = nth_error l (n + k).
Proof. revert l. induction n as [|n IH]; intros [|x l]; cbn; try reflexivity; [destruct k; reflexivity|]. apply IH. Qed.
Lemma all_some_nth {X} (l : list (option X)) : forall r i, all_some l = Some r -> length r = length l /\
  (i < length l -> exists x, nth_error r i = Some x /\ nth_error l i = Some (Some x)).
Proof.
  induction l as [|[x|] l IH]; intros r i H; cbn in H; try discriminate.
  - injection H as <-. split; [reflexivity|cbn; lia].
  - destruct (all_some l) as [r'|] eqn:E; [|discriminate]. injection H as <-. destruct (IH r' (i - 1) eq_refl) as [Hl Hn].
    split; [cbn; congruence|]. intros Hi. destruct i as [|i]; [exists x; split; reflexivity|]. cbn in Hi |- *. rewrite Nat.sub_succ, Nat.sub_0_r in Hn. apply Hn. lia.
Qed.

Lemma volume_remove l : forall l', remove_one l = Some l' -> volume l' = volume l.
Proof.
  induction l as [|x l IH]; intros l' H; cbn in H; [discriminate|]. destruct (Nat.eqb_spec x 1) as [->|Hx].
  - injection H as <-. cbn. lia.
  - destruct (remove_one l) as [r|]; [|discriminate]. injection H as <-. cbn [volume]. rewrite (IH r eq_refl). reflexivity.
Qed.
Lemma volume_shrink fuel : forall l l', shrink fuel l = Some l' -> volume l' = volume l.
Proof.
  induction fuel as [|k IH]; intros l l' H; cbn [shrink] in H; (destruct (length l <=? 2); [injection H as <-; reflexivity|]); [discriminate|].
  destruct (remove_one l) as [r|] eqn:E; [|discriminate]. rewrite (IH _ _ H). apply volume_remove. exact E.
Qed.

(** Vertex (u, v) of the mesh is point number u * nv + v. *)
Theorem C34_mesh : forall crds nu nv,
  length crds = 3 -> shrink (length crds) (shape_of crds) = Some [nu; nv] ->
  exists mesh, as_mesh crds = Some mesh /\ nu * nv = volume (shape_of crds) /\
    forall i u v row, nth_error (get_points crds) i = Some row -> u < nu -> v < nv ->
      exists comp line, nth_error mesh i = Some comp /\ nth_error comp u = Some line /\ nth_error line v = nth_error row (u * nv + v).
Proof.
  intros crds nu nv H3 Hs.
  assert (Hv : nu * nv = volume (shape_of crds)).
  { pose proof (volume_shrink _ _ _ Hs) as K. cbn [volume] in K. lia. }
  assert (Hr : forall i row, nth_error (get_points crds) i = Some row -> length row = nu * nv).
  { intros i row Hrow. assert (Hi : i < length crds).
    { assert (K : nth_error (get_points crds) i <> None) by congruence. apply nth_error_Some in K.
      unfold get_points in K. rewrite map_length, seq_length in K. exact K. }
    rewrite row_at in Hrow by exact Hi. apply Some_inj in Hrow. subst row. rewrite length_np_repeat, length_tile, Hv.
    destruct (nth_error crds i) as [c|] eqn:Ec; [|apply nth_error_None in Ec; lia]. rewrite (nth_error_nth _ _ [] Ec).
    assert (Es : nth_error (shape_of crds) i = Some (length c)) by (unfold shape_of; rewrite nth_error_map, Ec; reflexivity).
    transitivity (volume (firstn i (shape_of crds) ++ length c :: skipn (S i) (shape_of crds))).
    - rewrite volume_app. cbn [volume]. rewrite (volume_prod (firstn i (shape_of crds))), (volume_prod (skipn (S i) (shape_of crds))). ring.
    - f_equal. symmetry. apply split_at. exact Es. }
  unfold as_mesh. fold (shape_of crds). rewrite Hs, H3, Nat.eqb_refl.
  assert (E : exists mesh, all_some (map (reshape2 nu nv) (get_points crds)) = Some mesh).
  { assert (K : forall row, In row (get_points crds) -> length row = nu * nv) by (intros row Hin; apply In_nth_error in Hin as [i Hi]; eauto).
    clear - K. induction (get_points crds) as [|r l IH]; [eexists; reflexivity|]. destruct IH as [m Em]; [intros; apply K; right; assumption|].
    cbn [map all_some]. unfold reshape2 at 1. rewrite (K r (or_introl eq_refl)), Nat.eqb_refl, Em. eexists; reflexivity. }
  destruct E as [mesh E]. exists mesh. split; [exact E|]. split; [exact Hv|]. intros i u v row Hrow Hu Hvv.
  destruct (all_some_nth _ _ i E) as [_ K]. rewrite map_length in K.
  destruct K as (comp & Hc & Hm); [apply nth_error_Some; congruence|].
  rewrite nth_error_map, Hrow in Hm. cbn in Hm. injection Hm as Hm. unfold reshape2 in Hm.
  pose proof (Hr i row Hrow) as Hl. rewrite Hl, Nat.eqb_refl in Hm. injection Hm as <-.
  eexists. eexists. split; [exact Hc|]. split; [apply nth_rows; assumption|]. rewrite nth_firstn_lt by exact Hvv. apply nth_skipn.
Qed.

(** Refuted: for a grid with only two axes there is no mesh although two dimensions are
    meaningful (the target shape always starts with 3). *)
Theorem C34_mesh_of_two_axes_refuted : forall c d : list A, as_mesh [c; d] = None.
Proof. intros c d. reflexivity. Qed.

(** ** seeds given as a list of points *)
(** A 3 x N array is used as it is; the N points of an N x 3 array keep their order, if N
    is not 3. *)
Theorem C34_point_seeds : forall (pts : list (list A)) rows_,
  length pts <> 3 -> Forall (fun p => length p = 3) pts -> point_points pts 3 = Some rows_ ->
  length rows_ = 3 /\ forall n p i row, nth_error pts n = Some p -> nth_error rows_ i = Some row -> nth_error row n = nth_error p i.
Proof.
  intros pts rows_ Hn Hp H. unfold point_points in H. destruct (Nat.eqb_spec (length pts) 3) as [E|_]; [congruence|]. rewrite Nat.eqb_refl in H. apply Some_inj in H. subst rows_.
  split; [reflexivity|]. intros n p i row Hpt Hrow. 
  assert (Hi : i < length (transpose pts 3)) by (apply nth_error_Some; congruence).
  unfold transpose in Hi. rewrite map_length, seq_length in Hi.
  unfold transpose in Hrow. rewrite nth_error_map in Hrow. rewrite (nth_error_nth' _ 0) in Hrow by (rewrite seq_length; exact Hi).
  rewrite seq_nth in Hrow by exact Hi. injection Hrow as <-. cbn [Nat.add].
  clear Hn. revert n Hpt. induction Hp as [|q l Hq _ IH]; intros n Hpt; [destruct n; discriminate|]. cbn [flat_map].
  destruct (nth_error q i) as [x|] eqn:Ex; [|apply nth_error_None in Ex; lia]. destruct n as [|n].
  - injection Hpt as <-. cbn. congruence.
  - cbn. apply IH. exact Hpt.
Qed.
(** Refuted for three points given as rows: they are taken as columns. *)
Theorem C34_three_points_refuted : forall a b c d e f g h i : A,
  point_points [[a; b; c]; [d; e; f]; [g; h; i]] 3 = Some [[a; b; c]; [d; e; f]; [g; h; i]].
Proof. reflexivity. Qed.

(** Planes order their points like the grid of their two axes. *)
Theorem C34_plane : forall (zero : A) l m u v x y,
  nth_error l u = Some x -> nth_error m v = Some y ->
  map (fun row => nth_error row (u * length m + v)) (plane_points zero l m) = [Some x; Some y; Some zero].
Proof.
  intros zero l m u v x y Hu Hv. unfold plane_points. cbn [map].
  assert (u < length l) by (apply nth_error_Some; congruence). assert (v < length m) by (apply nth_error_Some; congruence).
  rewrite nth_np_repeat, nth_tile by assumption. rewrite Hu, Hv, nth_repeat_some by nia. reflexivity.
Qed.
End P.
Print Assumptions C34_get_points. Print Assumptions C34_iter_points. Print Assumptions C34_array_and_iterator_agree.
Print Assumptions C34_enumeration. Print Assumptions C34_mesh. Print Assumptions C34_mesh_of_two_axes_refuted.
Print Assumptions C34_point_seeds. Print Assumptions C34_three_points_refuted. Print Assumptions C34_plane.

(** ** resampling: interpolating a field at the points of its own grid gives its raveled
    data (with the interpolation model of C11) *)
From Coq Require Import QArith Qabs.
From Verif Require Import StreamModel StreamProofs InterpModel InterpSpec InterpProofs InterpProps.
Local Open Scope Q_scope.

Definition axis_crds (f : cfield) (m d : nat) : list Q := map (fun i => crd f m d i) (seq 0 (nn f d)).
Definition as_pt (p : list Q) : pt := mkpt (nth 0 p 0) (nth 1 p 0) (nth 2 p 0).

Theorem C34_resample_on_own_grid : forall f nc m i j k v,
  let crds := [axis_crds f m 0; axis_crds f m 1; axis_crds f m 2] in
  let a := ravel (shape_of crds) [i; j; k] in
  prepared f -> (i < nn f 0)%nat -> (j < nn f 1)%nat -> (k < nn f 2)%nat ->
  (exists x, result interp_trilin1 f nc (map as_pt (iter_points crds)) a x m v) ->
  v == dat f i j k m.
Proof.
  intros f nc m i j k v crds a P Hi Hj Hk [x R].
  assert (Hb : in_bounds (shape_of crds) [i; j; k]).
  { unfold crds, shape_of, axis_crds. cbn [map]. rewrite !map_length, !seq_length. repeat constructor; assumption. }
  destruct (C34_iter_points crds _ Hb) as (_ & _ & p & Hp & Hlen & Hpos). fold a in Hp.
  assert (Hx : x = as_pt p).
  { destruct R as (lo & hi & nbs & rs & vs & _ & Hx & _). rewrite nth_error_map, Hp in Hx. cbn in Hx. congruence. }
  assert (Hc : forall d q, (d < 3)%nat -> (q < nn f d)%nat -> nth_error [i; j; k] d = Some q -> nth d p 0 = crd f m d q).
  { intros d q Hd Hq E. assert (Ec : nth_error crds d = Some (axis_crds f m d)) by (destruct d as [|[|[|d]]]; [reflexivity..|lia]).
    pose proof (Hpos d _ _ Ec E) as K. unfold axis_crds in K. rewrite nth_error_map, (nth_error_nth' _ O) in K by (rewrite seq_length; exact Hq).
    rewrite seq_nth in K by exact Hq. cbn in K. apply nth_error_nth. exact K. }
  apply (trilinear_exact_at_nodes f nc _ _ x m v i j k P R Hi Hj Hk); rewrite Hx; unfold as_pt; cbn [px py pz];
    [rewrite (Hc 0%nat i)|rewrite (Hc 1%nat j)|rewrite (Hc 2%nat k)]; auto; reflexivity.
Qed.
Print Assumptions C34_resample_on_own_grid.

(** ** a non-trivial case *)
Example C34_ex : in_bounds (shape_of [[10; 20]; [1; 2; 3]; [5; 6]]) [1; 2; 0]%nat /\ ravel (shape_of [[10; 20]; [1; 2; 3]; [5; 6]]) [1; 2; 0]%nat = 10%nat /\ nth_error (iter_points [[10; 20]; [1; 2; 3]; [5; 6]]) 10%nat = Some [20; 3; 5].
Proof. repeat split; repeat constructor. Qed.
Example C34_mesh_ex : shrink 3 (shape_of [[10; 20]; [7]; [5; 6; 7]]) = Some [2; 3]%nat.
Proof. reflexivity. Qed.
Example C34_resample_ex : exists v x, result interp_trilin1 wit 1
   (map as_pt (iter_points [axis_crds wit 0 0; axis_crds wit 0 1; axis_crds wit 0 2]))
   (ravel (shape_of [axis_crds wit 0 0; axis_crds wit 0 1; axis_crds wit 0 2]) [1; 0; 1]%nat) x 0 v.
Proof.
  eexists. eexists. exists (mkpt 0 0 0), (mkpt 0 0 0), [[]]. eexists. eexists.
  split; [vm_compute; reflexivity|]. split; [vm_compute; reflexivity|]. split; vm_compute; reflexivity.
Qed.
