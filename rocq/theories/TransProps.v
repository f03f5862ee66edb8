(** C40: transposing a field keeps data and coordinates together. *)
From Verif Require Import FldModel FwdSliceNd FldProofs LayoutProps.
From Coq Require Import ZifyBool ZifyNat Arith Permutation.
Open Scope Z_scope.

(** ** specification *)
(** the scalar or vector field [f] with coordinate axes [cs] has the value [v] (of
    component [c]) at the point whose coordinate along the axis called [k] is [pt k] *)
Definition at_places {C} (cs : list (crd C)) (pt : nat -> C) (js : list Z) : Prop :=
  Forall2 (fun ax j => 0 <= j /\ nth_error (snd ax) (Z.to_nat j) = Some (pt (fst ax))) cs js.
Definition has_value {C V} (cs : list (crd C)) (f : fld C V) (pt : nat -> C) (c : Z) (v : V) : Prop :=
  exists d js, load f = Some d /\ at_places cs pt js /\
    v = (if f_vec f then comp_at (layout_of f) d c js else get d js).

(** a scalar field stored in an array, in the order of the coordinates or reversed *)
Definition holds_scalar {C V} (f : fld C V) : Prop :=
  f_vec f = false /\ length (f_refl f) = length (f_crds f) /\ f_force f = None /\
  exists a, f_src f = SArr a /\ shape a = native_sshape f.
(** a vector field of [n] components that loads in its own layout *)
Definition holds_vector {C V} (f : fld C V) (n : Z) : Prop :=
  1 < n /\ vector_layout (layout_of f) /\ exists sl, holds f sl n /\
    (layout_of f = sl \/ f_zyx f = false \/ exists l, f_src f = SList l).

(** ** loading *)
Section P.
Context {C V : Type}.
Implicit Types (f : fld C V) (a d : nd V) (cs : list (crd C)).

Lemma flip_false sh : forall (k : list (crd C)) js, flip_idx sh (map (fun _ => false) k) js = js.
Proof. induction sh as [|x sh IH]; intros [|y k] [|j js]; try reflexivity. cbn [map flip_idx]. rewrite IH. reflexivity. Qed.

Lemma load_scalar f : holds_scalar f -> exists a d, f_src f = SArr a /\ load f = Some d /\ shape d = sshape f /\
  forall js, in_shape (sshape f) js ->
    get d js = get a (let is := flip_idx (sshape f) (f_refl f) js in if f_zyx f then rev is else is).
Proof.
  intros (Hv & Hr & Hf & a & Es & Sh). exists a. unfold load. rewrite Hf. cbn [orb].
  assert (Nk : nr_comp f = None) by (unfold nr_comp; rewrite Hv; reflexivity).
  assert (Nc : nr_comps f = Some 0) by (unfold nr_comps; rewrite Hv; reflexivity).
  assert (Hx : exists b, xyz_src f = Some (SArr b) /\ shape b = sshape f /\
    forall js, in_shape (sshape f) js -> get b js = get a (if f_zyx f then rev js else js)).
  { unfold xyz_src. rewrite Es, Nc. unfold native_sshape in Sh. destruct (f_zyx f).
    - change (0 <? 0) with false. cbn iota. eexists. split; [reflexivity|]. cbn [shape get nd_transpose]. rewrite Sh, rev_length. split.
      + rewrite map_nth_rev_seq by apply rev_length. apply rev_involutive.
      + intros js Hj. rewrite unperm_rev_seq; [reflexivity|]. apply in_shape_len. exact Hj.
    - eexists. split; [reflexivity|]. split; [exact Sh|]. reflexivity. }
  destruct Hx as (b & -> & Sb & Gb). unfold dat_to_nd, fshape, reflect_arr. rewrite Nk. cbn iota.
  unfold nd_reshape. rewrite Sb, leqb_refl.
  destruct (reflect_whole b (sshape f) (f_refl f) Sb (sshape_nonneg f) ltac:(rewrite sshape_len; exact Hr))
    as (fs & ss & e & d & -> & -> & -> & Sd & Gd).
  cbn [nd_flip shape get] in Sd, Gd. rewrite Sb in *. exists d. split; [exact Es|]. split; [reflexivity|]. split; [exact Sd|].
  intros js Hj. rewrite Gd by (rewrite Sd; exact Hj). rewrite Gb by (apply flip_in_shape; exact Hj). reflexivity.
Qed.
Lemma load_vector f n : holds_vector f n -> exists d, load f = Some d /\ shape d = lay_shape (layout_of f) (sshape f) n.
Proof.
  intros (Hn & Lv & sl & Hh & Hz). destruct (C37_load C V f sl n Hh Lv Hz) as (d & E & S & _). eauto.
Qed.

(** ** wrapping *)
Lemma wrap_scalar vec cs a : shape a = sshape_of cs -> prod (shape a) <> 1 ->
  exists g d, wrap vec cs a None = WFld g /\ f_crds g = cs /\ f_vec g = false /\ holds_scalar g /\ load g = Some d /\ nd_eq d a.
Proof.
  intros Sa Hp. unfold wrap. apply Z.eqb_neq in Hp. rewrite Hp, Sa, leqb_refl.
  set (g := F false cs (map (fun _ => false) cs) (SArr a) false None). cbn [nr_comps f_vec g negb].
  change (0 =? 1) with false. cbn iota.
  assert (Hg : holds_scalar g).
  { split; [reflexivity|]. split; [apply map_length|]. split; [reflexivity|]. exists a. split; [reflexivity|exact Sa]. }
  destruct (load_scalar g Hg) as (a' & d & Ea & Ed & Sd & Gd). injection Ea as <-.
  exists g, d. split; [reflexivity|]. split; [reflexivity|]. split; [reflexivity|]. split; [exact Hg|]. split; [exact Ed|].
  change (sshape g) with (sshape_of cs) in *. split; [congruence|]. rewrite Sd. intros js Hj. rewrite Gd by exact Hj.
  cbn [f_zyx g f_refl]. rewrite flip_false. reflexivity.
Qed.
Lemma wrap_vector vec cs a l n : vector_layout l -> 1 < n -> shape a = lay_shape l (sshape_of cs) n ->
  (l = LInter -> ~ ambiguous (sshape_of cs) n) ->
  exists g d, wrap vec cs a None = WFld g /\ f_crds g = cs /\ f_vec g = true /\ holds_vector g n /\ layout_of g = l /\
    load g = Some d /\ nd_eq d a.
Proof.
  intros Lv Hn Sa Am. unfold wrap.
  assert (Nn : Forall (fun L => 0 <= L) (sshape_of cs)).
  { unfold sshape_of. apply Forall_forall. intros x H. apply in_map_iff in H as (c & <- & _). lia. }
  assert (Hp : (prod (shape a) =? 1) = false).
  { apply Z.eqb_neq. apply prod_pos_not1.
    - exists n. split; [|exact Hn]. rewrite Sa. destruct Lv as [-> | ->]; cbn [lay_shape]; [left; reflexivity|]. apply in_or_app. right. left. reflexivity.
    - rewrite Sa. destruct Lv as [-> | ->]; cbn [lay_shape]; [constructor; [lia|exact Nn]|].
      apply Forall_app. split; [exact Nn|repeat constructor; lia]. }
  assert (Hs1 : leqb (shape a) (sshape_of cs) = false).
  { apply leqb_len. rewrite Sa. destruct Lv as [-> | ->]; cbn [lay_shape]; rewrite ?app_length; cbn [length]; lia. }
  assert (Hs2 : leqb (tl (shape a)) (sshape_of cs) || leqb (removelast (shape a)) (sshape_of cs) = true).
  { rewrite Sa. destruct Lv as [-> | ->]; cbn [lay_shape tl]; rewrite ?removelast_snoc, leqb_refl; [reflexivity|]. apply orb_true_r. }
  rewrite Hp, Hs1, Hs2. set (g := F true cs (map (fun _ => false) cs) (SArr a) false None).
  assert (Hg : holds g l n).
  { split; [reflexivity|]. split; [lia|]. split; [apply map_length|]. split; [exact Lv|]. split; [exact Sa|exact Am]. }
  rewrite (holds_nr_comps g l n Hg). replace (n =? 1) with false by lia.
  assert (Lg : layout_of g = l) by (unfold layout_of; cbn [f_force g]; apply (holds_src_layout g l n Hg)).
  destruct (C37_load C V g l n Hg ltac:(rewrite Lg; exact Lv) (or_introl Lg)) as (d & Ed & Sd & Gd). rewrite Lg in *.
  change (sshape g) with (sshape_of cs) in *.
  exists g, d. split; [reflexivity|]. split; [reflexivity|]. split; [reflexivity|].
  split. { split; [exact Hn|]. split; [rewrite Lg; exact Lv|]. exists l. split; [exact Hg|]. left. exact Lg. }
  split; [exact Lg|]. split; [exact Ed|]. split; [congruence|]. rewrite Sd.
  assert (G : forall c js, 0 <= c < n -> in_shape (sshape_of cs) js -> comp_at l d c js = comp_at l a c js).
  { intros c js Hc Hj. specialize (Gd c js Hc Hj). unfold stored, mirrored in Gd. cbn [g f_zyx f_src f_refl] in Gd.
    rewrite flip_false in Gd. symmetry. exact Gd. }
  intros js Hj. destruct Lv as [-> | ->]; cbn [lay_shape comp_at] in *.
  - inversion Hj as [|? c ? r Hc Hr]; subst. apply G; auto.
  - apply in_shape_snoc_inv in Hj as (r & c & -> & Hr & Hc). apply G; auto.
Qed.

(** ** permuting index vectors *)
Lemma prod_perm l l' : Permutation l l' -> prod l = prod l'.
Proof.
  unfold prod. intros P. induction P as [|x l l' P IH|x y l|l m l' P IH P' IH']; cbn [fold_right]; [reflexivity|congruence|ring|congruence].
Qed.
Definition permute {X} (dflt : X) (axes : list nat) (l : list X) : list X := map (fun i => nth i l dflt) axes.
Lemma permute_len {X} (x : X) axes l : length (permute x axes l) = length axes.
Proof. apply map_length. Qed.
Lemma nth_permute {X} (x : X) axes l i : (i < length axes)%nat -> nth i (permute x axes l) x = nth (nth i axes O) l x.
Proof.
  intros H. unfold permute. rewrite (nth_indep _ x ((fun i => nth i l x) O)) by (rewrite map_length; exact H).
  rewrite (map_nth (fun i => nth i l x)). reflexivity.
Qed.
Lemma permute_unperm axes js : is_perm axes -> length js = length axes -> permute 0 axes (unperm axes js) = js.
Proof.
  intros P L. apply nth_ext0; [rewrite permute_len; auto|]. rewrite permute_len. intros i Hi. rewrite nth_permute by exact Hi.
  rewrite nth_unperm by (apply is_perm_nth_lt; auto). rewrite pos_nth by (auto; apply is_perm_NoDup; exact P). reflexivity.
Qed.
Lemma unperm_permute axes js : is_perm axes -> length js = length axes -> unperm axes (permute 0 axes js) = js.
Proof.
  intros P L. apply unperm_unique; auto. intros i Hi. rewrite nth_permute by exact Hi. reflexivity.
Qed.
Lemma sshape_permute cs axes : sshape_of (permute (O, []) axes cs) = permute 0 axes (sshape_of cs).
Proof.
  unfold sshape_of, permute. rewrite map_map. apply map_ext. intros i.
  change 0 with ((fun c : crd C => Z.of_nat (length (snd c))) (O, [])) at 1. rewrite map_nth. reflexivity.
Qed.
Lemma at_places_len cs pt js : at_places cs pt js -> length js = length cs.
Proof. intros H. induction H; cbn; congruence. Qed.
Lemma at_places_nth cs pt js : at_places cs pt js <-> length js = length cs /\
  forall k, (k < length cs)%nat -> 0 <= nth k js 0 /\ nth_error (snd (nth k cs (O, []))) (Z.to_nat (nth k js 0)) = Some (pt (fst (nth k cs (O, [])))).
Proof.
  split.
  - intros H. split; [apply at_places_len with pt; exact H|]. induction H as [|ax j cs js Hj _ IH]; intros k Hk; cbn in Hk; [lia|].
    destruct k as [|k]; cbn [nth]; [exact Hj|]. apply IH. lia.
  - revert js. induction cs as [|ax cs IH]; intros [|j js] [E H]; cbn in E; try discriminate; [constructor|].
    constructor; [apply (H O); cbn; lia|]. apply IH. split; [congruence|]. intros k Hk. apply (H (S k)). cbn. lia.
Qed.
Lemma at_places_permute cs pt axes js : is_perm axes -> length axes = length cs -> length js = length cs ->
  at_places (permute (O, []) axes cs) pt (permute 0 axes js) <-> at_places cs pt js.
Proof.
  intros P L Lj. rewrite !at_places_nth, !permute_len. split; intros [_ H]; (split; [auto|]).
  - intros k Hk. rewrite <- L in Hk. destruct (nth_pos axes k O (proj2 (is_perm_In axes k P) Hk)) as [E Lp].
    specialize (H _ Lp). rewrite !nth_permute, E in H by exact Lp. exact H.
  - intros k Hk. rewrite !nth_permute by exact Hk. apply H. rewrite <- L. apply is_perm_nth_lt; auto.
Qed.
Lemma at_places_in_shape cs pt js : at_places cs pt js -> in_shape (sshape_of cs) js.
Proof.
  intros H. unfold at_places in H. unfold in_shape, sshape_of. induction H as [|ax j cs js [Hj E] _ IH]; [constructor|]. cbn [map]. constructor; [|exact IH].
  assert (Z.to_nat j < length (snd ax))%nat by (apply nth_error_Some; congruence). lia.
Qed.
Lemma ambiguous_permute sh n axes : is_perm axes -> length axes = length sh -> ambiguous (permute 0 axes sh) n -> ambiguous sh n.
Proof.
  unfold ambiguous. rewrite !Forall_forall. intros P L H x Hx. apply (In_nth _ _ 0) in Hx as (k & Hk & <-). rewrite <- L in Hk.
  destruct (nth_pos axes k O (proj2 (is_perm_In axes k P) Hk)) as [E Lp]. apply H. rewrite <- E at 1.
  rewrite <- nth_permute by exact Lp. apply nth_In. rewrite permute_len. exact Lp.
Qed.

(** ** axes of vector fields *)
(** the component axis [k] first or last, the space axes in the order [caxes] *)
Definition shift (k i : nat) : nat := if (k <=? i)%nat then S i else i.
Definition comp_axes (k : nat) (to : layout) (caxes : list nat) : list nat :=
  match to with LInter => map (shift k) caxes ++ [k] | _ => k :: map (shift k) caxes end.
(** index vector in a layout *)
Definition idx (l : layout) (c : Z) (js : list Z) : list Z := match l with LInter => js ++ [c] | _ => c :: js end.
Definition comp_pos (l : layout) (m : nat) : nat := match l with LInter => m | _ => O end.
Lemma comp_at_idx l d c js : comp_at l d c js = get d (idx l c js).
Proof. destruct l; reflexivity. Qed.
Lemma idx_len l c js : length (idx l c js) = S (length js).
Proof. destruct l; cbn [idx]; rewrite ?app_length; cbn; lia. Qed.
Lemma nth_idx_comp l c js m : length js = m -> nth (comp_pos l m) (idx l c js) 0 = c.
Proof. intros <-. destruct l; cbn [comp_pos idx]; try reflexivity. apply nth_snoc_eq. reflexivity. Qed.
Lemma nth_idx_space l c js m i : length js = m -> (i < m)%nat -> nth (shift (comp_pos l m) i) (idx l c js) 0 = nth i js 0.
Proof.
  intros <- Hi. unfold shift. destruct l; cbn [comp_pos idx]; try reflexivity.
  replace (length js <=? i)%nat with false by lia. apply nth_snoc_lt. exact Hi.
Qed.
Lemma shift_inj k i j : shift k i = shift k j -> i = j.
Proof. unfold shift. destruct (Nat.leb_spec k i), (Nat.leb_spec k j); lia. Qed.
Lemma shift_neq k i : shift k i <> k.
Proof. unfold shift. destruct (Nat.leb_spec k i); lia. Qed.
Lemma comp_axes_len k to caxes : length (comp_axes k to caxes) = S (length caxes).
Proof. destruct to; cbn [comp_axes length]; rewrite ?app_length, map_length; cbn [length]; lia. Qed.
Lemma NoDup_lt_perm l n : NoDup l -> length l = n -> (forall x, In x l -> (x < n)%nat) -> Permutation l (seq 0 n).
Proof.
  intros N L H. apply NoDup_Permutation_bis; [exact N|rewrite seq_length; lia|]. intros x Hx. apply in_seq. specialize (H x Hx). lia.
Qed.
Lemma comp_axes_perm k to caxes : is_perm caxes -> (k <= length caxes)%nat -> is_perm (comp_axes k to caxes).
Proof.
  intros P Hk. pose proof (is_perm_NoDup _ P) as N.
  assert (Nm : NoDup (map (shift k) caxes)) by (apply FinFun.Injective_map_NoDup; [intros i j; apply shift_inj|exact N]).
  assert (Nk : ~ In k (map (shift k) caxes)) by (rewrite in_map_iff; intros (i & E & _); exact (shift_neq k i E)).
  unfold is_perm. rewrite comp_axes_len. apply NoDup_lt_perm.
  - destruct to; cbn [comp_axes]; try (constructor; assumption). apply (Permutation_NoDup (l := k :: map (shift k) caxes)); [|constructor; assumption].
    apply Permutation_cons_append.
  - apply comp_axes_len.
  - intros x Hx. assert (Hx' : x = k \/ In x (map (shift k) caxes)).
    { destruct to; cbn [comp_axes] in Hx; try (destruct Hx; auto; fail). apply in_app_or in Hx as [|[|[]]]; auto. }
    destruct Hx' as [->|Hx']; [lia|]. apply in_map_iff in Hx' as (i & <- & Hi). apply (is_perm_In _ _ P) in Hi. unfold shift. destruct (k <=? i)%nat; lia.
Qed.
(** every order of the axes with the component axis first or last is of this form *)
Lemma comp_axes_all k axes m : is_perm axes -> length axes = S m -> (k = O \/ k = m) ->
  hd O axes = k \/ last axes O = k ->
  exists caxes to, vector_layout to /\ is_perm caxes /\ length caxes = m /\ axes = comp_axes k to caxes.
Proof.
  intros P L Hk Hp. pose proof (is_perm_NoDup _ P) as N.
  assert (H : exists r to, vector_layout to /\ axes = match to with LInter => r ++ [k] | _ => k :: r end).
  { destruct Hp as [Hp|Hp].
    - destruct axes as [|x r]; [discriminate|]. exists r, LFlat. cbn in Hp. subst x. split; [left; reflexivity|reflexivity].
    - destruct (exists_last (l := axes)) as (r & x & ->); [intros ->; discriminate|]. exists r, LInter. rewrite last_snoc in Hp. subst x.
      split; [right; reflexivity|reflexivity]. }
  destruct H as (r & to & Hto & E).
  assert (Pr : Permutation axes (k :: r)).
  { rewrite E. destruct Hto as [-> | ->]; [reflexivity|]. symmetry. apply Permutation_cons_append. }
  assert (Nr : NoDup (k :: r)) by (apply (Permutation_NoDup Pr); exact N). inversion Nr as [|? ? Nk Nr']; subst x l.
  assert (Lr : length r = m) by (apply Permutation_length in Pr; cbn in Pr; lia).
  assert (Hr : forall x, In x r -> (x < S m)%nat /\ x <> k).
  { intros x Hx. split; [|intros ->; contradiction]. rewrite <- L. apply (is_perm_In _ _ P).
    apply (Permutation_in _ (Permutation_sym Pr)). right. exact Hx. }
  set (un := fun i : nat => if (k <? i)%nat then (i - 1)%nat else i).
  assert (Eu : map (shift k) (map un r) = r).
  { rewrite map_map. rewrite <- (map_id r) at 2. apply map_ext_in. intros x Hx. destruct (Hr x Hx). unfold shift, un.
    destruct (Nat.ltb_spec k x); destruct (Nat.leb_spec k (x - 1)), (Nat.leb_spec k x); lia. }
  exists (map un r), to. split; [exact Hto|]. split; [|split].
  - unfold is_perm. rewrite map_length, Lr. apply NoDup_lt_perm; [|rewrite map_length; exact Lr|].
    + apply NoDup_map_inv with (f := shift k). rewrite Eu. exact Nr'.
    + intros x Hx. apply in_map_iff in Hx as (y & <- & Hy). destruct (Hr y Hy). unfold un. destruct (Nat.ltb_spec k y); lia.
  - rewrite map_length. exact Lr.
  - rewrite E. unfold comp_axes. rewrite Eu. reflexivity.
Qed.
Lemma remove_comp k to caxes : remove_val k (comp_axes k to caxes) = Some (map (shift k) caxes).
Proof.
  assert (Nk : ~ In k (map (shift k) caxes)) by (rewrite in_map_iff; intros (i & E & _); exact (shift_neq k i E)).
  destruct to; cbn [comp_axes]; try (cbn [remove_val]; rewrite Nat.eqb_refl; reflexivity).
  rewrite remove_val_notin_app by exact Nk. rewrite app_nil_r. reflexivity.
Qed.
Lemma unshift_shift k caxes : map (fun i => if (k <? i)%nat then (i - 1)%nat else i) (map (shift k) caxes) = caxes.
Proof.
  rewrite map_map. rewrite <- (map_id caxes) at 2. apply map_ext. intros i. unfold shift.
  destruct (Nat.leb_spec k i); [replace (k <? S i)%nat with true by lia|replace (k <? i)%nat with false by lia]; lia.
Qed.
(** moving the index vector *)
Lemma unperm_comp l to caxes c js m : length js = m -> length caxes = m -> is_perm caxes ->
  unperm (comp_axes (comp_pos l m) to caxes) (idx to c (permute 0 caxes js)) = idx l c js.
Proof.
  intros Lj Lc P. set (k := comp_pos l m).
  assert (Hk : (k <= length caxes)%nat) by (subst k; destruct l; cbn; lia).
  apply unperm_unique; [apply comp_axes_perm; auto|rewrite idx_len, comp_axes_len; lia|].
  rewrite comp_axes_len. intros i Hi.
  assert (G : forall i, (i < m)%nat -> nth (nth i (map (shift k) caxes) O) (idx l c js) 0 = nth i (permute 0 caxes js) 0).
  { intros i' Hi'. rewrite (nth_indep _ O (shift k O)) by (rewrite map_length; lia). rewrite map_nth.
    subst k. rewrite nth_idx_space; [|exact Lj|rewrite <- Lc; apply is_perm_nth_lt; [exact P|lia]].
    rewrite nth_permute by lia. reflexivity. }
  destruct to; cbn [comp_axes idx];
    try (destruct i as [|i]; cbn [nth]; [subst k; apply nth_idx_comp; exact Lj|apply G; lia]).
  destruct (Nat.eq_dec i m) as [->|Ne].
  - rewrite (nth_snoc_eq (map (shift k) caxes)) by (rewrite map_length; auto).
    rewrite (nth_snoc_eq (permute 0 caxes js)) by (rewrite permute_len; auto). subst k. apply nth_idx_comp. exact Lj.
  - rewrite (nth_snoc_lt (map (shift k) caxes)) by (rewrite map_length; lia).
    rewrite (nth_snoc_lt (permute 0 caxes js)) by (rewrite permute_len; lia). apply G. lia.
Qed.
Lemma shape_comp l to caxes n sh m : length sh = m -> length caxes = m -> is_perm caxes ->
  map (fun k => nth k (lay_shape l sh n) 0) (comp_axes (comp_pos l m) to caxes) = lay_shape to (permute 0 caxes sh) n.
Proof.
  intros Ls Lc P.
  assert (E : forall l, lay_shape l sh n = idx l n sh) by (intros []; reflexivity).
  assert (E' : forall l s, lay_shape l s n = idx l n s) by (intros []; reflexivity).
  rewrite E, E'. assert (G : map (fun k => nth k (idx l n sh) 0) (map (shift (comp_pos l m)) caxes) = permute 0 caxes sh).
  { rewrite map_map. unfold permute. apply map_ext_in. intros i Hi. apply nth_idx_space; [exact Ls|].
    rewrite <- Lc. apply (is_perm_In _ _ P). exact Hi. }
  destruct to; cbn [comp_axes idx map]; rewrite ?map_app, G; cbn [map]; rewrite (nth_idx_comp l n sh m Ls); reflexivity.
Qed.

(** ** transposing *)
Lemma transpose_scalar f cs axes d : holds_scalar f -> crds_like f cs -> is_perm axes -> length axes = length (f_crds f) ->
  load f = Some d -> prod (shape d) <> 1 ->
  exists g d', transpose cs axes f = WFld g /\ f_crds g = permute (O, []) axes cs /\ f_vec g = false /\ holds_scalar g /\
    load g = Some d' /\ nd_eq d' (nd_transpose axes d) /\ shape d = sshape f.
Proof.
  intros Hh Ec P L Hd Hp. destruct (load_scalar f Hh) as (a & d0 & _ & E & Sd & _). assert (d0 = d) by congruence. subst d0.
  assert (Hv : f_vec f = false) by apply Hh. unfold transpose, nr_comp, nr_comps. rewrite Hv. cbn [negb].
  rewrite L, Nat.eqb_refl. cbn [negb]. rewrite Hd. change (0 =? 0) with true. cbn iota.
  fold (permute (O, []) axes cs).
  assert (Sh : shape (nd_transpose axes d) = sshape_of (permute (O, []) axes cs)).
  { cbn [shape nd_transpose]. rewrite sshape_permute. unfold crds_like in Ec. rewrite Ec, Sd. reflexivity. }
  destruct (wrap_scalar false (permute (O, []) axes cs) (nd_transpose axes d) Sh) as (g & d' & H1 & H2 & H3 & H4 & H5 & H6).
  - intros E1. apply Hp. rewrite <- E1. cbn [shape nd_transpose].
    assert (Pm : Permutation (shape d) (map (fun k => nth k (shape d) 0) axes)).
    { rewrite <- (permute_unperm (seq 0 (length (shape d))) (shape d)) at 1.
      - assert (Eu : unperm (seq 0 (length (shape d))) (shape d) = shape d).
        { apply unperm_unique; [unfold is_perm; rewrite seq_length; reflexivity|rewrite seq_length; reflexivity|].
          rewrite seq_length. intros i Hi. rewrite seq_nth by exact Hi. reflexivity. }
        rewrite Eu. unfold permute. apply Permutation_map. symmetry. rewrite Sd, sshape_len, <- L. exact P.
      - unfold is_perm. rewrite seq_length. reflexivity.
      - rewrite seq_length. reflexivity. }
    apply prod_perm. exact Pm.
  - exists g, d'. repeat (split; [assumption|]). exact Sd.
Qed.

Lemma transpose_vector f cs n to caxes d : holds_vector f n -> crds_like f cs -> vector_layout to -> is_perm caxes ->
  length caxes = length (f_crds f) -> load f = Some d -> (to = LInter -> ~ ambiguous (sshape f) n) ->
  exists g d', transpose cs (comp_axes (comp_pos (layout_of f) (length (f_crds f))) to caxes) f = WFld g /\
    f_crds g = permute (O, []) caxes cs /\ f_vec g = true /\ layout_of g = to /\ holds_vector g n /\
    load g = Some d' /\ shape d = lay_shape (layout_of f) (sshape f) n /\
    nd_eq d' (nd_transpose (comp_axes (comp_pos (layout_of f) (length (f_crds f))) to caxes) d).
Proof.
  intros Hv Ec Lt P L Hd Am. destruct (load_vector f n Hv) as (d0 & E & Sd). assert (d0 = d) by congruence. subst d0.
  pose proof Hv as (Hn & Ll & sl & Hh & Hz).
  set (m := length (f_crds f)) in *. set (k := comp_pos (layout_of f) m). set (axes := comp_axes k to caxes).
  assert (Ek : nr_comp f = Some k).
  { rewrite (holds_nr_comp f sl n Hh Ll). subst k. destruct Ll as [-> | ->]; reflexivity. }
  unfold transpose. rewrite Ek, (holds_nr_comps f sl n Hh). fold m.
  assert (La : length axes = S m) by (subst axes; rewrite comp_axes_len; lia). rewrite La, Nat.eqb_refl. cbn [negb]. rewrite Hd.
  replace (n =? 0) with false by lia. subst axes. rewrite remove_comp. cbn [option_map]. rewrite unshift_shift.
  fold (permute (O, []) caxes cs). set (axes := comp_axes k to caxes).
  assert (Sh : shape (nd_transpose axes d) = lay_shape to (sshape_of (permute (O, []) caxes cs)) n).
  { cbn [shape nd_transpose]. rewrite sshape_permute, Sd. unfold crds_like in Ec. rewrite Ec. subst axes k. apply shape_comp; auto. apply sshape_len. }
  destruct (wrap_vector (f_vec f) (permute (O, []) caxes cs) (nd_transpose axes d) to n Lt Hn Sh) as (g & d' & H1 & H2 & H3 & H4 & H5 & H6 & H7).
  - intros Et A. apply (Am Et). rewrite sshape_permute in A. apply ambiguous_permute in A; auto.
    + unfold crds_like in Ec. rewrite Ec in A. exact A.
    + unfold crds_like in Ec. rewrite Ec, sshape_len. exact L.
  - exists g, d'. repeat (split; [assumption|]). exact H7.
Qed.
End P.

(** ** theorems *)

(** Scalar fields: every order of the axes, every rank. *)
Theorem C40_scalar : forall (C V : Type) (f : fld C V) cs axes d,
  holds_scalar f -> crds_like f cs -> is_perm axes -> length axes = length (f_crds f) ->
  load f = Some d -> prod (shape d) <> 1 ->
  exists g, transpose cs axes f = WFld g /\
    (forall i, (i < length axes)%nat -> nth_error (f_crds g) i = nth_error cs (nth i axes O)) /\
    forall pt c v, has_value (f_crds g) g pt c v <-> has_value cs f pt c v.
Proof.
  intros C V f cs axes d Hh Ec P L Hd Hp.
  destruct (transpose_scalar f cs axes d Hh Ec P L Hd Hp) as (g & d' & H1 & H2 & H3 & H4 & H5 & [S6 G6] & Sd).
  assert (Lcs : length cs = length axes) by (rewrite L, <- sshape_len; unfold crds_like in Ec; rewrite <- Ec; unfold sshape_of; rewrite map_length; reflexivity).
  exists g. split; [exact H1|]. split.
  { rewrite H2. intros i Hi. unfold permute. rewrite nth_error_map, (nth_error_nth' axes O Hi). cbn [option_map].
    symmetry. apply (nth_error_nth' cs). rewrite Lcs. apply is_perm_nth_lt; auto. }
  assert (Hv : f_vec f = false) by apply Hh.
  intros pt c v. unfold has_value. rewrite H2, H3, Hv. split.
  - intros (e & js' & Ee & Hp' & ->). assert (e = d') by congruence. subst e.
    pose proof (at_places_len _ _ _ Hp') as Lj. rewrite permute_len in Lj.
    exists d, (unperm axes js'). split; [exact Hd|]. split.
    + apply (at_places_permute cs pt axes); auto; [rewrite unperm_len; auto|]. rewrite permute_unperm by auto. exact Hp'.
    + rewrite G6; [reflexivity|]. rewrite S6. cbn [shape nd_transpose]. rewrite Sd. apply at_places_in_shape in Hp'.
      rewrite sshape_permute in Hp'. unfold crds_like in Ec. rewrite Ec in Hp'. exact Hp'.
  - intros (e & js & Ee & Hp' & ->). assert (e = d) by congruence. subst e. pose proof (at_places_len _ _ _ Hp') as Lj.
    exists d', (permute 0 axes js). split; [exact H5|]. split; [apply at_places_permute; auto; lia|].
    rewrite G6.
    + cbn [get nd_transpose]. rewrite unperm_permute by (auto; lia). reflexivity.
    + rewrite S6. cbn [shape nd_transpose]. rewrite Sd. unfold crds_like in Ec. rewrite <- Ec.
      change (map (fun k => nth k (sshape_of cs) 0) axes) with (permute 0 axes (sshape_of cs)). rewrite <- sshape_permute.
      apply at_places_in_shape with pt. apply at_places_permute; auto; lia.
Qed.
Print Assumptions C40_scalar.

Lemma vector_values {C V} (f g : fld C V) cs n to caxes d d' :
  holds_vector f n -> crds_like f cs -> vector_layout to -> is_perm caxes -> length caxes = length (f_crds f) ->
  load f = Some d -> load g = Some d' -> f_crds g = permute (O, []) caxes cs -> f_vec g = true -> layout_of g = to ->
  shape d = lay_shape (layout_of f) (sshape f) n ->
  nd_eq d' (nd_transpose (comp_axes (comp_pos (layout_of f) (length (f_crds f))) to caxes) d) ->
  forall pt c v, 0 <= c < n -> has_value (f_crds g) g pt c v <-> has_value cs f pt c v.
Proof.
  intros Hv Ec Lt P L Hd Hd' H2 H3 H4 Sd [S6 G6] pt c v Hc.
  assert (Lcs : length cs = length caxes) by (rewrite L, <- sshape_len; unfold crds_like in Ec; rewrite <- Ec; unfold sshape_of; rewrite map_length; reflexivity).
  assert (Hfv : f_vec f = true) by (destruct Hv as (_ & _ & sl & Hh & _); apply Hh).
  assert (Key : forall js, in_shape (sshape f) js -> comp_at to d' c (permute 0 caxes js) = comp_at (layout_of f) d c js).
  { intros js Hj. assert (Lj : length js = length (f_crds f)) by (rewrite <- sshape_len; apply in_shape_len; exact Hj).
    rewrite !comp_at_idx, G6.
    - cbn [get nd_transpose]. rewrite unperm_comp; auto.
    - rewrite S6. cbn [shape nd_transpose]. rewrite Sd, shape_comp by (auto; apply sshape_len).
      assert (Hjp : in_shape (permute 0 caxes (sshape f)) (permute 0 caxes js)).
      { apply in_shape_of_nth; [rewrite !permute_len; reflexivity|]. rewrite permute_len. intros k Hk. rewrite !nth_permute by exact Hk.
        apply in_shape_nth; [exact Hj|]. rewrite sshape_len, <- L. apply is_perm_nth_lt; auto. }
      destruct Lt as [-> | ->]; cbn [lay_shape idx]; [constructor; auto|]. apply in_shape_snoc; auto. }
  unfold has_value. rewrite H2, H3, H4, Hfv. split.
  - intros (e & js' & Ee & Hp' & ->). assert (e = d') by congruence. subst e.
    pose proof (at_places_len _ _ _ Hp') as Lj. rewrite permute_len in Lj.
    assert (Hpl : at_places cs pt (unperm caxes js')).
    { apply (at_places_permute cs pt caxes); auto; [rewrite unperm_len; auto|]. rewrite permute_unperm by auto. exact Hp'. }
    exists d, (unperm caxes js'). split; [exact Hd|]. split; [exact Hpl|].
    rewrite <- Key; [rewrite permute_unperm by auto; reflexivity|].
    unfold crds_like in Ec. rewrite <- Ec. apply at_places_in_shape with pt. exact Hpl.
  - intros (e & js & Ee & Hp' & ->). assert (e = d) by congruence. subst e. pose proof (at_places_len _ _ _ Hp') as Lj.
    exists d', (permute 0 caxes js). split; [exact Hd'|]. split; [apply at_places_permute; auto; lia|].
    symmetry. apply Key. unfold crds_like in Ec. rewrite <- Ec. apply at_places_in_shape with pt. exact Hp'.
Qed.

(** Vector fields of both layouts: every order of the axes that leaves or puts the
    component axis first or last, unless the result is interlaced and has as many places
    along every axis as there are components. *)
Theorem C40_vector : forall (C V : Type) (f : fld C V) cs n k axes d,
  holds_vector f n -> crds_like f cs -> is_perm axes -> length axes = S (length (f_crds f)) ->
  nr_comp f = Some k -> hd O axes = k \/ last axes O = k ->
  ~ ambiguous (sshape f) n -> load f = Some d ->
  exists g, transpose cs axes f = WFld g /\ holds_vector g n /\
    forall pt c v, 0 <= c < n -> has_value (f_crds g) g pt c v <-> has_value cs f pt c v.
Proof.
  intros C V f cs n k axes d Hv Ec P L Hk Hp Am Hd. pose proof Hv as (Hn & Ll & sl & Hh & Hz).
  assert (Ek : k = comp_pos (layout_of f) (length (f_crds f))).
  { rewrite (holds_nr_comp f sl n Hh Ll) in Hk. injection Hk as <-. destruct Ll as [-> | ->]; reflexivity. }
  destruct (comp_axes_all k axes (length (f_crds f)) P L) as (caxes & to & Lt & Pc & Lc & ->); [|exact Hp|].
  { rewrite Ek. destruct Ll as [-> | ->]; cbn; auto. }
  rewrite Ek. destruct (transpose_vector f cs n to caxes d Hv Ec Lt Pc Lc Hd (fun _ => Am)) as (g & d' & H1 & H2 & H3 & H4 & H5 & H6 & H7 & H8).
  exists g. split; [exact H1|]. split; [exact H5|]. intros pt c v Hc.
  apply (vector_values f g cs n to caxes d d'); auto.
Qed.
Print Assumptions C40_vector.

(** transpose_crds: every order of the space axes, the layout stays *)
Theorem C40_transpose_crds : forall (C V : Type) (f : fld C V) cs n caxes d,
  holds_vector f n -> crds_like f cs -> is_perm caxes -> length caxes = length (f_crds f) ->
  (layout_of f = LInter -> ~ ambiguous (sshape f) n) -> load f = Some d ->
  exists g, transpose_crds cs caxes f = WFld g /\ layout_of g = layout_of f /\
    (forall i, (i < length caxes)%nat -> nth_error (f_crds g) i = nth_error cs (nth i caxes O)) /\
    forall pt c v, 0 <= c < n -> has_value (f_crds g) g pt c v <-> has_value cs f pt c v.
Proof.
  intros C V f cs n caxes d Hv Ec Pc Lc Am Hd. pose proof Hv as (Hn & Ll & sl & Hh & Hz).
  unfold transpose_crds. rewrite (holds_nr_comps f sl n Hh). replace (n =? 0) with false by lia.
  rewrite (holds_nr_comp f sl n Hh Ll).
  set (k := match layout_of f with LInter => length (f_crds f) | _ => O end).
  assert (Ek : k = comp_pos (layout_of f) (length (f_crds f))) by (subst k; destruct Ll as [-> | ->]; reflexivity).
  assert (Ea : insert_at k k (map (fun i => if (k <=? i)%nat then S i else i) caxes) = comp_axes k (layout_of f) caxes).
  { change (fun i => if (k <=? i)%nat then S i else i) with (shift k). subst k. destruct Ll as [-> | ->]; cbn [comp_axes]; [reflexivity|].
    apply insert_at_len'. rewrite map_length. exact Lc. }
  rewrite Ea, Ek. destruct (transpose_vector f cs n (layout_of f) caxes d Hv Ec Ll Pc Lc Hd Am) as (g & d' & H1 & H2 & H3 & H4 & H5 & H6 & H7 & H8).
  assert (Lcs : length cs = length caxes) by (rewrite Lc, <- sshape_len; unfold crds_like in Ec; rewrite <- Ec; unfold sshape_of; rewrite map_length; reflexivity).
  exists g. split; [exact H1|]. split; [exact H4|]. split.
  { rewrite H2. intros i Hi. unfold permute. rewrite nth_error_map, (nth_error_nth' caxes O Hi). cbn [option_map].
    symmetry. apply (nth_error_nth' cs). rewrite Lcs. apply is_perm_nth_lt; auto. }
  intros pt c v Hc. apply (vector_values f g cs n (layout_of f) caxes d d'); auto.
Qed.
Print Assumptions C40_transpose_crds.

(** ** swapaxes *)
Lemma swap_axes_spec n i j : (i < n)%nat -> (j < n)%nat ->
  let axes := set_nth j i (set_nth i j (seq 0 n)) in
  is_perm axes /\ length axes = n /\ forall k, (k < n)%nat -> nth k axes O = (if (k =? i)%nat then j else if (k =? j)%nat then i else k).
Proof.
  intros Hi Hj axes.
  assert (Sn : forall (l : list nat) p x, (p < length l)%nat -> length (set_nth p x l) = length l /\
    forall k, nth k (set_nth p x l) O = if (k =? p)%nat then x else nth k l O).
  { intros l p x Hp. unfold set_nth. split.
    - rewrite app_length, firstn_length. cbn [length]. rewrite skipn_length. lia.
    - intros k. assert (Lf : length (firstn p l) = p) by (rewrite firstn_length; lia).
      destruct (Nat.eqb_spec k p) as [->|Ne].
      + rewrite app_nth2 by lia. rewrite Lf, Nat.sub_diag. reflexivity.
      + destruct (lt_dec k p) as [H|H].
        * rewrite app_nth1 by lia. rewrite <- (firstn_skipn p l) at 2. rewrite app_nth1 by lia. reflexivity.
        * rewrite app_nth2 by lia. rewrite Lf. replace (k - p)%nat with (S (k - p - 1)) by lia. cbn [nth].
          rewrite <- (firstn_skipn (S p) l) at 2. rewrite app_nth2 by (rewrite firstn_length; lia). f_equal. rewrite firstn_length. lia. }
  destruct (Sn (seq 0 n) i j ltac:(rewrite seq_length; exact Hi)) as [L1 N1]. rewrite seq_length in L1.
  destruct (Sn (set_nth i j (seq 0 n)) j i ltac:(rewrite L1; exact Hj)) as [L2 N2]. fold axes in L2, N2. rewrite L1 in L2.
  assert (Nk : forall k, (k < n)%nat -> nth k axes O = (if (k =? i)%nat then j else if (k =? j)%nat then i else k)).
  { intros k Hk. rewrite N2, N1, seq_nth by exact Hk. destruct (Nat.eqb_spec k j), (Nat.eqb_spec k i); cbn; try lia. }
  split; [|split; [exact L2|exact Nk]]. unfold is_perm. rewrite L2. apply NoDup_lt_perm; [|exact L2|].
  - apply (NoDup_nth axes O). rewrite L2. intros a b Ha Hb E. rewrite !Nk in E by auto.
    destruct (Nat.eqb_spec a i), (Nat.eqb_spec a j), (Nat.eqb_spec b i), (Nat.eqb_spec b j); lia.
  - intros x Hx. apply (In_nth _ _ O) in Hx as (k & Hk & <-). rewrite L2 in Hk. rewrite Nk by exact Hk.
    destruct (Nat.eqb_spec k i), (Nat.eqb_spec k j); lia.
Qed.

Theorem C40_swapaxes_scalar : forall (C V : Type) (f : fld C V) cs i j d,
  holds_scalar f -> crds_like f cs -> (i < length (f_crds f))%nat -> (j < length (f_crds f))%nat ->
  load f = Some d -> prod (shape d) <> 1 ->
  exists g, swapaxes cs i j f = WFld g /\
    (forall k, (k < length (f_crds f))%nat ->
       nth_error (f_crds g) k = nth_error cs (if (k =? i)%nat then j else if (k =? j)%nat then i else k)) /\
    forall pt c v, has_value (f_crds g) g pt c v <-> has_value cs f pt c v.
Proof.
  intros C V f cs i j d Hh Ec Hi Hj Hd Hp. unfold swapaxes.
  assert (Nk : nr_comp f = None) by (unfold nr_comp; destruct Hh as (-> & _); reflexivity). rewrite Nk.
  replace ((i <? length (f_crds f)) && (j <? length (f_crds f)))%nat with true by lia.
  destruct (swap_axes_spec (length (f_crds f)) i j Hi Hj) as (P & L & N).
  destruct (C40_scalar C V f cs _ d Hh Ec P L Hd Hp) as (g & H1 & H2 & H3). exists g. split; [exact H1|]. split; [|exact H3].
  intros k Hk. rewrite H2 by (rewrite L; exact Hk). rewrite N by exact Hk. reflexivity.
Qed.
Print Assumptions C40_swapaxes_scalar.
(** two space axes of a vector field *)
Theorem C40_swapaxes_vector : forall (C V : Type) (f : fld C V) cs n k i j d,
  holds_vector f n -> crds_like f cs -> nr_comp f = Some k -> (i <= length (f_crds f))%nat -> (j <= length (f_crds f))%nat ->
  i <> k -> j <> k -> ~ ambiguous (sshape f) n -> load f = Some d ->
  exists g, swapaxes cs i j f = WFld g /\
    forall pt c v, 0 <= c < n -> has_value (f_crds g) g pt c v <-> has_value cs f pt c v.
Proof.
  intros C V f cs n k i j d Hv Ec Hk Hi Hj Ni Nj Am Hd. unfold swapaxes. rewrite Hk.
  set (m := length (f_crds f)) in *. replace ((i <? S m) && (j <? S m))%nat with true by lia.
  destruct (swap_axes_spec (S m) i j ltac:(lia) ltac:(lia)) as (P & L & N). set (axes := set_nth j i _) in *.
  assert (Ek : k = O \/ k = m).
  { destruct Hv as (_ & Ll & sl & Hh & _). rewrite (holds_nr_comp f sl n Hh Ll) in Hk. injection Hk as <-. destruct Ll as [-> | ->]; auto. }
  assert (Hp : hd O axes = k \/ last axes O = k).
  { destruct Ek as [-> | ->].
    - left. replace (hd O axes) with (nth O axes O) by (destruct axes; reflexivity). rewrite N by lia.
      replace (0 =? i)%nat with false by lia. replace (0 =? j)%nat with false by lia. reflexivity.
    - right. destruct (exists_last (l := axes)) as (r & x & E); [intros E; rewrite E in L; discriminate|]. rewrite E, last_snoc.
      assert (Lr : length r = m) by (rewrite E, app_length in L; cbn in L; lia).
      pose proof (N m ltac:(lia)) as Nm. rewrite E, nth_snoc_eq in Nm by auto. rewrite Nm.
      replace (m =? i)%nat with false by lia. replace (m =? j)%nat with false by lia. reflexivity. }
  destruct (C40_vector C V f cs n k axes d Hv Ec P L Hk Hp Am Hd) as (g & H1 & _ & H3). exists g. auto.
Qed.
Print Assumptions C40_swapaxes_vector.

(** ** transposing back *)
Definition inverse_axes (axes inv : list nat) : Prop :=
  is_perm axes /\ is_perm inv /\ length inv = length axes /\ forall i, (i < length axes)%nat -> nth (nth i axes O) inv O = i.
Lemma inverse_pos axes inv k : inverse_axes axes inv -> (k < length axes)%nat -> pos k inv = nth k axes O.
Proof.
  intros (P & Pi & L & H) Hk. rewrite <- (H k Hk) at 1. apply pos_nth; [apply is_perm_NoDup; exact Pi|].
  rewrite L. apply is_perm_nth_lt; auto.
Qed.
Lemma inverse_permute {X} (x : X) axes inv l : inverse_axes axes inv -> length l = length axes ->
  permute x inv (permute x axes l) = l.
Proof.
  intros H Ll. pose proof H as (P & Pi & L & _). apply (nth_ext _ _ x x); [rewrite permute_len; lia|]. rewrite permute_len. intros k Hk.
  rewrite nth_permute by exact Hk.
  assert (E : (nth k inv O < length axes)%nat) by (rewrite <- L; apply is_perm_nth_lt; auto).
  rewrite nth_permute by exact E. f_equal. rewrite <- (inverse_pos axes inv _ H E). apply pos_nth; [apply is_perm_NoDup; exact Pi|exact Hk].
Qed.
Lemma transpose_transpose {V} axes inv (d : nd V) : inverse_axes axes inv -> length (shape d) = length axes ->
  nd_eq (nd_transpose inv (nd_transpose axes d)) d.
Proof.
  intros H Ld. pose proof H as (P & Pi & L & Hi). split.
  - cbn [shape nd_transpose]. change (permute 0 inv (permute 0 axes (shape d)) = shape d). apply inverse_permute; auto.
  - intros js Hj. cbn [get nd_transpose]. f_equal. apply unperm_unique; auto.
    + apply in_shape_len in Hj. cbn [shape nd_transpose] in Hj. rewrite map_length in Hj. lia.
    + intros i Hi'. rewrite nth_unperm by (rewrite L; exact Hi'). rewrite (inverse_pos axes inv i H Hi'). reflexivity.
Qed.
Lemma nd_transpose_eq {V} axes (a b : nd V) : nd_eq a b -> is_perm axes -> length axes = length (shape b) ->
  nd_eq (nd_transpose axes a) (nd_transpose axes b).
Proof.
  intros [S G] P L. split; cbn [shape get nd_transpose]; [rewrite S; reflexivity|]. intros js Hj. apply G. rewrite S in *.
  apply (unperm_in_shape axes b); auto.
Qed.

Theorem C40_scalar_and_back : forall (C V : Type) (f : fld C V) cs axes inv d,
  holds_scalar f -> crds_like f cs -> inverse_axes axes inv -> length axes = length (f_crds f) ->
  load f = Some d -> prod (shape d) <> 1 ->
  exists g h d', transpose cs axes f = WFld g /\ transpose (f_crds g) inv g = WFld h /\
    f_crds h = cs /\ load h = Some d' /\ nd_eq d' d.
Proof.
  intros C V f cs axes inv d Hh Ec Hinv L Hd Hp. pose proof Hinv as (P & Pi & Li & _).
  destruct (transpose_scalar f cs axes d Hh Ec P L Hd Hp) as (g & d1 & H1 & H2 & H3 & H4 & H5 & H6 & Sd).
  assert (Lcs : length cs = length axes) by (rewrite L, <- sshape_len; unfold crds_like in Ec; rewrite <- Ec; unfold sshape_of; rewrite map_length; reflexivity).
  assert (Lg : length inv = length (f_crds g)) by (rewrite H2, permute_len; exact Li).
  assert (Ld : length (shape d) = length axes) by (rewrite Sd, sshape_len; auto).
  destruct (transpose_scalar g (f_crds g) inv d1 H4 eq_refl Pi Lg H5) as (h & d2 & K1 & K2 & K3 & K4 & K5 & K6 & K7).
  - destruct H6 as [S6 _]. rewrite S6. cbn [shape nd_transpose]. intros E. apply Hp. rewrite <- E.
    assert (Pm : Permutation (map (fun k => nth k (shape d) 0) axes) (shape d)).
    { assert (Es : permute 0 (seq 0 (length axes)) (shape d) = shape d).
      { apply nth_ext0; [rewrite permute_len, seq_length; auto|]. rewrite permute_len, seq_length. intros k Hk.
        rewrite nth_permute by (rewrite seq_length; exact Hk). rewrite seq_nth by exact Hk. reflexivity. }
      apply Permutation_trans with (permute 0 (seq 0 (length axes)) (shape d)); [|rewrite Es; apply Permutation_refl].
      unfold permute. apply Permutation_map. exact P. }
    symmetry. apply prod_perm. exact Pm.
  - exists g, h, d2. split; [exact H1|]. split; [exact K1|]. split.
    + rewrite K2, H2. apply inverse_permute; auto.
    + split; [exact K5|]. apply (nd_eq_trans _ _ _ K6). apply (nd_eq_trans _ (nd_transpose inv (nd_transpose axes d))).
      * apply nd_transpose_eq; auto. cbn [shape nd_transpose]. rewrite map_length. exact Li.
      * apply transpose_transpose; auto.
Qed.
Print Assumptions C40_scalar_and_back.

Theorem C40_vector_and_back : forall (C V : Type) (f : fld C V) cs n k axes inv d,
  holds_vector f n -> crds_like f cs -> inverse_axes axes inv -> length axes = S (length (f_crds f)) ->
  nr_comp f = Some k -> hd O axes = k \/ last axes O = k ->
  ~ ambiguous (sshape f) n -> load f = Some d ->
  exists g h d', transpose cs axes f = WFld g /\ transpose (f_crds g) inv g = WFld h /\
    f_crds h = cs /\ layout_of h = layout_of f /\ load h = Some d' /\ nd_eq d' d.
Proof.
  intros C V f cs n k axes inv d Hv Ec Hinv L Hk Hp Am Hd. pose proof Hinv as (P & Pi & Li & Hi). pose proof Hv as (Hn & Ll & sl & Hh & Hz).
  set (m := length (f_crds f)) in *.
  assert (Ek : k = comp_pos (layout_of f) m).
  { rewrite (holds_nr_comp f sl n Hh Ll) in Hk. injection Hk as <-. destruct Ll as [-> | ->]; reflexivity. }
  destruct (comp_axes_all k axes m P L) as (caxes & to & Lt & Pc & Lc & Eax); [|exact Hp|].
  { rewrite Ek. destruct Ll as [-> | ->]; cbn; auto. }
  destruct (transpose_vector f cs n to caxes d Hv Ec Lt Pc Lc Hd (fun _ => Am)) as (g & d1 & H1 & H2 & H3 & H4 & H5 & H6 & H7 & H8).
  fold m in H1, H8. rewrite <- Ek, <- Eax in H1, H8.
  assert (Lcs : length cs = m) by (unfold m; rewrite <- sshape_len; unfold crds_like in Ec; rewrite <- Ec; unfold sshape_of; rewrite map_length; reflexivity).
  assert (Lgm : length (f_crds g) = m) by (rewrite H2, permute_len; exact Lc).
  (* the inverse brings the component axis from [comp_pos to m] to [k] *)
  assert (Ki : inv = comp_axes (comp_pos to m) (layout_of f) (map (fun i => pos i caxes) (seq 0 m))).
  { apply (nth_ext _ _ O O); [rewrite comp_axes_len, map_length, seq_length; lia|]. rewrite Li, L. intros x Hx.
    set (icaxes := map (fun i => pos i caxes) (seq 0 m)).
    assert (Lic : length icaxes = m) by (unfold icaxes; rewrite map_length, seq_length; reflexivity).
    assert (Pk : nth (comp_pos to m) axes O = k).
    { rewrite Eax. destruct Lt as [-> | ->]; cbn [comp_axes comp_pos]; [reflexivity|]. apply nth_snoc_eq. rewrite map_length. auto. }
    assert (Hcp : (comp_pos to m < length axes)%nat) by (rewrite L; destruct to; cbn; lia).
    assert (Ps : forall i, (i < m)%nat -> nth (shift (comp_pos to m) i) axes O = shift k (nth i caxes O)).
    { intros i Hi'. rewrite Eax. unfold shift at 1. destruct Lt as [-> | ->]; cbn [comp_axes comp_pos].
      - cbn [Nat.leb nth]. rewrite (nth_indep _ O (shift k O)) by (rewrite map_length; lia). apply map_nth.
      - replace (m <=? i)%nat with false by lia. rewrite nth_snoc_lt by (rewrite map_length; lia).
        rewrite (nth_indep _ O (shift k O)) by (rewrite map_length; lia). apply map_nth. }
    assert (Ex : (x = k) \/ exists i, (i < m)%nat /\ x = shift k i).
    { destruct (Nat.eq_dec x k) as [E|E]; [left; exact E|right].
      exists (if (k <? x)%nat then (x - 1)%nat else x). assert (k = O \/ k = m) by (rewrite Ek; destruct Ll as [-> | ->]; cbn; auto).
      unfold shift. destruct (Nat.ltb_spec k x); split; try lia.
      - destruct (Nat.leb_spec k (x - 1)); lia.
      - destruct (Nat.leb_spec k x); lia. }
    assert (Nc : forall l (y : nat), nth (comp_pos l m) (comp_axes y l icaxes) O = y).
    { intros l y. destruct l; cbn [comp_axes comp_pos]; try reflexivity. apply nth_snoc_eq. rewrite map_length. auto. }
    assert (Ns : forall l (y : nat) i, (i < m)%nat -> nth (shift (comp_pos l m) i) (comp_axes y l icaxes) O = shift y (nth i icaxes O)).
    { intros l y i Hi'. unfold shift at 1. destruct l; cbn [comp_axes comp_pos];
        try (cbn [Nat.leb nth]; rewrite (nth_indep _ O (shift y O)) by (rewrite map_length; lia); apply map_nth).
      replace (m <=? i)%nat with false by lia. rewrite nth_snoc_lt by (rewrite map_length; lia).
      rewrite (nth_indep _ O (shift y O)) by (rewrite map_length; lia). apply map_nth. }
    destruct Ex as [-> | (i & Hi' & ->)].
    - rewrite <- Pk at 1. rewrite Hi by exact Hcp. rewrite Ek. rewrite Nc. reflexivity.
    - assert (Hin : In i caxes) by (apply (is_perm_In _ _ Pc); rewrite Lc; exact Hi').
      destruct (nth_pos caxes i O Hin) as [Ep Lp]. rewrite Lc in Lp.
      rewrite <- Ep at 1. rewrite <- Ps by exact Lp.
      rewrite Hi by (rewrite L; unfold shift; destruct (_ <=? _)%nat; lia).
      rewrite Ek, Ns by exact Hi'. f_equal. unfold icaxes.
      rewrite (nth_indep _ O ((fun i => pos i caxes) O)) by (rewrite map_length, seq_length; lia).
      rewrite (map_nth (fun i => pos i caxes)), seq_nth by exact Hi'. reflexivity. }
  set (icaxes := map (fun i => pos i caxes) (seq 0 m)) in *.
  assert (Hic : inverse_axes caxes icaxes).
  { assert (Lic : length icaxes = m) by (unfold icaxes; rewrite map_length, seq_length; reflexivity).
    assert (Nic : forall i, (i < m)%nat -> nth i icaxes O = pos i caxes).
    { intros i Hi'. unfold icaxes. rewrite (nth_indep _ O ((fun i => pos i caxes) O)) by (rewrite map_length, seq_length; lia).
      rewrite (map_nth (fun i => pos i caxes)), seq_nth by exact Hi'. reflexivity. }
    assert (Hin : forall i, (i < m)%nat -> In i caxes) by (intros i Hi'; apply (is_perm_In _ _ Pc); rewrite Lc; exact Hi').
    split; [exact Pc|]. split.
    - unfold is_perm. rewrite Lic. apply NoDup_lt_perm; [|exact Lic|].
      + apply (NoDup_nth icaxes O). rewrite Lic. intros a b Ha Hb E. rewrite !Nic in E by auto.
        destruct (nth_pos caxes a O (Hin _ Ha)) as [Ea _].
        destruct (nth_pos caxes b O (Hin _ Hb)) as [Eb _]. congruence.
      + intros x Hx. apply (In_nth _ _ O) in Hx as (i & Hi' & <-). rewrite Lic in Hi'. rewrite Nic by exact Hi'.
        destruct (nth_pos caxes i O (Hin _ Hi')) as [_ Lp]. lia.
    - split; [lia|]. intros i Hi'. rewrite Nic by (rewrite <- Lc; apply is_perm_nth_lt; auto).
      apply pos_nth; [apply is_perm_NoDup; exact Pc|exact Hi']. }
  assert (Amg : ~ ambiguous (sshape g) n).
  { intros A. apply Am. unfold sshape in A. rewrite H2, sshape_permute in A. unfold crds_like in Ec. rewrite Ec in A.
    apply ambiguous_permute in A; auto. rewrite sshape_len. exact Lc. }
  destruct (transpose_vector g (f_crds g) n (layout_of f) icaxes d1 H5 eq_refl Ll ltac:(apply Hic)) as (h & d2 & K1 & K2 & K3 & K4 & K5 & K6 & K7 & K8).
  - unfold icaxes. rewrite map_length, seq_length. auto.
  - exact H6.
  - intros _. exact Amg.
  - rewrite Lgm, H4 in K1, K8. rewrite <- Ki in K1, K8. exists g, h, d2. split; [exact H1|]. split; [exact K1|]. split.
    + rewrite K2, H2. apply inverse_permute; auto. lia.
    + split; [exact K4|]. split; [exact K6|]. apply (nd_eq_trans _ _ _ K8).
      assert (Ld : length (shape d) = length axes).
      { rewrite H7, L. destruct Ll as [-> | ->]; cbn [lay_shape]; rewrite ?app_length; cbn [length]; rewrite sshape_len; fold m; lia. }
      apply (nd_eq_trans _ (nd_transpose inv (nd_transpose axes d))).
      * apply nd_transpose_eq; auto. cbn [shape nd_transpose]. rewrite map_length. exact Li.
      * apply transpose_transpose; auto.
Qed.
Print Assumptions C40_vector_and_back.

(** Refuted with the component axis between space axes (numpy's [transpose], or
    [swapaxes(0, 1)] of a flat vector field): the array is taken for one component and
    reading it raises. *)
Definition vf : fld nat Z :=
  F true [(0%nat, [0%nat; 1%nat; 2%nat]); (1%nat, [0%nat; 1%nat; 2%nat; 3%nat])] [false; false]
    (SArr (ND [2; 3; 4] (fun js => match js with [c; x; y] => 100 * c + 10 * x + y | _ => 0 end))) false None.
Theorem C40_component_axis_inside_refuted :
  holds_vector vf 2 /\ (exists d, load vf = Some d) /\
  exists g, swapaxes (f_crds vf) 0 1 vf = WComp0 g /\ load g = None.
Proof.
  split.
  { split; [lia|]. split; [left; reflexivity|]. exists LFlat. split; [|left; reflexivity].
    repeat split; [left; reflexivity|discriminate]. }
  split; [eexists; vm_compute; reflexivity|]. eexists. split; vm_compute; reflexivity.
Qed.
Print Assumptions C40_component_axis_inside_refuted.

(** Refuted for equal lengths: the transposed flat field is interlaced but taken for flat,
    so that the first space axis becomes the component. *)
Theorem C40_equal_lengths_refuted :
  holds_vector cube 2 /\ exists g, transpose (f_crds cube) [1%nat; 2%nat; 0%nat] cube = WFld g /\
    (exists pt, has_value (f_crds cube) cube pt 1 100 /\ has_value (f_crds g) g pt 1 10 /\ ~ has_value (f_crds g) g pt 1 100).
Proof.
  split.
  { split; [lia|]. split; [left; reflexivity|]. exists LFlat. split; [apply C37_round_trip_refuted|left; reflexivity]. }
  eexists. split; [vm_compute; reflexivity|]. exists (fun _ => O). split; [|split].
  - eexists. exists [0; 0]. split; [vm_compute; reflexivity|]. split; [repeat constructor; lia|]. vm_compute. reflexivity.
  - eexists. exists [0; 0]. split; [vm_compute; reflexivity|]. split; [repeat constructor; lia|]. vm_compute. reflexivity.
  - intros (d & js & Hd & Hp & Hv). vm_compute in Hd. injection Hd as <-.
    inversion Hp as [|? j1 ? r1 [J1 E1] P1]; subst. inversion P1 as [|? j2 ? r2 [J2 E2] P2]; subst. inversion P2; subst.
    assert (j1 = 0).
    { cbn in E1. destruct (Z.to_nat j1) as [|[|[|]]] eqn:Ej; cbn in E1; try discriminate. lia. }
    assert (j2 = 0).
    { cbn in E2. destruct (Z.to_nat j2) as [|[|[|]]] eqn:Ej; cbn in E2; try discriminate. lia. }
    subst. vm_compute in Hv. discriminate.
Qed.
Print Assumptions C40_equal_lengths_refuted.

(** ** a non-trivial case *)
Example C40_ex : holds_vector vf 2 /\ crds_like vf (f_crds vf) /\ is_perm [0%nat; 2%nat; 1%nat] /\ ~ ambiguous (sshape vf) 2 /\
  exists g d', transpose (f_crds vf) [0%nat; 2%nat; 1%nat] vf = WFld g /\ load g = Some d' /\ shape d' = [2; 4; 3] /\ get d' [1; 3; 2] = 123.
Proof.
  split; [apply C40_component_axis_inside_refuted|]. split; [reflexivity|]. split.
  { unfold is_perm. cbn. apply perm_skip, perm_swap. }
  split; [intros H; inversion H; discriminate|].
  eexists. eexists. split; [vm_compute; reflexivity|]. split; [vm_compute; reflexivity|]. split; reflexivity.
Qed.
(** a scalar field read from an array stored in reversed axis order, y reflected *)
Definition sf : fld nat Z :=
  F false [(0%nat, [0%nat; 1%nat; 2%nat]); (1%nat, [0%nat; 1%nat; 2%nat; 3%nat])] [false; true]
    (SArr (ND [4; 3] (fun js => match js with [y; x] => 10 * x + y | _ => 0 end))) true None.
Example C40_scalar_ex : holds_scalar sf /\ inverse_axes [1%nat; 0%nat] [1%nat; 0%nat] /\
  (exists d, load sf = Some d /\ prod (shape d) = 12) /\
  exists g d', transpose (reflected (@rev nat) sf) [1%nat; 0%nat] sf = WFld g /\ load g = Some d' /\ shape d' = [4; 3] /\
    f_crds g = [(1%nat, [3%nat; 2%nat; 1%nat; 0%nat]); (0%nat, [0%nat; 1%nat; 2%nat])] /\ get d' [0; 2] = 23.
Proof.
  split. { repeat split. eexists. split; reflexivity. }
  assert (P : is_perm [1%nat; 0%nat]) by (unfold is_perm; cbn; apply perm_swap).
  split. { split; [exact P|]. split; [exact P|]. split; [reflexivity|]. intros [|[|i]] Hi; cbn in Hi |- *; lia. }
  split; [eexists; split; vm_compute; reflexivity|].
  eexists. eexists. split; [vm_compute; reflexivity|]. split; [vm_compute; reflexivity|]. repeat split; reflexivity.
Qed.
