(** C79: a field in another form has the same values at the same places. *)
From Verif Require Import FldModel FwdSliceNd FldProofs LayoutProps TransProps ReduceProps CrdModel CrdProps ViewModel.
From Coq Require Import ZifyBool ZifyNat Arith Permutation Sorted QArith Lqa Field.
Open Scope Z_scope.

(** ** specification *)
(** the axes [ncs] are those of [cs], in the same order and with the same places, and as many more axes with the one place [c0] as make three *)
Definition three_axes {C} (c0 : C) (cs ncs : list (crd C)) : Prop :=
  length ncs = 3%nat /\
  filter (fun a => existsb (Nat.eqb (fst a)) (map fst cs)) ncs = cs /\
  forall a, In a ncs -> ~ In (fst a) (map fst cs) -> snd a = [c0].
(** one or two axes, none with a name that is made up *)
Definition few_axes {C} (cs : list (crd C)) : Prop :=
  (length cs = 1%nat \/ length cs = 2%nat) /\ NoDup (map fst cs) /\ forall k, In k (map fst cs) -> ~ (3 <= k <= 5)%nat.
(** the same values of the [n] components at the same places: the new axes at [c0] *)
Definition same_values {C V} (n : Z) (c0 : C) (cs : list (crd C)) (f : fld C V) (ncs : list (crd C)) (g : fld C V) : Prop :=
  forall pt c v, 0 <= c < n -> (forall k, ~ In k (map fst cs) -> pt k = c0) -> (has_value ncs g pt c v <-> has_value cs f pt c v).

(** ** inserting axes *)
Lemma in_insert {X} k (x y : X) : forall l, In y (insert_at k x l) <-> y = x \/ In y l.
Proof.
  induction k as [|k IH]; intros l; [cbn; intuition congruence|]. destruct l as [|z l]; cbn [insert_at In]; [intuition congruence|]. rewrite IH. intuition congruence.
Qed.
Lemma length_insert {X} k (x : X) : forall l, length (insert_at k x l) = S (length l).
Proof. induction k as [|k IH]; intros [|z l]; cbn [insert_at length]; try reflexivity. rewrite IH. reflexivity. Qed.
Lemma map_insert {X Y} (h : X -> Y) k x : forall l, map h (insert_at k x l) = insert_at k (h x) (map h l).
Proof. induction k as [|k IH]; intros [|z l]; cbn [insert_at map]; try reflexivity. rewrite IH. reflexivity. Qed.
Lemma filter_insert {X} (h : X -> bool) k x : h x = false -> forall l, filter h (insert_at k x l) = filter h l.
Proof. intros Hx. induction k as [|k IH]; intros [|z l]; cbn [insert_at filter]; rewrite ?Hx; try reflexivity. rewrite IH. reflexivity. Qed.
Lemma prod_insert k : forall sh, prod (insert_at k 1 sh) = prod sh.
Proof.
  induction k as [|k IH]; intros sh; [change (prod (insert_at 0 1 sh)) with (1 * prod sh); lia|]. destruct sh as [|z sh]; [reflexivity|].
  change (z * prod (insert_at k 1 sh) = z * prod sh). rewrite IH. reflexivity.
Qed.
Lemma ravel_insert k : forall sh js, length js = length sh -> ravel (insert_at k 1 sh) (insert_at k 0 js) = ravel sh js.
Proof.
  induction k as [|k IH]; intros sh js E; [cbn [insert_at ravel]; lia|]. destruct sh as [|z sh], js as [|j js]; try discriminate; [reflexivity|].
  cbn [insert_at ravel]. rewrite prod_insert, IH by (cbn in E; lia). reflexivity.
Qed.
Section I.
Context {C : Type}.
Implicit Types (cs : list (crd C)).
Lemma at_places_insert (c0 : C) a pt k : forall cs js, at_places (insert_at k (a, [c0]) cs) pt js <->
  pt a = c0 /\ exists is, js = insert_at k 0 is /\ at_places cs pt is.
Proof.
  unfold at_places.
  assert (One : forall j, 0 <= j /\ nth_error [c0] (Z.to_nat j) = Some (pt a) <-> j = 0 /\ pt a = c0).
  { intros j. split.
    - intros (P & E). destruct (Z.to_nat j) as [|[|m]] eqn:Ej; cbn in E; try discriminate. injection E as <-. split; [lia|reflexivity].
    - intros (-> & ->). split; [lia|reflexivity]. }
  induction k as [|k IH]; intros cs js.
  - replace (insert_at 0 (a, [c0]) cs) with ((a, [c0]) :: cs) by (destruct cs; reflexivity). split.
    + intros H. inversion H as [|? j ? r Hj Hr]; subst. cbn [fst snd] in Hj. apply One in Hj as (-> & E). split; [exact E|]. exists r. split; [destruct r; reflexivity|exact Hr].
    + intros (E & is & -> & H). replace (insert_at 0 0 is) with (0 :: is) by (destruct is; reflexivity). constructor; [apply One; auto|exact H].
  - destruct cs as [|x cs]; cbn [insert_at].
    + split.
      * intros H. inversion H as [|? j ? r Hj Hr]; subst. inversion Hr; subst. cbn [fst snd] in Hj. apply One in Hj as (-> & E). split; [exact E|]. exists []. split; [reflexivity|constructor].
      * intros (E & is & -> & H). inversion H; subst. cbn [insert_at]. constructor; [apply One; auto|constructor].
    + split.
      * intros H. inversion H as [|? j ? r Hj Hr]; subst. apply IH in Hr as (E & is & -> & H'). split; [exact E|]. exists (j :: is). split; [reflexivity|]. constructor; assumption.
      * intros (E & is & -> & H). inversion H as [|? j ? r Hj Hr]; subst. cbn [insert_at]. constructor; [exact Hj|]. apply IH. split; [reflexivity|]. exists r. auto.
Qed.
Lemma at_places_at3 (c0 : C) pt news : forall cs js, at_places (at3 news (fun a => (a, [c0])) cs) pt js <->
  (forall p, In p news -> pt (snd p) = c0) /\ exists is, js = at3 news (fun _ => 0) is /\ at_places cs pt is.
Proof.
  induction news as [|[k a] news IH]; intros cs js.
  - cbn. split; [intros H; split; [tauto|exists js; auto]|]. intros (_ & is & -> & H). exact H.
  - unfold at3 in *. cbn [fold_left fst snd]. rewrite IH. split.
    + intros (Hn & is & E & H). apply at_places_insert in H as (E1 & is1 & -> & H1). split.
      * intros p [<-|Hp]; [exact E1|apply Hn; exact Hp].
      * exists is1. auto.
    + intros (Hn & is & E & H). split; [intros p Hp; apply Hn; right; exact Hp|]. exists (insert_at k 0 is). split; [exact E|].
      apply at_places_insert. split; [apply (Hn (k, a)); left; reflexivity|]. exists is. auto.
Qed.
Lemma sshape_at3 (c0 : C) news : forall cs, sshape_of (at3 news (fun a => (a, [c0])) cs) = at3 news (fun _ => 1) (sshape_of cs).
Proof.
  induction news as [|[k a] news IH]; intros cs; [reflexivity|]. unfold at3 in *. cbn [fold_left fst snd]. rewrite IH. f_equal. unfold sshape_of. rewrite map_insert. reflexivity.
Qed.
Lemma prod_at3 news : forall sh, prod (at3 news (fun _ => 1) sh) = prod sh.
Proof. induction news as [|[k a] news IH]; intros sh; [reflexivity|]. unfold at3 in *. cbn [fold_left fst snd]. rewrite IH. apply prod_insert. Qed.
Lemma ravel_at3 news : forall sh js, length js = length sh -> ravel (at3 news (fun _ => 1) sh) (at3 news (fun _ => 0) js) = ravel sh js.
Proof.
  induction news as [|[k a] news IH]; intros sh js E; [reflexivity|]. unfold at3 in *. cbn [fold_left fst snd]. rewrite IH by (rewrite !length_insert; lia). apply ravel_insert. exact E.
Qed.
Lemma length_at3 {X} news (mk : nat -> X) : forall l, length (at3 news mk l) = (length news + length l)%nat.
Proof. induction news as [|[k a] news IH]; intros l; [reflexivity|]. unfold at3 in *. cbn [fold_left fst snd length]. rewrite IH, length_insert. lia. Qed.
Lemma at3_new_ok cs : few_axes cs -> length (at3_new (map fst cs)) = (3 - length cs)%nat /\ forall p, In p (at3_new (map fst cs)) -> ~ In (snd p) (map fst cs).
Proof.
  intros (Hl & ND & Hn).
  assert (Hc : forall l, (length l = 1%nat \/ length l = 2%nat) -> NoDup l -> (forall k, In k l -> ~ (3 <= k <= 5)%nat) ->
    length (at3_new l) = (3 - length l)%nat /\ forall p, In p (at3_new l) -> ~ In (snd p) l).
  { clear. intros l Hl ND Hn. destruct l as [|a l]; [cbn in Hl; lia|]. destruct l as [|b l].
    - specialize (Hn a (or_introl eq_refl)). destruct a as [|[|[|a]]];
        (split; [reflexivity|intros p Hp; cbn in Hp; destruct Hp as [<-|[<-|[]]]; cbn [snd In]; lia]).
    - destruct l as [|? l]; [|cbn in Hl; lia]. pose proof (Hn a (or_introl eq_refl)) as Ha. pose proof (Hn b (or_intror (or_introl eq_refl))) as Hb.
      assert (a <> b) by (inversion ND as [|? ? Hx]; subst; cbn in Hx; intuition). clear ND Hn Hl.
      destruct a as [|[|[|a]]]; destruct b as [|[|[|b]]]; try lia; (split; [reflexivity|intros p Hp; cbn in Hp; destruct Hp as [<-|[]]; cbn [snd In]; lia]). }
  replace (length cs) with (length (map fst cs)) by apply map_length. apply Hc; rewrite ?map_length; assumption.
Qed.
Lemma at3_filter (c0 : C) names news : (forall p, In p news -> ~ In (snd p) names) -> forall cs,
  filter (fun a => existsb (Nat.eqb (fst a)) names) (at3 news (fun a => (a, [c0])) cs) = filter (fun a => existsb (Nat.eqb (fst a)) names) cs.
Proof.
  induction news as [|[k a] news IH]; intros Hn cs; [reflexivity|]. unfold at3 in *. cbn [fold_left fst snd]. rewrite IH by (intros p Hp; apply Hn; right; exact Hp).
  apply filter_insert. cbn [fst]. destruct (existsb (Nat.eqb a) names) eqn:E; [|reflexivity]. apply existsb_exists in E as (y & Hy & Ey). apply Nat.eqb_eq in Ey. subst y.
  exfalso. exact (Hn (k, a) (or_introl eq_refl) Hy).
Qed.
Lemma at3_in (c0 : C) news : forall cs x, In x (at3 news (fun a => (a, [c0])) cs) -> In x cs \/ snd x = [c0].
Proof.
  induction news as [|[k a] news IH]; intros cs x H; [left; exact H|]. unfold at3 in *. cbn [fold_left fst snd] in H. apply IH in H as [H|H]; [|auto].
  apply in_insert in H as [->|H]; auto.
Qed.
End I.

(** ** the axes of [atleast_3d] *)
Theorem C79_three_axes : forall (C : Type) (c0 : C) cs, few_axes cs -> three_axes c0 cs (at3_crds c0 cs).
Proof.
  intros C c0 cs Hf. destruct (at3_new_ok cs Hf) as (Hl & Hn). unfold at3_crds. split; [|split].
  - rewrite length_at3, Hl. destruct Hf as (Hl' & _). lia.
  - rewrite at3_filter by exact Hn. assert (A : forall l, (forall x, In x l -> In x cs) -> filter (fun a : crd C => existsb (Nat.eqb (fst a)) (map fst cs)) l = l).
    { induction l as [|x l IH]; intros Hs; [reflexivity|]. cbn [filter]. replace (existsb (Nat.eqb (fst x)) (map fst cs)) with true.
      - f_equal. apply IH. intros y Hy. apply Hs. right. exact Hy.
      - symmetry. apply existsb_exists. exists (fst x). split; [apply in_map; apply Hs; left; reflexivity|apply Nat.eqb_refl]. }
    apply A. auto.
  - intros a Ha Hna. apply at3_in in Ha as [Ha|Ha]; [|exact Ha]. exfalso. apply Hna. apply in_map. exact Ha.
Qed.
Print Assumptions C79_three_axes.

(** Axes of x, y, z in that order stay in that order, whichever are there. *)
Theorem C79_three_axes_xyz : forall (C : Type) (c0 : C) cs,
  In (map fst cs) [[0]; [1]; [2]; [0; 1]; [0; 2]; [1; 2]]%nat -> map fst (at3_crds c0 cs) = [0; 1; 2]%nat.
Proof.
  intros C c0 cs H. assert (E : map fst (at3_crds c0 cs) = at3 (at3_new (map fst cs)) (fun a => a) (map fst cs)).
  { unfold at3_crds. generalize (at3_new (map fst cs)) as news. intros news. revert cs H. intros cs _. revert cs.
    induction news as [|[k a] news IH]; intros cs; [reflexivity|]. unfold at3 in *. cbn [fold_left fst snd]. rewrite IH, map_insert. reflexivity. }
  rewrite E. cbn [In] in H. destruct H as [<-|[<-|[<-|[<-|[<-|[<-|[]]]]]]]; reflexivity.
Qed.
Print Assumptions C79_three_axes_xyz.

(** ** the values of [atleast_3d] *)
Section V.
Context {C V : Type}.
Implicit Types (f g : fld C V) (cs : list (crd C)) (d e : nd V).
Lemma sshape_insert_neq (c0 : C) cs : few_axes cs -> sshape_of (at3_crds c0 cs) <> sshape_of cs.
Proof.
  intros Hf E. apply (f_equal (@length Z)) in E. unfold sshape_of in E. rewrite !map_length in E. unfold at3_crds in E. rewrite length_at3 in E.
  destruct (at3_new_ok cs Hf) as (Hl & _). destruct Hf as (Hl' & _). lia.
Qed.
Lemma reshape_scalar (c0 : C) cs d : few_axes cs -> shape d = sshape_of cs ->
  exists e, nd_reshape (sshape_of (at3_crds c0 cs)) d = Some e /\ shape e = sshape_of (at3_crds c0 cs) /\
    forall js, in_shape (sshape_of cs) js -> get e (at3 (at3_new (map fst cs)) (fun _ => 0) js) = get d js.
Proof.
  intros Hf Sd. unfold nd_reshape. rewrite Sd. rewrite leqb_neq by (intros E; symmetry in E; revert E; apply sshape_insert_neq; exact Hf).
  assert (P : prod (sshape_of cs) = prod (sshape_of (at3_crds c0 cs))) by (unfold at3_crds; rewrite sshape_at3, prod_at3; reflexivity).
  rewrite <- P, Z.eqb_refl. eexists. split; [reflexivity|]. cbn [shape get]. split; [reflexivity|]. intros js Hj.
  unfold at3_crds. rewrite sshape_at3, ravel_at3 by (apply in_shape_len; exact Hj). rewrite unravel_ravel by exact Hj. reflexivity.
Qed.
Lemma reshape_flat (c0 : C) cs d n : few_axes cs -> shape d = n :: sshape_of cs ->
  exists e, nd_reshape (n :: sshape_of (at3_crds c0 cs)) d = Some e /\ shape e = n :: sshape_of (at3_crds c0 cs) /\
    forall c js, 0 <= c < n -> in_shape (sshape_of cs) js -> get e (c :: at3 (at3_new (map fst cs)) (fun _ => 0) js) = get d (c :: js).
Proof.
  intros Hf Sd. unfold nd_reshape. rewrite Sd. rewrite leqb_neq by (intros E; injection E as E; symmetry in E; revert E; apply sshape_insert_neq; exact Hf).
  assert (P : prod (sshape_of (at3_crds c0 cs)) = prod (sshape_of cs)) by (unfold at3_crds; rewrite sshape_at3, prod_at3; reflexivity).
  replace (prod (n :: sshape_of cs) =? prod (n :: sshape_of (at3_crds c0 cs))) with true
    by (symmetry; apply Z.eqb_eq; change (n * prod (sshape_of cs) = n * prod (sshape_of (at3_crds c0 cs))); rewrite P; reflexivity).
  eexists. split; [reflexivity|]. cbn [shape get]. split; [reflexivity|]. intros c js Hc Hj.
  assert (R : ravel (n :: sshape_of (at3_crds c0 cs)) (c :: at3 (at3_new (map fst cs)) (fun _ => 0) js) = ravel (n :: sshape_of cs) (c :: js)).
  { cbn [ravel]. rewrite P. unfold at3_crds. rewrite sshape_at3, ravel_at3 by (apply in_shape_len; exact Hj). reflexivity. }
  rewrite R, unravel_ravel by (constructor; [exact Hc|exact Hj]). reflexivity.
Qed.
Lemma same_from (c0 : C) cs f g d d' n (ix iy : list Z -> Z -> V) : few_axes cs -> load f = Some d -> load g = Some d' ->
  (forall c js, (if f_vec f then comp_at (layout_of f) d c js else get d js) = ix js c) ->
  (forall c js, (if f_vec g then comp_at (layout_of g) d' c js else get d' js) = iy js c) ->
  (forall c js, 0 <= c < n -> in_shape (sshape_of cs) js -> iy (at3 (at3_new (map fst cs)) (fun _ => 0) js) c = ix js c) ->
  same_values n c0 cs f (at3_crds c0 cs) g.
Proof.
  intros Hf Ld Ld' Ex Ey H pt c v Hc Hpt. destruct (at3_new_ok cs Hf) as (_ & Hn). unfold has_value, at3_crds. split.
  - intros (d1 & js & E1 & Hp & ->). rewrite Ld' in E1. injection E1 as <-. apply at_places_at3 in Hp as (_ & is & -> & Hp). exists d, is. split; [exact Ld|]. split; [exact Hp|].
    rewrite Ey, Ex. apply H; [exact Hc|]. eapply at_places_in_shape. exact Hp.
  - intros (d1 & js & E1 & Hp & ->). rewrite Ld in E1. injection E1 as <-. exists d', (at3 (at3_new (map fst cs)) (fun _ => 0) js). split; [exact Ld'|]. split.
    + apply at_places_at3. split; [|exists js; auto]. intros p Hp'. apply Hpt. apply Hn. exact Hp'.
    + rewrite Ey, Ex. symmetry. apply H; [exact Hc|]. eapply at_places_in_shape. exact Hp.
Qed.
Lemma at3_in_shape (c0 : C) cs js : in_shape (sshape_of cs) js -> in_shape (sshape_of (at3_crds c0 cs)) (at3 (at3_new (map fst cs)) (fun _ => 0) js).
Proof.
  intros H. unfold at3_crds. rewrite sshape_at3. generalize (at3_new (map fst cs)) as news. intros news. revert H. generalize (sshape_of cs) as sh. intros sh. revert sh js.
  induction news as [|[k a] news IH]; intros sh js H; [exact H|]. unfold at3 in *. cbn [fold_left fst snd]. apply IH. clear IH. revert sh js H.
  induction k as [|k IH]; intros sh js H.
  - replace (insert_at 0 1 sh) with (1 :: sh) by (destruct sh; reflexivity). replace (insert_at 0 0 js) with (0 :: js) by (destruct js; reflexivity). constructor; [lia|exact H].
  - inversion H; subst; cbn [insert_at]; [constructor; [lia|constructor]|]. constructor; [assumption|]. apply IH. assumption.
Qed.
End V.

(** Scalar fields whose data are loaded. *)
Theorem C79_atleast_3d_scalar : forall (C V : Type) (c0 : C) cs (f : fld C V),
  holds_scalar f -> crds_like f cs -> few_axes cs -> prod (sshape f) <> 1 ->
  exists g, atleast_3d c0 cs true f = WFld g /\ three_axes c0 cs (f_crds g) /\ f_refl g = [false; false; false] /\ same_values 1 c0 cs f (f_crds g) g.
Proof.
  intros C V c0 cs f Hs Hc Hf Hp. destruct (load_scalar f Hs) as (a & d & Es & Ed & Sd & _). unfold crds_like in Hc.
  destruct (reshape_scalar c0 cs d Hf ltac:(congruence)) as (e & Ee & Se & Ge).
  assert (Pe : prod (shape e) <> 1) by (rewrite Se; unfold at3_crds; rewrite sshape_at3, prod_at3, Hc; exact Hp).
  destruct (wrap_scalar (f_vec f) (at3_crds c0 cs) e Se Pe) as (g & d' & Ew & Cg & Vg & Hg & Lg & Sg & Gg).
  exists g. unfold atleast_3d. replace (3 <=? length cs)%nat with false by (destruct Hf as (Hl & _); lia). rewrite Ed.
  assert (Vf : f_vec f = false) by apply Hs. unfold nr_comps. rewrite Vf. cbn [negb]. change (0 =? 0) with true. cbn iota. rewrite Ee. rewrite Vf in Ew. split; [exact Ew|].
  rewrite Cg. pose proof (C79_three_axes C c0 cs Hf) as T3. split; [exact T3|]. split.
  { pose proof Ew as Ew'. unfold wrap in Ew'. apply Z.eqb_neq in Pe. rewrite Pe, Se, leqb_refl in Ew'. cbn [nr_comps f_vec negb] in Ew'. change (0 =? 1) with false in Ew'. cbn iota in Ew'.
    injection Ew' as <-. cbn [f_refl]. destruct T3 as (T & _). destruct (at3_crds c0 cs) as [|x1 [|x2 [|x3 [|]]]]; try discriminate. reflexivity. }
  eapply (same_from c0 cs f g d d' 1 (fun js _ => get d js) (fun js _ => get d' js)); try eassumption.
  - intros c js. rewrite Vf. reflexivity.
  - intros c js. rewrite Vg. reflexivity.
  - intros c js _ Hj. rewrite Gg; [apply Ge; exact Hj|]. rewrite Sg, Se. apply at3_in_shape. exact Hj.
Qed.
Print Assumptions C79_atleast_3d_scalar.

(** Scalar fields whose data are not loaded, in the order of the coordinates and not reflected. *)
Theorem C79_atleast_3d_scalar_unloaded : forall (C V : Type) (c0 : C) cs (f : fld C V),
  holds_scalar f -> crds_like f cs -> few_axes cs -> prod (sshape f) <> 1 -> f_zyx f = false -> (forall b, In b (f_refl f) -> b = false) ->
  exists g, atleast_3d c0 cs false f = WFld g /\ three_axes c0 cs (f_crds g) /\ f_refl g = [false; false; false] /\ same_values 1 c0 cs f (f_crds g) g.
Proof.
  intros C V c0 cs f Hs Hc Hf Hp Hz Hr. destruct (load_scalar f Hs) as (a & d & Es & Ed & Sd & Gd). pose proof Hs as (Vf & Lr & _ & a' & Es' & Sa'). rewrite Es in Es'. injection Es' as <-.
  unfold native_sshape in Sa'. rewrite Hz in Sa'. unfold crds_like in Hc.
  assert (Sa : shape a = sshape_of cs) by congruence.
  assert (Gd' : forall js, in_shape (sshape_of cs) js -> get d js = get a js).
  { intros js Hj. rewrite Hc in Hj. rewrite Gd by exact Hj. rewrite Hz. cbn zeta iota. f_equal.
    assert (A : forall sh rv ks, (forall b, In b rv -> b = false) -> flip_idx sh rv ks = ks).
    { induction sh as [|x sh IH]; intros [|b rv] [|k ks] Hb; try reflexivity. cbn [flip_idx]. rewrite (Hb b (or_introl eq_refl)), IH; [reflexivity|]. intros b' Hb'. apply Hb. right. exact Hb'. }
    apply A. exact Hr. }
  destruct (reshape_scalar c0 cs a Hf Sa) as (e & Ee & Se & Ge). set (ncs := at3_crds c0 cs) in *.
  pose proof (C79_three_axes C c0 cs Hf) as T3. fold ncs in T3.
  set (g := F false ncs (map (fun _ => false) ncs) (SArr a) false None). set (g' := F false ncs (map (fun _ => false) ncs) (SArr e) false None).
  assert (Lgg : load g = load g').
  { unfold load. cbn [f_force g g']. cbn [orb]. unfold xyz_src. cbn [f_zyx g g' f_src]. unfold dat_to_nd, fshape, nr_comp. cbn [f_vec g g' negb].
    change (sshape g) with (sshape_of ncs). change (sshape g') with (sshape_of ncs). rewrite Ee. unfold nd_reshape. rewrite Se, leqb_refl. reflexivity. }
  assert (Hg' : holds_scalar g').
  { split; [reflexivity|]. split; [apply map_length|]. split; [reflexivity|]. exists e. split; [reflexivity|exact Se]. }
  destruct (load_scalar g' Hg') as (e' & d' & Ee' & Ed' & Sd' & Gd2). injection Ee' as <-. change (sshape g') with (sshape_of ncs) in *. cbn [f_refl f_zyx g'] in Gd2.
  exists g. split.
  { unfold atleast_3d. replace (3 <=? length cs)%nat with false by (destruct Hf as (Hl & _); lia). fold ncs. rewrite Es. unfold wrap.
    assert (L3 : length (sshape_of ncs) = 3%nat) by (unfold sshape_of; rewrite map_length; apply T3).
    assert (Lc : length (sshape_of cs) = length cs) by apply map_length. assert (La : (length (shape a) < 3)%nat) by (rewrite Sa, Lc; destruct Hf as (Hl & _); lia).
    assert (Pa : (prod (shape a) =? 1) = false) by (apply Z.eqb_neq; rewrite Sa'; exact Hp). rewrite Pa.
    rewrite leqb_len by lia. rewrite leqb_len by (destruct (shape a); cbn [tl length] in *; lia). rewrite leqb_len.
    - cbn [orb]. rewrite Vf. reflexivity.
    - assert (B : forall l : list Z, (length (removelast l) <= length l)%nat) by (induction l as [|x l IHl]; [cbn; lia|]; destruct l; cbn in *; lia). specialize (B (shape a)). lia. }
  cbn [f_crds g]. split; [exact T3|]. split.
  { cbn [f_refl g]. destruct T3 as (T & _). destruct ncs as [|x1 [|x2 [|x3 [|]]]]; try discriminate. reflexivity. }
  eapply (same_from c0 cs f g d d' 1 (fun js _ => get d js) (fun js _ => get d' js)); try eassumption; try congruence.
  - intros c js. rewrite Vf. reflexivity.
  - reflexivity.
  - intros c js _ Hj. rewrite Gd2 by (apply at3_in_shape; exact Hj). rewrite flip_false. rewrite Ge by exact Hj. symmetry. apply Gd'. exact Hj.
Qed.
Print Assumptions C79_atleast_3d_scalar_unloaded.

(** Vector fields in the flat layout whose data are loaded. *)
Theorem C79_atleast_3d_flat : forall (C V : Type) (c0 : C) cs (f : fld C V) n,
  holds_vector f n -> layout_of f = LFlat -> crds_like f cs -> few_axes cs ->
  exists g, atleast_3d c0 cs true f = WFld g /\ three_axes c0 cs (f_crds g) /\ same_values n c0 cs f (f_crds g) g.
Proof.
  intros C V c0 cs f n Hv Lf Hc Hf. destruct (load_vector f n Hv) as (d & Ed & Sd). rewrite Lf in Sd. cbn [lay_shape] in Sd. unfold crds_like in Hc.
  destruct Hv as (Hn & _ & sl & Hh & _). pose proof (holds_nr_comps f sl n Hh) as Nc. assert (Vf : f_vec f = true) by apply Hh.
  destruct (reshape_flat c0 cs d n Hf ltac:(congruence)) as (e & Ee & Se & Ge).
  destruct (wrap_vector (f_vec f) (at3_crds c0 cs) e LFlat n (or_introl eq_refl) Hn Se ltac:(discriminate)) as (g & d' & Ew & Cg & Vg & Hg & Lg & Ldg & Sg & Gg).
  exists g. split.
  { unfold atleast_3d. replace (3 <=? length cs)%nat with false by (destruct Hf as (Hl & _); lia). rewrite Ed, Nc. replace (n =? 0) with false by lia.
    unfold nr_comp. rewrite Vf, Lf. cbn [negb]. cbv zeta. cbn iota. replace (insert_at 0 n (sshape_of (at3_crds c0 cs))) with (n :: sshape_of (at3_crds c0 cs)) by (destruct (sshape_of (at3_crds c0 cs)); reflexivity).
    rewrite Ee. rewrite Vf in Ew. exact Ew. }
  rewrite Cg. split; [exact (C79_three_axes C c0 cs Hf)|].
  eapply (same_from c0 cs f g d d' n (fun js c => get d (c :: js)) (fun js c => get d' (c :: js))); try eassumption.
  - intros c js. rewrite Vf, Lf. reflexivity.
  - intros c js. rewrite Vg, Lg. reflexivity.
  - intros c js Hc' Hj. rewrite Gg; [apply Ge; assumption|]. rewrite Sg, Se. constructor; [exact Hc'|]. apply at3_in_shape. exact Hj.
Qed.
Print Assumptions C79_atleast_3d_flat.

(** Vector fields made of a list of arrays, not loaded, in the order of the coordinates and not reflected. *)
Theorem C79_atleast_3d_list_unloaded : forall (C V : Type) (c0 : C) cs (f : fld C V) l n,
  holds f LFlat n -> 1 < n -> f_src f = SList l -> layout_of f = LFlat -> f_zyx f = false -> f_refl f = map (fun _ => false) (f_crds f) -> crds_like f cs -> few_axes cs ->
  exists g, atleast_3d c0 cs false f = WFld g /\ three_axes c0 cs (f_crds g) /\ same_values n c0 cs f (f_crds g) g.
Proof.
  intros C V c0 cs f l n Hh Hn Es Lf Hz Hr Hc Hf. pose proof Hh as (Vf & _ & _ & Hl). rewrite Es in Hl. destruct Hl as (_ & Ln & Fl).
  unfold native_sshape in Fl. rewrite Hz in Fl. unfold crds_like in Hc. rewrite <- Hc in Fl.
  destruct (C37_load C V f LFlat n Hh ltac:(rewrite Lf; left; reflexivity) (or_introl Lf)) as (d & Ed & Sd & Gd). rewrite Lf in *. rewrite <- Hc in *.
  destruct (nd_stack_ok l (sshape_of cs) ltac:(intros ->; cbn in Ln; lia) Fl) as (a & Ea & Sa & Ga).
  destruct (reshape_flat c0 cs a n Hf ltac:(congruence)) as (e & Ee & Se & Ge). set (ncs := at3_crds c0 cs) in *.
  set (g := F true ncs (map (fun _ => false) ncs) (SList l) false None). set (g' := F true ncs (map (fun _ => false) ncs) (SArr e) false None).
  assert (Dg' : src_layout g' = LFlat) by (unfold src_layout; cbn [g' f_src]; rewrite Se; apply detect_flat).
  assert (Hg' : holds g' LFlat n).
  { split; [reflexivity|]. split; [lia|]. split; [apply map_length|]. split; [left; reflexivity|]. split; [exact Se|discriminate]. }
  assert (Lgg : load g = load g').
  { unfold load. change (src_layout g) with LFlat. rewrite Dg'. cbn [f_force g g' orb]. unfold xyz_src. cbn [f_zyx g g' f_src]. unfold dat_to_nd, fshape, nr_comp, reflect_arr, nr_comp, layout_of.
    change (src_layout g) with LFlat. rewrite Dg'. cbn [f_vec f_force g g' negb]. rewrite (holds_nr_comps g' LFlat n Hg'). change (nr_comps g) with (Some (Z.of_nat (length l))). rewrite Ln, Ea.
    change (sshape g) with (sshape_of ncs). change (sshape g') with (sshape_of ncs). change (f_refl g) with (f_refl g').
    replace (insert_at 0 n (sshape_of ncs)) with (n :: sshape_of ncs) by (destruct (sshape_of ncs); reflexivity).
    rewrite Ee. unfold nd_reshape. rewrite Se, leqb_refl. reflexivity. }
  assert (Lg' : layout_of g' = LFlat) by (unfold layout_of; cbn [f_force g']; exact Dg').
  destruct (C37_load C V g' LFlat n Hg' ltac:(rewrite Lg'; left; reflexivity) (or_introl Lg')) as (d' & Ed' & Sd' & Gd'). rewrite Lg' in *. change (sshape g') with (sshape_of ncs) in *.
  exists g. split.
  { unfold atleast_3d. replace (3 <=? length cs)%nat with false by (destruct Hf as (Hl & _); lia). fold ncs. rewrite Es, Vf. change (nr_comps g) with (Some (Z.of_nat (length l))).
    cbv zeta. change (nr_comps (F true ncs (map (fun _ => false) ncs) (SList l) false None)) with (Some (Z.of_nat (length l))). cbn iota. rewrite Ln. replace (n =? 1) with false by lia. reflexivity. }
  cbn [f_crds g]. split; [exact (C79_three_axes C c0 cs Hf)|].
  eapply (same_from c0 cs f g d d' n (fun js c => get d (c :: js)) (fun js c => get d' (c :: js))); try eassumption; try congruence.
  - intros c js. rewrite Vf, Lf. reflexivity.
  - reflexivity.
  - intros c js Hcn Hj. specialize (Gd c js Hcn Hj). specialize (Gd' c (at3 (at3_new (map fst cs)) (fun _ => 0) js) Hcn ltac:(apply at3_in_shape; exact Hj)).
    unfold stored, mirrored in Gd, Gd'. rewrite Hz, Es, Hr, flip_false in Gd. cbn [g' f_zyx f_src f_refl] in Gd'. rewrite flip_false in Gd'. cbn [comp_at] in Gd, Gd'. rewrite <- Gd', Ge by assumption.
    destruct Gd as (b & Hb & <-). apply Ga; [lia|exact Hb].
Qed.
Print Assumptions C79_atleast_3d_list_unloaded.

(** Refuted for interlaced vector fields: the axis of the components is not moved, and the result cannot be loaded. *)
Definition inter_fld : fld Z Z :=
  F true [(0%nat, [0; 1; 2]); (1%nat, [0; 1; 2; 3])] [false; false] (SArr (ND [3; 4; 2] (fun js => match js with [x; y; c] => 100 * c + 10 * x + y | _ => 0 end))) false None.
Theorem C79_atleast_3d_interlaced_refuted : holds_vector inter_fld 2 /\ layout_of inter_fld = LInter /\ few_axes (f_crds inter_fld) /\
  exists g, atleast_3d 0 (f_crds inter_fld) true inter_fld = WComp0 g /\ load g = None.
Proof.
  split; [|split; [reflexivity|split]].
  - split; [lia|]. split; [right; reflexivity|]. exists LInter. split; [|left; reflexivity]. split; [reflexivity|]. split; [lia|]. split; [reflexivity|].
    split; [right; reflexivity|]. split; [reflexivity|]. intros _ A. inversion A as [|? ? E _]. discriminate.
  - split; [right; reflexivity|]. split; [repeat constructor; cbn; intuition lia|]. intros k [<-|[<-|[]]]; cbn; lia.
  - assert (E : match atleast_3d 0 (f_crds inter_fld) true inter_fld with WComp0 g => match load g with None => true | _ => false end | _ => false end = true) by (vm_compute; reflexivity).
    destruct (atleast_3d 0 (f_crds inter_fld) true inter_fld) as [| g | |]; try discriminate. exists g. split; [reflexivity|]. destruct (load g); [discriminate|reflexivity].
Qed.
Print Assumptions C79_atleast_3d_interlaced_refuted.
(** Refuted for fields whose data are not loaded and are in the reversed order: the data are taken to be in the order of the coordinates. *)
Definition zyx_fld : fld Z Z :=
  F false [(0%nat, [0; 1]); (1%nat, [0; 1; 2])] [false; false] (SArr (ND [3; 2] (fun js => match js with [y; x] => 10 * x + y | _ => 0 end))) true None.
Theorem C79_atleast_3d_unloaded_reversed_refuted : holds_scalar zyx_fld /\ few_axes (f_crds zyx_fld) /\
  exists g pt v v', atleast_3d 0 (f_crds zyx_fld) false zyx_fld = WFld g /\ pt 2%nat = 0 /\
    has_value (f_crds zyx_fld) zyx_fld pt 0 v /\ has_value (f_crds g) g pt 0 v' /\ v <> v'.
Proof.
  split; [|split].
  - split; [reflexivity|]. split; [reflexivity|]. split; [reflexivity|]. eexists. split; reflexivity.
  - split; [right; reflexivity|]. split; [repeat constructor; cbn; intuition lia|]. intros k [<-|[<-|[]]]; cbn; lia.
  - exists (F false [(0%nat, [0; 1]); (1%nat, [0; 1; 2]); (2%nat, [0])] [false; false; false] (SArr (ND [3; 2] (fun js => match js with [y; x] => 10 * x + y | _ => 0 end))) false None).
    exists (fun k => match k with O => 0 | 1%nat => 1 | _ => 0 end), 1, 10. split; [reflexivity|]. split; [reflexivity|]. split.
    + eexists. exists [0; 1]. split; [reflexivity|]. split; [repeat constructor; cbn; lia|vm_compute; reflexivity].
    + split; [|lia]. eexists. exists [0; 1; 0]. split; [reflexivity|]. split; [repeat constructor; cbn; lia|vm_compute; reflexivity].
Qed.
Print Assumptions C79_atleast_3d_unloaded_reversed_refuted.
(** Refuted for fields with a reflected axis whose data are not loaded: the coordinates are reflected and the data are not. *)
Definition refl_fld : fld Z Z := F false [(0%nat, [0; 1; 2])] [true] (SArr (ND [3] (fun js => match js with [x] => 10 + x | _ => 0 end))) false None.
Definition refl_crds : list (crd Z) := reflected (fun x => map Z.opp (rev x)) refl_fld.
Theorem C79_atleast_3d_unloaded_reflected_refuted : holds_scalar refl_fld /\ few_axes refl_crds /\ crds_like refl_fld refl_crds /\
  exists g pt v v', atleast_3d 0 refl_crds false refl_fld = WFld g /\ pt 0%nat = -2 /\
    has_value refl_crds refl_fld pt 0 v /\ has_value (f_crds g) g pt 0 v' /\ v <> v'.
Proof.
  split; [|split; [|split; [reflexivity|]]].
  - split; [reflexivity|]. split; [reflexivity|]. split; [reflexivity|]. eexists. split; reflexivity.
  - split; [left; reflexivity|]. split; [repeat constructor; cbn; intuition lia|]. intros k [<-|[]]; cbn; lia.
  - exists (F false [(0%nat, [-2; -1; 0]); (1%nat, [0]); (2%nat, [0])] [false; false; false] (SArr (ND [3] (fun js => match js with [x] => 10 + x | _ => 0 end))) false None).
    exists (fun k => match k with O => -2 | _ => 0 end), 12, 10. split; [reflexivity|]. split; [reflexivity|]. split.
    + eexists. exists [0]. split; [reflexivity|]. split; [repeat constructor; cbn; lia|vm_compute; reflexivity].
    + split; [|lia]. eexists. exists [0; 0; 0]. split; [reflexivity|]. split; [repeat constructor; cbn; lia|vm_compute; reflexivity].
Qed.
Print Assumptions C79_atleast_3d_unloaded_reflected_refuted.
(** Refuted for fields with one value: a number comes back instead of a field. *)
Theorem C79_atleast_3d_one_value_refuted : forall (C V : Type) (c0 : C) cs (f : fld C V),
  holds_scalar f -> crds_like f cs -> few_axes cs -> prod (sshape f) = 1 -> exists v, atleast_3d c0 cs true f = WNum v.
Proof.
  intros C V c0 cs f Hs Hc Hf Hp. destruct (load_scalar f Hs) as (a & d & Es & Ed & Sd & _). unfold crds_like in Hc.
  destruct (reshape_scalar c0 cs d Hf ltac:(congruence)) as (e & Ee & Se & Ge).
  assert (Pe : prod (shape e) = 1) by (rewrite Se; unfold at3_crds; rewrite sshape_at3, prod_at3, Hc; exact Hp).
  unfold atleast_3d. replace (3 <=? length cs)%nat with false by (destruct Hf as (Hl & _); lia). rewrite Ed.
  assert (Vf : f_vec f = false) by apply Hs. unfold nr_comps. rewrite Vf. cbn [negb]. change (0 =? 0) with true. cbn iota. rewrite Ee. unfold wrap. rewrite Pe. eexists. reflexivity.
Qed.
Print Assumptions C79_atleast_3d_one_value_refuted.

(** ** a field and its view *)
Lemma view_load {C V} ncs (f : fld C V) : crds_like f ncs -> f_refl f = map (fun _ => false) (f_crds f) -> load (view_of ncs f) = load f.
Proof.
  intros Hc Hr. unfold crds_like, sshape in Hc. destruct f as [vec cs refl src zyx force]. cbn [f_crds f_refl] in *. subst refl.
  assert (HL : length ncs = length cs) by (apply (f_equal (@length Z)) in Hc; unfold sshape_of in Hc; rewrite !map_length in Hc; exact Hc).
  assert (Hm : map (fun _ : crd C => false) ncs = map (fun _ => false) cs).
  { clear -HL. revert cs HL. induction ncs as [|x ncs IH]; intros [|y cs] HL; try discriminate; [reflexivity|]. cbn [map]. f_equal. apply IH. cbn in HL. lia. }
  unfold view_of. cbn [f_vec f_src f_zyx f_force]. rewrite Hm.
  unfold load, dat_to_nd, reflect_arr, xyz_src, fshape, nr_comp, nr_comps, layout_of, src_layout, native_sshape, sshape. cbn [f_vec f_src f_zyx f_force f_crds f_refl]. rewrite Hc, HL. reflexivity.
Qed.
(** Without reflected axes, whatever is read and cleared of the field and of the view made of it, and in whatever order, both always show the data of the field;
    [c] is what the field had in its cache when the view was made. *)
Theorem C79_view_history : forall (C V : Type) ncs (f : fld C V) c os o d,
  crds_like f ncs -> f_refl f = map (fun _ => false) (f_crds f) -> c = None \/ c = load f ->
  In (o, d) (cache_run (load f) (load (view_of ncs f)) os (cache_start c)) -> d = load f.
Proof.
  intros C V ncs f c os o d Hc Hr Hcache. rewrite (view_load ncs f Hc Hr). unfold cache_start.
  assert (A : forall os s, (ca_f s = None \/ ca_f s = load f) -> (ca_g s = None \/ ca_g s = load f) -> In (o, d) (cache_run (load f) (load f) os s) -> d = load f).
  { induction os0 as [|x r IH]; intros [cf cg] Hf Hg H; [contradiction|]. cbn [ca_f ca_g] in *.
    destruct x; cbn [cache_run cache_step ca_f ca_g] in H.
    - destruct cf as [df|]; cbn [In] in H.
      + destruct H as [E|H]; [injection E as _ <-; destruct Hf as [Hf|Hf]; [discriminate|exact Hf]|]. eapply IH; [| |exact H]; assumption.
      + destruct H as [E|H]; [injection E as _ <-; reflexivity|]. eapply IH; [| |exact H]; cbn [ca_f ca_g]; auto.
    - destruct cg as [dg|]; cbn [In] in H.
      + destruct H as [E|H]; [injection E as _ <-; destruct Hg as [Hg|Hg]; [discriminate|exact Hg]|]. eapply IH; [| |exact H]; assumption.
      + destruct (load f) as [lf|] eqn:El; cbn [In] in H; (destruct H as [E|H]; [injection E as _ <-; reflexivity|]; eapply IH; [| |exact H]; cbn [ca_f ca_g]; auto).
    - eapply IH; [| |exact H]; cbn [ca_f ca_g]; auto.
    - eapply IH; [| |exact H]; cbn [ca_f ca_g]; auto. }
  apply A; cbn [ca_f ca_g]; assumption.
Qed.
Print Assumptions C79_view_history.
(** With reflected axes it holds as long as the data were loaded before the view was made and are not cleared. *)
Theorem C79_view_loaded : forall (D : Type) (lf lg : option D) d0 os o d, lf = Some d0 -> ~ In ClearF os -> ~ In ClearG os ->
  In (o, d) (cache_run lf lg os (cache_start (Some d0))) -> d = lf.
Proof.
  intros D lf lg d0 os o d -> . unfold cache_start. induction os as [|x r IH]; intros H1 H2 H; [contradiction|]. destruct x; cbn [cache_run cache_step ca_f ca_g] in H.
  - cbn [In] in H. destruct H as [E|H]; [injection E as _ <-; reflexivity|]. apply IH; [intros H'; apply H1; right; exact H'|intros H'; apply H2; right; exact H'|exact H].
  - cbn [In] in H. destruct H as [E|H]; [injection E as _ <-; reflexivity|]. apply IH; [intros H'; apply H1; right; exact H'|intros H'; apply H2; right; exact H'|exact H].
  - exfalso. apply H1. left. reflexivity.
  - exfalso. apply H2. left. reflexivity.
Qed.
Print Assumptions C79_view_loaded.
(** Refuted with a reflected axis and data not loaded: the view shows data that are not reflected, and once it has been read, so does the field itself. *)
Theorem C79_view_reflected_refuted :
  exists d d', cache_run (load refl_fld) (load (view_of refl_crds refl_fld)) [DataF] (cache_start None) = [(DataF, Some d)] /\
    cache_run (load refl_fld) (load (view_of refl_crds refl_fld)) [DataG; DataF] (cache_start None) = [(DataG, Some d'); (DataF, Some d')] /\
    get d [0] = 12 /\ get d' [0] = 10.
Proof. eexists. eexists. repeat split; vm_compute; reflexivity. Qed.
Print Assumptions C79_view_reflected_refuted.

(** ** centring *)
Local Open Scope Q_scope.
(** A field centred on the cells of nonuniform coordinates keeps its places when it is made centred on nodes. *)
Theorem C79_to_node : forall x, (2 <= length x)%nat ->
  length (nodes_of (to_node (Non x))) = (length x - 1)%nat /\
  forall i, (S i < length x)%nat -> qat (nodes_of (to_node (Non x))) i == (qat x i + qat x (S i)) / 2.
Proof. intros x H. cbn [to_node nodes_of]. split; [apply length_cells; exact H|]. intros i Hi. apply qat_cells; assumption. Qed.
Print Assumptions C79_to_node.
(** Refuted for all uniform coordinates: the half cell is taken to be the length over twice the number of nodes. *)
Theorem C79_to_node_uniform_refuted : forall a, (2 <= a_n a)%nat -> ~ a_xl a == a_xh a ->
  ~ qat (nodes_of (to_node (Uni a))) 0 == qat (centres_of (Uni a)) 0.
Proof.
  intros [xl xh n] Hn Hne. cbn [to_node nodes_of centres_of a_n a_xl a_xh] in *. unfold uni_nodes at 1. unfold cc_args. cbn [a_n a_xl a_xh].
  assert (E1 : forall u v m, (1 <= m)%nat -> qat (linspace u v m) 0 == u).
  { intros u v m Hm. unfold linspace. rewrite qat_map by lia. destruct (m =? 1)%nat; [reflexivity|]. setoid_replace (qn 0) with 0 by reflexivity. ring. }
  rewrite E1 by lia. unfold centres_of. cbn [nodes_of]. assert (Ln : length (uni_nodes (ARGS xl xh n)) = n) by (unfold uni_nodes, linspace; rewrite map_length, seq_length; reflexivity).
  rewrite qat_cells by lia. unfold uni_nodes. cbn [a_n a_xl a_xh]. rewrite E1 by lia. rewrite qat_linspace by lia. replace (Nat.max n 1) with n by lia.
  assert (N2 : 2 <= qn n) by (unfold qn; change 2 with (inject_Z 2); rewrite <- Zle_Qle; lia).
  change (qn 1) with 1. intros E. apply Hne.
  assert (E2 : (xh - xl) * (qn n - 1) == (xh - xl) * qn n).
  { assert (E3 : (1 # 2) * (xh - xl) / qn n == (1 # 2) * ((xh - xl) / (qn n - 1))).
    { setoid_replace ((xl + (xl + 1 * ((xh - xl) / (qn n - 1)))) / 2) with (xl + (1 # 2) * ((xh - xl) / (qn n - 1))) in E by (field; lra). lra. }
    setoid_replace ((xh - xl) * (qn n - 1)) with (2 * ((1 # 2) * (xh - xl) / qn n) * (qn n * (qn n - 1))) by (field; lra). rewrite E3. field. lra. }
  lra.
Qed.
Print Assumptions C79_to_node_uniform_refuted.

(** ** adjusting coordinates *)
(** Scaling and shifting the nodes moves the centres the same way. *)
Theorem C79_adjust_affine : forall s t adj x, (2 <= length x)%nat -> (forall v, adj v == s * v + t) ->
  same (cells (adjust adj x)) (adjust adj (cells x)).
Proof.
  intros s t adj x H Ha. unfold adjust.
  assert (Q : forall l i, (i < length l)%nat -> qat (map adj l) i = adj (qat l i)) by (intros l i Hi; unfold qat; rewrite (nth_indep _ 0 (adj 0)) by (rewrite map_length; exact Hi); apply map_nth).
  assert (L1 : length (cells (map adj x)) = (length x - 1)%nat) by (rewrite length_cells; rewrite map_length; [reflexivity|exact H]).
  assert (L2 : length (cells x) = (length x - 1)%nat) by (apply length_cells; exact H).
  split; [rewrite map_length; congruence|]. intros i Hi. rewrite L1 in Hi. rewrite Q by lia. rewrite qat_cells by (rewrite map_length; lia). rewrite !Q by lia. rewrite !Ha. rewrite qat_cells by lia. field.
Qed.
Print Assumptions C79_adjust_affine.
(** Refuted for functions in general: the values at the cells are then elsewhere. *)
Theorem C79_adjust_function_refuted : ~ same (cells (adjust (fun v => v * v) [0; 2; 4])) (adjust (fun v => v * v) (cells [0; 2; 4])).
Proof. intros (_ & H). specialize (H O ltac:(cbn; lia)). vm_compute in H. discriminate. Qed.
Print Assumptions C79_adjust_function_refuted.

Local Close Scope Q_scope.
Lemma all_some_map {X Y} (h : X -> option Y) l r : all_some (map h l) = Some r <-> Forall2 (fun x y => h x = Some y) l r.
Proof.
  revert r. induction l as [|x l IH]; intros r; cbn [map all_some].
  - split; [intros E; injection E as <-; constructor|]. intros H. inversion H. reflexivity.
  - destruct (h x) as [y|] eqn:E.
    + split.
      * intros H. destruct (all_some (map h l)) as [r'|] eqn:E2; [|discriminate]. cbn in H. injection H as <-. constructor; [exact E|]. apply IH. reflexivity.
      * intros H. inversion H as [|? ? ? ? H1 H2]; subst. apply IH in H2. rewrite H2. cbn. congruence.
    + split; [discriminate|]. intros H. inversion H; subst. congruence.
Qed.
Lemma skipn_nth {X} (x : X) : forall l m, (m < length l)%nat -> skipn m l = nth m l x :: skipn (S m) l.
Proof. induction l as [|y l IH]; intros m H; [cbn in H; lia|]. destruct m as [|m]; [reflexivity|]. cbn [skipn nth]. rewrite IH by (cbn in H; lia). reflexivity. Qed.
Lemma lookup_combine names : forall arrs i, NoDup names -> length arrs = length names -> (i < length names)%nat -> lookup (nth i names O) (combine names arrs) = Some (nth i arrs []).
Proof.
  induction names as [|n names IH]; intros [|a arrs] i ND L Hi; try discriminate; [cbn in Hi; lia|]. inversion ND as [|? ? Hn ND']; subst. destruct i as [|i]; cbn [nth combine lookup].
  - rewrite Nat.eqb_refl. reflexivity.
  - cbn in L, Hi. destruct (n =? nth i names O)%nat eqn:E; [apply Nat.eqb_eq in E; subst n; exfalso; apply Hn; apply nth_In; lia|]. apply IH; [exact ND'|lia|lia].
Qed.
(** The coordinates of the result are the adjusted ones, under their names or, if one axis is renamed, the new name in the place of the old. *)
Definition replaced (a b : nat) (l : list nat) : list nat := map (fun x => if (x =? a)%nat then b else x) l.
Lemma rename1_replaced a b l : NoDup l -> rename1 a b l = replaced a b l.
Proof.
  induction l as [|x l IH]; intros ND; [reflexivity|]. inversion ND as [|? ? Hn ND']; subst. cbn [rename1 replaced map]. destruct (x =? a)%nat eqn:E.
  - apply Nat.eqb_eq in E. subst x. f_equal. unfold replaced. clear -Hn. induction l as [|y l IH]; [reflexivity|]. cbn [map In] in *. replace (y =? a)%nat with false by lia. f_equal. apply IH. tauto.
  - f_equal. apply IH. exact ND'.
Qed.
Lemma replaced_NoDup a b l : NoDup l -> ~ In b l -> NoDup (replaced a b l).
Proof.
  intros ND Hb. unfold replaced. induction ND as [|x l Hn ND IH]; [constructor|]. cbn [map In] in *. constructor; [|apply IH; tauto].
  rewrite in_map_iff. intros (y & E & Hy). destruct (y =? a)%nat eqn:Ey, (x =? a)%nat eqn:Ex; try (apply Nat.eqb_eq in Ey); try (apply Nat.eqb_eq in Ex); subst; try tauto; intuition congruence.
Qed.
Theorem C79_adjust_crds : forall adj o arrs, NoDup (co_axes o) -> get_crds o = Some arrs ->
  (exists r, adjust_crds adj [] o = Some (r, o) /\ co_axes r = co_axes o /\
     get_crds r = Some (map (fun p => map (adj (fst p)) (snd p)) (combine (co_axes o) arrs))) /\
  (forall a b, ~ In b (co_axes o) -> exists r o', adjust_crds adj [(a, b)] o = Some (r, o') /\ co_axes r = replaced a b (co_axes o) /\
     get_crds r = Some (map (fun p => map (adj (fst p)) (snd p)) (combine (co_axes o) arrs))).
Proof.
  intros adj o arrs ND G. assert (L : length arrs = length (co_axes o)).
  { unfold get_crds in G. apply all_some_map in G. symmetry. clear ND. revert G. generalize (co_axes o) as l. intros l G. induction G; [reflexivity|]. cbn [length]. congruence. }
  assert (R : forall names arrs', NoDup names -> length arrs' = length names -> get_crds (CO names (combine names arrs')) = Some arrs').
  { intros names arrs' ND' L'. unfold get_crds. apply all_some_map. cbn [co_axes co_tab].
    assert (B : forall k m, (m + k = length names)%nat -> Forall2 (fun x y => lookup x (combine names arrs') = Some y) (skipn m names) (skipn m arrs')).
    { induction k as [|k IH]; intros m Hm.
      - rewrite !skipn_all2 by lia. constructor.
      - rewrite (skipn_nth O names m) by lia. rewrite (skipn_nth [] arrs' m) by lia. constructor; [apply lookup_combine; [exact ND'|exact L'|lia]|]. apply IH. lia. }
    exact (B (length names) O ltac:(lia)). }
  assert (L2 : length (map (fun p : nat * list Q => map (adj (fst p)) (snd p)) (combine (co_axes o) arrs)) = length (co_axes o)) by (rewrite map_length, combine_length; lia).
  unfold adjust_crds. rewrite G. cbv zeta. split.
  - eexists. split; [unfold rename; cbn [fold_left]; destruct o; reflexivity|]. cbn [co_axes]. split; [reflexivity|]. apply R; [exact ND|exact L2].
  - intros a b Hb. eexists. eexists. split; [reflexivity|]. unfold rename. cbn [fold_left fst snd co_axes]. rewrite (rename1_replaced a b (co_axes o) ND). split; [reflexivity|].
    apply R; [apply replaced_NoDup; assumption|]. rewrite map_length, combine_length. unfold replaced. rewrite map_length. lia.
Qed.
Print Assumptions C79_adjust_crds.
(** Refuted for the field itself: renaming an axis of the copy renames that of the field, whose coordinates are then not found. *)
Theorem C79_rename_breaks_the_field_refuted : forall adj o arrs a b, get_crds o = Some arrs -> In a (co_axes o) -> lookup b (co_tab o) = None ->
  exists r o', adjust_crds adj [(a, b)] o = Some (r, o') /\ get_crds o' = None.
Proof.
  intros adj o arrs a b G Ha Hb. unfold adjust_crds. rewrite G. cbv zeta. eexists. eexists. split; [reflexivity|]. unfold rename. cbn [fold_left fst snd]. unfold get_crds. cbn [co_axes co_tab].
  clear G. revert Ha. generalize (co_axes o) as l. induction l as [|x l IH]; intros Ha; [contradiction|]. cbn [rename1]. destruct (x =? a)%nat eqn:E.
  - cbn [map all_some]. rewrite Hb. reflexivity.
  - cbn [In] in Ha. destruct Ha as [->|Ha]; [rewrite Nat.eqb_refl in E; discriminate|]. cbn [map all_some]. destruct (lookup x (co_tab o)); [|reflexivity]. rewrite IH by exact Ha. reflexivity.
Qed.
Print Assumptions C79_rename_breaks_the_field_refuted.
(** Refuted for exchanging two names: the renamings are done one after the other. *)
Theorem C79_rename_exchange_refuted : rename [(0, 1); (1, 0)]%nat [0; 1]%nat = [0; 1]%nat.
Proof. reflexivity. Qed.
Print Assumptions C79_rename_exchange_refuted.

(** ** at most n axes *)
Lemma NoDup_app_intro {A} (l1 l2 : list A) : NoDup l1 -> NoDup l2 -> (forall x, In x l1 -> ~ In x l2) -> NoDup (l1 ++ l2).
Proof.
  intros H1 H2 H. induction H1 as [|x l Hn ND IH]; [exact H2|]. cbn [app]. constructor.
  - rewrite in_app_iff. intros [Hx|Hx]; [contradiction|]. exact (H x (or_introl eq_refl) Hx).
  - apply IH. intros y Hy. apply H. right. exact Hy.
Qed.
Lemma ones_spec n total : forall sh i slc, (n < total - length slc)%nat ->
  exists add, ones n total i sh slc = slc ++ add /\
    (forall k, In k add -> (i <= k < i + length sh)%nat /\ nth (k - i) sh O = 1%nat) /\ NoDup add /\
    (n <= total - (length slc + length add))%nat /\
    (n = (total - (length slc + length add))%nat \/ forall k, (i <= k < i + length sh)%nat -> nth (k - i) sh O = 1%nat -> In k add) /\
    (forall k k', In k add -> (i <= k' < k)%nat -> nth (k' - i) sh O = 1%nat -> In k' add).
Proof.
  induction sh as [|s sh IH]; intros i slc Hn.
  - exists []. cbn [ones length In]. rewrite app_nil_r. split; [reflexivity|]. split; [tauto|]. split; [constructor|]. split; [lia|]. split; [right; intros; lia|tauto].
  - cbn [ones]. destruct (s =? 1)%nat eqn:Es.
    + apply Nat.eqb_eq in Es. subst s. rewrite app_length. cbn [length]. destruct (total - (length slc + 1) <=? n)%nat eqn:Et.
      * exists [i]. cbn [length In]. split; [reflexivity|]. split.
        { intros k [<-|[]]. split; [lia|]. rewrite Nat.sub_diag. reflexivity. }
        split; [repeat constructor; cbn; tauto|]. split; [lia|]. split; [left; lia|]. intros k k' [<-|[]] Hk'. lia.
      * destruct (IH (S i) (slc ++ [i]) ltac:(rewrite app_length; cbn [length]; lia)) as (add & E & H1 & H2 & H3 & H4 & H5). rewrite app_length in H3, H4. cbn [length] in H3, H4.
        exists (i :: add). cbn [length In]. split; [rewrite E, <- app_assoc; reflexivity|]. split.
        { intros k [<-|Hk]; [split; [lia|rewrite Nat.sub_diag; reflexivity]|]. destruct (H1 k Hk) as (P & Q). split; [lia|]. replace (k - i)%nat with (S (k - S i)) by lia. exact Q. }
        split; [constructor; [intros Hi; apply H1 in Hi; lia|exact H2]|]. split; [lia|]. split.
        { destruct H4 as [H4|H4]; [left; lia|right]. intros k Hk Hv. destruct (Nat.eq_dec k i) as [->|Hne]; [left; reflexivity|right]. apply H4; [lia|]. replace (k - i)%nat with (S (k - S i)) in Hv by lia. exact Hv. }
        intros k k' [<-|Hk] Hk' Hv; [lia|]. destruct (Nat.eq_dec k' i) as [->|Hne]; [left; reflexivity|right]. apply (H5 k k' Hk); [lia|]. replace (k' - i)%nat with (S (k' - S i)) in Hv by lia. exact Hv.
    + apply Nat.eqb_neq in Es. replace (total - length slc <=? n)%nat with false by lia. destruct (IH (S i) slc Hn) as (add & E & H1 & H2 & H3 & H4 & H5).
      exists add. split; [exact E|]. cbn [length]. split.
      { intros k Hk. destruct (H1 k Hk) as (P & Q). split; [lia|]. replace (k - i)%nat with (S (k - S i)) by lia. exact Q. }
      split; [exact H2|]. split; [exact H3|]. split.
      { destruct H4 as [H4|H4]; [left; exact H4|right]. intros k Hk Hv. destruct (Nat.eq_dec k i) as [->|Hne]; [rewrite Nat.sub_diag in Hv; cbn in Hv; congruence|]. apply H4; [lia|]. replace (k - i)%nat with (S (k - S i)) in Hv by lia. exact Hv. }
      intros k k' Hk Hk' Hv. destruct (Nat.eq_dec k' i) as [->|Hne]; [rewrite Nat.sub_diag in Hv; cbn in Hv; congruence|]. apply (H5 k k' Hk); [lia|]. replace (k' - i)%nat with (S (k' - S i)) in Hv by lia. exact Hv.
Qed.
Lemma pops_spec : forall k rest, (k <= length rest)%nat -> pops k rest = (rev (skipn (length rest - k) rest), firstn (length rest - k) rest).
Proof.
  induction k as [|k IH]; intros rest H; cbn [pops].
  - rewrite Nat.sub_0_r, skipn_all, firstn_all. reflexivity.
  - destruct rest as [|r rest] using rev_ind; [cbn in H; lia|]. clear IHrest. rewrite removelast_snoc, last_snoc. rewrite app_length in *. cbn [length] in *. rewrite IH by lia.
    replace (length rest + 1 - S k)%nat with (length rest - k)%nat by lia. rewrite skipn_app, firstn_app. replace (length rest - k - length rest)%nat with O by lia. cbn [skipn firstn].
    rewrite rev_app_distr, app_nil_r. reflexivity.
Qed.
(** A field with more than [n] axes keeps exactly [n] of them, in their order.  Axes with one value are taken out first, from the first on, and others
    only when none with one value is left; those are the last ones. *)
Theorem C79_atmost_nd : forall n sh slc out kept, (n < length sh)%nat -> atmost_nd n sh = (slc, out, kept) ->
  Permutation (slc ++ out ++ kept) (seq 0 (length sh)) /\ length kept = n /\ StronglySorted lt kept /\
  (forall k, In k slc -> nth k sh O = 1%nat) /\
  (forall k k', In k slc -> (k' < k)%nat -> nth k' sh O = 1%nat -> In k' slc) /\
  (out <> [] -> forall k, (k < length sh)%nat -> nth k sh O = 1%nat -> In k slc) /\
  (forall k k', In k out -> In k' kept -> (k' < k)%nat).
Proof.
  intros n sh slc out kept Hn. unfold atmost_nd. destruct (ones_spec n (length sh) sh 0 [] ltac:(cbn; lia)) as (add & E & H1 & H2 & H3 & H4 & H5).
  cbn [app length Nat.add] in *. rewrite E. set (rest := filter _ (seq 0 (length sh))).
  assert (F1 : forall k, In k add -> (k < length sh)%nat /\ nth k sh O = 1%nat) by (intros k Hk; destruct (H1 k Hk) as (P & Q); rewrite Nat.sub_0_r in Q; split; [lia|exact Q]).
  assert (Hin : forall k, In k rest <-> (k < length sh)%nat /\ ~ In k add).
  { intros k. unfold rest. rewrite filter_In, in_seq. split.
    - intros (P & Q). split; [lia|]. intros Hk. replace (existsb (Nat.eqb k) add) with true in Q; [discriminate|]. symmetry. apply existsb_exists. exists k. split; [exact Hk|apply Nat.eqb_refl].
    - intros (P & Q). split; [lia|]. destruct (existsb (Nat.eqb k) add) eqn:Ex; [|reflexivity]. apply existsb_exists in Ex as (y & Hy & Ey). apply Nat.eqb_eq in Ey. subst y. contradiction. }
  assert (Srt : StronglySorted lt rest).
  { unfold rest. assert (A : forall m i h, StronglySorted lt (filter h (seq i m))).
    { induction m as [|m IHm]; intros i h; [constructor|]. cbn [seq filter]. destruct (h i); [|apply IHm]. constructor; [apply IHm|]. apply Forall_forall. intros y Hy. apply filter_In in Hy as (Hy & _). apply in_seq in Hy. lia. }
    apply A. }
  assert (NDr : NoDup rest) by (unfold rest; apply NoDup_filter, seq_NoDup).
  assert (P1 : Permutation (add ++ rest) (seq 0 (length sh))).
  { apply NoDup_Permutation.
    - apply NoDup_app_intro; [exact H2|exact NDr|]. intros x Hx Hx'. apply Hin in Hx'. tauto.
    - apply seq_NoDup.
    - intros x. rewrite in_app_iff, in_seq, Hin. split.
      + intros [Hx|(Hx & _)]; [apply F1 in Hx; lia|lia].
      + intros Hx. destruct (in_dec Nat.eq_dec x add); [left; assumption|right; split; [lia|assumption]]. }
  assert (Lr : (length add + length rest = length sh)%nat) by (apply Permutation_length in P1; rewrite app_length, seq_length in P1; exact P1).
  rewrite pops_spec by lia. intros Eq. injection Eq as <- <- <-. replace (length rest - (length sh - length add - n))%nat with n by lia.
  split. { rewrite <- P1. apply Permutation_app_head. rewrite <- Permutation_rev. rewrite Permutation_app_comm. rewrite firstn_skipn. reflexivity. }
  split; [rewrite firstn_length; lia|].
  assert (Sp : StronglySorted lt (firstn n rest) /\ forall k k', In k (skipn n rest) -> In k' (firstn n rest) -> (k' < k)%nat).
  { clear -Srt. revert n. induction Srt as [|x l Hs IH Hall]; intros n; [rewrite firstn_nil, skipn_nil; split; [constructor|contradiction]|]. destruct n as [|n]; [split; [constructor|contradiction]|].
    cbn [firstn skipn]. destruct (IH n) as (A & B). rewrite Forall_forall in Hall. rewrite <- (firstn_skipn n l) in Hall. split.
    - constructor; [exact A|]. apply Forall_forall. intros y Hy. apply Hall. apply in_or_app. left. exact Hy.
    - intros k k' Hk [<-|Hk']; [apply Hall; apply in_or_app; right; exact Hk|apply B; assumption]. }
  split; [apply Sp|]. split; [intros k Hk; apply F1; exact Hk|]. split; [intros k k' Hk Hk' Hv; apply (H5 k k' Hk); [lia|rewrite Nat.sub_0_r; exact Hv]|]. split.
  - intros Hne k Hk Hv. destruct H4 as [H4|H4]; [|apply H4; [lia|rewrite Nat.sub_0_r; exact Hv]]. exfalso. apply Hne. rewrite skipn_all2 by lia. reflexivity.
  - intros k k' Hk Hk'. apply in_rev in Hk. destruct Sp as (_ & Sp). apply Sp; assumption.
Qed.
Print Assumptions C79_atmost_nd.
(** A field with no more than [n] axes is unchanged, unless its first axis has one value: that axis is then taken out. *)
Theorem C79_atmost_nd_small : forall n s sh, (length (s :: sh) <= n)%nat -> s <> 1%nat -> atmost_nd n (s :: sh) = ([], [], seq 0 (length (s :: sh))).
Proof.
  intros n s sh H Hs. unfold atmost_nd. cbn [ones]. replace (s =? 1)%nat with false by lia. cbn [length] in *. replace (S (length sh) - 0 <=? n)%nat with true by lia. cbn [length].
  replace (S (length sh) - 0 - n)%nat with O by lia. cbn [pops]. f_equal. assert (A : forall l : list nat, filter (fun i => negb (existsb (Nat.eqb i) [])) l = l) by (induction l as [|x l IH]; [reflexivity|]; change (x :: filter (fun i => negb (existsb (Nat.eqb i) [])) l = x :: l); rewrite IH; reflexivity). apply A.
Qed.
Print Assumptions C79_atmost_nd_small.
Theorem C79_atmost_nd_small_refuted : forall n sh, (length (1%nat :: sh) <= n)%nat -> atmost_nd n (1%nat :: sh) = ([0%nat], [], seq 1 (length sh)).
Proof.
  intros n sh H. unfold atmost_nd. cbn [ones]. replace (1 =? 1)%nat with true by reflexivity. cbn [length app] in *. replace (S (length sh) - 1 <=? n)%nat with true by lia. cbn [length].
  replace (S (length sh) - 1 - n)%nat with O by lia. cbn [pops]. f_equal. change (filter (fun k => negb (existsb (Nat.eqb k) [0%nat])) (seq 0 (S (length sh)))) with (filter (fun k => negb (existsb (Nat.eqb k) [0%nat])) (seq 1 (length sh))).
  assert (A : forall m i, (1 <= i)%nat -> filter (fun k => negb (existsb (Nat.eqb k) [0%nat])) (seq i m) = seq i m).
  { induction m as [|m IH]; intros i Hi; [reflexivity|]. cbn [seq]. change (filter (fun k => negb (existsb (Nat.eqb k) [0%nat])) (i :: seq (S i) m)) with
      (if negb ((i =? 0)%nat || false) then i :: filter (fun k => negb (existsb (Nat.eqb k) [0%nat])) (seq (S i) m) else filter (fun k => negb (existsb (Nat.eqb k) [0%nat])) (seq (S i) m)).
    replace (i =? 0)%nat with false by lia. cbn [orb negb]. rewrite IH by lia. reflexivity. }
  apply A. lia.
Qed.
Print Assumptions C79_atmost_nd_small_refuted.

(** ** the theorems apply *)
Definition plane_fld : fld Z Z :=
  F false [(0%nat, [0; 1]); (2%nat, [5; 6; 7])] [false; true] (SArr (ND [3; 2] (fun js => match js with [z; x] => 10 * x + z | _ => 0 end))) true None.
Example plane_ok : holds_scalar plane_fld /\ crds_like plane_fld [(0%nat, [0; 1]); (2%nat, [-7; -6; -5])] /\ few_axes [(0%nat, [0; 1]); (2%nat, [-7; -6; -5])] /\ prod (sshape plane_fld) <> 1.
Proof.
  split; [|split; [reflexivity|split; [|discriminate]]].
  - split; [reflexivity|]. split; [reflexivity|]. split; [reflexivity|]. eexists. split; reflexivity.
  - split; [right; reflexivity|]. split; [repeat constructor; cbn; intuition lia|]. intros k [<-|[<-|[]]]; cbn; lia.
Qed.
Example plane_3d : map fst (at3_crds 9 [(0%nat, [0; 1]); (2%nat, [-7; -6; -5])]) = [0; 1; 2]%nat /\ few_axes [(8%nat, [0; 1])] /\ map fst (at3_crds 9 [(8%nat, [0; 1])]) = [8; 3; 4]%nat.
Proof. split; [reflexivity|]. split; [|reflexivity]. split; [left; reflexivity|]. split; [repeat constructor; cbn; tauto|]. intros k [<-|[]]; cbn; lia. Qed.
Definition list_fld : fld Z Z :=
  F true [(1%nat, [0; 1; 2])] [false] (SList [ND [3] (fun js => hd 0 js); ND [3] (fun js => 10 + hd 0 js)]) false None.
Example list_ok : holds list_fld LFlat 2 /\ holds_vector list_fld 2 /\ layout_of list_fld = LFlat /\ few_axes (f_crds list_fld).
Proof.
  assert (H : holds list_fld LFlat 2) by (split; [reflexivity|]; split; [lia|]; split; [reflexivity|]; split; [reflexivity|]; split; [reflexivity|repeat constructor]).
  split; [exact H|]. split; [split; [lia|]; split; [left; reflexivity|]; exists LFlat; split; [exact H|left; reflexivity]|]. split; [reflexivity|].
  split; [left; reflexivity|]. split; [repeat constructor; cbn; tauto|]. intros k [<-|[]]; cbn; lia.
Qed.
Example atmost_ex : atmost_nd 1 [4; 1; 3; 1]%nat = ([1; 3]%nat, [2]%nat, [0]%nat) /\ atmost_nd 3 [1; 4; 1; 3]%nat = ([0]%nat, [], [1; 2; 3]%nat).
Proof. split; reflexivity. Qed.
Example adjust_ex : exists arrs, get_crds (CO [0; 1]%nat [(0%nat, [1; 2]%Q); (1%nat, [3]%Q)]) = Some arrs /\ NoDup [0; 1]%nat.
Proof. eexists. split; [reflexivity|]. repeat constructor; cbn; intuition lia. Qed.
