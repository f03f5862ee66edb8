(** C70: magnitude, dot, cross, normalize and project work vector by vector at each place. *)
From Coq Require Import String Reals Lra.
From Verif Require Import VecModel FldProofs LayoutProps TransProps ArithProps ReduceProps TrapzProps MaskProps.
From Coq Require Import ZifyBool ZifyNat Arith.
Open Scope Z_scope.

(** ** specification *)
(** the vector of a field with three components at a grid point *)
Definition vec_at {C} (f : fld C R) (js : list Z) (x y z : R) : Prop := val f 0 js x /\ val f 1 js y /\ val f 2 js z.
(** a vector field on the grid [cs] *)
Definition vfield {C} (cs : list (crd C)) (f : fld C R) : Prop := holds_vector f 3 /\ sshape f = sshape_of cs.
(** not an interlaced field on a grid with three places along each axis *)
Definition not_cube {C} (f : fld C R) : Prop := layout_of f = LInter -> ~ ambiguous (sshape f) 3.
(** the result is a scalar field on the grid with a value as described at each grid point *)
Definition gives_scalar {C} (cs : list (crd C)) (w : @wrapped C R) (P : list Z -> R -> Prop) : Prop :=
  exists h, w = WFld h /\ f_crds h = cs /\ holds_scalar h /\
    forall js, in_shape (sshape_of cs) js -> exists v, val h 0 js v /\ P js v.
(** the result is a vector field on the grid in the layout [l] *)
Definition gives_vector {C} (cs : list (crd C)) (w : @wrapped C R) (l : layout) (P : list Z -> R -> R -> R -> Prop) : Prop :=
  exists h, w = WFld h /\ f_crds h = cs /\ holds_vector h 3 /\ layout_of h = l /\
    forall js, in_shape (sshape_of cs) js -> exists x y z, vec_at h js x y z /\ P js x y z.
Definition len (x y z : R) : R := sqrt (x * x + y * y + z * z).

(** ** arrays with given values *)
Definition arr (sh : list Z) (o : option (nd R)) (v : list Z -> R) : Prop :=
  exists a, o = Some a /\ shape a = sh /\ forall js, in_shape sh js -> get a js = v js.
Lemma arr_bin op sh x y v w : arr sh x v -> arr sh y w -> arr sh (bin op x y) (fun js => op (v js) (w js)).
Proof.
  intros (a & -> & Sa & Ga) (b & -> & Sb & Gb). cbn [bin]. destruct (map2_same op a b sh Sa Sb) as (r & -> & Sr & Gr). exists r. split; [reflexivity|]. split; [exact Sr|].
  intros js Hj. rewrite Gr, Ga, Gb by exact Hj. reflexivity.
Qed.
Lemma arr_un op sh x v : arr sh x v -> arr sh (un op x) (fun js => op (v js)).
Proof. intros (a & -> & Sa & Ga). eexists. split; [reflexivity|]. split; [exact Sa|]. intros js Hj. cbn [nd_map get]. rewrite Ga by exact Hj. reflexivity. Qed.

Section P.
Context {C : Type}.
Implicit Types (f g h : fld C R) (cs : list (crd C)).

(** the component [c] at [js] *)
Definition cat f (c : Z) (js : list Z) : R := match load f with Some d => get d (idx_of true (layout_of f) c js) | None => 0%R end.
Lemma vfield_load cs f : vfield cs f -> exists d, load f = Some d /\ shape d = lay_shape (layout_of f) (sshape_of cs) 3 /\ f_vec f = true /\ vector_layout (layout_of f) /\ nr_comps f = Some 3.
Proof.
  intros (H & Sf). destruct (readable_load f 3 (or_intror H)) as (d & Ld & Sd & Vd & _). destruct H as (_ & Lv & sl & Hh & _). assert (V : f_vec f = true) by apply Hh. rewrite V, Sf in Sd.
  exists d. split; [exact Ld|]. split; [exact Sd|]. split; [exact V|]. split; [exact Lv|]. exact (holds_nr_comps f sl 3 Hh).
Qed.
Lemma val_cat cs f c js v : vfield cs f -> (val f c js v <-> v = cat f c js).
Proof.
  intros (H & Sf). destruct (readable_load f 3 (or_intror H)) as (d & Ld & _ & _ & G). destruct H as (_ & _ & sl & Hh & _). assert (V : f_vec f = true) by apply Hh. rewrite G, V. unfold cat. rewrite Ld. reflexivity.
Qed.
Lemma vec_at_cat cs f js : vfield cs f -> vec_at f js (cat f 0 js) (cat f 1 js) (cat f 2 js).
Proof. intros H. split; [|split]; apply (val_cat cs f); auto. Qed.
Lemma vec_at_fun cs f js x y z : vfield cs f -> vec_at f js x y z -> x = cat f 0 js /\ y = cat f 1 js /\ z = cat f 2 js.
Proof. intros H (A & B & D). split; [|split]; apply (val_cat cs f); auto. Qed.
Lemma view_arr cs f c : vfield cs f -> arr (sshape_of cs) (view3 f c) (cat f c).
Proof.
  intros H. destruct (vfield_load cs f H) as (d & Ld & Sd & V & Lv & Nc). unfold view3, three, comp_view, cat, arr. rewrite Nc, Ld. change (3 =? 3) with true. cbv iota.
  destruct Lv as [L|L]; rewrite L in *; eexists; (split; [reflexivity|]); cbn [shape get]; rewrite Sd; cbn [lay_shape tl].
  - split; [reflexivity|]. intros js _. reflexivity.
  - rewrite removelast_snoc. split; [reflexivity|]. intros js _. reflexivity.
Qed.
Lemma norm_arr cs f : vfield cs f -> arr (sshape_of cs) (norm3 (view3 f 0) (view3 f 1) (view3 f 2)) (fun js => len (cat f 0 js) (cat f 1 js) (cat f 2 js)).
Proof.
  intros H. unfold norm3, len. apply (arr_un sqrt _ _ (fun js => cat f 0 js * cat f 0 js + cat f 1 js * cat f 1 js + cat f 2 js * cat f 2 js)%R).
  repeat apply (arr_bin Rplus); apply (arr_un sqr); apply view_arr; exact H.
Qed.
Lemma dot_arr cs f g : vfield cs f -> vfield cs g -> arr (sshape_of cs) (dot3 (view3 f 0) (view3 f 1) (view3 f 2) (view3 g 0) (view3 g 1) (view3 g 2))
  (fun js => cat f 0 js * cat g 0 js + cat f 1 js * cat g 1 js + cat f 2 js * cat g 2 js)%R.
Proof. intros Hf Hg. unfold dot3. repeat apply (arr_bin Rplus); apply (arr_bin Rmult); apply view_arr; assumption. Qed.

Lemma scalar_plain cs a h : h = plain_fld false cs a -> shape a = sshape_of cs -> holds_scalar h /\ forall js, in_shape (sshape_of cs) js -> val h 0 js (get a js).
Proof.
  intros -> Sa. destruct (field_any false cs a LFlat 1) as (R1 & G); [exact Sa|discriminate|]. split.
  - destruct R1 as [R1|(_ & _ & sl & (Q & _) & _)]; [exact R1|discriminate].
  - intros js Hj. apply (G js 0 Hj). lia.
Qed.
Lemma wrap_scalar_arr cs x v : arr (sshape_of cs) x v -> prod (sshape_of cs) <> 1 -> gives_scalar cs (wrap_as false cs x) (fun js r => r = v js).
Proof.
  intros (a & -> & Sa & Ga) Hp. unfold wrap_as. rewrite Sa. apply Z.eqb_neq in Hp. rewrite Hp. set (h := F false _ _ _ _ _). cbn [nr_comps h f_vec negb]. change (0 =? 1) with false. cbv iota.
  destruct (scalar_plain cs a h eq_refl Sa) as (Hs & G). exists h. split; [reflexivity|]. split; [reflexivity|]. split; [exact Hs|]. intros js Hj. exists (get a js). split; [apply G; exact Hj|apply Ga; exact Hj].
Qed.

(** ** numpy: products and sums over the components *)
Lemma arith_vec (op : R -> R -> R) cs f g : vfield cs f -> vfield cs g -> layout_of f = layout_of g -> not_cube f ->
  exists h, arith op cs f (OFld g) = WFld h /\ f_crds h = cs /\ vfield cs h /\ layout_of h = layout_of f /\
    forall c js, 0 <= c < 3 -> in_shape (sshape_of cs) js -> cat h c js = op (cat f c js) (cat g c js).
Proof.
  intros Hf Hg El Am. destruct (vfield_load cs f Hf) as (a & La & Sa & Vf & Lf & _), (vfield_load cs g Hg) as (b & Lb & Sb & Vg & Lg & _).
  unfold arith, operand_data. rewrite La, Lb, Vf, Vg. cbn [negb andb]. rewrite <- El in Sb. destruct (map2_same op a b _ Sa Sb) as (r & -> & Sr & Gr).
  assert (N3 : 1 < 3) by lia. destruct (wrap_vector true cs r (layout_of f) 3 Lf N3 Sr) as (h & d & E1 & E2 & E3 & E4 & E5 & E6 & E7).
  { intros L. rewrite <- (proj2 Hf). apply Am. exact L. }
  exists h. split; [exact E1|]. split; [exact E2|]. split; [split; [exact E4|unfold sshape; rewrite E2; reflexivity]|]. split; [exact E5|].
  intros c js Hc Hj. unfold cat. rewrite E6, La, Lb, E5, <- El. destruct E7 as (Sd & G).
  assert (I : in_shape (shape r) (idx_of true (layout_of f) c js)) by (rewrite Sr; apply (idx_in_shape true (layout_of f) 3 (sshape_of cs)); auto).
  rewrite G by (rewrite Sd; exact I). apply Gr. rewrite <- Sr. exact I.
Qed.
Lemma axis_of cs f : vfield cs f -> comp_axis f = Some (match layout_of f with LFlat => 0 | _ => Z.of_nat (length cs) end).
Proof.
  intros H. destruct (vfield_load cs f H) as (d & _ & _ & V & Lv & _). unfold comp_axis, nr_comp. rewrite V. cbn [negb]. replace (length (f_crds f)) with (length cs); [destruct Lv as [-> | ->]; reflexivity|].
  rewrite <- (sshape_of_len cs), <- (proj2 H). apply sshape_len.
Qed.
Lemma sum_prod_ok cs f g ax : vfield cs f -> vfield cs g -> layout_of f = layout_of g -> not_cube f -> prod (sshape_of cs) <> 1 -> ax = comp_axis f ->
  exists h, sum_prod cs f g ax = WFld h /\ f_crds h = cs /\ holds_scalar h /\
    forall js, in_shape (sshape_of cs) js -> val h 0 js (cat f 0 js * cat g 0 js + cat f 1 js * cat g 1 js + cat f 2 js * cat g 2 js)%R.
Proof.
  intros Hf Hg El Am Hp ->. destruct (arith_vec Rmult cs f g Hf Hg El Am) as (h & E1 & E2 & Vh & E4 & G). unfold sum_prod. rewrite (axis_of cs f Hf), E1.
  assert (Kn : @None bool <> Some true) by discriminate. destruct (C66_components C R R rsum h cs 3 None (proj1 Vh) (proj2 Vh) Hp Kn) as (s & S1 & S2 & S3 & S4). rewrite E4 in S1.
  exists s. split; [exact S1|]. split; [exact S2|]. split; [exact S3|]. intros js Hj. destruct (S4 js 0 Hj) as (vs & (Ln & Gv) & Vs).
  destruct vs as [|x [|y [|z [|]]]]; cbn [length] in Ln; try lia.
  pose proof (proj1 (val_cat cs h 0 js x Vh) (Gv 0%nat x eq_refl)) as Ex. pose proof (proj1 (val_cat cs h 1 js y Vh) (Gv 1%nat y eq_refl)) as Ey. pose proof (proj1 (val_cat cs h 2 js z Vh) (Gv 2%nat z eq_refl)) as Ez.
  rewrite G in Ex, Ey, Ez by (auto; lia). subst x y z. replace (_ + _ + _)%R with (rsum [cat f 0 js * cat g 0 js; cat f 1 js * cat g 1 js; cat f 2 js * cat g 2 js]%R); [exact Vs|]. unfold rsum. cbn [fold_right]. ring.
Qed.
Lemma unary_scalar (op : R -> R) cs h : f_crds h = cs -> holds_scalar h -> prod (sshape_of cs) <> 1 ->
  exists k, unary op cs h = WFld k /\ f_crds k = cs /\ holds_scalar k /\ forall js v, in_shape (sshape_of cs) js -> val h 0 js v -> val k 0 js (op v).
Proof.
  intros Ec Hs Hp. assert (Sh : sshape h = sshape_of cs) by (unfold sshape; rewrite Ec; reflexivity). assert (V : f_vec h = false) by apply Hs.
  destruct (C65_unary C R R op cs 1 h Sh (or_introl Hs)) as (k & E1 & E2 & E3 & E4 & G); [auto|rewrite V; discriminate|]. exists k. split; [exact E1|]. split; [exact E2|]. split.
  - destruct E3 as [E3|(_ & _ & sl & (Q & _) & _)]; [exact E3|]. congruence.
  - intros js v Hj Hv. destruct (G js 0 Hj) as (u & Hu & Hk); [lia|]. destruct (readable_load h 1 (or_introl Hs)) as (d & _ & _ & _ & Gd). apply Gd in Hv. apply Gd in Hu. subst. exact Hk.
Qed.
Lemma arith_scalar (op : R -> R -> R) cs h k : f_crds h = cs -> holds_scalar h -> f_crds k = cs -> holds_scalar k -> prod (sshape_of cs) <> 1 ->
  exists r, arith op cs h (OFld k) = WFld r /\ f_crds r = cs /\ holds_scalar r /\ forall js v w, in_shape (sshape_of cs) js -> val h 0 js v -> val k 0 js w -> val r 0 js (op v w).
Proof.
  intros Eh Hh Ek Hk Hp. assert (Sh : sshape h = sshape_of cs) by (unfold sshape; rewrite Eh; reflexivity). assert (Sk : sshape k = sshape_of cs) by (unfold sshape; rewrite Ek; reflexivity).
  destruct (C65_fields C C R R R op cs 1 h k Sh Sk) as (r & E1 & E2 & E3 & E4 & G); [left; auto|]. exists r. split; [exact E1|]. split; [exact E2|]. split.
  - destruct E3 as [E3|(_ & _ & sl & (Q & _) & _)]; [exact E3|]. assert (f_vec h = false) by apply Hh. assert (f_vec k = false) by apply Hk. rewrite E4 in Q. rewrite H, H0 in Q. discriminate.
  - intros js v w Hj Hv Hw. destruct (G js 0 Hj) as (v' & w' & Hv' & Hw' & Hr); [lia|]. destruct (readable_load h 1 (or_introl Hh)) as (d & _ & _ & _ & Gd). destruct (readable_load k 1 (or_introl Hk)) as (e & _ & _ & _ & Ge).
    apply Gd in Hv, Hv'. apply Ge in Hw, Hw'. subst. exact Hr.
Qed.
End P.

Lemma named_scalar {C} (cs : list (crd C)) w P : gives_scalar cs w P -> gives_scalar cs (named w) P.
Proof. intros (h & -> & H). exists h. auto. Qed.
Lemma named_vector {C} (cs : list (crd C)) w l P : gives_vector cs w l P -> gives_vector cs (named w) l P.
Proof. intros (h & -> & H). exists h. auto. Qed.

(** ** theorems *)
Theorem C70_magnitude : forall C be cs (f : fld C R), vfield cs f -> prod (sshape_of cs) <> 1 -> (be = Numpy -> not_cube f) ->
  gives_scalar cs (magnitude be cs f) (fun js v => exists x y z, vec_at f js x y z /\ v = len x y z).
Proof.
  intros C be cs f Hf Hp Am. unfold magnitude. apply named_scalar. destruct be.
  - destruct (wrap_scalar_arr cs _ _ (norm_arr cs f Hf) Hp) as (h & E1 & E2 & E3 & G). exists h. split; [exact E1|]. split; [exact E2|]. split; [exact E3|]. intros js Hj. destruct (G js Hj) as (v & Hv & ->).
    eexists. split; [exact Hv|]. exists (cat f 0 js), (cat f 1 js), (cat f 2 js). split; [apply (vec_at_cat cs); exact Hf|reflexivity].
  - destruct (sum_prod_ok cs f f (comp_axis f) Hf Hf eq_refl (Am eq_refl) Hp eq_refl) as (s & E & Es & Hs & Gs). unfold np_magnitude. rewrite E. cbn [wmap].
    destruct (unary_scalar sqrt cs s Es Hs Hp) as (h & E1 & E2 & E3 & G). exists h. split; [exact E1|]. split; [exact E2|]. split; [exact E3|]. intros js Hj. eexists. split; [apply (G js _ Hj (Gs js Hj))|].
    exists (cat f 0 js), (cat f 1 js), (cat f 2 js). split; [apply (vec_at_cat cs); exact Hf|reflexivity].
Qed.
Print Assumptions C70_magnitude.

Theorem C70_dot : forall C be cs (f g : fld C R), vfield cs f -> vfield cs g -> prod (sshape_of cs) <> 1 -> (be = Numpy -> layout_of f = layout_of g /\ not_cube f) ->
  gives_scalar cs (dot be cs f g) (fun js v => exists ax ay az bx by_ bz, vec_at f js ax ay az /\ vec_at g js bx by_ bz /\ v = (ax * bx + ay * by_ + az * bz)%R).
Proof.
  intros C be cs f g Hf Hg Hp Am. unfold dot. apply named_scalar. destruct be.
  - destruct (wrap_scalar_arr cs _ _ (dot_arr cs f g Hf Hg) Hp) as (h & E1 & E2 & E3 & G). exists h. split; [exact E1|]. split; [exact E2|]. split; [exact E3|]. intros js Hj. destruct (G js Hj) as (v & Hv & ->).
    eexists. split; [exact Hv|]. exists (cat f 0 js), (cat f 1 js), (cat f 2 js), (cat g 0 js), (cat g 1 js), (cat g 2 js). split; [apply (vec_at_cat cs); exact Hf|]. split; [apply (vec_at_cat cs); exact Hg|reflexivity].
  - destruct (Am eq_refl) as (El & Ac). destruct (sum_prod_ok cs f g (comp_axis f) Hf Hg El Ac Hp eq_refl) as (s & E & Es & Hs & Gs). unfold np_dot.
    pose proof (axis_of cs f Hf) as Af. pose proof (axis_of cs g Hg) as Ag. rewrite <- El in Ag. unfold comp_axis in Af, Ag. destruct (nr_comp f) as [i|] eqn:Ei; [|discriminate]. destruct (nr_comp g) as [j|]; [|discriminate]. cbn [option_map] in Af, Ag.
    assert (Z.of_nat i = Z.of_nat j) as Eij by congruence. apply Nat2Z.inj in Eij. subst j. rewrite Nat.eqb_refl. unfold comp_axis in E. rewrite Ei in E. unfold comp_axis. rewrite Ei. rewrite E.
    exists s. split; [reflexivity|]. split; [exact Es|]. split; [exact Hs|]. intros js Hj. eexists. split; [apply Gs; exact Hj|].
    exists (cat f 0 js), (cat f 1 js), (cat f 2 js), (cat g 0 js), (cat g 1 js), (cat g 2 js). split; [apply (vec_at_cat cs); exact Hf|]. split; [apply (vec_at_cat cs); exact Hg|reflexivity].
Qed.
Print Assumptions C70_dot.

(** The cross product, the same for both backends; the result is flat. *)
Theorem C70_cross : forall C cs (f g : fld C R), vfield cs f -> vfield cs g ->
  gives_vector cs (cross cs f g) LFlat (fun js x y z => exists ax ay az bx by_ bz, vec_at f js ax ay az /\ vec_at g js bx by_ bz /\
    (x = ay * bz - az * by_ /\ y = az * bx - ax * bz /\ z = ax * by_ - ay * bx)%R).
Proof.
  intros C cs f g Hf Hg.
  pose proof (fun c => view_arr cs f c Hf) as Vf. pose proof (fun c => view_arr cs g c Hg) as Vg. unfold cross.
  assert (X : arr (sshape_of cs) (bin Rminus (bin Rmult (view3 f 1) (view3 g 2)) (bin Rmult (view3 f 2) (view3 g 1))) (fun js => cat f 1 js * cat g 2 js - cat f 2 js * cat g 1 js)%R) by (apply (arr_bin Rminus); apply (arr_bin Rmult); auto).
  assert (Y : arr (sshape_of cs) (bin Rplus (bin Rmult (un Ropp (view3 f 0)) (view3 g 2)) (bin Rmult (view3 f 2) (view3 g 0))) (fun js => (- cat f 0 js) * cat g 2 js + cat f 2 js * cat g 0 js)%R) by (apply (arr_bin Rplus); apply (arr_bin Rmult); auto; apply (arr_un Ropp); auto).
  assert (Z0 : arr (sshape_of cs) (bin Rminus (bin Rmult (view3 f 0) (view3 g 1)) (bin Rmult (view3 f 1) (view3 g 0))) (fun js => cat f 0 js * cat g 1 js - cat f 1 js * cat g 0 js)%R) by (apply (arr_bin Rminus); apply (arr_bin Rmult); auto).
  destruct X as (x & -> & Sx & Gx), Y as (y & -> & Sy & Gy), Z0 as (z & -> & Sz & Gz). unfold wrap_list. rewrite Sx.
  assert (Ne : leqb (3 :: sshape_of cs) (sshape_of cs) = false) by (apply leqb_len; cbn [length]; lia). rewrite Ne. cbn [tl]. rewrite leqb_refl. cbn [orb]. set (h := F true _ _ _ _ _).
  assert (Hh : holds h LFlat 3).
  { split; [reflexivity|]. split; [lia|]. split; [apply map_length|]. split; [reflexivity|]. split; [reflexivity|]. repeat constructor; assumption. }
  assert (El : layout_of h = LFlat) by reflexivity. exists h. split; [reflexivity|]. split; [reflexivity|].
  split; [split; [lia|]; split; [left; reflexivity|]; exists LFlat; split; [exact Hh|left; reflexivity]|]. split; [exact El|].
  destruct (C37_load C R h LFlat 3 Hh (or_introl El) (or_introl El)) as (d & Ld & _ & Gd).
  assert (Gv : forall c js v, 0 <= c < 3 -> in_shape (sshape_of cs) js -> (exists a, nth_error [x; y; z] (Z.to_nat c) = Some a /\ get a js = v) -> val h c js v).
  { intros c js v Hc Hj (a & Ea & Ga). exists d. split; [exact Ld|]. cbn [h f_vec]. destruct (Gd c js Hc Hj) as (a' & Ea' & Ga'). change (mirrored (sshape h) (f_refl h) js) with (flip_idx (sshape_of cs) (map (fun _ => false) cs) js) in Ga'. rewrite flip_false in Ga'. change (f_zyx h) with false in Ga'. cbv iota in Ga'. congruence. }
  intros js Hj. exists (get x js), (get y js), (get z js). split.
  - split; [|split]; apply Gv; try lia; try exact Hj; eexists; split; reflexivity.
  - exists (cat f 0 js), (cat f 1 js), (cat f 2 js), (cat g 0 js), (cat g 1 js), (cat g 2 js). split; [apply (vec_at_cat cs); exact Hf|]. split; [apply (vec_at_cat cs); exact Hg|]. rewrite Gx, Gy, Gz by exact Hj. split; [reflexivity|]. split; [ring|reflexivity].
Qed.
Print Assumptions C70_cross.

(** a vector field made from an array *)
Lemma vec_arr {C} (cs : list (crd C)) (a : nd R) l : vector_layout l -> shape a = lay_shape l (sshape_of cs) 3 -> (l = LInter -> ~ ambiguous (sshape_of cs) 3) ->
  exists h, (forall v, wrap v cs a None = WFld h) /\ wrap_as true cs (Some a) = WFld h /\ f_crds h = cs /\ vfield cs h /\ layout_of h = l /\
    forall c js, 0 <= c < 3 -> in_shape (sshape_of cs) js -> cat h c js = get a (idx_of true l c js).
Proof.
  intros Lv Sa Am. assert (N3 : 1 < 3) by lia. destruct (wrap_vector true cs a l 3 Lv N3 Sa Am) as (h & d & E1 & E2 & E3 & E4 & E5 & E6 & Sd & G).
  pose proof (wrap_form true cs a h E1) as Eh. rewrite E3 in Eh. exists h. split; [intros v; destruct (wrap_vector v cs a l 3 Lv N3 Sa Am) as (h' & d' & E1' & _ & E3' & _); rewrite E1'; apply wrap_form in E1'; rewrite E3' in E1'; congruence|]. split.
  { unfold wrap in E1. unfold wrap_as. destruct (prod (shape a) =? 1); [discriminate|]. fold (plain_fld true cs a). rewrite <- Eh.
    assert (Nc : nr_comps h = Some 3) by (destruct E4 as (_ & _ & sl & Q & _); apply (holds_nr_comps h sl 3 Q)). rewrite Nc. reflexivity. }
  split; [exact E2|]. split; [split; [exact E4|unfold sshape; rewrite E2; reflexivity]|]. split; [exact E5|]. intros c js Hc Hj. unfold cat. rewrite E6, E5. apply G. rewrite Sd, Sa. apply (idx_in_shape true l 3 (sshape_of cs)); auto.
Qed.

Theorem C70_project : forall C be cs (f g : fld C R), vfield cs f -> vfield cs g -> prod (sshape_of cs) <> 1 -> (be = Numpy -> layout_of f = layout_of g /\ not_cube f) ->
  gives_scalar cs (project be cs f g) (fun js v => exists ax ay az bx by_ bz, vec_at f js ax ay az /\ vec_at g js bx by_ bz /\ v = ((ax * bx + ay * by_ + az * bz) / len bx by_ bz)%R).
Proof.
  intros C be cs f g Hf Hg Hp Am. unfold project. apply named_scalar. destruct be.
  - destruct (wrap_scalar_arr cs _ _ (arr_bin Rdiv _ _ _ _ _ (dot_arr cs f g Hf Hg) (norm_arr cs g Hg)) Hp) as (h & E1 & E2 & E3 & G). exists h. split; [exact E1|]. split; [exact E2|]. split; [exact E3|]. intros js Hj. destruct (G js Hj) as (v & Hv & ->).
    eexists. split; [exact Hv|]. exists (cat f 0 js), (cat f 1 js), (cat f 2 js), (cat g 0 js), (cat g 1 js), (cat g 2 js). split; [apply (vec_at_cat cs); exact Hf|]. split; [apply (vec_at_cat cs); exact Hg|reflexivity].
  - destruct (Am eq_refl) as (El & Ac). assert (Ag : not_cube g) by (unfold not_cube; rewrite <- El, (proj2 Hg), <- (proj2 Hf); exact Ac).
    assert (Ax : comp_axis g = comp_axis f) by (rewrite (axis_of cs f Hf), (axis_of cs g Hg), El; reflexivity).
    destruct (sum_prod_ok cs f g (comp_axis g) Hf Hg El Ac Hp Ax) as (s & E & Es & Hs & Gs). destruct (sum_prod_ok cs g g (comp_axis g) Hg Hg eq_refl Ag Hp eq_refl) as (t & Et & Ct & Ht & Gt). unfold np_project. rewrite E, Et. cbn [wmap].
    destruct (unary_scalar sqrt cs t Ct Ht Hp) as (r & -> & Cr & Hr & Gr). destruct (arith_scalar Rdiv cs s r Es Hs Cr Hr Hp) as (h & E1 & E2 & E3 & G).
    exists h. split; [exact E1|]. split; [exact E2|]. split; [exact E3|]. intros js Hj. eexists. split; [apply (G js _ _ Hj (Gs js Hj) (Gr js _ Hj (Gt js Hj)))|].
    exists (cat f 0 js), (cat f 1 js), (cat f 2 js), (cat g 0 js), (cat g 1 js), (cat g 2 js). split; [apply (vec_at_cat cs); exact Hf|]. split; [apply (vec_at_cat cs); exact Hg|reflexivity].
Qed.
Print Assumptions C70_project.

Lemma rsum3 a b c : rsum [a; b; c] = (a + b + c)%R.
Proof. unfold rsum. cbn [fold_right]. ring. Qed.

(** Each component is divided by the length of the vector; numexpr gives a flat field, numpy keeps the layout. *)
Theorem C70_normalize : forall C be cs (f : fld C R), vfield cs f -> not_cube f ->
  gives_vector cs (normalize be cs f) (match be with Numexpr => LFlat | Numpy => layout_of f end)
    (fun js x y z => exists ax ay az, vec_at f js ax ay az /\ let r := len ax ay az in (x = ax / r /\ y = ay / r /\ z = az / r)%R).
Proof.
  intros C be cs f Hf Ac. destruct (vfield_load cs f Hf) as (d & Ld & Sd & V & Lv & Nc). pose proof (proj2 Hf) as Sf.
  assert (K : forall (h : fld C R) l w, w = WFld h -> f_crds h = cs -> vfield cs h -> layout_of h = l ->
    (forall c js, 0 <= c < 3 -> in_shape (sshape_of cs) js -> cat h c js = (cat f c js / len (cat f 0 js) (cat f 1 js) (cat f 2 js))%R) ->
    gives_vector cs w l (fun js x y z => exists ax ay az, vec_at f js ax ay az /\ let r := len ax ay az in (x = ax / r /\ y = ay / r /\ z = az / r)%R)).
  { intros h l w E1 E2 E3 E4 G. exists h. split; [exact E1|]. split; [exact E2|]. split; [apply E3|]. split; [exact E4|]. intros js Hj. exists (cat h 0 js), (cat h 1 js), (cat h 2 js). split; [apply (vec_at_cat cs); exact E3|].
    exists (cat f 0 js), (cat f 1 js), (cat f 2 js). split; [apply (vec_at_cat cs); exact Hf|]. cbv zeta. rewrite !G by (auto; lia). auto. }
  unfold normalize. apply named_vector. destruct be.
  - unfold ne_normalize. pose proof (proj1 Hf) as (N & _ & sl & Hh & Hz). assert (LF : vector_layout LFlat) by (left; reflexivity). assert (Cl : crds_like f cs) by (unfold crds_like; auto).
    destruct (C37_as_layout C R f cs sl 3 LFlat d Hh Lv LF Cl N Hz (fun L _ => Ac L) Ld) as (g & e & Eg & Lg & Le & Se & Ge). rewrite Eg, Le. rewrite Sf in Se, Ge. cbn [lay_shape] in Se.
    destruct (norm_arr cs f Hf) as (nm & -> & Sn & Gn). cbn [bin]. unfold nd_map2. rewrite Se, Sn, bshape_flat_l. set (r := ND _ _).
    destruct (vec_arr cs r LFlat LF eq_refl) as (h & _ & E1 & E2 & E3 & E4 & G); [discriminate|]. apply (K h LFlat _ E1 E2 E3 E4). intros c js Hc Hj. rewrite G by assumption. unfold r. cbn [get idx_of].
    assert (I : in_shape (3 :: sshape_of cs) (c :: js)) by (constructor; auto). rewrite (bidx_same _ _ I), bidx_flat, Gn by exact Hj. f_equal. specialize (Ge c js Hc Hj). cbn [comp_at] in Ge. rewrite Ge. unfold cat. rewrite Ld. destruct Lv as [L|L]; rewrite L; reflexivity.
  - unfold np_normalize. rewrite Ld. set (P := match layout_of f with LFlat => [] | _ => sshape_of cs end). set (Q := match layout_of f with LFlat => sshape_of cs | _ => [] end).
    assert (Sd' : shape d = P ++ 3 :: Q) by (rewrite Sd; unfold P, Q; destruct Lv as [-> | ->]; reflexivity).
    assert (PQ : P ++ Q = sshape_of cs) by (unfold P, Q; destruct Lv as [-> | ->]; [reflexivity|apply app_nil_r]).
    assert (Nk : nr_comp f = Some (length P)).
    { pose proof (axis_of cs f Hf) as A. unfold comp_axis in A. destruct (nr_comp f) as [k|]; [|discriminate]. cbn [option_map] in A. f_equal. unfold P. destruct Lv as [L|L]; rewrite L in *; cbn [length]; rewrite ?sshape_of_len; injection A as A; lia. }
    rewrite Nk. set (nm := nd_reduce _ _ _ _). assert (Sn : shape nm = sshape_of cs) by (unfold nm, nd_reduce; cbn [shape]; rewrite Sd', drop_nth_mid; exact PQ).
    assert (St : set_nth (length P) 1 (shape d) = P ++ 1 :: Q) by (rewrite Sd'; unfold set_nth; rewrite firstn_app, firstn_all, Nat.sub_diag, firstn_O, app_nil_r, skipn_app, skipn_all2 by lia; replace (S (length P) - length P)%nat with 1%nat by lia; reflexivity).
    rewrite St. unfold nd_reshape. rewrite Sn. assert (Ne : sshape_of cs <> P ++ 1 :: Q) by (rewrite <- PQ; intros E; apply (f_equal (@length Z)) in E; rewrite !app_length in E; cbn [length] in E; lia).
    rewrite (leqb_neq _ _ Ne). assert (Ep : prod (sshape_of cs) = prod (P ++ 1 :: Q)) by (rewrite <- PQ, !prod_app; change (prod (1 :: Q)) with (1 * prod Q); lia). rewrite Ep, Z.eqb_refl.
    unfold arith, operand_data. rewrite Ld, V. unfold nd_map2. cbn [shape]. rewrite Sd', (proj1 (bshape_unit P Q 3)). set (r := ND _ _).
    destruct (vec_arr cs r (layout_of f) Lv) as (h & E0 & _ & E2 & E3 & E4 & G).
    { unfold r. cbn [shape]. rewrite <- Sd', Sd. reflexivity. }
    { intros L. rewrite <- Sf. apply Ac. exact L. }
    apply (K h _ _ (E0 true) E2 E3 E4). intros c js Hc Hj. rewrite G by assumption. unfold r. cbn [get].
    assert (J : exists p q, in_shape P p /\ in_shape Q q /\ p ++ q = js /\ forall i, p ++ i :: q = idx_of true (layout_of f) i js).
    { unfold P, Q. destruct Lv as [-> | ->]; [exists [], js|exists js, []]; (split; [auto; constructor|]); (split; [auto; constructor|]); (split; [rewrite ?app_nil_r; reflexivity|reflexivity]). }
    destruct J as (p & q & Ip & Iq & Epq & Ji). rewrite <- (Ji c). assert (I : in_shape (P ++ 3 :: Q) (p ++ c :: q)) by (apply in_shape_app; [exact Ip|constructor; [exact Hc|exact Iq]]).
    rewrite (bidx_same _ _ I), bidx_unit, ravel_unit by (auto; apply in_shape_len; exact Ip). rewrite PQ, Epq, unravel_ravel by exact Hj.
    assert (Cd : forall i, cat f i js = get d (p ++ i :: q)) by (intros i; unfold cat; rewrite Ld, (Ji i); reflexivity). rewrite <- (Cd c). f_equal. unfold nm, nd_reduce. cbn [get]. rewrite Sd', nth_mid. change (Z.to_nat 3) with 3%nat.
    rewrite map_map. change (prog 0 1 3) with [0; 1; 2]. cbn [map]. rewrite rsum3. unfold len, sqr. rewrite !Cd.
    assert (In : forall i, insert_at (length P) i js = p ++ i :: q).
    { intros i. rewrite <- Epq, <- (in_shape_len _ _ Ip). apply insert_at_mid. }
    rewrite !In. reflexivity.
Qed.
Print Assumptions C70_normalize.

Lemma len_pos x y z : ~ (x = 0 /\ y = 0 /\ z = 0)%R -> (0 < x * x + y * y + z * z)%R.
Proof.
  intros H. pose proof (Rle_0_sqr x) as A. pose proof (Rle_0_sqr y) as B. pose proof (Rle_0_sqr z) as D. unfold Rsqr in *.
  destruct (Req_dec x 0) as [X|X]; [|pose proof (Rsqr_pos_lt x X) as P; unfold Rsqr in P; lra].
  destruct (Req_dec y 0) as [Y|Y]; [|pose proof (Rsqr_pos_lt y Y) as P; unfold Rsqr in P; lra].
  destruct (Req_dec z 0) as [Z0|Z0]; [tauto|pose proof (Rsqr_pos_lt z Z0) as P; unfold Rsqr in P; lra].
Qed.
Lemma len_unit x y z : ~ (x = 0 /\ y = 0 /\ z = 0)%R -> let r := len x y z in (r <> 0 /\ r * r = x * x + y * y + z * z /\ len (x / r) (y / r) (z / r) = 1)%R.
Proof.
  intros H r. pose proof (len_pos x y z H) as P. pose proof (sqrt_lt_R0 _ P) as Q. fold (len x y z) in Q. fold r in Q. assert (S2 : (r * r = x * x + y * y + z * z)%R) by (apply sqrt_sqrt; lra). split; [lra|]. split; [exact S2|]. unfold len.
  replace (x / r * (x / r) + y / r * (y / r) + z / r * (z / r))%R with ((x * x + y * y + z * z) / (r * r))%R by (field; lra). rewrite <- S2. replace (r * r / (r * r))%R with 1%R by (field; lra). apply sqrt_1.
Qed.

(** The vectors of a normalized field have length one, except where the field is zero. *)
Theorem C70_unit : forall C be be' cs (f : fld C R), vfield cs f -> not_cube f -> prod (sshape_of cs) <> 1 ->
  exists h, normalize be cs f = WFld h /\
    gives_scalar cs (magnitude be' cs h) (fun js v => forall x y z, vec_at f js x y z -> ~ (x = 0 /\ y = 0 /\ z = 0)%R -> v = 1%R).
Proof.
  intros C be be' cs f Hf Ac Hp. destruct (C70_normalize C be cs f Hf Ac) as (h & E1 & E2 & E3 & E4 & G). exists h. split; [exact E1|].
  assert (Hh : vfield cs h) by (split; [exact E3|unfold sshape; rewrite E2; reflexivity]).
  assert (Ah : not_cube h). { unfold not_cube. rewrite E4, (proj2 Hh), <- (proj2 Hf). destruct be; [discriminate|exact Ac]. }
  destruct (C70_magnitude C be' cs h Hh Hp (fun _ => Ah)) as (m & M1 & M2 & M3 & Gm). exists m. split; [exact M1|]. split; [exact M2|]. split; [exact M3|]. intros js Hj. destruct (Gm js Hj) as (v & Hv & x' & y' & z' & V' & ->). eexists. split; [exact Hv|].
  intros x y z V Nz. destruct (G js Hj) as (x1 & y1 & z1 & V1 & ax & ay & az & Va & X & Y & Z0). destruct (vec_at_fun cs h js _ _ _ Hh V') as (-> & -> & ->). destruct (vec_at_fun cs h js _ _ _ Hh V1) as (-> & -> & ->).
  destruct (vec_at_fun cs f js _ _ _ Hf V) as (-> & -> & ->). destruct (vec_at_fun cs f js _ _ _ Hf Va) as (-> & -> & ->). rewrite X, Y, Z0. apply len_unit. exact Nz.
Qed.
Print Assumptions C70_unit.

(** The cross product is orthogonal to both fields, and changes its sign with their order. *)
Theorem C70_orthogonal : forall C be cs (f g : fld C R), vfield cs f -> vfield cs g -> prod (sshape_of cs) <> 1 -> (be = Numpy -> layout_of f = LFlat /\ layout_of g = LFlat) ->
  exists h k, cross cs f g = WFld h /\ cross cs g f = WFld k /\
    gives_scalar cs (dot be cs f h) (fun _ v => v = 0%R) /\ gives_scalar cs (dot be cs g h) (fun _ v => v = 0%R) /\
    forall js x y z, in_shape (sshape_of cs) js -> vec_at h js x y z -> vec_at k js (- x) (- y) (- z).
Proof.
  intros C be cs f g Hf Hg Hp Hl. destruct (C70_cross C cs f g Hf Hg) as (h & E1 & E2 & E3 & E4 & G). destruct (C70_cross C cs g f Hg Hf) as (k & K1 & K2 & K3 & K4 & Gk). exists h, k. split; [exact E1|]. split; [exact K1|].
  assert (Hh : vfield cs h) by (split; [exact E3|unfold sshape; rewrite E2; reflexivity]). assert (Hk : vfield cs k) by (split; [exact K3|unfold sshape; rewrite K2; reflexivity]).
  assert (D : forall u : fld C R, vfield cs u -> (be = Numpy -> layout_of u = LFlat) -> (forall js, in_shape (sshape_of cs) js -> cat u 0 js * cat h 0 js + cat u 1 js * cat h 1 js + cat u 2 js * cat h 2 js = 0)%R -> gives_scalar cs (dot be cs u h) (fun _ v => v = 0%R)).
  { intros u Hu Lu Z0. destruct (C70_dot C be cs u h Hu Hh Hp) as (s & S1 & S2 & S3 & Gs).
    { intros B. split; [rewrite E4; apply Lu; exact B|]. intros Q. rewrite (Lu B) in Q. discriminate. }
    exists s. split; [exact S1|]. split; [exact S2|]. split; [exact S3|]. intros js Hj. destruct (Gs js Hj) as (v & Hv & ax & ay & az & bx & by_ & bz & Va & Vb & ->). eexists. split; [exact Hv|].
    destruct (vec_at_fun cs u js _ _ _ Hu Va) as (-> & -> & ->). destruct (vec_at_fun cs h js _ _ _ Hh Vb) as (-> & -> & ->). apply Z0. exact Hj. }
  assert (H : forall js, in_shape (sshape_of cs) js -> (cat h 0 js = cat f 1 js * cat g 2 js - cat f 2 js * cat g 1 js /\ cat h 1 js = cat f 2 js * cat g 0 js - cat f 0 js * cat g 2 js /\ cat h 2 js = cat f 0 js * cat g 1 js - cat f 1 js * cat g 0 js)%R).
  { intros js Hj. destruct (G js Hj) as (x & y & z & V & ax & ay & az & bx & by_ & bz & Va & Vb & Q). destruct (vec_at_fun cs f js _ _ _ Hf Va) as (-> & -> & ->). destruct (vec_at_fun cs g js _ _ _ Hg Vb) as (-> & -> & ->). destruct (vec_at_fun cs h js _ _ _ Hh V) as (-> & -> & ->). exact Q. }
  assert (K : forall js, in_shape (sshape_of cs) js -> (cat k 0 js = cat g 1 js * cat f 2 js - cat g 2 js * cat f 1 js /\ cat k 1 js = cat g 2 js * cat f 0 js - cat g 0 js * cat f 2 js /\ cat k 2 js = cat g 0 js * cat f 1 js - cat g 1 js * cat f 0 js)%R).
  { intros js Hj. destruct (Gk js Hj) as (x & y & z & V & ax & ay & az & bx & by_ & bz & Va & Vb & Q). destruct (vec_at_fun cs g js _ _ _ Hg Va) as (-> & -> & ->). destruct (vec_at_fun cs f js _ _ _ Hf Vb) as (-> & -> & ->). destruct (vec_at_fun cs k js _ _ _ Hk V) as (-> & -> & ->). exact Q. }
  split; [apply D; [exact Hf|intros B; apply (Hl B)|]; intros js Hj; destruct (H js Hj) as (-> & -> & ->); ring|].
  split; [apply D; [exact Hg|intros B; apply (Hl B)|]; intros js Hj; destruct (H js Hj) as (-> & -> & ->); ring|].
  intros js x y z Hj V. destruct (vec_at_fun cs h js _ _ _ Hh V) as (-> & -> & ->). destruct (H js Hj) as (-> & -> & ->), (K js Hj) as (X & Y & Z0). split; [|split]; apply (val_cat cs k _ _ _ Hk); rewrite ?X, ?Y, ?Z0; ring.
Qed.
Print Assumptions C70_orthogonal.

(** The projection of a vector field on another is the multiple of the other by a.b / b.b where it is not zero. *)
Theorem C70_project_vector : forall C be cs (f g : fld C R), vfield cs f -> vfield cs g -> not_cube g -> prod (sshape_of cs) <> 1 -> (be = Numpy -> layout_of f = LFlat /\ layout_of g = LFlat) ->
  gives_vector cs (project_vector be cs f g) LFlat (fun js x y z => forall ax ay az bx by_ bz, vec_at f js ax ay az -> vec_at g js bx by_ bz -> ~ (bx = 0 /\ by_ = 0 /\ bz = 0)%R ->
    let s := ((ax * bx + ay * by_ + az * bz) / (bx * bx + by_ * by_ + bz * bz))%R in (x = s * bx /\ y = s * by_ /\ z = s * bz)%R).
Proof.
  intros C be cs f g Hf Hg Ac Hp Hl. destruct (C70_normalize C be cs g Hg Ac) as (b & E1 & E2 & E3 & E4 & G). unfold project_vector. rewrite E1.
  assert (Hb : vfield cs b) by (split; [exact E3|unfold sshape; rewrite E2; reflexivity]). assert (Lb : layout_of b = LFlat) by (rewrite E4; destruct be; [reflexivity|apply Hl; reflexivity]).
  destruct (C70_project C be cs f b Hf Hb Hp) as (p & P1 & P2 & P3 & Gp).
  { intros B. split; [rewrite Lb; apply Hl; exact B|]. intros Q. destruct (Hl B) as (Q' & _). rewrite Q' in Q. discriminate. }
  rewrite P1. destruct (vfield_load cs b Hb) as (d & Ld & Sd & V & _). rewrite Lb in Sd. cbn [lay_shape] in Sd. destruct (readable_load p 1 (or_introl P3)) as (e & Le & Se & _ & Ge). assert (Vp : f_vec p = false) by apply P3. rewrite Vp in Se, Ge. cbn [shape_of idx_of] in Se, Ge.
  assert (Sp : sshape p = sshape_of cs) by (unfold sshape; rewrite P2; reflexivity). rewrite Sp in Se. unfold arith, operand_data. rewrite Le, Ld, Vp. cbn [andb]. unfold nd_map2. rewrite Se, Sd, bshape_flat_r. set (r := ND _ _).
  destruct (vec_arr cs r LFlat (or_introl eq_refl) eq_refl) as (h & W & _ & H2 & H3 & H4 & Gh); [discriminate|]. exists h. split; [apply W|]. split; [exact H2|]. split; [apply H3|]. split; [exact H4|]. intros js Hj.
  exists (cat h 0 js), (cat h 1 js), (cat h 2 js). split; [apply (vec_at_cat cs); exact H3|]. cbv zeta. intros ax ay az bx by_ bz Va Vb Nz.
  assert (Q : forall c, 0 <= c < 3 -> cat h c js = (get e js * cat b c js)%R).
  { intros c Hc. rewrite Gh by assumption. unfold r. cbn [get idx_of]. assert (I : in_shape (3 :: sshape_of cs) (c :: js)) by (constructor; auto). rewrite (bidx_same _ _ I), bidx_flat by exact Hj. f_equal. unfold cat. rewrite Ld, Lb. reflexivity. }
  rewrite !Q by lia. destruct (Gp js Hj) as (v & Hv & a1 & a2 & a3 & b1 & b2 & b3 & Wa & Wb & Ev). apply Ge in Hv. rewrite <- Hv.
  destruct (G js Hj) as (n1 & n2 & n3 & Wn & g1 & g2 & g3 & Wg & X & Y & Z0).
  destruct (vec_at_fun cs f js _ _ _ Hf Va) as (-> & -> & ->). destruct (vec_at_fun cs f js _ _ _ Hf Wa) as (-> & -> & ->). destruct (vec_at_fun cs b js _ _ _ Hb Wb) as (-> & -> & ->). destruct (vec_at_fun cs b js _ _ _ Hb Wn) as (-> & -> & ->).
  destruct (vec_at_fun cs g js _ _ _ Hg Vb) as (-> & -> & ->). destruct (vec_at_fun cs g js _ _ _ Hg Wg) as (-> & -> & ->). destruct (len_unit _ _ _ Nz) as (Rn & Rr & Ru). set (q := len (cat g 0 js) (cat g 1 js) (cat g 2 js)) in *.
  rewrite X, Y, Z0 in Ev |- *. rewrite Ru in Ev. rewrite <- Rr, Ev. split; [|split]; field; exact Rn.
Qed.
Print Assumptions C70_project_vector.

(** ** which implementation is used *)
Lemma lookup_ok {F} (l : @imps F) n f : lookup n l = Some f <-> exists a b, l = a ++ (n, f) :: b /\ ~ In n (map fst a).
Proof.
  split.
  - induction l as [|[k v] l IH]; cbn [lookup]; [discriminate|]. destruct (String.eqb_spec n k) as [->|Ne].
    + intros E. injection E as ->. exists [], l. split; [reflexivity|intros []].
    + intros E. destruct (IH E) as (a & b & -> & H). exists ((k, v) :: a), b. split; [reflexivity|]. intros [Q|Q]; [cbn [fst] in Q; congruence|auto].
  - intros (a & b & -> & H). induction a as [|[k v] a IH]; cbn [app lookup]; [rewrite String.eqb_refl; reflexivity|]. destruct (String.eqb_spec n k) as [->|Ne]; [exfalso; apply H; left; reflexivity|]. apply IH. intros Q. apply H. right. exact Q.
Qed.
Lemma lookup_none {F} (l : @imps F) n : lookup n l = None <-> ~ In n (map fst l).
Proof.
  induction l as [|[k v] l IH]; cbn [lookup map fst In]; [tauto|]. destruct (String.eqb_spec n k) as [->|Ne]; [split; [discriminate|tauto]|]. rewrite IH. intuition congruence.
Qed.
(** [n] is the first of the names that has an implementation *)
Definition first_name {F} (names : list string) (l : @imps F) (n : string) : Prop :=
  exists a b, names = a ++ n :: b /\ In n (map fst l) /\ forall m, In m a -> ~ In m (map fst l).
Lemma first_of_ok {F} names (l : @imps F) : match first_of names l with Some f => exists n, first_name names l n /\ lookup n l = Some f | None => forall n, In n names -> ~ In n (map fst l) end.
Proof.
  induction names as [|m r IH]; cbn [first_of]; [intros n []|]. destruct (lookup m l) as [f|] eqn:E.
  - exists m. split; [|exact E]. exists [], r. split; [reflexivity|]. split; [|intros ? []]. destruct (in_dec string_dec m (map fst l)) as [I|I]; [exact I|]. apply lookup_none in I. congruence.
  - apply lookup_none in E. destruct (first_of r l) as [f|].
    + destruct IH as (n & (a & b & -> & I & H) & Ln). exists n. split; [|exact Ln]. exists (m :: a), b. split; [reflexivity|]. split; [exact I|]. intros k [<-|K]; auto.
    + intros n [<-|I]; auto.
Qed.
Lemma first_name_fun {F} names (l : @imps F) n m : first_name names l n -> first_name names l m -> n = m.
Proof.
  revert n m. induction names as [|x r IH]; intros n m (a & b & E & I & H) (a' & b' & E' & I' & H').
  - destruct a; discriminate.
  - destruct a as [|y a]; cbn [app] in E; injection E as -> E; destruct a' as [|y' a']; cbn [app] in E'; injection E' as E1 E'; subst.
    + reflexivity.
    + exfalso. apply (H' _ (or_introl eq_refl)). exact I.
    + exfalso. apply (H _ (or_introl eq_refl)). exact I'.
    + apply IH; [exists a, b|exists a', b']; (split; [auto|]); (split; [assumption|]); intros k K; [apply H|apply H']; right; exact K.
Qed.

(** An operation runs the implementation of the first preferred backend that has one.  If none of them has one, it raises if
    [only] is set and otherwise runs the first of numexpr, cython and numpy that has one, and else the one added first.
    With no preference it runs the one added first.  With no implementation at all it raises. *)
Theorem C70_backend : forall F (l : @imps F) preferred only,
  (forall ps n, preferred = Some ps -> first_name ps l n -> get_imp l preferred only = lookup n l) /\
  (forall ps, preferred = Some ps -> (forall n, In n ps -> ~ In n (map fst l)) -> only = true -> get_imp l preferred only = None) /\
  (forall ps n, preferred = Some ps -> (forall n, In n ps -> ~ In n (map fst l)) -> only = false -> first_name ["numexpr"; "cython"; "numpy"]%string l n -> get_imp l preferred only = lookup n l) /\
  (forall ps n f r, preferred = Some ps -> (forall n, In n ps -> ~ In n (map fst l)) -> only = false -> (forall n, In n ["numexpr"; "cython"; "numpy"]%string -> ~ In n (map fst l)) -> l = (n, f) :: r -> get_imp l preferred only = Some f) /\
  (forall n f r, preferred = None -> l = (n, f) :: r -> get_imp l preferred only = Some f) /\
  (get_imp l preferred only = None -> l = [] \/ (only = true /\ exists ps, preferred = Some ps /\ forall n, In n ps -> ~ In n (map fst l))).
Proof.
  intros F l preferred only. unfold get_imp.
  assert (No : forall names, (forall n, In n names -> ~ In n (map fst l)) -> first_of names l = None).
  { intros names H. pose proof (first_of_ok names l) as Q. destruct (first_of names l); [|reflexivity]. destruct Q as (n & (a & b & -> & I & _) & _). exfalso. apply (H n); [apply in_or_app; right; left; reflexivity|exact I]. }
  assert (Yes : forall names n, first_name names l n -> first_of names l = lookup n l /\ lookup n l <> None).
  { intros names n H. pose proof (first_of_ok names l) as Q. assert (I : lookup n l <> None) by (intros E; apply lookup_none in E; destruct H as (a & b & _ & I & _); contradiction). destruct (first_of names l) as [f|].
    - destruct Q as (m & Hm & E). rewrite (first_name_fun names l n m H Hm), E. split; [reflexivity|discriminate].
    - exfalso. destruct H as (a & b & -> & J & _). apply (Q n); [apply in_or_app; right; left; reflexivity|exact J]. }
  split; [intros ps n -> H; destruct (Yes ps n H) as (-> & Q); destruct (lookup n l); congruence|].
  split; [intros ps -> H ->; rewrite (No ps H); reflexivity|].
  split; [intros ps n -> H -> H'; rewrite (No ps H); destruct (Yes _ _ H') as (E & Q); unfold default_backends; rewrite E; destruct (lookup n l); congruence|].
  split; [intros ps n f r -> H -> H' E; rewrite (No ps H); unfold default_backends; rewrite (No _ H'), E; reflexivity|].
  split; [intros n f r -> ->; cbn [map fst first_of lookup]; rewrite String.eqb_refl; reflexivity|].
  intros E. destruct preferred as [ps|].
  - pose proof (first_of_ok ps l) as Q. destruct (first_of ps l); [discriminate|]. destruct only; [right; eauto|]. destruct (first_of default_backends l); [discriminate|]. destruct l as [|[k v] r]; [left; reflexivity|discriminate].
  - left. destruct l as [|[k v] r]; [reflexivity|]. cbn [map fst first_of lookup] in E. rewrite String.eqb_refl in E. discriminate.
Qed.
Print Assumptions C70_backend.

(** ** refuted *)
(** numpy's dot and project raise for two fields in different layouts, for which numexpr's give the result. *)
Theorem C70_layouts_refuted : forall C cs (f g : fld C R), vfield cs f -> vfield cs g -> prod (sshape_of cs) <> 1 -> layout_of f <> layout_of g ->
  dot Numpy cs f g = WErr /\ exists h, dot Numexpr cs f g = WFld h.
Proof.
  intros C cs f g Hf Hg Hp Ne. split.
  - pose proof (axis_of cs f Hf) as A. pose proof (axis_of cs g Hg) as B. destruct (vfield_load cs f Hf) as (_ & _ & _ & _ & Lf & _), (vfield_load cs g Hg) as (_ & _ & _ & _ & Lg & _). unfold comp_axis in A, B. unfold dot, np_dot.
    destruct (nr_comp f) as [i|]; [|discriminate]. destruct (nr_comp g) as [j|]; [|discriminate]. cbn [option_map] in A, B. assert (L : length cs <> O) by (intros E; apply Hp; destruct cs; [reflexivity|discriminate]).
    assert (N : i <> j) by (destruct Lf as [Lf|Lf], Lg as [Lg|Lg]; rewrite Lf, Lg in *; try congruence; injection A as A; injection B as B; lia). apply Nat.eqb_neq in N. rewrite N. reflexivity.
  - destruct (C70_dot C Numexpr cs f g Hf Hg Hp) as (h & E & _); [discriminate|]. eauto.
Qed.
Print Assumptions C70_layouts_refuted.

(** numpy's magnitude raises for an interlaced field on a grid with three places along each axis. *)
Theorem C70_cube_refuted : forall C cs (f : fld C R), vfield cs f -> layout_of f = LInter -> ambiguous (sshape f) 3 -> cs <> [] ->
  magnitude Numpy cs f = WErr /\ exists h, magnitude Numexpr cs f = WFld h.
Proof.
  intros C cs f Hf L Am Nn. destruct (vfield_load cs f Hf) as (a & La & Sa & V & Lv & Nc). rewrite (proj2 Hf) in Am. rewrite L in Sa. cbn [lay_shape] in Sa.
  assert (Ln : (0 < length cs)%nat) by (destruct cs; [congruence|cbn [length]; lia]). pose proof (sshape_of_len cs) as Ls.
  assert (All : Forall (fun x => x = 3) (sshape_of cs)) by (eapply Forall_impl; [|exact Am]; cbv beta; intros; congruence).
  assert (Hp : prod (sshape_of cs) <> 1).
  { apply prod_pos_not1; [|eapply Forall_impl; [|exact All]; cbv beta; intros; lia]. destruct (sshape_of cs) as [|x l]; [cbn [length] in Ls; lia|]. exists x. split; [left; reflexivity|]. inversion All; lia. }
  split; [|destruct (C70_magnitude C Numexpr cs f Hf Hp) as (h & E & _); [discriminate|eauto]].
  assert (Eq : sshape_of cs ++ [3] = 3 :: sshape_of cs) by (clear - All; induction All as [|x l -> H IH]; [reflexivity|cbn [app]; rewrite IH; reflexivity]). rewrite Eq in Sa.
  unfold magnitude, np_magnitude, sum_prod. rewrite (axis_of cs f Hf), L. unfold arith, operand_data. rewrite La, V. cbn [negb andb]. destruct (map2_same Rmult a a _ Sa Sa) as (r & -> & Sr & Gr).
  assert (N3 : 1 < 3) by lia. destruct (wrap_vector true cs r LFlat 3 (or_introl eq_refl) N3 Sr) as (h & d & -> & E2 & E3 & E4 & E5 & E6 & Sd & Gd); [discriminate|]. unfold reduce. rewrite E6, Sd, Sr. cbn [length]. rewrite Ls.
  unfold norm_axis at 1. replace (_ && _) with true by lia. replace (Z.of_nat (length cs) <? 0) with false by lia. rewrite Nat2Z.id. unfold wrap_reduced, nd_reduce. cbn [shape]. rewrite Sd, Sr.
  assert (P : prod (drop_nth (length cs) (3 :: sshape_of cs)) <> 1).
  { unfold drop_nth. rewrite (skipn_all2 (n := S (length cs))) by (cbn [length]; lia). rewrite app_nil_r. destruct (length cs) as [|n] eqn:En; [lia|]. cbn [firstn]. apply prod_pos_not1; [exists 3; split; [left; reflexivity|lia]|].
    constructor; [lia|]. apply Forall_forall. intros x Hx. rewrite Forall_forall in All. rewrite (All x); [lia|]. rewrite <- (firstn_skipn n (sshape_of cs)). apply in_or_app. left. exact Hx. }
  apply Z.eqb_neq in P. rewrite P. assert (R0 : reduced_crds cs h (Z.of_nat (length cs)) None = None).
  { unfold reduced_crds, nr_comp. rewrite E3, E5. cbn [negb]. replace (Z.of_nat (length cs) =? Z.of_nat 0) with false by lia. rewrite andb_false_r. unfold norm_axis. replace (_ && _) with false by lia. reflexivity. }
  rewrite R0. reflexivity.
Qed.
Print Assumptions C70_cube_refuted.

(** numpy's project_vector raises for interlaced fields: it multiplies a scalar field by an interlaced one. *)
Theorem C70_project_vector_refuted : forall C cs (f g : fld C R), vfield cs f -> vfield cs g -> layout_of f = LInter -> layout_of g = LInter ->
  Forall (fun L => 1 < L) (sshape_of cs) -> ~ ambiguous (sshape_of cs) 3 -> cs <> [] ->
  project_vector Numpy cs f g = WErr /\ exists h, project_vector Numexpr cs f g = WFld h.
Proof.
  intros C cs f g Hf Hg Lf Lg Big Am Nn.
  assert (Hp : prod (sshape_of cs) <> 1).
  { apply prod_pos_not1; [|eapply Forall_impl; [|exact Big]; cbv beta; intros; lia]. destruct cs as [|c cs]; [congruence|]. cbn [sshape_of map] in *. eexists. split; [left; reflexivity|]. inversion Big; assumption. }
  assert (Af : not_cube f) by (intros _; rewrite (proj2 Hf); exact Am). assert (Ag : not_cube g) by (intros _; rewrite (proj2 Hg); exact Am). split.
  - destruct (C70_normalize C Numpy cs g Hg Ag) as (b & E1 & E2 & E3 & E4 & _). rewrite Lg in E4. unfold project_vector. rewrite E1. assert (Sb : sshape b = sshape_of cs) by (unfold sshape; rewrite E2; reflexivity). assert (Hb : vfield cs b) by (split; assumption).
    destruct (C70_project C Numpy cs f b Hf Hb Hp) as (p & P1 & P2 & P3 & _); [intros _; split; [congruence|exact Af]|]. rewrite P1.
    apply (C65_scalar_left_refuted C C R R R Rmult cs cs 3 b p Sb); auto. unfold sshape. rewrite P2. reflexivity.
  - destruct (C70_project_vector C Numexpr cs f g Hf Hg Ag Hp) as (h & E & _); [discriminate|]. eauto.
Qed.
Print Assumptions C70_project_vector_refuted.

(** numexpr's operators raise for an interlaced vector field and a scalar field, for which numpy's give the result. *)
Theorem C70_scalar_operand_refuted : forall C (op : R -> R -> R) cs (f g : fld C R), vfield cs f -> layout_of f = LInter -> holds_scalar g -> sshape g = sshape_of cs ->
  Forall (fun L => 1 < L) (sshape_of cs) -> ~ ambiguous (sshape_of cs) 3 ->
  binary Numexpr op cs f g = WErr /\ exists h, binary Numpy op cs f g = WFld h /\ pointwise op cs 3 f g h.
Proof.
  intros C op cs f g Hf L Hg Sg Big Am. split.
  - destruct (vfield_load cs f Hf) as (a & La & Sa & _). destruct (readable_load g 3 (or_introl Hg)) as (b & Lb & Sb & _). assert (V : f_vec g = false) by apply Hg. rewrite V in Sb. rewrite Sg in Sb. rewrite L in Sa. cbn [shape_of lay_shape] in Sa, Sb.
    unfold binary. rewrite La, Lb. cbn [bin]. unfold nd_map2. rewrite Sa, Sb. assert (B : bshape (sshape_of cs ++ [3]) (sshape_of cs) = None).
    { unfold bshape. rewrite rev_unit. destruct (bshape_r_inter 3 (rev (sshape_of cs))) as (-> & _); [apply Forall_rev; exact Big|lia|rewrite ambiguous_rev; exact Am|reflexivity]. }
    rewrite B. reflexivity.
  - destruct (C65_fields C C R R R op cs 3 f g (proj2 Hf) Sg) as (h & E & P); [right; right; left; split; [apply Hf|]; split; [exact Hg|intros _; exact Am]|]. exists h. split; [|exact P]. unfold binary. rewrite E. reflexivity.
Qed.
Print Assumptions C70_scalar_operand_refuted.

(** The relative difference is documented as abs(a - b) / a; no absolute value is taken. *)
Theorem C70_relative_diff_refuted : forall C be cs (f g : fld C R), f_crds f = cs -> f_crds g = cs -> holds_scalar f -> holds_scalar g -> prod (sshape_of cs) <> 1 ->
  gives_scalar cs (relative_diff be cs f g) (fun js v => exists a b, val f 0 js a /\ val g 0 js b /\ v = ((a - b) / a)%R /\ ((0 < a < b)%R -> v <> (Rabs (a - b) / a)%R)).
Proof.
  intros C be cs f g Cf Cg Hf Hg Hp.
  assert (K : forall h w, w = WFld h -> f_crds h = cs -> holds_scalar h -> (forall js a b, in_shape (sshape_of cs) js -> val f 0 js a -> val g 0 js b -> val h 0 js ((a - b) / a)%R) ->
    gives_scalar cs w (fun js v => exists a b, val f 0 js a /\ val g 0 js b /\ v = ((a - b) / a)%R /\ ((0 < a < b)%R -> v <> (Rabs (a - b) / a)%R))).
  { intros h w Ew Ch Hh G. exists h. split; [exact Ew|]. split; [exact Ch|]. split; [exact Hh|]. intros js Hj. destruct (readable_load f 1 (or_introl Hf)) as (d & _ & _ & _ & Gd). destruct (readable_load g 1 (or_introl Hg)) as (e & _ & _ & _ & Ge).
    set (a := get d (idx_of (f_vec f) (layout_of f) 0 js)). set (b := get e (idx_of (f_vec g) (layout_of g) 0 js)). assert (Va : val f 0 js a) by (apply Gd; reflexivity). assert (Vb : val g 0 js b) by (apply Ge; reflexivity).
    exists ((a - b) / a)%R. split; [apply G; assumption|]. exists a, b. split; [exact Va|]. split; [exact Vb|]. split; [reflexivity|]. intros Q E. rewrite Rabs_left in E by lra. apply (f_equal (fun x => x * a)%R) in E. unfold Rdiv in E. rewrite !Rmult_assoc, Rinv_l in E by lra. lra. }
  destruct be; unfold relative_diff.
  - destruct (arith_scalar (fun a b => (a - b) / a)%R cs f g Cf Hf Cg Hg Hp) as (h & E1 & E2 & E3 & G). apply (K h); [|exact E2|exact E3|intros; apply G; assumption]. unfold binary.
    unfold arith, operand_data in E1. assert (Vf : f_vec f = false) by apply Hf. rewrite Vf in *. cbn [andb] in E1. destruct (load f) as [a|]; [|discriminate]. destruct (load g) as [b|]; [|discriminate]. cbn [bin]. destruct (nd_map2 _ a b); [|discriminate]. rewrite E1. reflexivity.
  - destruct (arith_scalar Rminus cs f g Cf Hf Cg Hg Hp) as (m & -> & M2 & M3 & Gm). destruct (arith_scalar Rdiv cs m f M2 M3 Cf Hf Hp) as (h & E1 & E2 & E3 & G). rewrite E1. apply (K h); [reflexivity|exact E2|exact E3|]. intros js a b Hj Va Vb. apply G; [exact Hj|apply Gm; assumption|exact Va].
Qed.
Print Assumptions C70_relative_diff_refuted.

(** On a grid with one point magnitude raises: its result is a number, which can not be given a name. *)
Theorem C70_one_point_refuted : forall C be cs (f : fld C R), vfield cs f -> not_cube f -> prod (sshape_of cs) = 1 -> magnitude be cs f = WErr.
Proof.
  intros C be cs f Hf Ac Hp. unfold magnitude. destruct be.
  - unfold ne_magnitude. destruct (norm_arr cs f Hf) as (a & -> & Sa & _). unfold wrap_as. rewrite Sa, Hp. reflexivity.
  - destruct (arith_vec Rmult cs f f Hf Hf eq_refl Ac) as (h & E1 & E2 & Hh & E4 & _). unfold np_magnitude, sum_prod. rewrite (axis_of cs f Hf), E1. destruct (vfield_load cs h Hh) as (d & Ld & Sd & V & Lv & _). rewrite E4 in *. unfold reduce. rewrite Ld.
    set (P := match layout_of f with LFlat => [] | _ => sshape_of cs end). set (Q := match layout_of f with LFlat => sshape_of cs | _ => [] end).
    assert (Sd' : shape d = P ++ 3 :: Q) by (rewrite Sd; unfold P, Q; destruct Lv as [-> | ->]; reflexivity).
    assert (PQ : P ++ Q = sshape_of cs) by (unfold P, Q; destruct Lv as [-> | ->]; [reflexivity|apply app_nil_r]).
    assert (Nk : norm_axis (length (shape d)) (match layout_of f with LFlat => 0 | _ => Z.of_nat (length cs) end) = Some (length P)).
    { apply norm_axis_ok; [rewrite Sd', app_length; cbn [length]; lia|left]. unfold P. destruct Lv as [-> | ->]; [reflexivity|rewrite sshape_of_len; reflexivity]. }
    rewrite Nk. unfold wrap_reduced, nd_reduce. cbn [shape]. rewrite Sd', drop_nth_mid, PQ, Hp. reflexivity.
Qed.
Print Assumptions C70_one_point_refuted.

(** ** the hypotheses can be met *)
Definition g232 : list (crd nat) := [(0, [0; 1]); (1, [0; 1; 2]); (2, [0; 1])]%nat.
Definition vflat : fld nat R := F true g232 [false; false; false] (SArr (ND [3; 2; 3; 2] (fun js => IZR (fold_right Z.add 1 js)))) false None.
Definition vinter : fld nat R := F true g232 [false; false; false] (SArr (ND [2; 3; 2; 3] (fun js => IZR (last js 0)))) false None.
Example C70_hypotheses : vfield g232 vflat /\ layout_of vflat = LFlat /\ vfield g232 vinter /\ layout_of vinter = LInter /\ not_cube vinter /\ prod (sshape_of g232) <> 1 /\
  Forall (fun L => 1 < L) (sshape_of g232) /\ ~ ambiguous (sshape_of g232) 3.
Proof.
  assert (A : ~ ambiguous (sshape_of g232) 3) by (intros Q; inversion Q; discriminate).
  split; [split; [|reflexivity]; split; [lia|]; split; [left; reflexivity|]; exists LFlat; split; [|left; reflexivity]; repeat (split; [first [reflexivity|left; reflexivity|lia]|]); discriminate|].
  split; [reflexivity|]. split; [split; [|reflexivity]; split; [lia|]; split; [right; reflexivity|]; exists LInter; split; [|left; reflexivity]; repeat (split; [first [reflexivity|right; reflexivity|lia]|]); intros _; exact A|].
  split; [reflexivity|]. split; [intros _; exact A|]. split; [discriminate|]. split; [repeat constructor|exact A].
Qed.
(** a field on a cube that has been converted to the interlaced layout *)
Definition cube3 : fld nat R := F true [(0, [0; 1; 2]); (1, [0; 1; 2])]%nat [false; false] (SArr (ND [3; 3; 3] (fun js => IZR (hd 0 js)))) false (Some LInter).
Example C70_cube_hypotheses : vfield (f_crds cube3) cube3 /\ layout_of cube3 = LInter /\ ambiguous (sshape cube3) 3.
Proof.
  split; [split; [|reflexivity]; split; [lia|]; split; [right; reflexivity|]; exists LFlat; split; [|right; left; reflexivity]; repeat (split; [first [reflexivity|left; reflexivity|lia]|]); discriminate|].
  split; [reflexivity|]. repeat constructor.
Qed.
