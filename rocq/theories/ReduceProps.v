(** C66: reductions along an axis. *)
From Verif Require Import ArithModel FwdSliceNd FldProofs LayoutProps TransProps ArithProps.
From Coq Require Import ZifyBool ZifyNat Arith.
Open Scope Z_scope.

(** ** specification *)
(** the values of component [c] of [f] along one axis with [L] places, at the indices [p] of the axes before it and
    [q] of the axes after it *)
Definition along {C V} (f : fld C V) (c : Z) (p q : list Z) (L : nat) (vs : list V) : Prop :=
  length vs = L /\ forall i v, nth_error vs i = Some v -> val f c (p ++ Z.of_nat i :: q) v.
(** the values of all components at one grid point *)
Definition comps_at {C V} (f : fld C V) (n : Z) (js : list Z) (vs : list V) : Prop :=
  Z.of_nat (length vs) = n /\ forall c v, nth_error vs c = Some v -> val f (Z.of_nat c) js v.
(** the data of [h] can be read, and have the shape of its grid *)
Definition loads {C V} (h : fld C V) (sh : list Z) : Prop := exists d, load h = Some d /\ shape d = sh.

(** ** lists *)
Lemma set_nth_mid {X} (p q : list X) x y : set_nth (length p) y (p ++ x :: q) = p ++ y :: q.
Proof.
  unfold set_nth. rewrite firstn_app, Nat.sub_diag, firstn_all. cbn [firstn]. rewrite app_nil_r. f_equal. f_equal.
  replace (S (length p)) with (length (p ++ [x])) by (rewrite app_length; cbn; lia). replace (p ++ x :: q) with ((p ++ [x]) ++ q) by (rewrite <- app_assoc; reflexivity).
  rewrite skipn_app, skipn_all, Nat.sub_diag. reflexivity.
Qed.
Lemma drop_nth_mid {X} (p q : list X) x : drop_nth (length p) (p ++ x :: q) = p ++ q.
Proof.
  unfold drop_nth. rewrite firstn_app, Nat.sub_diag, firstn_all. cbn [firstn]. rewrite app_nil_r. f_equal.
  replace (S (length p)) with (length (p ++ [x])) by (rewrite app_length; cbn; lia). replace (p ++ x :: q) with ((p ++ [x]) ++ q) by (rewrite <- app_assoc; reflexivity).
  rewrite skipn_app, skipn_all, Nat.sub_diag. reflexivity.
Qed.
Lemma insert_at_mid {X} (p q : list X) x : insert_at (length p) x (p ++ q) = p ++ x :: q.
Proof. induction p as [|y p IH]; [destruct q; reflexivity|]. cbn [length app insert_at]. rewrite IH. reflexivity. Qed.
Lemma nth_mid {X} (p q : list X) x d : nth (length p) (p ++ x :: q) d = x.
Proof. rewrite app_nth2 by lia. rewrite Nat.sub_diag. reflexivity. Qed.
Lemma nth_error_mid {X} (p q : list X) x : nth_error (p ++ x :: q) (length p) = Some x.
Proof. rewrite nth_error_app2 by lia. rewrite Nat.sub_diag. reflexivity. Qed.
Lemma prod_app a b : prod (a ++ b) = prod a * prod b.
Proof. induction a as [|x a IH]; [cbn [app]; change (prod []) with 1; lia|]. cbn [app]. change (x * prod (a ++ b) = x * prod a * prod b). rewrite IH. ring. Qed.
Lemma in_shape_app a b p q : in_shape a p -> in_shape b q -> in_shape (a ++ b) (p ++ q).
Proof. apply Forall2_app. Qed.

(** ** reshaping *)
Lemma in_shape_prod sh js : in_shape sh js -> 0 < prod sh /\ 0 <= ravel sh js < prod sh.
Proof.
  intros H. induction H as [|L j sh js Hj _ IH]; [split; [reflexivity|cbn; split; [lia|reflexivity]]|]. change (prod (L :: sh)) with (L * prod sh). cbn [ravel]. nia.
Qed.
Lemma unravel_ravel sh js : in_shape sh js -> unravel sh (ravel sh js) = js.
Proof.
  intros H. induction H as [|L j sh js Hj H IH]; [reflexivity|]. cbn [unravel ravel]. destruct (in_shape_prod _ _ H) as (P & R). f_equal.
  - rewrite Z.add_comm, Z_div_plus_full by lia. rewrite Z.div_small by lia. reflexivity.
  - rewrite Z.add_comm, Z_mod_plus_full, Z.mod_small by lia. exact IH.
Qed.
Lemma ravel_app a b p q : length p = length a -> ravel (a ++ b) (p ++ q) = ravel a p * prod b + ravel b q.
Proof.
  revert p. induction a as [|x a IH]; intros [|y p] E; cbn in E; try discriminate; [cbn [app ravel]; lia|]. cbn [app ravel]. rewrite IH by congruence. rewrite prod_app. ring.
Qed.
Lemma ravel_unit a b p q : length p = length a -> ravel (a ++ 1 :: b) (p ++ 0 :: q) = ravel (a ++ b) (p ++ q).
Proof. intros E. rewrite !ravel_app by exact E. cbn [ravel]. change (prod (1 :: b)) with (1 * prod b). ring. Qed.

Section P.
Context {C : Type}.
Implicit Types (cs before after : list (crd C)) (ax : crd C).

Lemma sshape_app a b : @sshape_of C (a ++ b) = sshape_of a ++ sshape_of b.
Proof. apply map_app. Qed.
Lemma sshape_mid before ax after : sshape_of (before ++ ax :: after) = sshape_of before ++ Z.of_nat (length (snd ax)) :: sshape_of after.
Proof. rewrite sshape_app. reflexivity. Qed.
Lemma sshape_of_len cs : length (sshape_of cs) = length cs.
Proof. apply map_length. Qed.
Lemma nonneg cs : Forall (fun L => 0 <= L) (sshape_of cs).
Proof. unfold sshape_of. apply Forall_forall. intros x H. apply in_map_iff in H as (c & <- & _). lia. Qed.

(** a field that holds a scalar array which is reshaped to the grid *)
Lemma load_reshaped {V} cs (r : nd V) : shape r <> sshape_of cs -> prod (shape r) = prod (sshape_of cs) ->
  exists d, load (F false cs (map (fun _ => false) cs) (SArr r) false None) = Some d /\ shape d = sshape_of cs /\
    forall js, in_shape (sshape_of cs) js -> get d js = get r (unravel (shape r) (ravel (sshape_of cs) js)).
Proof.
  intros Ne Ep. set (f := F false cs _ _ _ _). unfold load. cbn [f_force f orb xyz_src f_zyx f_src]. unfold dat_to_nd, fshape, reflect_arr.
  cbn [nr_comp f f_vec negb]. change (sshape f) with (sshape_of cs). unfold nd_reshape. rewrite (leqb_neq _ _ Ne), Ep, Z.eqb_refl. cbn [f_refl].
  set (b := ND (sshape_of cs) _). destruct (reflect_whole b (sshape_of cs) (map (fun _ => false) cs) eq_refl (nonneg cs)) as (fs & ss & e & d & M1 & M2 & M3 & Sd & Gd).
  { rewrite map_length, sshape_of_len. reflexivity. }
  change (f_refl f) with (map (fun _ : crd C => false) cs). rewrite M1, M2, M3. exists d. split; [reflexivity|]. cbn [shape nd_flip get b] in Sd, Gd. split; [exact Sd|]. intros js Hj. rewrite Gd by (rewrite Sd; exact Hj). cbn [shape b]. rewrite flip_false. reflexivity.
Qed.

Lemma norm_axis_ok n k axis : (k < n)%nat -> axis = Z.of_nat k \/ axis = Z.of_nat k - Z.of_nat n -> norm_axis n axis = Some k.
Proof. intros L H. unfold norm_axis. destruct H as [-> | ->]; replace (_ && _) with true by lia; f_equal; destruct (_ <? 0) eqn:E; lia. Qed.

Lemma prog_nth_error n : forall i, (i < n)%nat -> nth_error (prog 0 1 n) i = Some (Z.of_nat i).
Proof. intros i H. rewrite prog_nth by exact H. f_equal. lia. Qed.
Lemma along_map {V} (f : fld C V) c p q (g : Z -> V) L : (forall i, 0 <= i < Z.of_nat L -> val f c (p ++ i :: q) (g i)) -> along f c p q L (map g (prog 0 1 L)).
Proof.
  intros H. split; [rewrite map_length, prog_length; reflexivity|]. intros i v E. rewrite nth_error_map in E. destruct (nth_error (prog 0 1 L) i) as [z|] eqn:Ez; [|discriminate]. cbn [option_map] in E. injection E as <-.
  assert (I : (i < L)%nat) by (rewrite <- (prog_length 0 1 L); apply nth_error_Some; congruence). rewrite prog_nth_error in Ez by exact I. injection Ez as <-. apply H. lia.
Qed.
End P.

(** ** theorems *)
(** A scalar field reduced along an axis, given by its number from the start or from the end: the axis is left with
    its first place, and every value is the reduction of the values along the axis. *)
Theorem C66_scalar : forall C V X (red : list V -> X) (f : fld C V) before ax after axis keepdims,
  holds_scalar f -> sshape f = sshape_of (before ++ ax :: after) -> snd ax <> [] ->
  axis = Z.of_nat (length before) \/ axis = - Z.of_nat (S (length after)) -> keepdims <> Some false ->
  prod (sshape_of (before ++ after)) <> 1 ->
  let cs' := before ++ (fst ax, firstn 1 (snd ax)) :: after in
  exists h, reduce red (before ++ ax :: after) f axis keepdims = WFld h /\ f_crds h = cs' /\ f_vec h = false /\ loads h (sshape_of cs') /\
    forall p q c, in_shape (sshape_of before) p -> in_shape (sshape_of after) q ->
      exists vs, along f c p q (length (snd ax)) vs /\ val h c (p ++ 0 :: q) (red vs).
Proof.
  intros C V X red f before ax after axis keepdims Hf Sf Ha Hax Hk Hp cs'. set (cs := before ++ ax :: after) in *.
  destruct (readable_load f 0 (or_introl Hf)) as (a & La & Sa & _ & Ga). assert (Hv : f_vec f = false) by apply Hf. rewrite Hv in *. cbn [shape_of idx_of] in *. rewrite Sf in Sa. unfold cs in Sa. rewrite sshape_mid in Sa.
  assert (La' : length (shape a) = length cs) by (rewrite Sa; unfold cs; rewrite !app_length; cbn [length]; rewrite !sshape_of_len; reflexivity).
  assert (Nk : norm_axis (length cs) axis = Some (length before)).
  { apply norm_axis_ok; [unfold cs; rewrite app_length; cbn [length]; lia|]. destruct Hax as [H|H]; [left; exact H|right]. unfold cs. rewrite app_length. cbn [length]. lia. }
  unfold reduce. rewrite La, La', Nk.
  set (kd := match keepdims with Some b => b | None => false end). set (r := nd_reduce (length before) kd red a).
  assert (Sb : length before = length (sshape_of before)) by (rewrite sshape_of_len; reflexivity).
  assert (Sr : shape r = if kd then sshape_of before ++ 1 :: sshape_of after else sshape_of before ++ sshape_of after).
  { unfold r, nd_reduce. cbn [shape]. rewrite Sa, Sb, set_nth_mid, drop_nth_mid. reflexivity. }
  assert (Pr : prod (shape r) = prod (sshape_of (before ++ after))).
  { rewrite Sr, sshape_app. destruct kd; rewrite !prod_app; [change (prod (1 :: sshape_of after)) with (1 * prod (sshape_of after)); ring|ring]. }
  assert (Lax : length (firstn 1 (snd ax)) = 1%nat) by (destruct (snd ax); [contradiction|reflexivity]).
  assert (Sc : sshape_of cs' = sshape_of before ++ 1 :: sshape_of after) by (pose proof (sshape_mid before (fst ax, firstn 1 (snd ax)) after) as Q; cbn [snd] in Q; rewrite Lax in Q; exact Q).
  assert (Gr : forall p q c, in_shape (sshape_of before) p -> in_shape (sshape_of after) q ->
    exists vs, along f c p q (length (snd ax)) vs /\ get r (if kd then p ++ 0 :: q else p ++ q) = red vs).
  { intros p q c Ip Iq. assert (Lp : length before = length p) by (rewrite Sb; symmetry; apply in_shape_len; exact Ip).
    exists (map (fun i => get a (p ++ i :: q)) (prog 0 1 (length (snd ax)))). split; [apply along_map; intros i _; apply Ga; reflexivity|].
    unfold r, nd_reduce. cbn [get]. f_equal. rewrite Sa. assert (Q : nth (length before) (sshape_of before ++ Z.of_nat (length (snd ax)) :: sshape_of after) 0 = Z.of_nat (length (snd ax))) by (rewrite Sb; apply nth_mid). rewrite Q, Nat2Z.id. apply map_ext. intros i. rewrite Lp. destruct kd; [rewrite set_nth_mid|rewrite insert_at_mid]; reflexivity. }
  unfold wrap_reduced. destruct (Z.eqb_spec (prod (shape r)) 1) as [E|Np]; [congruence|].
  assert (Rc : reduced_crds cs f axis keepdims = Some cs').
  { unfold reduced_crds, nr_comps, nr_comp. rewrite Hv. cbn [negb]. change (0 <? 0) with false. cbn [andb]. rewrite Nk.
    replace (match keepdims with Some b => b | None => true end) with true by (destruct keepdims as [[|]|]; congruence). unfold keep_first, cs. rewrite nth_error_mid, set_nth_mid. reflexivity. }
  rewrite Rc, Hv. unfold wrap. rewrite (proj2 (Z.eqb_neq _ _) Np).
  destruct kd eqn:Ek.
  - destruct (wrap_scalar false cs' r) as (h & d & E1 & E2 & E3 & E4 & E5 & Sd & Gd); [rewrite Sr, Sc; reflexivity|exact Np|].
    unfold wrap in E1. rewrite (proj2 (Z.eqb_neq _ _) Np) in E1. exists h. split; [exact E1|]. split; [exact E2|]. split; [exact E3|]. split; [exists d; split; [exact E5|congruence]|].
    intros p q c Ip Iq. destruct (Gr p q c Ip Iq) as (vs & Av & Gv). exists vs. split; [exact Av|]. exists d. split; [exact E5|]. rewrite E3, <- Gv. symmetry. apply Gd. rewrite Sd, Sr. apply in_shape_app; [exact Ip|constructor; [lia|exact Iq]].
  - assert (Lr : length (shape r) = (length before + length after)%nat) by (rewrite Sr, app_length, !sshape_of_len; reflexivity).
    assert (Lc : length (sshape_of cs') = S (length before + length after)) by (rewrite Sc, app_length; cbn [length]; rewrite !sshape_of_len; lia).
    rewrite (leqb_len (shape r)) by lia. rewrite (leqb_len (tl (shape r))) by (destruct (shape r); cbn [tl length] in *; lia). rewrite (leqb_len (removelast (shape r))) by (pose proof (removelast_firstn_len (shape r)) as Q; rewrite Q, firstn_length; lia).
    cbn [orb]. cbn [nr_comps f_vec negb]. change (0 =? 1) with false. cbn iota.
    destruct (load_reshaped cs' r) as (d & E5 & Sd & Gd); [intros Q; rewrite Q in Lr; lia|rewrite Pr, Sc, sshape_app, !prod_app; change (prod (1 :: sshape_of after)) with (1 * prod (sshape_of after)); ring|].
    eexists. split; [reflexivity|]. split; [reflexivity|]. split; [reflexivity|]. split; [exists d; split; [exact E5|exact Sd]|].
    intros p q c Ip Iq. destruct (Gr p q c Ip Iq) as (vs & Av & Gv). exists vs. split; [exact Av|]. exists d. split; [exact E5|]. cbn [f_vec]. rewrite <- Gv.
    rewrite Gd by (rewrite Sc; apply in_shape_app; [exact Ip|constructor; [lia|exact Iq]]). rewrite Sc, Sr, ravel_unit by (apply in_shape_len; exact Ip). rewrite unravel_ravel by (apply in_shape_app; assumption). reflexivity.
Qed.
Print Assumptions C66_scalar.

(** values on the whole axis do not fit the grid of the result *)
Lemma wrap_unfit {C X} (before : list (crd C)) (ax : crd C) after (r : nd X) : shape r = sshape_of before ++ Z.of_nat (length (snd ax)) :: sshape_of after ->
  (1 < length (snd ax))%nat -> prod (sshape_of (before ++ after)) <> 0 ->
  exists h, wrap false (before ++ (fst ax, firstn 1 (snd ax)) :: after) r None = WFld h /\ load h = None.
Proof.
  intros Sr Ha Hp. assert (P : prod (shape r) = Z.of_nat (length (snd ax)) * prod (sshape_of (before ++ after))).
  { rewrite Sr, sshape_app, !prod_app. change (prod (Z.of_nat (length (snd ax)) :: sshape_of after)) with (Z.of_nat (length (snd ax)) * prod (sshape_of after)). ring. }
  assert (P0 : 0 <= prod (sshape_of (before ++ after))).
  { pose proof (nonneg (before ++ after)) as N. clear - N. induction N as [|x l Hx _ IH]; [cbn; lia|]. change (0 <= x * prod l). nia. }
  assert (Np : prod (shape r) <> 1) by (rewrite P; nia).
  set (cs' := before ++ ((fst ax, firstn 1 (snd ax)) : crd C) :: after). match goal with |- context [wrap _ ?c r None] => change c with cs' end.
  assert (Lax : length (firstn 1 (snd ax)) = 1%nat) by (destruct (snd ax); [cbn [length] in Ha; lia|reflexivity]).
  assert (Sc : sshape_of cs' = sshape_of before ++ 1 :: sshape_of after) by (pose proof (sshape_mid before (fst ax, firstn 1 (snd ax)) after) as Q; cbn [snd] in Q; rewrite Lax in Q; exact Q).
  assert (Ne : shape r <> sshape_of cs') by (rewrite Sr, Sc; intros Q; apply app_inv_head in Q; injection Q as Q; lia).
  assert (Lr : length (shape r) = length (sshape_of cs')) by (rewrite Sr, Sc, !app_length; reflexivity).
  assert (L1 : (1 <= length (shape r))%nat) by (rewrite Sr, app_length; cbn [length]; lia).
  unfold wrap. rewrite (proj2 (Z.eqb_neq _ _) Np), (leqb_neq _ _ Ne). rewrite (leqb_len (tl (shape r))) by (destruct (shape r); cbn [tl length] in *; lia). rewrite (leqb_len (removelast (shape r))) by (pose proof (removelast_firstn_len (shape r)) as Q; rewrite Q, firstn_length; lia).
  cbn [orb]. cbn [nr_comps f_vec negb]. change (0 =? 1) with false. cbn iota. eexists. split; [reflexivity|].
  unfold load. cbn [f_force orb xyz_src f_zyx f_src]. unfold dat_to_nd, fshape. cbn [nr_comp f_vec negb]. unfold nd_reshape. change (sshape _) with (sshape_of cs'). rewrite (leqb_neq _ _ Ne).
  replace (prod (shape r) =? prod (sshape_of cs')) with false; [reflexivity|]. symmetry. apply Z.eqb_neq. rewrite P, Sc, sshape_app, !prod_app in *. change (prod (1 :: sshape_of after)) with (1 * prod (sshape_of after)). nia.
Qed.

(** So the result can be combined with the field again, as in [f - f.mean(axis)]: each value meets the one of its line. *)
Lemma bshape_r_unit a b L : bshape_r (a ++ L :: b) (a ++ 1 :: b) = Some (a ++ L :: b) /\ bshape_r (a ++ 1 :: b) (a ++ L :: b) = Some (a ++ L :: b).
Proof.
  induction a as [|x a (IH1 & IH2)]; cbn [app bshape_r].
  - rewrite bshape_r_same. change (1 =? 1) with true. destruct (L =? 1) eqn:E1, (1 =? L) eqn:E2; try lia; [|auto]. replace L with 1 by lia. auto.
  - rewrite Z.eqb_refl, IH1, IH2. auto.
Qed.
Lemma bshape_unit a b L : bshape (a ++ L :: b) (a ++ 1 :: b) = Some (a ++ L :: b) /\ bshape (a ++ 1 :: b) (a ++ L :: b) = Some (a ++ L :: b).
Proof.
  unfold bshape. rewrite !rev_app_distr. cbn [rev]. rewrite <- !app_assoc. cbn [app]. destruct (bshape_r_unit (rev b) (rev a) L) as (-> & ->). cbn [option_map].
  rewrite rev_app_distr. cbn [rev]. rewrite !rev_involutive, <- app_assoc. auto.
Qed.
Lemma bidx_unit a b p q i : in_shape a p -> in_shape b q -> bidx (a ++ 1 :: b) (p ++ i :: q) = p ++ 0 :: q.
Proof.
  intros Ha Hb. unfold bidx. rewrite !app_length. cbn [length]. rewrite (in_shape_len _ _ Ha), (in_shape_len _ _ Hb), Nat.sub_diag. cbn [skipn].
  induction Ha as [|L j a p Hj _ IH]; cbn [app zero_ones].
  - f_equal. apply zero_ones_same. exact Hb.
  - rewrite IH. f_equal. destruct (L =? 1) eqn:E; lia.
Qed.
Theorem C66_difference : forall C V W X (red : list V -> W) (op : V -> W -> X) (f : fld C V) before ax after axis keepdims,
  holds_scalar f -> sshape f = sshape_of (before ++ ax :: after) -> snd ax <> [] ->
  axis = Z.of_nat (length before) \/ axis = - Z.of_nat (S (length after)) -> keepdims <> Some false ->
  prod (sshape_of (before ++ after)) <> 1 ->
  exists h d, reduce red (before ++ ax :: after) f axis keepdims = WFld h /\ arith op (before ++ ax :: after) f (OFld h) = WFld d /\
    f_crds d = before ++ ax :: after /\ holds_scalar d /\
    forall p i q c, in_shape (sshape_of before) p -> in_shape (sshape_of after) q -> 0 <= i < Z.of_nat (length (snd ax)) ->
      exists v vs, val f c (p ++ i :: q) v /\ along f c p q (length (snd ax)) vs /\ val d c (p ++ i :: q) (op v (red vs)).
Proof.
  intros C V W X red op f before ax after axis keepdims Hf Sf Ha Hax Hk Hp.
  destruct (C66_scalar C V W red f before ax after axis keepdims Hf Sf Ha Hax Hk Hp) as (h & H1 & H2 & H3 & (e & He & Se) & H4).
  destruct (readable_load f 1 (or_introl Hf)) as (a & La & Sa & _ & Ga). assert (Hv : f_vec f = false) by apply Hf. rewrite Hv in *. cbn [shape_of idx_of] in *. rewrite Sf in Sa.
  assert (L1 : Z.of_nat (length (firstn 1 (snd ax))) = 1) by (destruct (snd ax); [contradiction|reflexivity]). pose proof (sshape_mid before (fst ax, firstn 1 (snd ax)) after) as Q0; cbn [snd] in Q0; rewrite L1 in Q0. assert (Se' : shape e = sshape_of before ++ 1 :: sshape_of after) by (rewrite Se; exact Q0). clear Se Q0. rename Se' into Se.
  set (cs := before ++ ax :: after) in *. exists h. unfold arith, operand_data. rewrite La, He, Hv. cbn [andb]. unfold nd_map2.
  pose proof (bshape_unit (sshape_of before) (sshape_of after) (Z.of_nat (length (snd ax)))) as (B & _). rewrite <- (sshape_mid before ax after) in B. rewrite Sa, Se. unfold cs. rewrite B. fold cs.
  set (r := ND _ _). assert (Pc : prod (sshape_of cs) <> 1).
  { unfold cs. rewrite sshape_mid, prod_app. change (prod (Z.of_nat (length (snd ax)) :: sshape_of after)) with (Z.of_nat (length (snd ax)) * prod (sshape_of after)). rewrite sshape_app, prod_app in Hp. intros Q. apply Hp.
    assert (K : Z.of_nat (length (snd ax)) * (prod (sshape_of before) * prod (sshape_of after)) = 1) by lia. apply Z.mul_eq_1 in K as [K|K]; [|lia]. rewrite K in Q. lia. }
  destruct (wrap_any (f_vec f) false cs r LFlat 1) as (d & D1 & D2 & D3 & D4 & D5); [reflexivity|discriminate|intros _; exact Pc|]. rewrite Hv in D1. exists d.
  split; [exact H1|]. split; [exact D1|]. split; [exact D2|]. assert (Hd : holds_scalar d). { destruct D4 as [D4|(_ & _ & sl & Q & _)]; [exact D4|]. assert (f_vec d = true) by apply Q. congruence. }
  split; [exact Hd|]. intros p i q c Ip Iq Hi. destruct (H4 p q c Ip Iq) as (vs & A & (e' & He' & Eq)). assert (e' = e) by congruence. subst e'. rewrite H3 in Eq.
  exists (get a (p ++ i :: q)), vs. split; [apply Ga; reflexivity|]. split; [exact A|].
  assert (I : in_shape (sshape_of cs) (p ++ i :: q)) by (unfold cs; rewrite sshape_mid; apply in_shape_app; [exact Ip|constructor; [lia|exact Iq]]).
  destruct (D5 (p ++ i :: q) 0 I ltac:(lia)) as (w & Ew & Q). exists w. split; [exact Ew|]. rewrite D3 in *. cbn [idx_of] in Q. rewrite <- Q. unfold r. cbn [get]. rewrite Eq. f_equal; [rewrite bidx_same by exact I; reflexivity|]. rewrite bidx_unit by assumption. reflexivity.
Qed.
Print Assumptions C66_difference.
(** Refuted with the result on the left: the values are not on the grid of the result, and the field cannot be read. *)
Theorem C66_difference_left_refuted : forall C V W X (red : list V -> W) (op : W -> V -> X) (f : fld C V) before ax after axis keepdims,
  holds_scalar f -> sshape f = sshape_of (before ++ ax :: after) -> (1 < length (snd ax))%nat ->
  axis = Z.of_nat (length before) \/ axis = - Z.of_nat (S (length after)) -> keepdims <> Some false ->
  prod (sshape_of (before ++ after)) <> 1 -> prod (sshape_of (before ++ after)) <> 0 ->
  exists h e, reduce red (before ++ ax :: after) f axis keepdims = WFld h /\ arith op (f_crds h) h (OFld f) = WFld e /\ load e = None.
Proof.
  intros C V W X red op f before ax after axis keepdims Hf Sf Ha Hax Hk Hp Hz.
  destruct (C66_scalar C V W red f before ax after axis keepdims Hf Sf ltac:(intros Q; rewrite Q in Ha; cbn in Ha; lia) Hax Hk Hp) as (h & H1 & H2 & H3 & (e & He & Se) & H4).
  destruct (readable_load f 1 (or_introl Hf)) as (a & La & Sa & _ & Ga). assert (Hv : f_vec f = false) by apply Hf. rewrite Hv in *. cbn [shape_of idx_of] in *. rewrite Sf in Sa.
  assert (L1 : Z.of_nat (length (firstn 1 (snd ax))) = 1) by (destruct (snd ax); [cbn in Ha; lia|reflexivity]). pose proof (sshape_mid before (fst ax, firstn 1 (snd ax)) after) as Q0; cbn [snd] in Q0; rewrite L1 in Q0. assert (Se' : shape e = sshape_of before ++ 1 :: sshape_of after) by (rewrite Se; exact Q0). clear Se Q0. rename Se' into Se.
  exists h. unfold arith, operand_data. rewrite He, La, H3. cbn [andb]. unfold nd_map2. pose proof (bshape_unit (sshape_of before) (sshape_of after) (Z.of_nat (length (snd ax)))) as (_ & B). rewrite <- (sshape_mid before ax after) in B. rewrite Sa, Se, B.
  set (r := ND _ _). destruct (wrap_unfit before ax after r (sshape_mid _ _ _) Ha Hz) as (x & X1 & X2). exists x. rewrite H2. split; [exact H1|]. split; [exact X1|exact X2].
Qed.
Print Assumptions C66_difference_left_refuted.

(** If no other axis has more than one place, the result is a number. *)
Theorem C66_number : forall C V X (red : list V -> X) (f : fld C V) before ax after axis keepdims,
  holds_scalar f -> sshape f = sshape_of (before ++ ax :: after) ->
  axis = Z.of_nat (length before) \/ axis = - Z.of_nat (S (length after)) ->
  prod (sshape_of (before ++ after)) = 1 ->
  exists p q vs, in_shape (sshape_of before) p /\ in_shape (sshape_of after) q /\ along f 0 p q (length (snd ax)) vs /\
    reduce red (before ++ ax :: after) f axis keepdims = WNum (red vs).
Proof.
  intros C V X red f before ax after axis keepdims Hf Sf Hax Hp. set (cs := before ++ ax :: after) in *.
  destruct (readable_load f 0 (or_introl Hf)) as (a & La & Sa & _ & Ga). assert (Hv : f_vec f = false) by apply Hf. rewrite Hv in *. cbn [shape_of idx_of] in *. rewrite Sf in Sa. unfold cs in Sa. rewrite sshape_mid in Sa.
  assert (La' : length (shape a) = length cs) by (rewrite Sa; unfold cs; rewrite !app_length; cbn [length]; rewrite !sshape_of_len; reflexivity).
  assert (Nk : norm_axis (length cs) axis = Some (length before)).
  { apply norm_axis_ok; [unfold cs; rewrite app_length; cbn [length]; lia|]. destruct Hax as [H|H]; [left; exact H|right]. unfold cs. rewrite app_length. cbn [length]. lia. }
  unfold reduce. rewrite La, La', Nk.
  set (kd := match keepdims with Some b => b | None => false end). set (r := nd_reduce (length before) kd red a).
  assert (Sb : length before = length (sshape_of before)) by (rewrite sshape_of_len; reflexivity).
  assert (Sr : shape r = if kd then sshape_of before ++ 1 :: sshape_of after else sshape_of before ++ sshape_of after).
  { unfold r, nd_reduce. cbn [shape]. rewrite Sa, Sb, set_nth_mid, drop_nth_mid. reflexivity. }
  assert (Pr : prod (shape r) = 1).
  { rewrite <- Hp, Sr, sshape_app. destruct kd; rewrite !prod_app; [change (prod (1 :: sshape_of after)) with (1 * prod (sshape_of after)); ring|ring]. }
  unfold wrap_reduced. rewrite Pr. change (1 =? 1) with true. cbn iota.
  assert (Z0 : forall l : list (crd C), prod (sshape_of l) = 1 -> in_shape (sshape_of l) (map (fun _ => 0) (sshape_of l))).
  { intros l. pose proof (nonneg l) as N. induction (sshape_of l) as [|x s IH]; intros E; [constructor|]. inversion N; subst. change (x * prod s = 1) in E. apply Z.eq_mul_1_nonneg in E as [-> E]; [|assumption]. constructor; [lia|apply IH; assumption]. }
  assert (P1 : prod (sshape_of before) = 1 /\ prod (sshape_of after) = 1).
  { rewrite sshape_app, prod_app in Hp. apply Z.eq_mul_1_nonneg in Hp; [exact Hp|]. pose proof (nonneg before) as N. clear - N. induction N as [|x l Hx _ IH]; [cbn; lia|]. change (0 <= x * prod l). nia. }
  destruct P1 as (P1 & P2). set (p := map (fun _ => 0) (sshape_of before)). set (q := map (fun _ => 0) (sshape_of after)).
  exists p, q, (map (fun i => get a (p ++ i :: q)) (prog 0 1 (length (snd ax)))). split; [apply Z0; exact P1|]. split; [apply Z0; exact P2|]. split; [apply along_map; intros i _; apply Ga; reflexivity|].
  f_equal. assert (Ez : map (fun _ => 0) (shape r) = if kd then p ++ 0 :: q else p ++ q) by (rewrite Sr; unfold p, q; destruct kd; rewrite map_app; reflexivity). rewrite Ez.
  assert (Lp : length before = length p) by (unfold p; rewrite map_length; exact Sb).
  unfold r, nd_reduce. cbn [get]. f_equal. rewrite Sa. assert (Q : nth (length before) (sshape_of before ++ Z.of_nat (length (snd ax)) :: sshape_of after) 0 = Z.of_nat (length (snd ax))) by (rewrite Sb; apply nth_mid). rewrite Q, Nat2Z.id. apply map_ext. intros i. rewrite Lp. destruct kd; [rewrite set_nth_mid|rewrite insert_at_mid]; reflexivity.
Qed.
Print Assumptions C66_number.

(** A vector field reduced over its components, [axis] the component axis: a scalar field on the same grid. *)
Theorem C66_components : forall C V X (red : list V -> X) (f : fld C V) cs n keepdims,
  holds_vector f n -> sshape f = sshape_of cs -> prod (sshape_of cs) <> 1 -> keepdims <> Some true ->
  let axis := match layout_of f with LFlat => 0 | _ => Z.of_nat (length cs) end in
  exists h, reduce red cs f axis keepdims = WFld h /\ f_crds h = cs /\ holds_scalar h /\
    forall js c, in_shape (sshape_of cs) js -> exists vs, comps_at f n js vs /\ val h c js (red vs).
Proof.
  intros C V X red f cs n keepdims Hf Sf Hp Hk axis.
  destruct (readable_load f n (or_intror Hf)) as (a & La & Sa & Va & Ga). assert (Hv : f_vec f = true) by (destruct Hf as (_ & _ & sl & Q & _); apply Q). rewrite Hv in *. cbn [shape_of idx_of] in *. rewrite Sf in Sa. destruct (Va eq_refl) as (N & Lv).
  assert (Nc : nr_comps f = Some n) by (destruct Hf as (_ & _ & sl & Q & _); apply (holds_nr_comps f sl n Q)).
  assert (Lcs : length (f_crds f) = length cs) by (rewrite <- sshape_len, Sf; apply sshape_of_len).
  set (P := match layout_of f with LFlat => [] | _ => sshape_of cs end). set (Q := match layout_of f with LFlat => sshape_of cs | _ => [] end).
  assert (Sa' : shape a = P ++ n :: Q) by (rewrite Sa; unfold P, Q; destruct Lv as [-> | ->]; reflexivity).
  assert (PQ : P ++ Q = sshape_of cs) by (unfold P, Q; destruct Lv as [-> | ->]; [reflexivity|apply app_nil_r]).
  assert (Ax : axis = Z.of_nat (length P)) by (unfold axis, P; destruct Lv as [-> | ->]; [reflexivity|rewrite sshape_of_len; reflexivity]).
  assert (Nk : norm_axis (length (shape a)) axis = Some (length P)) by (apply norm_axis_ok; [rewrite Sa', app_length; cbn [length]; lia|left; exact Ax]).
  unfold reduce. rewrite La, Nk. replace (match keepdims with Some b => b | None => false end) with false by (destruct keepdims as [[|]|]; congruence).
  set (r := nd_reduce (length P) false red a). assert (Sr : shape r = sshape_of cs) by (unfold r, nd_reduce; cbn [shape]; rewrite Sa', drop_nth_mid; exact PQ).
  unfold wrap_reduced. rewrite (proj2 (Z.eqb_neq _ _)) by (rewrite Sr; exact Hp).
  assert (Rc : reduced_crds cs f axis keepdims = Some cs).
  { unfold reduced_crds. rewrite Nc. unfold nr_comp. rewrite Hv. cbn [negb]. replace (0 <? n) with true by lia.
    assert (E : axis =? Z.of_nat (match layout_of f with LFlat => O | _ => length (f_crds f) end) = true) by (unfold axis; rewrite Lcs; destruct Lv as [-> | ->]; lia).
    destruct Lv as [L|L]; rewrite L in *; rewrite E; reflexivity. }
  rewrite Rc, Hv. destruct (wrap_scalar true cs r Sr ltac:(rewrite Sr; exact Hp)) as (h & d & E1 & E2 & E3 & E4 & E5 & Sd & Gd).
  exists h. split; [exact E1|]. split; [exact E2|]. split; [exact E4|]. intros js c Hj. exists (map (fun i => get a (idx_of true (layout_of f) i js)) (prog 0 1 (Z.to_nat n))). split.
  - split; [rewrite map_length, prog_length; lia|]. intros i v E. rewrite nth_error_map in E. destruct (nth_error (prog 0 1 (Z.to_nat n)) i) as [z|] eqn:Ez; [|discriminate]. cbn [option_map] in E. injection E as <-.
    assert (I : (i < Z.to_nat n)%nat) by (rewrite <- (prog_length 0 1 (Z.to_nat n)); apply nth_error_Some; congruence). rewrite prog_nth_error in Ez by exact I. injection Ez as <-. apply Ga. reflexivity.
  - exists d. split; [exact E5|]. rewrite E3. rewrite Gd by (rewrite Sd, Sr; exact Hj). unfold r, nd_reduce. cbn [get]. f_equal. rewrite Sa', nth_mid. apply map_ext. intros i. f_equal.
    pose proof (in_shape_len _ _ Hj) as Lj. unfold P. destruct Lv as [L|L]; rewrite L; cbn [idx_of]; [destruct js; reflexivity|]. rewrite <- Lj. symmetry. apply insert_at_len.
Qed.
Print Assumptions C66_components.

(** the reductions that drop the axis *)
Lemma drop_core {C V X} (red : list V -> X) (f : fld C V) before ax after axis keepdims n :
  readable f n -> sshape f = sshape_of (before ++ ax :: after) -> keepdims <> Some true ->
  (f_vec f = false -> keepdims = Some false /\ prod (sshape_of (before ++ after)) <> 1) ->
  Forall (fun c => length (snd c) <> 1%nat) (before ++ after) ->
  (f_vec f = true -> layout_of f = LInter -> ~ ambiguous (sshape_of (before ++ after)) n) ->
  norm_axis (length (before ++ ax :: after) + if f_vec f then 1 else 0) axis = Some (length before + if f_vec f then match layout_of f with LFlat => 1 | _ => 0 end else 0)%nat ->
  norm_axis (length (before ++ ax :: after)) axis = Some (length before) ->
  (f_vec f = true -> match layout_of f with LFlat => axis <> 0 | _ => axis <> Z.of_nat (length (before ++ ax :: after)) end) ->
  exists h, reduce red (before ++ ax :: after) f axis keepdims = WFld h /\ f_crds h = before ++ after /\ f_vec h = f_vec f /\ readable h n /\
    forall p q c, in_shape (sshape_of before) p -> in_shape (sshape_of after) q -> 0 <= c < n ->
      exists vs, along f c p q (length (snd ax)) vs /\ val h c (p ++ q) (red vs).
Proof.
  intros Rf Sf Hk Hs Ho Am Nk Nk' Hc. set (cs := before ++ ax :: after) in *.
  destruct (readable_load f n Rf) as (a & La & Sa & Va & Ga). rewrite Sf in Sa. unfold cs in Sa. rewrite sshape_mid in Sa.
  assert (Lcs : length (f_crds f) = length cs) by (rewrite <- sshape_len, Sf; apply sshape_of_len).
  set (P c := if f_vec f then match layout_of f with LFlat => c :: sshape_of before | _ => sshape_of before end else sshape_of before).
  set (Q c := if f_vec f then match layout_of f with LFlat => sshape_of after | _ => sshape_of after ++ [c] end else sshape_of after).
  assert (Sa' : shape a = P n ++ Z.of_nat (length (snd ax)) :: Q n).
  { rewrite Sa. unfold shape_of, P, Q. destruct (f_vec f); [|reflexivity]. destruct (Va eq_refl) as (_ & [L|L]); rewrite L; cbn [lay_shape]; [reflexivity|rewrite <- app_assoc; reflexivity]. }
  assert (PQ : P n ++ Q n = shape_of (f_vec f) (layout_of f) n (sshape_of (before ++ after))).
  { rewrite sshape_app. unfold shape_of, P, Q. destruct (f_vec f); [|reflexivity]. destruct (Va eq_refl) as (_ & [L|L]); rewrite L; cbn [lay_shape]; [reflexivity|apply app_assoc]. }
  assert (LP : (length before + if f_vec f then match layout_of f with LFlat => 1 | _ => 0 end else 0)%nat = length (P n)).
  { unfold P. destruct (f_vec f); [|rewrite sshape_of_len; lia]. destruct (Va eq_refl) as (_ & [L|L]); rewrite L; cbn [length]; rewrite sshape_of_len; lia. }
  assert (La' : length (shape a) = (length cs + if f_vec f then 1 else 0)%nat).
  { rewrite Sa. unfold shape_of, cs. destruct (f_vec f); [destruct (Va eq_refl) as (_ & [L|L]); rewrite L; cbn [lay_shape]|]; rewrite ?app_length; cbn [length]; rewrite ?app_length; cbn [length]; rewrite !sshape_of_len; lia. }
  unfold reduce. rewrite La, La', Nk, LP. replace (match keepdims with Some b => b | None => false end) with false by (destruct keepdims as [[|]|]; congruence).
  set (r := nd_reduce (length (P n)) false red a).
  assert (Sr : shape r = shape_of (f_vec f) (layout_of f) n (sshape_of (before ++ after))) by (unfold r, nd_reduce; cbn [shape]; rewrite Sa', drop_nth_mid; exact PQ).
  assert (Rc : reduced_crds cs f axis keepdims = Some (before ++ after)).
  { unfold reduced_crds. rewrite Nk'. replace (_ && _) with false.
    - replace (match keepdims with Some b => b | None => negb (f_vec f) end) with false by (destruct keepdims as [[|]|]; [congruence|reflexivity|destruct (f_vec f); [reflexivity|destruct (Hs eq_refl); discriminate]]).
      f_equal. unfold drop_axis, cs. rewrite drop_nth_mid. clear - Ho. induction Ho as [|c l Hc _ IH]; [reflexivity|]. cbn [filter]. apply Nat.eqb_neq in Hc. rewrite Hc. cbn [negb]. f_equal. exact IH.
    - symmetry. apply andb_false_iff. right. unfold nr_comp. destruct (f_vec f); [|reflexivity]. cbn [negb]. rewrite Lcs. specialize (Hc eq_refl). destruct (layout_of f); lia. }
  destruct (wrap_any (f_vec f) (f_vec f) (before ++ after) r (layout_of f) n Sr) as (h & E1 & E2 & E3 & E4 & E5).
  { intros V'. destruct (Va V'). auto. }
  { intros V'. apply (Hs V'). }
  unfold wrap_reduced. rewrite Rc.
  assert (Np : prod (shape r) <> 1). { unfold wrap in E1. destruct (prod (shape r) =? 1) eqn:E; [discriminate|]. lia. }
  rewrite (proj2 (Z.eqb_neq _ _) Np). exists h. split; [exact E1|]. split; [exact E2|]. split; [exact E3|]. split; [exact E4|].
  intros p q c Ip Iq Ic. exists (map (fun i => get a (idx_of (f_vec f) (layout_of f) c (p ++ i :: q))) (prog 0 1 (length (snd ax)))). split; [apply along_map; intros i _; apply Ga; reflexivity|].
  assert (I : in_shape (sshape_of (before ++ after)) (p ++ q)) by (rewrite sshape_app; apply in_shape_app; assumption). specialize (E5 (p ++ q) c I Ic).
  assert (G : get r (idx_of (f_vec f) (layout_of f) c (p ++ q)) = red (map (fun i => get a (idx_of (f_vec f) (layout_of f) c (p ++ i :: q))) (prog 0 1 (length (snd ax))))).
  { unfold r, nd_reduce. cbn [get]. f_equal. rewrite Sa', nth_mid, Nat2Z.id. apply map_ext. intros i. f_equal.
    pose proof (in_shape_len _ _ Ip) as Lp. rewrite sshape_of_len in Lp. rewrite <- LP. unfold idx_of. destruct (f_vec f).
    - destruct (Va eq_refl) as (_ & [L|L]); rewrite L; [replace (length before + 1)%nat with (length (c :: p)) by (cbn [length]; lia); apply (insert_at_mid (c :: p))|].
      rewrite <- app_assoc, Nat.add_0_r, <- Lp, insert_at_mid, <- app_assoc. reflexivity.
    - rewrite Nat.add_0_r, <- Lp. apply insert_at_mid. }
  rewrite <- G. exact E5.
Qed.

(** A scalar field reduced with keepdims=False: the axis is gone. *)
Theorem C66_scalar_drop : forall C V X (red : list V -> X) (f : fld C V) before ax after axis,
  holds_scalar f -> sshape f = sshape_of (before ++ ax :: after) ->
  axis = Z.of_nat (length before) \/ axis = - Z.of_nat (S (length after)) ->
  prod (sshape_of (before ++ after)) <> 1 -> Forall (fun c => length (snd c) <> 1%nat) (before ++ after) ->
  exists h, reduce red (before ++ ax :: after) f axis (Some false) = WFld h /\ f_crds h = before ++ after /\ holds_scalar h /\
    forall p q c, in_shape (sshape_of before) p -> in_shape (sshape_of after) q ->
      exists vs, along f c p q (length (snd ax)) vs /\ val h c (p ++ q) (red vs).
Proof.
  intros C V X red f before ax after axis Hf Sf Hax Hp Ho. assert (Hv : f_vec f = false) by apply Hf.
  assert (Nk : norm_axis (length (before ++ ax :: after)) axis = Some (length before)).
  { apply norm_axis_ok; [rewrite app_length; cbn [length]; lia|]. destruct Hax as [H|H]; [left; exact H|right]. rewrite app_length. cbn [length]. lia. }
  destruct (drop_core red f before ax after axis (Some false) 1 (or_introl Hf) Sf ltac:(discriminate)) as (h & E1 & E2 & E3 & E4 & E5); try (rewrite Hv; discriminate); try assumption.
  - intros _. split; [reflexivity|exact Hp].
  - rewrite Hv, !Nat.add_0_r. exact Nk.
  - exists h. split; [exact E1|]. split; [exact E2|]. rewrite Hv in E3. split; [destruct E4 as [Q|(_ & _ & sl & Q & _)]; [exact Q|destruct Q; congruence]|]. intros p q c Ip Iq. destruct (E5 p q 0 Ip Iq ltac:(lia)) as (vs & (L & A) & d & Ld & Ev). exists vs. split.
    + split; [exact L|]. intros i v E. destruct (A i v E) as (d' & Ld' & Ev'). exists d'. split; [exact Ld'|]. rewrite Hv in *. exact Ev'.
    + exists d. split; [exact Ld|]. rewrite E3 in *. exact Ev.
Qed.
Print Assumptions C66_scalar_drop.

(** A vector field reduced along an axis of the grid: right if the layout is interlaced and the axis is counted from
    the start, or flat and counted from the end, and no other axis has length one. *)
Theorem C66_vector : forall C V X (red : list V -> X) (f : fld C V) before ax after axis keepdims n,
  holds_vector f n -> sshape f = sshape_of (before ++ ax :: after) -> before ++ after <> [] -> keepdims <> Some true ->
  layout_of f = LInter /\ axis = Z.of_nat (length before) /\ ~ ambiguous (sshape_of (before ++ after)) n \/
  layout_of f = LFlat /\ axis = - Z.of_nat (S (length after)) ->
  Forall (fun c => length (snd c) <> 1%nat) (before ++ after) ->
  exists h, reduce red (before ++ ax :: after) f axis keepdims = WFld h /\ f_crds h = before ++ after /\ holds_vector h n /\
    forall p q c, in_shape (sshape_of before) p -> in_shape (sshape_of after) q -> 0 <= c < n ->
      exists vs, along f c p q (length (snd ax)) vs /\ val h c (p ++ q) (red vs).
Proof.
  intros C V X red f before ax after axis keepdims n Hf Sf _ Hk Hl Ho. assert (Hv : f_vec f = true) by (destruct Hf as (_ & _ & sl & Q & _); apply Q).
  assert (Lc : length (before ++ ax :: after) = (length before + S (length after))%nat) by (rewrite app_length; reflexivity).
  destruct (drop_core red f before ax after axis keepdims n (or_intror Hf) Sf Hk) as (h & E1 & E2 & E3 & E4 & E5); try (rewrite Hv; discriminate); try assumption.
  - intros _ L. destruct Hl as [(_ & _ & A)|(L' & _)]; [exact A|congruence].
  - rewrite Hv, Lc. apply norm_axis_ok; [destruct Hl as [(-> & _)|(-> & _)]; lia|]. destruct Hl as [(-> & -> & _)|(-> & ->)]; [left; lia|right; lia].
  - rewrite Lc. apply norm_axis_ok; [lia|]. destruct Hl as [(_ & -> & _)|(_ & ->)]; [left; lia|right; lia].
  - intros _. rewrite Lc. destruct Hl as [(-> & -> & _)|(-> & ->)]; lia.
  - exists h. split; [exact E1|]. split; [exact E2|]. split; [|exact E5]. rewrite Hv in E3. destruct E4 as [Q|Q]; [destruct Q; congruence|exact Q].
Qed.
Print Assumptions C66_vector.

(** Refuted for flat vectors and axes counted from the start: the array is reduced along its axis with that number,
    which is one before that of the grid, and the grid loses another axis.  The last axis raises ... *)
Theorem C66_flat_last_refuted : forall C V X (red : list V -> X) (f : fld C V) cs n keepdims,
  holds_vector f n -> layout_of f = LFlat -> sshape f = sshape_of cs -> cs <> [] ->
  reduce red cs f (Z.of_nat (length cs)) keepdims = WErr.
Proof.
  intros C V X red f cs n keepdims Hf Lf Sf Hn. destruct (readable_load f n (or_intror Hf)) as (a & La & Sa & Va & Ga).
  assert (Hv : f_vec f = true) by (destruct Hf as (_ & _ & sl & Q & _); apply Q). rewrite Hv, Lf, Sf in *. cbn [shape_of lay_shape] in Sa. destruct (Va eq_refl) as (N & _).
  assert (Nc : nr_comps f = Some n) by (destruct Hf as (_ & _ & sl & Q & _); apply (holds_nr_comps f sl n Q)).
  assert (L0 : (0 < length cs)%nat) by (destruct cs; [contradiction|cbn [length]; lia]).
  unfold reduce. rewrite La. assert (Nk : norm_axis (length (shape a)) (Z.of_nat (length cs)) = Some (length cs)) by (apply norm_axis_ok; [rewrite Sa; cbn [length]; rewrite sshape_of_len; lia|left; reflexivity]).
  rewrite Nk. set (r := nd_reduce _ _ _ _). unfold wrap_reduced.
  assert (Np : prod (shape r) <> 1).
  { apply prod_pos_not1.
    - exists n. split; [|exact N]. unfold r, nd_reduce. cbn [shape]. rewrite Sa. destruct cs as [|c cs]; [contradiction|]. destruct (match keepdims with Some b => b | None => false end); left; reflexivity.
    - unfold r, nd_reduce. cbn [shape]. rewrite Sa. pose proof (nonneg cs) as Q. assert (F : Forall (fun x => 0 <= x) (n :: sshape_of cs)) by (constructor; [lia|exact Q]).
      assert (F1 : forall k, Forall (fun x => 0 <= x) (firstn k (n :: sshape_of cs))) by (intros k; rewrite Forall_forall in *; intros x Hx; apply F; rewrite <- (firstn_skipn k); apply in_or_app; left; exact Hx).
      assert (F2 : forall k, Forall (fun x => 0 <= x) (skipn k (n :: sshape_of cs))) by (intros k; rewrite Forall_forall in *; intros x Hx; apply F; rewrite <- (firstn_skipn k); apply in_or_app; right; exact Hx).
      destruct (match keepdims with Some b => b | None => false end); unfold set_nth, drop_nth; apply Forall_app; (split; [apply F1|]); [constructor; [lia|apply F2]|apply F2]. }
  rewrite (proj2 (Z.eqb_neq _ _) Np). unfold reduced_crds. rewrite Nc. unfold nr_comp. rewrite Hv, Lf. cbn [negb]. replace (_ && _) with false by lia.
  unfold norm_axis. replace (_ && _) with false by lia. reflexivity.
Qed.
Print Assumptions C66_flat_last_refuted.

(** ... and another one gives values at places of another axis. *)
Definition zsum (l : list Z) : Z := fold_right Z.add 0 l.
Definition g22 : list (crd nat) := [(0, [0; 1]); (1, [10; 11])]%nat.
Definition flat22 : fld nat Z := F true g22 [false; false] (SArr (ND [3; 2; 2] (fun js => match js with [c; x; y] => 100 * c + 10 * x + y | _ => 0 end))) false None.
Theorem C66_flat_refuted : holds_vector flat22 3 /\ layout_of flat22 = LFlat /\
  exists h, reduce zsum g22 flat22 1 None = WFld h /\ f_crds h = [(0, [0; 1])]%nat /\
    (exists vs, along flat22 2 [] [1] 2 vs /\ val h 2 [1] (zsum vs)).
Proof.
  split.
  { split; [lia|]. split; [left; reflexivity|]. exists LFlat. split; [|left; reflexivity]. split; [reflexivity|]. split; [lia|]. split; [reflexivity|]. split; [left; reflexivity|]. split; [reflexivity|]. discriminate. }
  split; [reflexivity|]. eexists. split; [vm_compute; reflexivity|]. split; [reflexivity|]. exists [201; 211]. split.
  - split; [reflexivity|]. intros [|[|i]] v E; [| |destruct i; discriminate]; injection E as <-; eexists; (split; [vm_compute; reflexivity|reflexivity]).
  - eexists. split; [vm_compute; reflexivity|reflexivity].
Qed.
Print Assumptions C66_flat_refuted.

(** Refuted for interlaced vectors and axes counted from the end: the last axis is the components, but the grid
    loses its last axis, and its places become components. *)
Theorem C66_interlaced_negative_refuted : holds_vector inter23 2 /\ layout_of inter23 = LInter /\
  exists h, reduce zsum g23 inter23 (-1) None = WFld h /\ f_crds h = [(0, [0; 1])]%nat /\ holds_vector h 3.
Proof.
  destruct C65_mixed_layouts_refuted as (_ & _ & Hi & Li & _). split; [exact Hi|]. split; [exact Li|]. eexists. split; [vm_compute; reflexivity|]. split; [reflexivity|].
  split; [lia|]. split; [right; reflexivity|]. exists LInter. split; [|left; reflexivity]. split; [reflexivity|]. split; [lia|]. split; [reflexivity|]. split; [right; reflexivity|]. split; [reflexivity|].
  intros _ Q. inversion Q; discriminate.
Qed.
Print Assumptions C66_interlaced_negative_refuted.

(** Refuted for interlaced vectors on a grid with an axis of one place: the grid loses that axis as well, and the
    result is taken for a field with one component. *)
Definition g213 : list (crd nat) := [(0, [0; 1]); (1, [0]); (2, [0; 1; 2])]%nat.
Definition inter213 : fld nat Z := F true g213 [false; false; false] (SArr (ND [2; 1; 3; 2] (fun _ => 0))) false None.
Theorem C66_unit_axis_refuted : holds_vector inter213 2 /\ layout_of inter213 = LInter /\
  exists h, reduce zsum g213 inter213 0 None = WComp0 h /\ f_crds h = [(2, [0; 1; 2])]%nat.
Proof.
  split.
  { split; [lia|]. split; [right; reflexivity|]. exists LInter. split; [|left; reflexivity]. split; [reflexivity|]. split; [lia|]. split; [reflexivity|]. split; [right; reflexivity|]. split; [reflexivity|].
    intros _ Q. inversion Q as [|? ? _ Q']; inversion Q'; discriminate. }
  split; [reflexivity|]. eexists. split; [vm_compute; reflexivity|reflexivity].
Qed.
Print Assumptions C66_unit_axis_refuted.

(** Refuted for argsort, which has as many values as the field: the grid loses the places of the axis, and the data
    of the result cannot be read. *)
Theorem C66_argsort_refuted : forall C V X (sc : list V -> list X) dflt (f : fld C V) before ax after axis,
  holds_scalar f -> sshape f = sshape_of (before ++ ax :: after) -> (1 < length (snd ax))%nat ->
  axis = Z.of_nat (length before) \/ axis = - Z.of_nat (S (length after)) -> prod (sshape_of (before ++ after)) <> 0 ->
  exists h, scan sc dflt (before ++ ax :: after) f axis = WFld h /\ load h = None.
Proof.
  intros C V X sc dflt f before ax after axis Hf Sf Ha Hax Hp. set (cs := before ++ ax :: after) in *.
  destruct (readable_load f 0 (or_introl Hf)) as (a & La & Sa & _ & Ga). assert (Hv : f_vec f = false) by apply Hf. rewrite Hv in *. cbn [shape_of idx_of] in *. rewrite Sf in Sa. unfold cs in Sa. rewrite sshape_mid in Sa.
  assert (La' : length (shape a) = length cs) by (rewrite Sa; unfold cs; rewrite !app_length; cbn [length]; rewrite !sshape_of_len; reflexivity).
  assert (Nk : norm_axis (length cs) axis = Some (length before)).
  { apply norm_axis_ok; [unfold cs; rewrite app_length; cbn [length]; lia|]. destruct Hax as [H|H]; [left; exact H|right]. unfold cs. rewrite app_length. cbn [length]. lia. }
  unfold scan. rewrite La, La', Nk. set (r := nd_scan _ _ _ _). assert (Sr : shape r = sshape_of before ++ Z.of_nat (length (snd ax)) :: sshape_of after) by exact Sa.
  assert (P : prod (shape r) = Z.of_nat (length (snd ax)) * prod (sshape_of (before ++ after))).
  { rewrite Sr, sshape_app, !prod_app. change (prod (Z.of_nat (length (snd ax)) :: sshape_of after)) with (Z.of_nat (length (snd ax)) * prod (sshape_of after)). ring. }
  assert (P0 : 0 <= prod (sshape_of (before ++ after))).
  { pose proof (nonneg (before ++ after)) as N. clear - N. induction N as [|x l Hx _ IH]; [cbn; lia|]. change (0 <= x * prod l). nia. }
  assert (Np : prod (shape r) <> 1) by (rewrite P; nia).
  unfold wrap_reduced. rewrite (proj2 (Z.eqb_neq _ _) Np). unfold reduced_crds, nr_comps, nr_comp. rewrite Hv. cbn [negb]. change (0 <? 0) with false. cbn [andb]. rewrite Nk. unfold keep_first. replace (nth_error cs (length before)) with (Some ax) by (symmetry; apply nth_error_mid).
  unfold cs. rewrite set_nth_mid. apply (wrap_unfit before ax after); assumption.
Qed.
Print Assumptions C66_argsort_refuted.

(** ** fields that meet the hypotheses *)
Example C66_ex : holds_scalar ex_scalar /\ sshape ex_scalar = sshape_of ([(0, [0; 1])]%nat ++ (1, [0; 1; 2])%nat :: []) /\
  (exists h, reduce zsum g23 ex_scalar (-1) None = WFld h /\ f_crds h = [(0, [0; 1]); (1, [0])]%nat /\ val h 0 [1; 0] 6000) /\
  holds_vector inter213 2 /\ holds_vector flat22 3 /\
  (exists h, reduce zsum g22 flat22 (-2) None = WFld h /\ f_crds h = [(1, [10; 11])]%nat /\ val h 2 [1] 412).
Proof.
  split; [split; [reflexivity|]; split; [reflexivity|]; split; [reflexivity|]; eexists; split; reflexivity|].
  split; [reflexivity|]. split; [eexists; split; [vm_compute; reflexivity|]; split; [reflexivity|]; eexists; split; [vm_compute; reflexivity|reflexivity]|].
  split; [apply C66_unit_axis_refuted|]. split; [apply C66_flat_refuted|]. eexists. split; [vm_compute; reflexivity|]. split; [reflexivity|]. eexists. split; [vm_compute; reflexivity|reflexivity].
Qed.
