(** C77: a selection reads the elements it selects, and an assignment through a selection changes these elements and no others. *)
From Verif Require Import PySlice SetSliceModel.
From Coq Require Import ZArith List Bool Lia ZifyBool ZifyNat.
Import ListNotations.
Open Scope Z_scope.

(** ** Specification *)
(* the integer i, which may count from the end, is the place k of an axis of length n *)
Definition idx (n i k : Z) : Prop := 0 <= k < n /\ (k = i \/ k = i + n).
(* at_place sh its r p: in an array of shape sh, the selection its has the element p at the place r of its result.  Axes are selected one by one:
   an integer takes one place and leaves no axis, a slice (PySlice.v) and an index array leave an axis, a newaxis is an axis of length one *)
Inductive at_place : list Z -> list item -> list Z -> list Z -> Prop :=
| ap_nil : at_place [] [] [] []
| ap_int n sh i k its r p : idx n i k -> at_place sh its r p -> at_place (n :: sh) (II i :: its) r (k :: p)
| ap_slice n sh s ks j k its r p : sel n s = Some ks -> nth_error ks j = Some k -> at_place sh its r p ->
    at_place (n :: sh) (IS s :: its) (Z.of_nat j :: r) (k :: p)
| ap_new sh its r p : at_place sh its r p -> at_place sh (IN :: its) (0 :: r) p
| ap_arr n sh l j i k its r p : nth_error l j = Some i -> idx n i k -> at_place sh its r p ->
    at_place (n :: sh) (IA l :: its) (Z.of_nat j :: r) (k :: p).
(* the selection makes sense for the shape sh, and its result has the shape rs *)
Inductive res_shape : list Z -> list item -> list Z -> Prop :=
| rs_nil : res_shape [] [] []
| rs_int n sh i k its rs : idx n i k -> res_shape sh its rs -> res_shape (n :: sh) (II i :: its) rs
| rs_slice n sh s ks its rs : sel n s = Some ks -> res_shape sh its rs -> res_shape (n :: sh) (IS s :: its) (Z.of_nat (length ks) :: rs)
| rs_new sh its rs : res_shape sh its rs -> res_shape sh (IN :: its) (1 :: rs)
| rs_arr n sh l its rs : l <> [] -> Forall (fun i => exists k, idx n i k) l -> res_shape sh its rs ->
    res_shape (n :: sh) (IA l :: its) (Z.of_nat (length l) :: rs).
Definition inside (sh r : list Z) : Prop := Forall2 (fun n i => 0 <= i < n) sh r.
Definition no_array (its : list item) : Prop := forall l, ~ In (IA l) its.
(* the array of a field on a grid of shape sh, and where it has the component k of the grid point p *)
Definition data_shape (l : layout) (nc : Z) (sh : list Z) : list Z :=
  match l with Scalar => sh | Flat => nc :: sh | Interlaced => sh ++ [nc] end.
Definition data_place (l : layout) (k : Z) (p : list Z) : list Z :=
  match l with Scalar => p | Flat => k :: p | Interlaced => p ++ [k] end.
(* the component k is among those that are selected: one by its number, or all of them *)
Definition comp_sel (l : layout) (nc : Z) (c : option Z) (k : Z) : Prop :=
  match l, c with Scalar, _ => c = None | _, None => 0 <= k < nc | _, Some i => idx nc i k end.
Definition comp_ok (l : layout) (nc : Z) (c : option Z) : Prop :=
  match l, c with Scalar, _ => c = None | _, None => 0 <= nc | _, Some i => exists k, idx nc i k end.
Definition res_place (l : layout) (c : option Z) (k : Z) (r : list Z) : list Z := match c with Some _ => r | None => data_place l k r end.
Definition res_data_shape (l : layout) (c : option Z) (nc : Z) (rs : list Z) : list Z :=
  match c with Some _ => rs | None => data_shape l nc rs end.
(* a value that can be assigned to a result of shape rs: a number, or an array whose axes have the length of the axis or length one *)
Definition fits {V : Type} (v : nda V) (rs : list Z) (g : list Z -> V) : Prop :=
  (nshape v = [] /\ forall r, g r = nval v []) \/
  (Forall2 (fun n m => n = m \/ n = 1) (nshape v) rs /\
   forall r, g r = nval v (map (fun ni => if fst ni =? 1 then 0 else snd ni) (combine (nshape v) r))).

(** ** Facts about places *)
Lemma zlen_nn {A : Type} (l : list A) : 0 <= zlen l.
Proof. unfold zlen. lia. Qed.

Lemma norm_idx n i k : idx n i k -> norm n i = Some k.
Proof.
  intros [H1 H2]. unfold norm.
  destruct ((- n <=? i) && (i <? n)) eqn:E; [|lia].
  destruct (i <? 0) eqn:E2; f_equal; lia.
Qed.

Lemma idx_fun n i k1 k2 : idx n i k1 -> idx n i k2 -> k1 = k2.
Proof. unfold idx. intros. lia. Qed.

Lemma norms_idx n l : Forall (fun i => exists k, idx n i k) l ->
  exists ks, norms n l = Some ks /\ length ks = length l /\ forall j i k, nth_error l j = Some i -> idx n i k -> nth_error ks j = Some k.
Proof.
  induction l as [|i l IH]; intros H.
  - exists []. repeat split. intros [|j]; discriminate.
  - inversion H as [|? ? [k Hk] Hl]; subst. destruct (IH Hl) as [ks [E [L N]]].
    exists (k :: ks). cbn [norms]. rewrite (norm_idx _ _ _ Hk), E. cbn [length]. repeat split; [lia|].
    intros [|j] i' k' Hn Hi; cbn [nth_error] in *.
    + f_equal. injection Hn as <-. eapply idx_fun; eauto.
    + eapply N; eauto.
Qed.

Definition no_da (ds : list dim) : Prop := existsb is_array ds = false.

Lemma resolve_ok sh its rs : res_shape sh its rs -> exists ds, resolve sh its = Some ds /\ kept ds = rs.
Proof.
  induction 1 as [|n sh i k its rs Hi H [ds [E K]]|n sh s ks its rs Hs H [ds [E K]]|sh its rs H [ds [E K]]|n sh l its rs Hn Hl H [ds [E K]]].
  - exists []. split; reflexivity.
  - exists (DI k :: ds). cbn [resolve]. rewrite (norm_idx _ _ _ Hi), E. split; [reflexivity|exact K].
  - exists (DS ks :: ds). cbn [resolve]. rewrite Hs, E. split; [reflexivity|]. cbn [kept]. unfold zlen. now rewrite K.
  - exists (DN :: ds). cbn [resolve]. rewrite E. split; [reflexivity|]. cbn [kept]. now rewrite K.
  - destruct (norms_idx n l Hl) as [ks [E1 [L _]]].
    exists (DA ks :: ds). cbn [resolve]. rewrite E1, E. split; [reflexivity|]. cbn [kept]. unfold zlen. now rewrite K, L.
Qed.

Lemma no_array_cons it its : no_array (it :: its) -> no_array its.
Proof. intros H l Hl. apply (H l). now right. Qed.

Lemma resolve_no_da sh its rs ds : res_shape sh its rs -> no_array its -> resolve sh its = Some ds -> no_da ds.
Proof.
  intros H. revert ds.
  induction H as [|n sh i k its rs Hi H IH|n sh s ks its rs Hs H IH|sh its rs H IH|n sh l its rs Hn Hl H IH]; intros ds A E; cbn [resolve] in E.
  - injection E as <-. reflexivity.
  - rewrite (norm_idx _ _ _ Hi) in E. destruct (resolve sh its) as [d|]; [|discriminate]. injection E as <-.
    unfold no_da. cbn. apply IH; [eapply no_array_cons; eauto|reflexivity].
  - rewrite Hs in E. destruct (resolve sh its) as [d|]; [|discriminate]. injection E as <-.
    unfold no_da. cbn. apply IH; [eapply no_array_cons; eauto|reflexivity].
  - destruct (resolve sh its) as [d|]; [|discriminate]. injection E as <-.
    unfold no_da. cbn. apply IH; [eapply no_array_cons; eauto|reflexivity].
  - exfalso. apply (A l). now left.
Qed.

Lemma zat_nth l j (k : Z) : nth_error l j = Some k -> zat l (Z.of_nat j) = k.
Proof. intros H. unfold zat. rewrite Nat2Z.id. now apply nth_error_nth. Qed.

Lemma at_dsrc sh its r p : at_place sh its r p -> no_array its -> forall ds j, resolve sh its = Some ds -> dsrc ds j r = p.
Proof.
  induction 1 as [|n sh i k its r p Hi H IH|n sh s ks j k its r p Hs Hj H IH|sh its r p H IH|n sh l j i k its r p Hj Hi H IH]; intros A ds j' E;
    cbn [resolve] in E.
  - injection E as <-. reflexivity.
  - rewrite (norm_idx _ _ _ Hi) in E. destruct (resolve sh its) as [d|]; [|discriminate]. injection E as <-.
    cbn [dsrc]. now rewrite (IH (no_array_cons _ _ A) d j' eq_refl).
  - rewrite Hs in E. destruct (resolve sh its) as [d|]; [|discriminate]. injection E as <-.
    cbn [dsrc hd tl]. rewrite (IH (no_array_cons _ _ A) d j' eq_refl). now rewrite (zat_nth _ _ _ Hj).
  - destruct (resolve sh its) as [d|]; [|discriminate]. injection E as <-.
    cbn [dsrc hd tl]. now rewrite (IH (no_array_cons _ _ A) d j' eq_refl).
  - exfalso. apply (A l). now left.
Qed.

Lemma at_inside sh its r p : at_place sh its r p -> forall rs, res_shape sh its rs -> inside rs r.
Proof.
  induction 1 as [|n sh i k its r p Hi H IH|n sh s ks j k its r p Hs Hj H IH|sh its r p H IH|n sh l j i k its r p Hj Hi H IH]; intros rs R;
    inversion R; subst.
  - constructor.
  - now apply IH.
  - constructor; [|now apply IH]. match goal with X : sel n s = Some ?x |- _ => assert (x = ks) by congruence; subst x end.
    assert (j < length ks)%nat by (apply nth_error_Some; congruence). lia.
  - constructor; [lia|now apply IH].
  - constructor; [|now apply IH]. assert (j < length l)%nat by (apply nth_error_Some; congruence). lia.
Qed.

Lemma inside_at sh its rs : res_shape sh its rs -> forall r, inside rs r -> exists p, at_place sh its r p.
Proof.
  induction 1 as [|n sh i k its rs Hi H IH|n sh s ks its rs Hs H IH|sh its rs H IH|n sh l its rs Hn Hl H IH]; intros r I.
  - inversion I; subst. exists []. constructor.
  - destruct (IH r I) as [p P]. exists (k :: p). now constructor.
  - inversion I as [|? i ? t B I']; subst. destruct (IH t I') as [p P].
    destruct (nth_error ks (Z.to_nat i)) as [k|] eqn:E; [|apply nth_error_None in E; lia].
    exists (k :: p). rewrite <- (Z2Nat.id i) by lia. econstructor; eauto.
  - inversion I as [|? i ? t B I']; subst. destruct (IH t I') as [p P].
    exists p. replace i with 0 by lia. now constructor.
  - inversion I as [|? i ? t B I']; subst. destruct (IH t I') as [p P].
    destruct (nth_error l (Z.to_nat i)) as [i0|] eqn:E; [|apply nth_error_None in E; lia].
    rewrite Forall_forall in Hl. destruct (Hl i0 (nth_error_In _ _ E)) as [k Hk].
    exists (k :: p). rewrite <- (Z2Nat.id i) by lia. econstructor; eauto.
Qed.

Lemma at_fun sh its r p1 : at_place sh its r p1 -> forall p2, at_place sh its r p2 -> p1 = p2.
Proof.
  induction 1 as [|n sh i k its r p Hi H IH|n sh s ks j k its r p Hs Hj H IH|sh its r p H IH|n sh l j i k its r p Hj Hi H IH]; intros p2 R;
    inversion R; subst.
  - reflexivity.
  - f_equal; [eapply idx_fun; eauto|now apply IH].
  - assert (j0 = j) by lia. subst. assert (ks0 = ks) by congruence. subst. f_equal; [congruence|now apply IH].
  - now apply IH.
  - assert (j0 = j) by lia. subst. f_equal; [|now apply IH]. assert (i0 = i) by congruence. subst. eapply idx_fun; eauto.
Qed.

Lemma prog_inj a d n j1 j2 k : d <> 0 -> nth_error (prog a d n) j1 = Some k -> nth_error (prog a d n) j2 = Some k -> j1 = j2.
Proof.
  intros D H1 H2.
  assert (L1 : (j1 < n)%nat) by (rewrite <- (prog_length a d n); apply nth_error_Some; congruence).
  assert (L2 : (j2 < n)%nat) by (rewrite <- (prog_length a d n); apply nth_error_Some; congruence).
  rewrite (prog_nth _ _ _ _ L1) in H1. rewrite (prog_nth _ _ _ _ L2) in H2.
  assert (E : Z.of_nat j1 * d = Z.of_nat j2 * d) by (injection H1; injection H2; lia).
  apply Z.mul_cancel_r in E; [lia|exact D].
Qed.

Lemma sel_inj n s ks j1 j2 k : sel n s = Some ks -> nth_error ks j1 = Some k -> nth_error ks j2 = Some k -> j1 = j2.
Proof.
  unfold sel. destruct (step_of s =? 0) eqn:E; [discriminate|]. intros H. injection H as <-. unfold prange.
  apply prog_inj. lia.
Qed.

Lemma at_inj sh its r1 p : at_place sh its r1 p -> no_array its -> forall r2, at_place sh its r2 p -> r1 = r2.
Proof.
  induction 1 as [|n sh i k its r p Hi H IH|n sh s ks j k its r p Hs Hj H IH|sh its r p H IH|n sh l j i k its r p Hj Hi H IH]; intros A r2 R;
    inversion R; subst.
  - reflexivity.
  - apply IH; [eapply no_array_cons; eauto|assumption].
  - assert (ks0 = ks) by congruence. subst. f_equal; [|apply IH; [eapply no_array_cons; eauto|assumption]].
    f_equal. eapply sel_inj; eauto.
  - f_equal. apply IH; [eapply no_array_cons; eauto|assumption].
  - exfalso. apply (A l). now left.
Qed.

(** ** The component among the items *)
Lemma at_app sh its r p : at_place sh its r p -> forall sh2 its2 r2 p2, at_place sh2 its2 r2 p2 ->
  at_place (sh ++ sh2) (its ++ its2) (r ++ r2) (p ++ p2).
Proof. induction 1; intros; cbn [app]; [assumption|econstructor..]; eauto. Qed.

Lemma rs_app sh its rs : res_shape sh its rs -> forall sh2 its2 rs2, res_shape sh2 its2 rs2 -> res_shape (sh ++ sh2) (its ++ its2) (rs ++ rs2).
Proof. induction 1; intros; cbn [app]; [assumption|econstructor..]; eauto. Qed.

Lemma sel_full n : 0 <= n -> exists ks, sel n (PS None None None) = Some ks /\ Z.of_nat (length ks) = n /\
  forall j, 0 <= j < n -> nth_error ks (Z.to_nat j) = Some j.
Proof.
  intros Hn. exists (prog 0 1 (Z.to_nat n)). unfold sel, prange, step_of, slice_start, slice_stop, range_len, step_of. cbn.
  split; [|split].
  - do 2 f_equal. destruct (0 <? n) eqn:E; [rewrite Z.div_1_r|]; f_equal; lia.
  - rewrite prog_length. lia.
  - intros j Hj. rewrite prog_nth by lia. f_equal. lia.
Qed.

Lemma insert_at_len {A : Type} (x : A) l : insert_at (length l) x l = l ++ [x].
Proof. unfold insert_at. now rewrite firstn_all, skipn_all. Qed.

Lemma with_comp_shape l nc sh its rs c : comp_ok l nc c -> res_shape sh its rs ->
  res_shape (data_shape l nc sh) (read_items l its c) (res_data_shape l c nc rs).
Proof.
  intros C R. unfold read_items, res_data_shape, data_shape, comp_ok in *.
  destruct l.
  - now rewrite C.
  - unfold insert_at. cbn [firstn skipn app]. destruct c as [i|].
    + destruct C as [k C]. cbn [comp_item]. econstructor; eauto.
    + destruct (sel_full nc C) as [ks [E [L _]]]. cbn [comp_item]. rewrite <- L at 2. econstructor; eauto.
  - rewrite insert_at_len. destruct c as [i|].
    + destruct C as [k C]. cbn [comp_item]. rewrite <- (app_nil_r rs). apply rs_app; [exact R|]. econstructor; [eauto|constructor].
    + destruct (sel_full nc C) as [ks [E [L _]]]. cbn [comp_item]. apply rs_app; [exact R|]. rewrite <- L at 2. econstructor; [eauto|constructor].
Qed.

Lemma with_comp_at l nc sh its r p c k : comp_sel l nc c k -> at_place sh its r p ->
  at_place (data_shape l nc sh) (read_items l its c) (res_place l c k r) (data_place l k p).
Proof.
  intros C R. unfold read_items, res_place, data_place, data_shape, comp_sel in *.
  destruct l.
  - now rewrite C.
  - unfold insert_at. cbn [firstn skipn app]. destruct c as [i|]; cbn [comp_item].
    + constructor; assumption.
    + destruct (sel_full nc) as [ks [E [L N]]]; [lia|]. rewrite <- (Z2Nat.id k) at 1 by lia. econstructor; eauto.
  - rewrite insert_at_len. destruct c as [i|]; cbn [comp_item].
    + rewrite <- (app_nil_r r). apply at_app; [exact R|]. constructor; [exact C|constructor].
    + destruct (sel_full nc) as [ks [E [L N]]]; [lia|]. apply at_app; [exact R|].
      rewrite <- (Z2Nat.id k) at 1 by lia. econstructor; [eauto|eauto|constructor].
Qed.

Lemma with_comp_no_array l its c : no_array its -> no_array (read_items l its c).
Proof.
  intros A x Hx. unfold read_items in Hx. destruct l.
  - eapply A; eauto.
  - unfold insert_at in Hx. cbn [firstn skipn app In] in Hx. destruct Hx as [Hx|Hx]; [destruct c; discriminate|eapply A; eauto].
  - rewrite insert_at_len in Hx. apply in_app_or in Hx. destruct Hx as [Hx|[Hx|[]]]; [eapply A; eauto|destruct c; discriminate].
Qed.

Lemma at_unapp sh its : forall sh2 it2 r p, (exists rs, res_shape sh its rs) ->
  at_place (sh ++ [sh2]) (its ++ [it2]) r p -> it2 <> IN ->
  exists r1 p1 r2 k, r = r1 ++ r2 /\ p = p1 ++ [k] /\ at_place sh its r1 p1 /\ at_place [sh2] [it2] r2 [k].
Proof.
  intros sh2 it2 r p [rs R] H N. revert r p H.
  induction R as [|n sh i k its rs Hi R IH|n sh s ks its rs Hs R IH|sh its rs R IH|n sh l its rs Hn Hl R IH]; intros r p H; cbn [app] in H.
  - exists [], [], r. inversion H; subst; try congruence;
      match goal with X : at_place [] [] _ _ |- _ => inversion X; subst end; eexists; repeat split; try constructor; assumption.
  - inversion H; subst. match goal with X : at_place (sh ++ _) _ _ _ |- _ => destruct (IH _ _ X) as [r1 [p1 [r2 [k2 [-> [-> [X2 Y]]]]]]] end.
    exists r1, (k0 :: p1), r2, k2. repeat split; [|exact Y]. now constructor.
  - inversion H; subst. match goal with X : at_place (sh ++ _) _ _ _ |- _ => destruct (IH _ _ X) as [r1 [p1 [r2 [k2 [-> [-> [X2 Y]]]]]]] end.
    exists (Z.of_nat j :: r1), (k :: p1), r2, k2. repeat split; [|exact Y]. econstructor; eauto.
  - inversion H; subst. match goal with X : at_place (sh ++ _) (its ++ _) _ _ |- _ => destruct (IH _ _ X) as [r1 [p1 [r2 [k2 [-> [-> [X2 Y]]]]]]] end.
    exists (0 :: r1), p1, r2, k2. repeat split; [|exact Y]. now constructor.
  - inversion H; subst. match goal with X : at_place (sh ++ _) _ _ _ |- _ => destruct (IH _ _ X) as [r1 [p1 [r2 [k2 [-> [-> [X2 Y]]]]]]] end.
    exists (Z.of_nat j :: r1), (k :: p1), r2, k2. repeat split; [|exact Y]. econstructor; eauto.
Qed.

(* nothing else is selected *)
Lemma with_comp_only l nc sh its rs c r q : comp_ok l nc c -> res_shape sh its rs ->
  at_place (data_shape l nc sh) (read_items l its c) r q ->
  exists k r' p, comp_sel l nc c k /\ at_place sh its r' p /\ r = res_place l c k r' /\ q = data_place l k p.
Proof.
  intros C R H. unfold read_items, res_place, data_place, data_shape, comp_sel, comp_ok in *.
  destruct l.
  - exists 0, r, q. subst c. repeat split; assumption.
  - unfold insert_at in H. cbn [firstn skipn app] in H. destruct c as [i|]; cbn [comp_item] in H; inversion H; subst.
    + exists k, r, p. repeat split; try assumption; match goal with X : idx _ _ _ |- _ => apply X end.
    + destruct (sel_full nc C) as [ks' [E [L N]]]. assert (ks' = ks) by congruence. subst ks'.
      assert (B : (j < length ks)%nat) by (apply nth_error_Some; congruence).
      assert (Ek : nth_error ks (Z.to_nat (Z.of_nat j)) = Some (Z.of_nat j)) by (apply N; lia).
      rewrite Nat2Z.id in Ek. exists k, r0, p. assert (k = Z.of_nat j) by congruence. subst k.
      split; [lia|]. split; [assumption|]. split; [reflexivity|]. reflexivity.
  - rewrite insert_at_len in H. apply at_unapp in H; [|eauto|destruct c; discriminate].
    destruct H as [r1 [p1 [r2 [k [-> [-> [X Y]]]]]]]. destruct c as [i|]; cbn [comp_item] in Y; inversion Y; subst;
      match goal with X : at_place [] [] _ _ |- _ => inversion X; subst end.
    + exists k, r1, p1. rewrite app_nil_r. repeat split; try assumption; match goal with X : idx _ _ _ |- _ => apply X end.
    + destruct (sel_full nc C) as [ks' [E [L N]]]. assert (ks' = ks) by congruence. subst ks'.
      assert (B : (j < length ks)%nat) by (apply nth_error_Some; congruence).
      assert (Ek : nth_error ks (Z.to_nat (Z.of_nat j)) = Some (Z.of_nat j)) by (apply N; lia).
      rewrite Nat2Z.id in Ek. exists k, r1, p1. assert (k = Z.of_nat j) by congruence. subst k.
      split; [lia|]. split; [assumption|]. split; reflexivity.
Qed.

(** ** numpy without index arrays *)
Lemma getitem_basic {V : Type} (a : nda V) its rs : res_shape (nshape a) its rs -> no_array its ->
  exists b, getitem a its = Some b /\ nshape b = rs /\ forall r p, at_place (nshape a) its r p -> nval b r = nval a p.
Proof.
  intros R A. destruct (resolve_ok _ _ _ R) as [ds [E K]].
  unfold getitem. rewrite E. unfold plan. rewrite (resolve_no_da _ _ _ _ R A E).
  eexists. split; [reflexivity|]. cbn [nshape nval]. split; [exact K|].
  intros r p P. f_equal. eapply at_dsrc; eauto.
Qed.

Lemma size_cons n t : size (n :: t) = n * size t.
Proof. reflexivity. Qed.

Lemma size_nn sh : Forall (fun n => 0 <= n) sh -> 0 <= size sh.
Proof.
  induction 1 as [|n t H1 H2 IH]; [discriminate|]. rewrite size_cons. now apply Z.mul_nonneg_nonneg.
Qed.

Lemma res_shape_nn sh its rs : res_shape sh its rs -> Forall (fun n => 0 <= n) rs.
Proof. induction 1; try constructor; try assumption; lia. Qed.

Lemma size_one rs : Forall (fun n => 0 <= n) rs -> size rs = 1 -> forall r, inside rs r <-> r = map (fun _ => 0) rs.
Proof.
  induction 1 as [|n t H1 H2 IH]; intros S r.
  - split; [intros I; now inversion I|intros ->; constructor].
  - rewrite size_cons in S. pose proof (size_nn t H2) as P.
    assert (n = 1) by (apply Z.mul_eq_1 in S; lia). subst n. rewrite Z.mul_1_l in S. specialize (IH S). cbn [map].
    split.
    + intros I. inversion I as [|? i ? u B I']; subst. apply IH in I'. subst u. f_equal. lia.
    + intros ->. constructor; [lia|]. now apply IH.
Qed.

Lemma none_place sh its rs : res_shape sh its rs -> forallb none_item its = true -> Forall (fun n => 0 <= n) sh ->
  rs = sh /\ forall r p, at_place sh its r p -> r = p.
Proof.
  induction 1 as [|n sh i k its rs Hi H IH|n sh s ks its rs Hs H IH|sh its rs H IH|n sh l its rs Hn Hl H IH]; intros N P; cbn [forallb] in N.
  - split; [reflexivity|]. intros r p X. now inversion X.
  - discriminate.
  - apply andb_prop in N. destruct N as [N1 N2]. inversion P as [|? ? P1 P2]; subst.
    destruct (IH N2 P2) as [-> IH2].
    assert (Es : sel n s = sel n (PS None None None)).
    { destruct s as [[?|] [?|] [st|]]; cbn [none_item] in N1; try discriminate; [|reflexivity].
      assert (st = 1) by lia. subst. reflexivity. }
    destruct (sel_full n P1) as [ks' [E [L F]]]. rewrite Es, E in Hs. injection Hs as ->.
    split; [now f_equal|]. intros r p X. inversion X; subst.
    f_equal; [|now apply IH2].
    match goal with Y : sel _ s = Some ?x |- _ => assert (x = ks) by congruence; subst x end.
    assert (B : (j < length ks)%nat) by (apply nth_error_Some; congruence).
    assert (Ek : nth_error ks (Z.to_nat (Z.of_nat j)) = Some (Z.of_nat j)) by (apply F; lia).
    rewrite Nat2Z.id in Ek. congruence.
  - discriminate.
  - discriminate.
Qed.

Lemma reduced_le its : (reduced its <= length its)%nat.
Proof. unfold reduced. induction its as [|it t IH]; [auto|]. cbn [filter]. destruct (is_int it); cbn [length]; lia. Qed.

Lemma reduced_all sh its rs : res_shape sh its rs -> reduced its = length its -> rs = [].
Proof.
  unfold reduced.
  induction 1 as [|n sh i k its rs Hi H IH|n sh s ks its rs Hs H IH|sh its rs H IH|n sh l its rs Hn Hl H IH]; intros E; cbn [filter is_int length] in E;
    try (pose proof (reduced_le its) as B; unfold reduced in B; lia).
  - reflexivity.
  - apply IH. lia.
Qed.

Lemma finish_ok {V : Type} (b : nda V) nred nsl rs :
  nshape b = rs -> Forall (fun n => 0 <= n) rs -> (nred = nsl -> rs = []) ->
  match finish b nred nsl rs with
  | Err => False
  | Num v => exists r, inside rs r /\ forall r', inside rs r' -> r' = r /\ v = nval b r'
  | Arr b' => b' = b
  end.
Proof.
  intros S P N. unfold finish.
  destruct ((nred =? nsl)%nat || (size (nshape b) =? 1)) eqn:E.
  - assert (O : size rs = 1).
    { destruct (Nat.eqb_spec nred nsl) as [X|X]; [rewrite (N X); reflexivity|]. cbn in E. rewrite S in E. lia. }
    exists (map (fun _ => 0) rs). split; [now apply size_one|]. intros r' I.
    apply (size_one rs P O) in I. subst. now split.
  - destruct (list_eq_dec Z.eq_dec (nshape b) rs) as [_|X]; [reflexivity|contradiction].
Qed.

Lemma sshape_data {V : Type} l nc sh (a : nda V) : nshape a = data_shape l nc sh -> sshape (FL l a) = sh.
Proof.
  intros H. unfold sshape. cbn [f_lay f_dat]. rewrite H. destruct l; cbn [data_shape tl]; [reflexivity..|]. apply removelast_last.
Qed.

Lemma data_nn l nc sh : Forall (fun n => 0 <= n) sh -> 0 <= nc -> Forall (fun n => 0 <= n) (data_shape l nc sh).
Proof.
  intros H N. destruct l; cbn [data_shape]; [assumption|now constructor|]. apply Forall_app. split; [assumption|]. now repeat constructor.
Qed.

Lemma reduced_items l its c sh rs : res_shape sh its rs -> reduced its = length (read_items l its c) -> rs = [].
Proof.
  intros R E. pose proof (reduced_le its) as B. unfold read_items in E. destruct l.
  - eapply reduced_all; eauto.
  - unfold insert_at in E. cbn in E. lia.
  - rewrite insert_at_len, app_length in E. cbn in E. lia.
Qed.

(** Reading: for every layout, every selection of integers, slices and new axes that fits the field, and one component or all of them.  What is read has
    the shape of the selection and every selected element at its place; it is a number only if exactly one element is selected. *)
Theorem C77_read {V : Type} (l : layout) (a : nda V) nc sh its rs c :
  nshape a = data_shape l nc sh -> Forall (fun n => 0 <= n) sh -> 0 <= nc ->
  res_shape sh its rs -> comp_ok l nc c -> no_array its ->
  match read (FL l a) its c with
  | Err => False
  | Num v => exists k r p, comp_sel l nc c k /\ at_place sh its r p /\ v = nval a (data_place l k p) /\
             forall k' r' p', comp_sel l nc c k' -> at_place sh its r' p' -> data_place l k' p' = data_place l k p
  | Arr b => nshape b = res_data_shape l c nc rs /\
             forall k r p, comp_sel l nc c k -> at_place sh its r p -> nval b (res_place l c k r) = nval a (data_place l k p)
  end.
Proof.
  intros S P N R C A. unfold read. cbn [f_lay f_dat].
  destruct (is_scalar l && some c) eqn:E0.
  { destruct l; [|discriminate..]. cbn in C. rewrite C in E0. discriminate. }
  unfold crd_shape. rewrite (sshape_data _ _ _ _ S).
  destruct (resolve_ok _ _ _ R) as [ds [E K]]. rewrite E. cbn [option_map]. rewrite K.
  pose proof (with_comp_shape _ _ _ _ _ _ C R) as R'. rewrite <- S in R'.
  destruct (forallb none_item its && negb (some c)) eqn:E1.
  { apply andb_prop in E1. destruct E1 as [E1 E2]. destruct c; [discriminate|].
    destruct (none_place _ _ _ R E1 P) as [-> F]. cbn [res_data_shape res_place].
    split; [exact S|]. intros k r p _ X. now rewrite (F _ _ X). }
  destruct (getitem_basic a (read_items l its c) _ R' (with_comp_no_array _ _ _ A)) as [b [Eg [Sb G]]].
  rewrite Eg.
  assert (G' : forall k r p, comp_sel l nc c k -> at_place sh its r p -> nval b (res_place l c k r) = nval a (data_place l k p)).
  { intros k r p Ck X. apply G. rewrite S. now apply with_comp_at. }
  destruct (is_scalar l || some c) eqn:E2.
  - assert (T : res_data_shape l c nc rs = rs).
    { destruct c; [reflexivity|]. destruct l; [reflexivity|discriminate..]. }
    rewrite T in *.
    pose proof (finish_ok b (reduced its) (length (read_items l its c)) rs Sb (res_shape_nn _ _ _ R)
                  (reduced_items l its c sh rs R)) as F.
    destruct (finish b (reduced its) (length (read_items l its c)) rs) as [|v|b'].
    + exact F.
    + destruct F as [r [Ir F]]. destruct (inside_at _ _ _ R r Ir) as [p X].
      assert (Ck : exists k, comp_sel l nc c k).
      { destruct l; cbn in *; [exists 0; exact C|..]; destruct c; try discriminate; exact C. }
      destruct Ck as [k Ck]. exists k, r, p. split; [exact Ck|]. split; [exact X|].
      destruct (F r Ir) as [_ Fv]. split.
      * rewrite Fv. rewrite <- (G' k r p Ck X). f_equal. destruct c; [reflexivity|]. destruct l; [reflexivity|discriminate..].
      * intros k' r' p' Ck' X'. pose proof (at_inside _ _ _ _ X' _ R) as I'. destruct (F r' I') as [-> _].
        rewrite (at_fun _ _ _ _ X _ X'). destruct l; [reflexivity|..]; cbn in *; destruct c as [i|]; try discriminate;
          now rewrite (idx_fun _ _ _ _ Ck Ck').
    + subst b'. split; [exact Sb|exact G'].
  - split; [exact Sb|exact G'].
Qed.

(** ** Assigning *)
Lemma F2_length {A B : Type} (P : A -> B -> Prop) l1 l2 : Forall2 P l1 l2 -> length l1 = length l2.
Proof. induction 1; cbn [length]; lia. Qed.

Lemma zseq_In n k : In k (zseq n) <-> 0 <= k < n.
Proof.
  unfold zseq. rewrite in_map_iff. split.
  - intros [j [<- H]]. apply in_seq in H. lia.
  - intros H. exists (Z.to_nat k). split; [lia|]. apply in_seq. lia.
Qed.

Lemma all_idx_In sh : forall r, In r (all_idx sh) <-> inside sh r.
Proof.
  induction sh as [|n t IH]; intros r; cbn [all_idx].
  - split; [intros [<-|[]]; constructor|]. intros H. inversion H. now left.
  - rewrite in_flat_map. split.
    + intros [k [Hk H]]. apply in_map_iff in H. destruct H as [u [<- Hu]]. constructor; [now apply zseq_In|now apply IH].
    + intros H. inversion H as [|? k ? u B I]; subst. exists k. split; [now apply zseq_In|]. apply in_map. now apply IH.
Qed.

Lemma fold_upd {V : Type} (src : list Z -> list Z) (g : list Z -> V) L : forall f q,
  (forall r1 r2, In r1 L -> In r2 L -> src r1 = src r2 -> g r1 = g r2) ->
  (forall r, In r L -> src r = q -> fold_left (fun f r => upd f (src r) (g r)) L f q = g r) /\
  ((forall r, In r L -> src r <> q) -> fold_left (fun f r => upd f (src r) (g r)) L f q = f q).
Proof.
  induction L as [|x L IH]; intros f q J; cbn [fold_left].
  - split; [intros r []|reflexivity].
  - assert (J' : forall r1 r2, In r1 L -> In r2 L -> src r1 = src r2 -> g r1 = g r2) by (intros; apply J; try right; assumption).
    destruct (IH (upd f (src x) (g x)) q J') as [IH1 IH2]. split.
    + intros r Hr Hq. destruct (in_dec (list_eq_dec Z.eq_dec) q (map src L)) as [Y|Y].
      * apply in_map_iff in Y. destruct Y as [r2 [E2 H2]]. rewrite (IH1 r2 H2 E2). apply J; [now right|exact Hr|congruence].
      * rewrite IH2.
        -- unfold upd. destruct Hr as [->|Hr].
           ++ subst q. destruct (list_eq_dec Z.eq_dec (src r) (src r)); [reflexivity|contradiction].
           ++ exfalso. apply Y. rewrite <- Hq. now apply in_map.
        -- intros r2 H2 E2. apply Y. rewrite <- E2. now apply in_map.
    + intros H. rewrite IH2 by (intros r2 H2; apply H; now right).
      unfold upd. destruct (list_eq_dec Z.eq_dec q (src x)) as [->|]; [|reflexivity].
      exfalso. apply (H x); [now left|reflexivity].
Qed.

Lemma bc_ok_app1 vs1 : forall rs1 vs2 rs2, length vs1 = length rs1 -> bc_ok (vs1 ++ vs2) (rs1 ++ rs2) = bc_ok vs1 rs1 && bc_ok vs2 rs2.
Proof.
  induction vs1 as [|n t IH]; intros [|m s] vs2 rs2 L; try discriminate; [reflexivity|].
  cbn [app bc_ok]. cbn [length] in L. rewrite (IH s) by lia. now rewrite andb_assoc.
Qed.

Lemma bc_idx_app vs1 : forall r1 vs2 r2, length vs1 = length r1 -> bc_idx (vs1 ++ vs2) (r1 ++ r2) = bc_idx vs1 r1 ++ bc_idx vs2 r2.
Proof.
  induction vs1 as [|n t IH]; intros [|m s] vs2 r2 L; try discriminate; [reflexivity|].
  cbn [app bc_idx]. cbn [length] in L. rewrite (IH s) by lia. reflexivity.
Qed.

Lemma bc_rev vs rs : Forall2 (fun n m => n = m \/ n = 1) vs rs -> bc_ok (rev vs) (rev rs) = true /\
  forall r, length r = length rs -> rev (bc_idx (rev vs) (rev r)) = map (fun ni => if fst ni =? 1 then 0 else snd ni) (combine vs r).
Proof.
  induction 1 as [|n m vs rs H F [IH1 IH2]].
  - split; [reflexivity|]. intros [|]; [reflexivity|discriminate].
  - pose proof (F2_length _ _ _ F) as L. cbn [rev]. split.
    + rewrite bc_ok_app1 by (rewrite !rev_length; exact L). rewrite IH1. cbn [bc_ok]. lia.
    + intros [|i r] Lr; [discriminate|]. cbn [length] in Lr. cbn [rev combine map].
      rewrite bc_idx_app by (rewrite !rev_length; lia). rewrite rev_app_distr, IH2 by lia. reflexivity.
Qed.

Lemma fits_broadcast {V : Type} (v : nda V) rs g : fits v rs g -> exists h, broadcast v rs = Some h /\ forall r, length r = length rs -> h r = g r.
Proof.
  intros [[S G]|[S G]]; unfold broadcast.
  - rewrite S. cbn. eexists. split; [reflexivity|]. intros r _. cbn. now rewrite G.
  - destruct (bc_rev _ _ S) as [B I]. rewrite B. eexists. split; [reflexivity|]. intros r L. cbv beta. rewrite (I r L). now rewrite G.
Qed.

Lemma setitem_basic {V : Type} (a v : nda V) its rs g : res_shape (nshape a) its rs -> no_array its -> fits v rs g ->
  exists b, setitem a its v = Some b /\ nshape b = nshape a /\
    (forall r p, at_place (nshape a) its r p -> nval b p = g r) /\
    (forall p, (forall r, ~ at_place (nshape a) its r p) -> nval b p = nval a p).
Proof.
  intros R A F. destruct (resolve_ok _ _ _ R) as [ds [E K]].
  unfold setitem. rewrite E. unfold plan. rewrite (resolve_no_da _ _ _ _ R A E), K.
  destruct (fits_broadcast _ _ _ F) as [h [B H]]. rewrite B.
  eexists. split; [reflexivity|]. cbn [nshape nval]. split; [reflexivity|].
  assert (J : forall r1 r2, In r1 (all_idx rs) -> In r2 (all_idx rs) -> dsrc ds 0 r1 = dsrc ds 0 r2 -> h r1 = h r2).
  { intros r1 r2 H1 H2 X. apply all_idx_In in H1. apply all_idx_In in H2.
    destruct (inside_at _ _ _ R _ H1) as [p1 P1]. destruct (inside_at _ _ _ R _ H2) as [p2 P2].
    rewrite (at_dsrc _ _ _ _ P1 A ds 0 E), (at_dsrc _ _ _ _ P2 A ds 0 E) in X. subst p2.
    now rewrite (at_inj _ _ _ _ P1 A _ P2). }
  split.
  - intros r p P. pose proof (at_inside _ _ _ _ P _ R) as Ir.
    destruct (fold_upd (dsrc ds 0) h (all_idx rs) (nval a) p J) as [F1 _].
    rewrite (F1 r); [|now apply all_idx_In|eapply at_dsrc; eauto].
    apply H. symmetry. eapply F2_length; exact Ir.
  - intros p N. destruct (fold_upd (dsrc ds 0) h (all_idx rs) (nval a) p J) as [_ F2]. apply F2.
    intros r Hr X. apply all_idx_In in Hr. destruct (inside_at _ _ _ R _ Hr) as [p1 P1].
    rewrite (at_dsrc _ _ _ _ P1 A ds 0 E) in X. subst p1. now apply (N r).
Qed.

(* new axes, if any, come before the last axes of the grid: none of them is past the first (number of grid axes) items *)
Definition new_early (sh : list Z) (its : list item) : Prop := ~ In IN (skipn (length sh) its).

Lemma count_new its : ~ In IN its -> filter is_new its = [].
Proof.
  induction its as [|it t IH]; intros H; [reflexivity|]. cbn [filter].
  destruct it; cbn [is_new]; try (apply IH; intros X; apply H; now right). exfalso. apply H. now left.
Qed.

Lemma res_len sh its rs : res_shape sh its rs -> length its = (length sh + length (filter is_new its))%nat.
Proof. induction 1; cbn [length filter is_new]; lia. Qed.

Lemma no_array_countable its : no_array its -> existsb uncountable its = false.
Proof.
  induction its as [|it t IH]; intros H; [reflexivity|]. cbn [existsb]. rewrite IH by (eapply no_array_cons; eauto).
  destruct it; [reflexivity..|]. exfalso. eapply H. now left.
Qed.

Lemma no_array_firstn n its : no_array its -> no_array (firstn n its).
Proof. intros H l X. apply (H l). rewrite <- (firstn_skipn n its). apply in_or_app. now left. Qed.

Lemma write_items_ok l sh its rs c : res_shape sh its rs -> no_array its -> (l = Interlaced -> new_early sh its) ->
  write_items l (length sh) its c = Some (read_items l its c).
Proof.
  intros R A N. unfold write_items, read_items. destruct l; [reflexivity..|].
  rewrite no_array_countable by (now apply no_array_firstn).
  do 2 f_equal. rewrite (res_len _ _ _ R). f_equal.
  rewrite <- (firstn_skipn (length sh) its) at 2. rewrite filter_app, (count_new (skipn _ _)) by (now apply N).
  now rewrite app_nil_r.
Qed.

(** Assigning a number, or an array of the shape of the selection or that is broadcast to it: every selected element gets the value for its place, and
    all others keep theirs. *)
Theorem C77_write {V : Type} (l : layout) (a v : nda V) nc sh its rs c g :
  nshape a = data_shape l nc sh -> res_shape sh its rs -> comp_ok l nc c -> no_array its ->
  (l = Interlaced -> new_early sh its) -> fits v (res_data_shape l c nc rs) g ->
  exists b, write (FL l a) its c v = Some (FL l b) /\ nshape b = nshape a /\
    (forall k r p, comp_sel l nc c k -> at_place sh its r p -> nval b (data_place l k p) = g (res_place l c k r)) /\
    (forall q, (forall k r p, comp_sel l nc c k -> at_place sh its r p -> q <> data_place l k p) -> nval b q = nval a q).
Proof.
  intros S R C A N F. unfold write. cbn [f_lay f_dat].
  destruct (is_scalar l && some c) eqn:E0.
  { destruct l; [|discriminate..]. cbn in C. rewrite C in E0. discriminate. }
  unfold crd_shape. rewrite (sshape_data _ _ _ _ S).
  destruct (resolve_ok _ _ _ R) as [ds [E K]]. rewrite E. cbn [option_map].
  rewrite (write_items_ok _ _ _ _ _ R A N).
  pose proof (with_comp_shape _ _ _ _ _ _ C R) as R'. rewrite <- S in R'.
  destruct (setitem_basic a v (read_items l its c) _ g R' (with_comp_no_array _ _ _ A) F) as [b [Eb [Sb [B1 B2]]]].
  rewrite Eb. exists b. cbn [option_map]. split; [reflexivity|]. split; [exact Sb|]. split.
  - intros k r p Ck P. apply B1. rewrite S. now apply with_comp_at.
  - intros q Q. apply B2. intros r X. rewrite S in X.
    destruct (with_comp_only _ _ _ _ _ _ _ _ C R X) as [k [r' [p [Ck [P [_ Eq]]]]]]. exact (Q k r' p Ck P Eq).
Qed.

(** ** One index array *)
Definition adv_it (it : item) : bool := match it with II _ | IA _ => true | _ => false end.
Definition arr_it (it : item) : bool := match it with IA _ => true | _ => false end.
Fixpoint apos (ds : list dim) : nat :=
  match ds with
  | [] => O
  | DA _ :: _ => O
  | DI _ :: t => apos t
  | _ :: t => S (apos t)
  end.

(* exactly one item is an index array *)
Definition one_array (its : list item) : Prop := exists pre l post, its = pre ++ IA l :: post /\ no_array pre /\ no_array post.
(* the index array and all integers are next to each other *)
Definition together (its : list item) : Prop := exists pre blk post, its = pre ++ blk ++ post /\
  (forall it, In it pre -> adv_it it = false) /\ (forall it, In it blk -> adv_it it = true) /\ (forall it, In it post -> adv_it it = false).

Lemma insert_nth {A : Type} n (x : A) l d : (n <= length l)%nat -> nth n (insert_at n x l) d = x.
Proof.
  intros H. unfold insert_at. rewrite app_nth2; rewrite firstn_length_le by lia; [|lia]. now rewrite Nat.sub_diag.
Qed.

Lemma insert_remove {A : Type} n (x : A) l : (n <= length l)%nat -> firstn n (insert_at n x l) ++ skipn (S n) (insert_at n x l) = l.
Proof.
  intros H. unfold insert_at. rewrite firstn_app, firstn_firstn, Nat.min_id, firstn_length_le, Nat.sub_diag by lia. cbn [firstn]. rewrite app_nil_r.
  rewrite skipn_app, firstn_length_le by lia. rewrite skipn_all2 by (rewrite firstn_length_le; lia).
  replace (S n - n)%nat with 1%nat by lia. cbn [skipn app]. apply firstn_skipn.
Qed.

Lemma insert_cons {A : Type} n (x y : A) l : insert_at (S n) x (y :: l) = y :: insert_at n x l.
Proof. reflexivity. Qed.

Lemma inside_insert n p sh q j : (p <= length sh)%nat -> inside sh q -> 0 <= j < n -> inside (insert_at p n sh) (insert_at p j q).
Proof.
  revert sh q. induction p as [|p IH]; intros sh q L I J.
  - unfold insert_at. cbn [firstn skipn app]. now constructor.
  - destruct sh as [|m sh]; [cbn in L; lia|]. inversion I as [|? i ? u B I']; subst. rewrite !insert_cons. constructor; [exact B|].
    apply IH; [cbn in L; lia|assumption..].
Qed.

Lemma inside_uninsert n p sh r : (p <= length sh)%nat -> inside (insert_at p n sh) r ->
  exists j q, r = insert_at p j q /\ 0 <= j < n /\ inside sh q.
Proof.
  revert sh r. induction p as [|p IH]; intros sh r L I.
  - unfold insert_at in I. cbn [firstn skipn app] in I. inversion I as [|? i ? u B I']; subst. exists i, u. repeat split; [lia..|assumption].
  - destruct sh as [|m sh]; [cbn in L; lia|]. rewrite insert_cons in I. inversion I as [|? i ? u B I']; subst.
    destruct (IH sh u) as [j [q [-> [J Q]]]]; [cbn in L; lia|assumption|]. exists j, (i :: q). rewrite insert_cons. split; [reflexivity|]. split; [exact J|].
    now constructor.
Qed.

Lemma adv_len_none ds : existsb is_array ds = false -> adv_len ds = Some 1 /\ kept ds = basic_lens ds.
Proof.
  induction ds as [|d t IH]; intros H; [now split|]. cbn [existsb] in H. apply orb_false_elim in H. destruct H as [H1 H2].
  destruct (IH H2) as [E1 E2]. destruct d; cbn [adv_len kept basic_lens]; try discriminate; split; try assumption; congruence.
Qed.

Lemma one_split sh its rs ds : res_shape sh its rs -> resolve sh its = Some ds -> one_array its ->
  existsb is_array ds = true /\ (apos ds <= length (basic_lens ds))%nat /\
  exists n, adv_len ds = Some n /\ rs = insert_at (apos ds) n (basic_lens ds) /\
    forall r p, at_place sh its r p -> exists j q, r = insert_at (apos ds) j q /\ inside (basic_lens ds) q /\ 0 <= j < n /\ p = dsrc ds j q.
Proof.
  intros R. revert ds.
  induction R as [|n sh i k its rs Hi R IH|n sh s ks its rs Hs R IH|sh its rs R IH|n sh l its rs Hn Hl R IH]; intros ds E [pre [l' [post [O [A1 A2]]]]];
    cbn [resolve] in E.
  - destruct pre; discriminate.
  - rewrite (norm_idx _ _ _ Hi) in E. destruct (resolve sh its) as [d|] eqn:Ed; [|discriminate]. injection E as <-.
    destruct pre as [|x pre]; [discriminate|]. injection O as <- O.
    destruct (IH d eq_refl) as [X1 [X2 [m [X3 [X4 X5]]]]].
    { exists pre, l', post. repeat split; [exact O|eapply no_array_cons; eauto|assumption]. }
    cbn [existsb is_array apos basic_lens adv_len]. split; [exact X1|]. split; [exact X2|]. exists m. split; [exact X3|]. split; [exact X4|].
    intros r p P. inversion P as [|? ? ? k' ? ? ? Hi' P'| | |]; subst. destruct (X5 _ _ P') as [j [q [Y1 [Y2 [Y3 Y4]]]]].
    exists j, q. repeat split; try assumption; try lia. cbn [dsrc]. rewrite Y4. f_equal. eapply idx_fun; eauto.
  - rewrite Hs in E. destruct (resolve sh its) as [d|] eqn:Ed; [|discriminate]. injection E as <-.
    destruct pre as [|x pre]; [discriminate|]. injection O as <- O.
    destruct (IH d eq_refl) as [X1 [X2 [m [X3 [X4 X5]]]]].
    { exists pre, l', post. repeat split; [exact O|eapply no_array_cons; eauto|assumption]. }
    cbn [existsb is_array apos basic_lens adv_len length]. split; [exact X1|]. split; [lia|]. exists m. split; [exact X3|].
    split; [rewrite insert_cons, X4; reflexivity|].
    intros r p P. inversion P as [| |? ? ? ks' j' k' ? r' p' Hs' Hj P'| |]; subst. destruct (X5 _ _ P') as [j [q [Y1 [Y2 [Y3 Y4]]]]].
    exists j, (Z.of_nat j' :: q). rewrite insert_cons, Y1. split; [reflexivity|].
    assert (ks' = ks) by congruence. subst ks'.
    split; [constructor; [|assumption]|split; [lia|]].
    + assert (j' < length ks)%nat by (apply nth_error_Some; congruence). unfold zlen. lia.
    + cbn [dsrc hd tl]. rewrite (zat_nth _ _ _ Hj), Y4. reflexivity.
  - destruct (resolve sh its) as [d|] eqn:Ed; [|discriminate]. injection E as <-.
    destruct pre as [|x pre]; [discriminate|]. injection O as <- O.
    destruct (IH d eq_refl) as [X1 [X2 [m [X3 [X4 X5]]]]].
    { exists pre, l', post. repeat split; [exact O|eapply no_array_cons; eauto|assumption]. }
    cbn [existsb is_array apos basic_lens adv_len length]. split; [exact X1|]. split; [lia|]. exists m. split; [exact X3|].
    split; [rewrite insert_cons, X4; reflexivity|].
    intros r p P. inversion P as [| | |? ? r' p' P'|]; subst. destruct (X5 _ _ P') as [j [q [Y1 [Y2 [Y3 Y4]]]]].
    exists j, (0 :: q). rewrite insert_cons, Y1. split; [reflexivity|].
    split; [constructor; [lia|assumption]|split; [lia|]]. cbn [dsrc hd tl]. exact Y4.
  - destruct (norms_idx n l Hl) as [ks [E1 [L N]]]. rewrite E1 in E.
    destruct (resolve sh its) as [d|] eqn:Ed; [|discriminate]. injection E as <-.
    assert (B : no_array its).
    { destruct pre as [|x pre]; [injection O as _ O; subst; exact A2|]. injection O as <- O. exfalso. apply (A1 l). now left. }
    pose proof (resolve_no_da _ _ _ _ R B Ed) as D. destruct (adv_len_none d D) as [F1 F2].
    destruct (resolve_ok _ _ _ R) as [d' [Ed' Kd]]. assert (d' = d) by congruence. subst d'.
    cbn [existsb is_array apos basic_lens adv_len]. split; [reflexivity|]. split; [lia|].
    exists (zlen ks). split; [rewrite F1; destruct (zlen ks =? 1) eqn:X; [f_equal; lia|reflexivity]|].
    split; [unfold insert_at; cbn [firstn skipn app]; unfold zlen; rewrite L; congruence|].
    intros r p P. inversion P as [| | | |? ? ? j i k ? r' p' Hj Hi P']; subst.
    assert (Bj : (j < length l)%nat) by (apply nth_error_Some; congruence).
    exists (Z.of_nat j), r'. split; [reflexivity|]. split; [rewrite <- F2; eapply at_inside; eauto|].
    split; [unfold zlen; lia|]. cbn [dsrc]. rewrite (at_dsrc _ _ _ _ P' B d _ Ed). f_equal.
    assert (J : (if zlen ks =? 1 then 0 else Z.of_nat j) = Z.of_nat j).
    { destruct (zlen ks =? 1) eqn:X; [|reflexivity]. unfold zlen in X. lia. }
    rewrite J. symmetry. apply zat_nth. eapply N; eauto.
Qed.

Lemma resolve_adv sh its rs : res_shape sh its rs -> forall ds, resolve sh its = Some ds -> Forall2 (fun it d => adv_it it = is_adv d) its ds.
Proof.
  induction 1 as [|n sh i k its rs Hi R IH|n sh s ks its rs Hs R IH|sh its rs R IH|n sh l its rs Hn Hl R IH]; intros ds E; cbn [resolve] in E.
  - injection E as <-. constructor.
  - rewrite (norm_idx _ _ _ Hi) in E. destruct (resolve sh its) as [d|]; [|discriminate]. injection E as <-. constructor; [reflexivity|now apply IH].
  - rewrite Hs in E. destruct (resolve sh its) as [d|]; [|discriminate]. injection E as <-. constructor; [reflexivity|now apply IH].
  - destruct (resolve sh its) as [d|]; [|discriminate]. injection E as <-. constructor; [reflexivity|now apply IH].
  - destruct (norms_idx n l Hl) as [ks [E1 _]]. rewrite E1 in E. destruct (resolve sh its) as [d|]; [|discriminate]. injection E as <-.
    constructor; [reflexivity|now apply IH].
Qed.

Lemma F2_forall (p : bool) its ds : Forall2 (fun it d => adv_it it = is_adv d) its ds -> (forall it, In it its -> adv_it it = p) ->
  forall d, In d ds -> is_adv d = p.
Proof.
  induction 1 as [|it d its ds H F IH]; intros Q d' []; [subst; rewrite <- H; apply Q; now left|].
  apply IH; [intros it' I; apply Q; now right|assumption].
Qed.

Lemma lead_app p ds1 ds2 : (forall d, In d ds1 -> p d = true) -> lead p (ds1 ++ ds2) = (length ds1 + lead p ds2)%nat.
Proof.
  induction ds1 as [|d t IH]; intros H; [reflexivity|]. cbn [app lead length]. rewrite (H d) by now left. rewrite IH by (intros; apply H; now right).
  lia.
Qed.

Lemma skipn_len {A : Type} (l1 l2 : list A) : skipn (length l1) (l1 ++ l2) = l2.
Proof. rewrite skipn_app, skipn_all, Nat.sub_diag. reflexivity. Qed.

Lemma apos_pre ds1 ds2 : (forall d, In d ds1 -> is_adv d = false) -> apos (ds1 ++ ds2) = (length ds1 + apos ds2)%nat.
Proof.
  induction ds1 as [|d t IH]; intros H; [reflexivity|]. pose proof (H d (or_introl eq_refl)) as X.
  cbn [app length]. destruct d; try discriminate; cbn [apos]; rewrite IH by (intros; apply H; now right); lia.
Qed.

Lemma apos_blk ds1 ds2 : (forall d, In d ds1 -> is_adv d = true) -> existsb is_array ds1 = true -> apos (ds1 ++ ds2) = O.
Proof.
  induction ds1 as [|d t IH]; intros H E; [discriminate|]. pose proof (H d (or_introl eq_refl)) as X.
  cbn [app]. destruct d; try discriminate; cbn [apos]; [|reflexivity]. apply IH; [intros; apply H; now right|exact E].
Qed.

Lemma no_adv_no_array ds : (forall d, In d ds -> is_adv d = false) -> existsb is_array ds = false.
Proof.
  induction ds as [|d t IH]; intros H; [reflexivity|]. cbn [existsb]. rewrite IH by (intros; apply H; now right).
  pose proof (H d (or_introl eq_refl)). now destruct d.
Qed.

Lemma together_pos sh its rs ds : res_shape sh its rs -> resolve sh its = Some ds -> together its -> existsb is_array ds = true ->
  adv_pos ds = apos ds.
Proof.
  intros R E [pre [blk [post [-> [P1 [P2 P3]]]]]] X.
  pose proof (resolve_adv _ _ _ R ds E) as F.
  apply Forall2_app_inv_l in F. destruct F as [d1 [d23 [F1 [F23 ->]]]].
  apply Forall2_app_inv_l in F23. destruct F23 as [d2 [d3 [F2 [F3 ->]]]].
  pose proof (F2_forall _ _ _ F1 P1) as Q1. pose proof (F2_forall _ _ _ F2 P2) as Q2. pose proof (F2_forall _ _ _ F3 P3) as Q3.
  assert (X2 : existsb is_array d2 = true).
  { rewrite !existsb_app, (no_adv_no_array d1 Q1), (no_adv_no_array d3 Q3), orb_false_r in X. exact X. }
  assert (L2 : lead (fun d => negb (is_adv d)) (d2 ++ d3) = O).
  { destruct d2 as [|d d2]; [discriminate|]. cbn [app lead]. now rewrite (Q2 d (or_introl eq_refl)). }
  assert (L3 : lead is_adv d3 = O).
  { destruct d3 as [|d d3]; [reflexivity|]. cbn [lead]. now rewrite (Q3 d (or_introl eq_refl)). }
  unfold adv_pos. rewrite lead_app by (intros d I; now rewrite (Q1 d I)). rewrite L2, Nat.add_0_r, skipn_len.
  rewrite (lead_app is_adv d2 d3 Q2), L3, Nat.add_0_r, skipn_len.
  replace (forallb (fun d => negb (is_adv d)) d3) with true.
  - rewrite apos_pre by exact Q1. rewrite (apos_blk _ _ Q2 X2). lia.
  - symmetry. apply forallb_forall. intros d I. now rewrite (Q3 d I).
Qed.

Lemma adv_pos_le ds : (adv_pos ds <= length (basic_lens ds))%nat.
Proof.
  assert (H : (lead (fun d => negb (is_adv d)) ds <= length (basic_lens ds))%nat).
  { induction ds as [|d t IH]; [auto|]. destruct d; cbn [lead is_adv negb basic_lens length]; lia. }
  unfold adv_pos. destruct (forallb _ _); lia.
Qed.

Lemma getitem_array {V : Type} (a : nda V) its rs : res_shape (nshape a) its rs -> one_array its -> together its ->
  exists b, getitem a its = Some b /\ nshape b = rs /\ forall r p, at_place (nshape a) its r p -> nval b r = nval a p.
Proof.
  intros R O T. destruct (resolve_ok _ _ _ R) as [ds [E _]].
  destruct (one_split _ _ _ _ R E O) as [X1 [X2 [n [X3 [X4 X5]]]]].
  unfold getitem. rewrite E. unfold plan. rewrite X1, X3, (together_pos _ _ _ _ R E T X1).
  eexists. split; [reflexivity|]. cbn [nshape nval]. split; [now rewrite X4|].
  intros r p P. destruct (X5 r p P) as [j [q [-> [Q [J ->]]]]].
  pose proof (F2_length _ _ _ Q) as L.
  rewrite insert_nth, insert_remove by lia. reflexivity.
Qed.

(** Reading with one index array: right if the array, the integers and the number of the component are next to each other in the indices of the array. *)
Theorem C77_read_array {V : Type} (l : layout) (a : nda V) nc sh its rs c :
  nshape a = data_shape l nc sh -> res_shape sh its rs -> comp_ok l nc c -> one_array (read_items l its c) -> together (read_items l its c) ->
  match read (FL l a) its c with
  | Err => False
  | Num v => exists k r p, comp_sel l nc c k /\ at_place sh its r p /\ v = nval a (data_place l k p) /\
             forall k' r' p', comp_sel l nc c k' -> at_place sh its r' p' -> data_place l k' p' = data_place l k p
  | Arr b => nshape b = res_data_shape l c nc rs /\
             forall k r p, comp_sel l nc c k -> at_place sh its r p -> nval b (res_place l c k r) = nval a (data_place l k p)
  end.
Proof.
  intros S R C O T. unfold read. cbn [f_lay f_dat].
  destruct (is_scalar l && some c) eqn:E0.
  { destruct l; [|discriminate..]. cbn in C. rewrite C in E0. discriminate. }
  unfold crd_shape. rewrite (sshape_data _ _ _ _ S).
  destruct (resolve_ok _ _ _ R) as [ds [E K]]. rewrite E. cbn [option_map]. rewrite K.
  pose proof (with_comp_shape _ _ _ _ _ _ C R) as R'. rewrite <- S in R'.
  destruct (forallb none_item its) eqn:E1.
  { exfalso. destruct O as [pre [x [post [O _]]]].
    assert (I : In (IA x) its).
    { assert (I : In (IA x) (read_items l its c)) by (rewrite O; apply in_or_app; right; now left).
      unfold read_items in I. destruct l; [exact I|..].
      - unfold insert_at in I. cbn [firstn skipn app In] in I. destruct I as [I|I]; [destruct c; discriminate|exact I].
      - rewrite insert_at_len in I. apply in_app_or in I. destruct I as [I|[I|[]]]; [exact I|destruct c; discriminate]. }
    rewrite forallb_forall in E1. specialize (E1 _ I). discriminate. }
  cbn [andb].
  destruct (getitem_array a (read_items l its c) _ R' O T) as [b [Eg [Sb G]]].
  rewrite Eg.
  assert (G' : forall k r p, comp_sel l nc c k -> at_place sh its r p -> nval b (res_place l c k r) = nval a (data_place l k p)).
  { intros k r p Ck X. apply G. rewrite S. now apply with_comp_at. }
  destruct (is_scalar l || some c) eqn:E2.
  - assert (T' : res_data_shape l c nc rs = rs).
    { destruct c; [reflexivity|]. destruct l; [reflexivity|discriminate..]. }
    rewrite T' in *.
    pose proof (finish_ok b (reduced its) (length (read_items l its c)) rs Sb (res_shape_nn _ _ _ R) (reduced_items l its c sh rs R)) as F.
    destruct (finish b (reduced its) (length (read_items l its c)) rs) as [|v|b'].
    + exact F.
    + destruct F as [r [Ir F]]. destruct (inside_at _ _ _ R r Ir) as [p X].
      assert (Ck : exists k, comp_sel l nc c k).
      { destruct l; cbn in *; [exists 0; exact C|..]; destruct c; try discriminate; exact C. }
      destruct Ck as [k Ck]. exists k, r, p. split; [exact Ck|]. split; [exact X|].
      destruct (F r Ir) as [_ Fv]. split.
      * rewrite Fv. rewrite <- (G' k r p Ck X). f_equal. destruct c; [reflexivity|]. destruct l; [reflexivity|discriminate..].
      * intros k' r' p' Ck' X'. pose proof (at_inside _ _ _ _ X' _ R) as I'. destruct (F r' I') as [-> _].
        rewrite (at_fun _ _ _ _ X _ X'). destruct l; [reflexivity|..]; cbn in *; destruct c as [i|]; try discriminate;
          now rewrite (idx_fun _ _ _ _ Ck Ck').
    + subst b'. split; [exact Sb|exact G'].
  - split; [exact Sb|exact G'].
Qed.

Lemma setitem_array {V : Type} (a : nda V) its rs x : res_shape (nshape a) its rs -> one_array its ->
  exists b, setitem a its (number x) = Some b /\ nshape b = nshape a /\
    (forall r p, at_place (nshape a) its r p -> nval b p = x) /\
    (forall p, (forall r, ~ at_place (nshape a) its r p) -> nval b p = nval a p).
Proof.
  intros R O. destruct (resolve_ok _ _ _ R) as [ds [E _]].
  destruct (one_split _ _ _ _ R E O) as [X1 [X2 [n [X3 [X4 X5]]]]].
  unfold setitem. rewrite E. unfold plan. rewrite X1, X3. unfold broadcast, number. cbn [nshape nval rev bc_ok].
  eexists. split; [reflexivity|]. cbn [nshape nval]. split; [reflexivity|].
  set (pp := adv_pos ds). set (src := fun r => dsrc ds (nth pp r 0) (firstn pp r ++ skipn (S pp) r)).
  assert (PL : (pp <= length (basic_lens ds))%nat) by apply adv_pos_le.
  split.
  - intros r p P. destruct (X5 r p P) as [j [q [Er [Q [J Ep]]]]].
    pose proof (F2_length _ _ _ Q) as L.
    destruct (fold_upd src (fun _ => x) (all_idx (insert_at pp n (basic_lens ds))) (nval a) p (fun _ _ _ _ _ => eq_refl)) as [F1 _].
    apply (F1 (insert_at pp j q)).
    + apply all_idx_In. now apply inside_insert.
    + unfold src. rewrite insert_nth, insert_remove by lia. now symmetry.
  - intros p N.
    destruct (fold_upd src (fun _ => x) (all_idx (insert_at pp n (basic_lens ds))) (nval a) p (fun _ _ _ _ _ => eq_refl)) as [_ F2].
    apply F2. intros r Hr Hs. apply all_idx_In in Hr. destruct (inside_uninsert _ _ _ _ PL Hr) as [j [q [-> [J Q]]]].
    pose proof (F2_length _ _ _ Q) as L. unfold src in Hs. rewrite insert_nth, insert_remove in Hs by lia.
    assert (I : inside rs (insert_at (apos ds) j q)) by (rewrite X4; now apply inside_insert).
    destruct (inside_at _ _ _ R _ I) as [p' P']. destruct (X5 _ _ P') as [j' [q' [Er' [Q' [J' Ep']]]]].
    pose proof (F2_length _ _ _ Q') as L'.
    assert (j' = j).
    { rewrite <- (insert_nth (apos ds) j' q' 0) by lia. rewrite <- Er'. apply insert_nth. lia. }
    assert (q' = q).
    { rewrite <- (insert_remove (apos ds) j' q') by lia. rewrite <- Er'. apply insert_remove. lia. }
    subst j' q'. apply (N (insert_at (apos ds) j q)). now rewrite <- Hs, <- Ep'.
Qed.

(** Assigning a number with one index array, for scalar fields and for vectors with the components first. *)
Theorem C77_write_array {V : Type} (l : layout) (a : nda V) nc sh its rs c x :
  nshape a = data_shape l nc sh -> res_shape sh its rs -> comp_ok l nc c -> one_array (read_items l its c) -> l <> Interlaced ->
  exists b, write (FL l a) its c (number x) = Some (FL l b) /\ nshape b = nshape a /\
    (forall k r p, comp_sel l nc c k -> at_place sh its r p -> nval b (data_place l k p) = x) /\
    (forall q, (forall k r p, comp_sel l nc c k -> at_place sh its r p -> q <> data_place l k p) -> nval b q = nval a q).
Proof.
  intros S R C O N. unfold write. cbn [f_lay f_dat].
  destruct (is_scalar l && some c) eqn:E0.
  { destruct l; [|discriminate..]. cbn in C. rewrite C in E0. discriminate. }
  unfold crd_shape. rewrite (sshape_data _ _ _ _ S).
  destruct (resolve_ok _ _ _ R) as [ds [E K]]. rewrite E. cbn [option_map].
  assert (W : write_items l (length sh) its c = Some (read_items l its c)) by (destruct l; [reflexivity..|contradiction]).
  rewrite W.
  pose proof (with_comp_shape _ _ _ _ _ _ C R) as R'. rewrite <- S in R'.
  destruct (setitem_array a (read_items l its c) _ x R' O) as [b [Eb [Sb [B1 B2]]]].
  rewrite Eb. exists b. cbn [option_map]. split; [reflexivity|]. split; [exact Sb|]. split.
  - intros k r p Ck P. eapply B1. rewrite S. apply with_comp_at; eassumption.
  - intros q Q. apply B2. intros r X. rewrite S in X.
    destruct (with_comp_only _ _ _ _ _ _ _ _ C R X) as [k [r' [p [Ck [P [_ Eq]]]]]]. exact (Q k r' p Ck P Eq).
Qed.

(** What was assigned is what is read with the same selection. *)
Theorem C77_write_read {V : Type} (l : layout) (a v : nda V) nc sh its rs c g :
  nshape a = data_shape l nc sh -> Forall (fun n => 0 <= n) sh -> 0 <= nc ->
  res_shape sh its rs -> comp_ok l nc c -> no_array its ->
  (l = Interlaced -> new_early sh its) -> fits v (res_data_shape l c nc rs) g ->
  exists f, write (FL l a) its c v = Some f /\
  match read f its c with
  | Err => False
  | Num y => exists k r p, comp_sel l nc c k /\ at_place sh its r p /\ y = g (res_place l c k r)
  | Arr b => forall k r p, comp_sel l nc c k -> at_place sh its r p -> nval b (res_place l c k r) = g (res_place l c k r)
  end.
Proof.
  intros S P N R C A W F.
  destruct (C77_write l a v nc sh its rs c g S R C A W F) as [b [E [Sb [B1 _]]]].
  exists (FL l b). split; [exact E|].
  pose proof (C77_read l b nc sh its rs c) as X. rewrite Sb in X. specialize (X S P N R C A).
  destruct (read (FL l b) its c) as [|y|b'].
  - exact X.
  - destruct X as [k [r [p [Ck [Pl [-> _]]]]]]. exists k, r, p. repeat split; try assumption. now apply B1.
  - destruct X as [_ X]. intros k r p Ck Pl. rewrite (X k r p Ck Pl). now apply B1.
Qed.

(** The places of a selection: every place of the result holds exactly one element, and without index arrays no element is there twice. *)
Theorem C77_places sh its rs : res_shape sh its rs ->
  (forall r, inside rs r <-> exists p, at_place sh its r p) /\
  (forall r p1 p2, at_place sh its r p1 -> at_place sh its r p2 -> p1 = p2) /\
  (no_array its -> forall r1 r2 p, at_place sh its r1 p -> at_place sh its r2 p -> r1 = r2) /\
  (Forall (fun n => 0 <= n) sh -> forall r p, at_place sh its r p -> inside sh p).
Proof.
  intros R. split; [|split; [|split]].
  - intros r. split; [intros I; eapply inside_at; eauto|intros [p P]; eapply at_inside; eauto].
  - intros. eapply at_fun; eauto.
  - intros A r1 r2 p P1 P2. exact (at_inj _ _ _ _ P1 A _ P2).
  - intros N r p P. clear R. revert N.
    induction P as [|n sh i k its r p [B _] H IH|n sh s ks j k its r p Hs Hj H IH|sh its r p H IH|n sh l j i k its r p Hj [B _] H IH]; intros N.
    + constructor.
    + inversion N; subst. constructor; [lia|apply IH; assumption].
    + inversion N; subst. constructor; [|apply IH; assumption]. eapply sel_in_range; [eassumption|exact Hs|]. eapply nth_error_In; eauto.
    + apply IH; assumption.
    + inversion N; subst. constructor; [lia|apply IH; assumption].
Qed.

(** ** Where the code does not do this *)
Definition all : item := IS (PS None None None).

Lemma norm_in n i : 0 <= i < n -> norm n i = Some i.
Proof. intros H. apply norm_idx. unfold idx. lia. Qed.

(** field[i, :, [z0, z1]] of a scalar field: the index array and the integer are apart, numpy puts the axis of the array first, and the data is then
    brought to the shape of the coordinates with the values in the wrong order.  No error is raised. *)
Theorem C77_array_refuted {V : Type} (a : nda V) nx ny nz i z0 z1 :
  nshape a = [nx; ny; nz] -> 0 <= i < nx -> 1 <= ny -> 0 <= z0 < nz -> 0 <= z1 < nz ->
  exists b, read (FL Scalar a) [II i; all; IA [z0; z1]] None = Arr b /\ nshape b = [ny; 2] /\
    (forall y z, 0 <= y < ny -> 0 <= z < 2 ->
       nval b [y; z] = nval a [i; (2 * y + z) mod ny; if 2 * y + z <? ny then z0 else z1]) /\
    at_place [nx; ny; nz] [II i; all; IA [z0; z1]] [0; 1] [i; 0; z1] /\
    (2 <= ny -> nval b [0; 1] = nval a [i; 1; z0]).
Proof.
  intros S Hi Hy H0 H1.
  destruct (sel_full ny) as [ks [Es [Ls Ns]]]; [lia|].
  set (src := fun r => dsrc [DI i; DS ks; DA [z0; z1]] (nth 0 r 0) (firstn 0 r ++ skipn 1 r)).
  assert (Rd : read (FL Scalar a) [II i; all; IA [z0; z1]] None = finish (ND [2; ny] (fun r => nval a (src r))) 1 3 [ny; 2]).
  { unfold read, crd_shape, sshape. cbn [f_lay f_dat is_scalar some andb]. rewrite S. cbn [resolve all].
    rewrite (norm_in nx i Hi), Es. cbn [norms]. rewrite (norm_in nz z0 H0), (norm_in nz z1 H1). cbn [ocons option_map map kept forallb none_item andb].
    unfold getitem, read_items. rewrite S. cbn [resolve all]. rewrite (norm_in nx i Hi), Es. cbn [norms].
    rewrite (norm_in nz z0 H0), (norm_in nz z1 H1). cbn [ocons option_map map].
    unfold plan, adv_pos. cbn [existsb is_array orb adv_len zlen length Z.of_nat Z.eqb Pos.eqb lead is_adv negb skipn forallb andb].
    unfold insert_at. cbn [firstn skipn app basic_lens is_scalar orb].
    unfold zlen. rewrite Ls. reflexivity. }
  assert (Sv : forall k y, 0 <= k < 2 -> 0 <= y < ny -> src [k; y] = [i; y; if k =? 0 then z0 else z1]).
  { intros k y Hk Hy'. unfold src. cbn [nth firstn skipn app dsrc hd tl]. unfold zat at 1.
    rewrite (nth_error_nth ks _ 0 (Ns y Hy')). do 2 f_equal. unfold zlen. cbn [length Z.of_nat Z.eqb Pos.eqb]. unfold zat.
    destruct (Z.eqb_spec k 0) as [->|X]; [reflexivity|]. replace k with 1 by lia. reflexivity. }
  assert (Fm : exists b, finish (ND [2; ny] (fun r => nval a (src r))) 1 3 [ny; 2] = Arr b /\ nshape b = [ny; 2] /\
    forall y z, 0 <= y < ny -> 0 <= z < 2 -> nval b [y; z] = nval a [i; (2 * y + z) mod ny; if 2 * y + z <? ny then z0 else z1]).
  { unfold finish. cbn [nshape Nat.eqb orb].
    replace (size [2; ny] =? 1) with false by (cbn [size fold_right]; lia).
    destruct (list_eq_dec Z.eq_dec [2; ny] [ny; 2]) as [X|X].
    - assert (Y2 : ny = 2) by congruence. eexists. split; [reflexivity|]. split; [cbn [nshape]; congruence|]. intros y z By Bz. cbn [nval].
      rewrite (Sv y z) by lia. rewrite Y2. replace ((2 * y + z) mod 2) with z by (rewrite Z.add_comm, Z.mul_comm, Z.mod_add by lia; symmetry; apply Z.mod_small; lia).
      do 4 f_equal. destruct (Z.eqb_spec y 0); destruct (Z.ltb_spec (2 * y + z) 2); try reflexivity; lia.
    - unfold reshape. cbn [nshape]. replace (size [2; ny] =? size [ny; 2]) with true by (cbn [size fold_right]; lia).
      eexists. split; [reflexivity|]. split; [reflexivity|]. intros y z By Bz. cbn [nval ravel unravel].
      replace (size [2]) with 2 by reflexivity. replace (size [ny]) with ny by (cbn [size fold_right]; lia). replace (size []) with 1 by reflexivity.
      replace (y * 2 + (z * 1 + 0)) with (2 * y + z) by lia. rewrite Z.div_1_r.
      rewrite Sv.
      + do 4 f_equal. destruct (Z.eqb_spec ((2 * y + z) / ny) 0) as [Q|Q]; destruct (Z.ltb_spec (2 * y + z) ny) as [T|T]; try reflexivity.
        * apply Z.div_small_iff in Q; lia.
        * exfalso. apply Q. apply Z.div_small. lia.
      + split; [apply Z.div_pos; lia|]. apply Z.div_lt_upper_bound; lia.
      + apply Z.mod_pos_bound. lia. }
  destruct Fm as [b [Fb [Sb Vb]]]. exists b. rewrite Rd. split; [exact Fb|]. split; [exact Sb|]. split; [exact Vb|]. split.
  - constructor; [unfold idx; lia|]. apply (ap_slice ny [nz] _ ks 0 0 [IA [z0; z1]] [1] [z1]); [exact Es|apply (Ns 0); lia|].
    apply (ap_arr nz [] [z0; z1] 1 z1 z1 [] [] []); [reflexivity|unfold idx; lia|constructor].
  - intros Hy2. rewrite Vb by lia. rewrite Z.mod_small by lia. do 4 f_equal. destruct (Z.ltb_spec (2 * 0 + 1) ny); [reflexivity|lia].
Qed.

(** field[[...], [...]] with two index arrays raises: numpy takes them side by side, the coordinates cross them. *)
Theorem C77_two_arrays_refuted {V : Type} (a : nda V) nx ny l1 l2 :
  nshape a = [nx; ny] -> (2 <= length l1)%nat -> (2 <= length l2)%nat ->
  Forall (fun i => exists k, idx nx i k) l1 -> Forall (fun i => exists k, idx ny i k) l2 ->
  read (FL Scalar a) [IA l1; IA l2] None = Err.
Proof.
  intros S L1 L2 F1 F2. destruct (norms_idx _ _ F1) as [k1 [E1 [K1 _]]]. destruct (norms_idx _ _ F2) as [k2 [E2 [K2 _]]].
  unfold read, crd_shape, sshape. cbn [f_lay f_dat is_scalar some andb]. rewrite S. cbn [resolve map]. rewrite E1, E2.
  cbn [ocons option_map kept forallb none_item andb]. unfold getitem, read_items. rewrite S. cbn [resolve map]. rewrite E1, E2. cbn [ocons option_map].
  unfold plan. cbn [existsb is_array orb adv_len].
  assert (O2 : (zlen k2 =? 1) = false) by (unfold zlen; lia). assert (O1 : (zlen k1 =? 1) = false) by (unfold zlen; lia).
  rewrite O2. change (1 =? 1) with true. cbv iota. rewrite ?O2, ?O1.
  destruct (zlen k1 =? zlen k2) eqn:X; [|reflexivity].
  unfold adv_pos. cbn [lead is_adv negb skipn forallb basic_lens insert_at firstn app]. cbn [is_scalar orb].
  unfold finish. cbn [nshape reduced filter is_int length Nat.eqb orb].
  replace (size [zlen k2] =? 1) with false by (cbn [size fold_right]; unfold zlen; lia).
  destruct (list_eq_dec Z.eq_dec [zlen k2] [zlen k1; zlen k2]) as [Y|Y]; [discriminate|].
  unfold reshape. cbn [nshape]. replace (size [zlen k2] =? size [zlen k1; zlen k2]) with false; [reflexivity|].
  symmetry. apply Z.eqb_neq. cbn [size fold_right]. assert (2 <= zlen k1) by (unfold zlen; lia). assert (2 <= zlen k2) by (unfold zlen; lia). nia.
Qed.

(** A vector with the components last: field[None, None, i] = x on a one dimensional grid sets the component i of every point, not the vector at
    the point i. *)
Theorem C77_newaxis_refuted {V : Type} (a : nda V) n nc i x :
  nshape a = [n; nc] -> 0 <= i < n -> 0 <= i < nc ->
  at_place [n] [IN; IN; II i] [0; 0] [i] /\
  exists b, write (FL Interlaced a) [IN; IN; II i] None (number x) = Some (FL Interlaced b) /\
    forall p k, 0 <= p < n -> 0 <= k < nc -> nval b [p; k] = if k =? i then x else nval a [p; k].
Proof.
  intros S H1 H2. split; [repeat constructor; unfold idx; lia|].
  unfold write, crd_shape, sshape. cbn [f_lay f_dat is_scalar some andb]. rewrite S. cbn [removelast resolve map].
  rewrite (norm_in n i H1). cbn [ocons option_map length write_items firstn existsb uncountable orb filter is_new Nat.add].
  unfold insert_at. cbn [firstn skipn app comp_item].
  destruct (setitem_basic a (number x) [IN; IN; IS (PS None None None); II i] [1; 1; n] (fun _ => x)) as [b [Eb [Sb [B1 B2]]]].
  - rewrite S. destruct (sel_full n) as [ks [Es [Ls Ns]]]; [lia|]. rewrite <- Ls at 2. do 2 constructor. econstructor; [exact Es|].
    apply (rs_int nc [] i i); [unfold idx; lia|constructor].
  - intros l [X|[X|[X|[X|[]]]]]; discriminate.
  - left. now split.
  - rewrite Eb. exists b. split; [reflexivity|]. intros p k Hp Hk. destruct (sel_full n) as [ks [Es [Ls Ns]]]; [lia|].
    destruct (Z.eqb_spec k i) as [->|Xk].
    + apply (B1 [0; 0; Z.of_nat (Z.to_nat p)]). rewrite S. do 2 constructor. econstructor; [exact Es|now apply Ns|].
      constructor; [unfold idx; lia|constructor].
    + apply B2. intros r X. rewrite S in X. inversion X as [| | |? ? ? ? X1|]; subst. inversion X1 as [| | |? ? ? ? X2|]; subst.
      inversion X2 as [| |? ? ? ? ? ? ? ? ? ? ? X3| |]; subst. inversion X3 as [|? ? ? ? ? ? ? X4 X5| | |]; subst. unfold idx in X4. lia.
Qed.

(** A vector with the components last: assigning through an index array of two or more elements raises. *)
Theorem C77_write_array_refuted {V : Type} (a v : nda V) its x c :
  In (IA x) (firstn (length (removelast (nshape a))) its) -> (2 <= length x)%nat -> write (FL Interlaced a) its c v = None.
Proof.
  intros I L. unfold write, sshape. cbn [f_lay f_dat is_scalar andb]. destruct (crd_shape (FL Interlaced a) its); [|reflexivity].
  cbn [write_items]. replace (existsb uncountable (firstn (length (removelast (nshape a))) its)) with true; [reflexivity|].
  symmetry. apply existsb_exists. exists (IA x). split; [exact I|]. cbn [uncountable]. unfold zlen. lia.
Qed.

(** A vector that is still a list of scalar fields: a component cannot be read where only one element is left, although the scalar field gives it. *)
Theorem C77_lazy_refuted {V : Type} (comps : list (nda V)) c a its rs :
  nth_error comps c = Some a -> Forall (fun n => 0 <= n) (nshape a) -> res_shape (nshape a) its rs -> no_array its -> size rs = 1 ->
  forallb none_item its = false ->
  read_lazy comps its c = Err /\ exists v, read (FL Scalar a) its None = Num v.
Proof.
  intros N P R A S E.
  assert (X : exists v, read (FL Scalar a) its None = Num v).
  { unfold read. cbn [f_lay f_dat is_scalar some andb]. unfold crd_shape, sshape. cbn [f_lay f_dat].
    destruct (resolve_ok _ _ _ R) as [ds [Er K]]. rewrite Er. cbn [option_map]. rewrite E. cbn [andb read_items].
    destruct (getitem_basic a its rs R A) as [b [Eb [Sb _]]]. rewrite Eb. cbn [is_scalar orb]. unfold finish. rewrite Sb, S.
    rewrite orb_true_r. eexists. reflexivity. }
  split; [|exact X]. destruct X as [v X]. unfold read_lazy. rewrite N, E, X. now destruct (crd_shape (FL Scalar a) its).
Qed.

(** Slices that leave one element give a number although they keep their axes. *)
Theorem C77_number_refuted {V : Type} (a : nda V) :
  nshape a = [4; 5] -> res_shape [4; 5] [IS (PS (Some 1) (Some 2) None); IS (PS (Some 0) (Some 1) None)] [1; 1] /\
  read (FL Scalar a) [IS (PS (Some 1) (Some 2) None); IS (PS (Some 0) (Some 1) None)] None = Num (nval a [1; 0]).
Proof.
  intros S. split.
  - apply (rs_slice 4 [5] _ [1]); [reflexivity|]. apply (rs_slice 5 [] _ [0]); [reflexivity|]. constructor.
  - unfold read, crd_shape, sshape, getitem. cbn [f_lay f_dat]. rewrite S. reflexivity.
Qed.

(** ** Examples: the hypotheses are met *)
Definition grid23 (l : layout) : nda (list Z) := ND (data_shape l 3 [4; 5]) (fun p => p).
Definition s13 : item := IS (PS (Some (-1)) (Some 0) (Some (-2))).

(* x = 3, 1 and y = -2: a reversed, strided slice and a negative integer *)
Example C77_ex_shape : res_shape [4; 5] [s13; II (-2)] [2].
Proof. apply (rs_slice 4 [5] _ [3; 1]); [reflexivity|]. apply (rs_int 5 [] (-2) 3); [unfold idx; lia|constructor]. Qed.

Example C77_ex_read : match read (FL Interlaced (grid23 Interlaced)) [s13; II (-2)] (Some 2) with
  | Arr b => nshape b = [2] /\ nval b [0] = [3; 3; 2] /\ nval b [1] = [1; 3; 2] | _ => False end.
Proof. vm_compute. repeat split. Qed.

Example C77_ex_write : match write (FL Flat (grid23 Flat)) [s13; II (-2)] None (ND [3; 1] (fun r => [7; hd 0 r])) with
  | Some f => nval (f_dat f) [2; 1; 3] = [7; 2] /\ nval (f_dat f) [2; 2; 3] = [2; 2; 3] | None => False end.
Proof. vm_compute. repeat split. Qed.

Example C77_ex_fits : fits (ND [3; 1] (fun r => [7; hd 0 r])) (res_data_shape Flat None 3 [2])
  (fun r => [7; hd 0 (map (fun ni => if fst ni =? 1 then 0 else snd ni) (combine [3; 1] r))]).
Proof. right. split; [repeat constructor; lia|]. intros r. reflexivity. Qed.

Example C77_ex_new : new_early [4; 5] [IN; s13; II (-2)] /\ ~ new_early [4] [IN; IN; II 1].
Proof. split; intros X; cbn in X; [destruct X as [X|[]]; discriminate|]. apply X. now left. Qed.

Example C77_ex_array : one_array (read_items Flat [II 1; IA [0; 2]] (Some 1)) /\ together (read_items Flat [II 1; IA [0; 2]] (Some 1)) /\
  ~ together (read_items Flat [all; IA [0; 2]] (Some 1)).
Proof.
  split; [|split].
  - exists [II 1; II 1], [0; 2], []. split; [reflexivity|]. split; [intros l [X|[X|[]]]; discriminate|intros l []].
  - exists [], [II 1; II 1; IA [0; 2]], []. split; [reflexivity|]. split; [intros it []|]. split; [|intros it []].
    intros it [<-|[<-|[<-|[]]]]; reflexivity.
  - intros [pre [blk [post [E [P1 [P2 P3]]]]]]. unfold read_items, insert_at in E. cbn [firstn skipn app comp_item] in E.
    destruct pre as [|x pre].
    + destruct blk as [|b0 blk].
      * cbn [app] in E. subst post. specialize (P3 (II 1) (or_introl eq_refl)). discriminate.
      * cbn [app] in E. injection E as <- E. destruct blk as [|b1 blk].
        -- cbn [app] in E. subst post. specialize (P3 (IA [0; 2]) (or_intror (or_introl eq_refl))). discriminate.
        -- cbn [app] in E. injection E as <- E. specialize (P2 all (or_intror (or_introl eq_refl))). discriminate.
    + cbn [app] in E. injection E as <- E. specialize (P1 (II 1) (or_introl eq_refl)). discriminate.
Qed.

Print Assumptions C77_read.
Print Assumptions C77_read_array.
Print Assumptions C77_write.
Print Assumptions C77_write_array.
Print Assumptions C77_write_read.
Print Assumptions C77_places.
Print Assumptions C77_array_refuted.
Print Assumptions C77_two_arrays_refuted.
Print Assumptions C77_newaxis_refuted.
Print Assumptions C77_write_array_refuted.
Print Assumptions C77_lazy_refuted.
Print Assumptions C77_number_refuted.
