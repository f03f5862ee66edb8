(** C67: integrals of fields along an axis. *)
From Verif Require Import TrapzModel FwdSliceNd FldProofs LayoutProps TransProps ArithProps ReduceProps.
From Coq Require Import ZifyBool ZifyNat Arith Reals Lra.
Open Scope Z_scope.

(** ** specification *)
(** the sum of the trapezoids under the samples [ys] at the places [xs] *)
Fixpoint trapezoids (xs ys : list R) : R :=
  match xs, ys with
  | x0 :: ((x1 :: _) as xs'), y0 :: ((y1 :: _) as ys') => ((x1 - x0) * ((y0 + y1) / 2) + trapezoids xs' ys')%R
  | _, _ => 0%R
  end.
Fixpoint increasing (xs : list R) : Prop :=
  match xs with x0 :: ((x1 :: _) as xs') => (x0 < x1)%R /\ increasing xs' | _ => True end.

(** ** sums *)
Lemma fold_left_plus l : forall s, fold_left Rplus l s = (s + rsum l)%R.
Proof.
  unfold rsum. induction l as [|x l IH]; intros s; [cbn; ring|]. cbn [fold_left]. rewrite IH, (IH (0 + x)%R). ring.
Qed.
Lemma rsum_cons x l : rsum (x :: l) = (x + rsum l)%R.
Proof. unfold rsum. cbn [fold_left]. rewrite fold_left_plus. unfold rsum. ring. Qed.
Lemma diffs_len xs : length (diffs xs) = (length xs - 1)%nat.
Proof. induction xs as [|x [|y xs] IH]; [reflexivity|reflexivity|]. change (S (length (diffs (y :: xs))) = (S (length (y :: xs)) - 1)%nat). rewrite IH. cbn [length]. lia. Qed.
Lemma sums_len xs : length (sums xs) = (length xs - 1)%nat.
Proof. induction xs as [|x [|y xs] IH]; [reflexivity|reflexivity|]. change (S (length (sums (y :: xs))) = (S (length (y :: xs)) - 1)%nat). rewrite IH. cbn [length]. lia. Qed.
Lemma stretch_id n l : length l = n -> stretch n l = l.
Proof. intros <-. destruct l as [|x [|y l]]; reflexivity. Qed.
Lemma trap_core xs : forall ys, rsum (map (fun t => (t / 2)%R) (map2 Rmult (diffs xs) (sums ys))) = trapezoids xs ys.
Proof.
  induction xs as [|x [|x1 xs] IH]; intros ys; [reflexivity|destruct ys as [|y [|y1 ys]]; reflexivity|].
  destruct ys as [|y [|y1 ys]]; [reflexivity|reflexivity|].
  change (rsum (((x1 - x) * (y1 + y)) / 2 :: map (fun t => t / 2) (map2 Rmult (diffs (x1 :: xs)) (sums (y1 :: ys)))) = (x1 - x) * ((y + y1) / 2) + trapezoids (x1 :: xs) (y1 :: ys))%R.
  rewrite rsum_cons, IH. field.
Qed.
Lemma trap_eq xs ys : length xs = length ys -> trap xs ys = trapezoids xs ys.
Proof.
  intros E. unfold trap. rewrite diffs_len, sums_len, E. replace (if (length ys - 1 =? 1)%nat then (length ys - 1)%nat else (length ys - 1)%nat) with (length ys - 1)%nat by (destruct (_ =? _)%nat; reflexivity).
  rewrite !stretch_id by (rewrite ?diffs_len, ?sums_len; congruence). apply trap_core.
Qed.

Section P.
Implicit Types (f : fld R R) (cs before after : list (crd R)) (ax : crd R).

Definition plain_fld {C X} (vec : bool) (cs : list (crd C)) (r : nd X) : fld C X := F vec cs (map (fun _ => false) cs) (SArr r) false None.
Lemma wrap_form {C X} vec (cs : list (crd C)) (r : nd X) h : wrap vec cs r None = WFld h -> h = plain_fld (f_vec h) cs r.
Proof.
  unfold wrap. destruct (prod (shape r) =? 1); [discriminate|]. set (g := F _ _ _ _ _ _). destruct (nr_comps g) as [n|]; [|discriminate]. destruct (n =? 1); [discriminate|]. intros E.
  assert (Q : g = h) by congruence. rewrite <- Q. reflexivity.
Qed.
Lemma field_any {C X} (vec : bool) (cs : list (crd C)) (r : nd X) l n :
  shape r = shape_of vec l n (sshape_of cs) ->
  (vec = true -> vector_layout l /\ 1 < n /\ (l = LInter -> ~ ambiguous (sshape_of cs) n)) ->
  readable (plain_fld vec cs r) n /\ forall js c, in_shape (sshape_of cs) js -> 0 <= c < n -> val (plain_fld vec cs r) c js (get r (idx_of vec l c js)).
Proof.
  intros S Hv. destruct vec.
  - destruct (wrap_any true true cs r l n S Hv) as (h & E1 & E2 & E3 & E4 & E5); [discriminate|]. apply wrap_form in E1. rewrite E3 in E1. rewrite <- E1. auto.
  - set (g := plain_fld false cs r). assert (Hg : holds_scalar g). { split; [reflexivity|]. split; [apply map_length|]. split; [reflexivity|]. exists r. split; [reflexivity|exact S]. }
    split; [left; exact Hg|]. destruct (load_scalar g Hg) as (a' & d & Ea & Ed & Sd & Gd). cbn [f_src g plain_fld] in Ea. injection Ea as <-. intros js c Hj _. exists d. split; [exact Ed|]. cbn [f_vec g plain_fld idx_of]. rewrite Gd by exact Hj. cbn [f_zyx g plain_fld f_refl]. rewrite flip_false. reflexivity.
Qed.

(** how the axis is given: its number from the start, or from the end unless the field is an interlaced vector *)
Definition axis_ok f before after (axis : Z) : Prop :=
  axis = Z.of_nat (length before) \/ axis = - Z.of_nat (S (length after)) /\ (f_vec f = true -> layout_of f = LFlat).

Lemma axis_core f before ax after axis n : readable f n -> sshape f = sshape_of (before ++ ax :: after) -> axis_ok f before after axis ->
  exists a P Q, load f = Some a /\ shape a = P ++ Z.of_nat (length (snd ax)) :: Q /\
    P ++ Q = shape_of (f_vec f) (layout_of f) n (sshape_of (before ++ after)) /\
    norm_axis (length (before ++ ax :: after)) axis = Some (length before) /\
    norm_axis (length (shape a)) (fld_axis f axis) = Some (length P) /\
    length P = match nr_comp f with Some O => S (length before) | _ => length before end /\
    (f_vec f = true -> vector_layout (layout_of f) /\ 1 < n) /\
    (forall c js v, val f c js v <-> v = get a (idx_of (f_vec f) (layout_of f) c js)) /\
    forall c p q, length p = length before -> exists p' q', length p' = length P /\ p' ++ q' = idx_of (f_vec f) (layout_of f) c (p ++ q) /\
      forall i, p' ++ i :: q' = idx_of (f_vec f) (layout_of f) c (p ++ i :: q).
Proof.
  intros Rf Sf Hax. destruct (readable_load f n Rf) as (a & La & Sa & Va & Ga). rewrite Sf, sshape_mid in Sa. exists a.
  assert (Lcs : length (f_crds f) = length (before ++ ax :: after)) by (rewrite <- sshape_len, Sf; apply sshape_of_len).
  exists (if f_vec f then match layout_of f with LFlat => n :: sshape_of before | _ => sshape_of before end else sshape_of before),
         (if f_vec f then match layout_of f with LFlat => sshape_of after | _ => sshape_of after ++ [n] end else sshape_of after).
  assert (Lc : length (before ++ ax :: after) = (length before + S (length after))%nat) by (rewrite app_length; reflexivity).
  split; [exact La|]. split; [rewrite Sa; unfold shape_of; destruct (f_vec f); [|reflexivity]; destruct (Va eq_refl) as (_ & [L|L]); rewrite L; cbn [lay_shape]; [reflexivity|rewrite <- app_assoc; reflexivity]|].
  split; [rewrite sshape_app; unfold shape_of; destruct (f_vec f); [|reflexivity]; destruct (Va eq_refl) as (_ & [L|L]); rewrite L; cbn [lay_shape]; [reflexivity|apply app_assoc]|].
  split; [rewrite Lc; apply norm_axis_ok; [lia|]; destruct Hax as [-> |(-> & _)]; [left; reflexivity|right; lia]|].
  assert (La' : length (shape a) = (length before + S (length after) + if f_vec f then 1 else 0)%nat).
  { rewrite Sa. unfold shape_of. destruct (f_vec f); [destruct (Va eq_refl) as (_ & [L|L]); rewrite L; cbn [lay_shape]|]; rewrite ?app_length; cbn [length]; rewrite ?app_length; cbn [length]; rewrite !sshape_of_len; lia. }
  split; [|split; [|split; [|split; [exact Ga|]]]].
  - rewrite La'. unfold fld_axis, nr_comp. destruct (f_vec f) eqn:Ev; cbn [negb].
    + rewrite Lcs, Lc. destruct (Va eq_refl) as (_ & [L|L]); rewrite L; cbn [length]; rewrite sshape_of_len.
      * apply norm_axis_ok; [lia|]. destruct Hax as [-> |(-> & _)].
        -- replace (Z.of_nat (length before) <? Z.of_nat 0) with false by lia. left. lia.
        -- replace (- Z.of_nat (S (length after)) <? Z.of_nat 0) with true by lia. right. lia.
      * apply norm_axis_ok; [lia|]. destruct Hax as [-> |(-> & K)]; [|rewrite (K Ev) in L; discriminate]. replace (_ <? _) with true by lia. left. reflexivity.
    + rewrite sshape_of_len. apply norm_axis_ok; [lia|]. destruct Hax as [-> |(-> & _)]; [left; reflexivity|right; lia].
  - unfold nr_comp. destruct (f_vec f); cbn [negb]; [|apply sshape_of_len]. rewrite Lcs, Lc. destruct (Va eq_refl) as (_ & [L|L]); rewrite L; cbn [length]; rewrite sshape_of_len; [reflexivity|]. rewrite Nat.add_succ_r. reflexivity.
  - intros V. destruct (Va V). auto.
  - intros c p q Lp. unfold idx_of. destruct (f_vec f); [|exists p, q; rewrite sshape_of_len; auto]. destruct (Va eq_refl) as (_ & [L|L]); rewrite L.
    + exists (c :: p), q. cbn [length]. rewrite sshape_of_len. split; [congruence|]. split; reflexivity.
    + exists p, (q ++ [c]). rewrite sshape_of_len. split; [exact Lp|]. split; [apply app_assoc|]. intros i. rewrite <- app_assoc. reflexivity.
Qed.
End P.

(** ** theorems *)
(** Integrating along an axis drops it; every value is the sum of the trapezoids of the values along the axis. *)
Theorem C67_trapz : forall (f : fld R R) before ax after axis n,
  readable f n -> sshape f = sshape_of (before ++ ax :: after) -> before ++ after <> [] -> axis_ok f before after axis ->
  (f_vec f = false -> prod (sshape_of (before ++ after)) <> 1) ->
  (f_vec f = true -> layout_of f = LInter -> ~ ambiguous (sshape_of (before ++ after)) n) ->
  exists h, trapz (before ++ ax :: after) f axis = IFld h /\ f_crds h = before ++ after /\ f_vec h = f_vec f /\ readable h n /\
    forall p q c, in_shape (sshape_of before) p -> in_shape (sshape_of after) q -> 0 <= c < n ->
      exists vs, along f c p q (length (snd ax)) vs /\ val h c (p ++ q) (trapezoids (snd ax) vs).
Proof.
  intros f before ax after axis n Rf Sf Hne Hax Hs Am.
  destruct (axis_core f before ax after axis n Rf Sf Hax) as (a & P & Q & La & Sa & PQ & N1 & N2 & LP & Va & Ga & Idx).
  unfold trapz. rewrite La, N1, nth_error_mid, N2. unfold nd_trapz. rewrite Sa, nth_mid, Nat2Z.id. unfold fits. rewrite Nat.eqb_refl. cbn [orb].
  assert (Lc : (1 <? length (before ++ ax :: after))%nat = true) by (rewrite app_length; cbn [length]; destruct before, after; cbn [length app] in *; try contradiction; lia).
  rewrite Lc, drop_nth_mid, <- LP.
  destruct (wrap_any (f_vec f) (f_vec f) (before ++ after) (nd_reduce (length P) false (fun vs => nth 0 vs 0%R) a) (layout_of f) n) as (s & E1 & E2 & E3 & _).
  { cbn [shape nd_reduce]. rewrite Sa, drop_nth_mid. exact PQ. }
  { intros V. destruct (Va V). auto. }
  { exact Hs. }
  rewrite E1, E2, E3. set (r := nd_reduce (length P) false (trap (snd ax)) a). change (F (f_vec f) _ _ _ _ _) with (plain_fld (f_vec f) (before ++ after) r).
  assert (Sr : shape r = shape_of (f_vec f) (layout_of f) n (sshape_of (before ++ after))) by (unfold r, nd_reduce; cbn [shape]; rewrite Sa, drop_nth_mid; exact PQ).
  destruct (field_any (f_vec f) (before ++ after) r (layout_of f) n Sr) as (R1 & R2). { intros V. destruct (Va V). auto. }
  eexists. split; [reflexivity|]. split; [reflexivity|]. split; [reflexivity|]. split; [exact R1|]. intros p q c Ip Iq Ic.
  pose proof (in_shape_len _ _ Ip) as Lp. rewrite sshape_of_len in Lp. destruct (Idx c p q Lp) as (p' & q' & Lp' & I1 & I2).
  exists (map (fun i => get a (idx_of (f_vec f) (layout_of f) c (p ++ i :: q))) (prog 0 1 (length (snd ax)))). split; [apply along_map; intros i _; apply Ga; reflexivity|].
  assert (I : in_shape (sshape_of (before ++ after)) (p ++ q)) by (rewrite sshape_app; apply in_shape_app; assumption). specialize (R2 (p ++ q) c I Ic). rewrite <- I1 in R2.
  rewrite <- trap_eq by (rewrite map_length, prog_length; reflexivity). replace (get r (p' ++ q')) with (trap (snd ax) (map (fun i => get a (idx_of (f_vec f) (layout_of f) c (p ++ i :: q))) (prog 0 1 (length (snd ax))))) in R2; [exact R2|].
  unfold r, nd_reduce. cbn [get]. f_equal. rewrite Sa, nth_mid, Nat2Z.id. apply map_ext. intros i. rewrite <- Lp', insert_at_mid, I2. reflexivity.
Qed.
Print Assumptions C67_trapz.

(** It is exact for every linear function. *)
Theorem C67_linear : forall a b xs, trapezoids xs (map (fun x => a + b * x)%R xs) =
  (a * (last xs 0 - hd 0 xs) + b * (last xs 0 * last xs 0 - hd 0 xs * hd 0 xs) / 2)%R.
Proof.
  intros a b xs. induction xs as [|x0 [|x1 xs] IH]; [cbn; field|cbn; field|].
  change (trapezoids (x0 :: x1 :: xs) _) with ((x1 - x0) * ((a + b * x0 + (a + b * x1)) / 2) + trapezoids (x1 :: xs) (map (fun x => a + b * x)%R (x1 :: xs)))%R. rewrite IH.
  change (last (x0 :: x1 :: xs) 0%R) with (last (x1 :: xs) 0%R). cbn [hd]. field.
Qed.
Print Assumptions C67_linear.

(** The cumulative integral stays on the grid: the value at the place [i] is the integral up to there. *)
Lemma cumsum_nth l : forall s i, (i < length l)%nat -> nth i (cumsum_from s l) 0%R = (s + rsum (firstn (S i) l))%R.
Proof.
  induction l as [|x l IH]; intros s i H; cbn [length] in H; [lia|]. destruct i as [|i].
  - cbn [cumsum_from nth firstn]. rewrite rsum_cons. unfold rsum. cbn. ring.
  - cbn [cumsum_from nth]. rewrite IH by lia. change (firstn (S (S i)) (x :: l)) with (x :: firstn (S i) l). rewrite rsum_cons. ring.
Qed.
Lemma map2_firstn {A B X} (g : A -> B -> X) k : forall a b, firstn k (map2 g a b) = map2 g (firstn k a) (firstn k b).
Proof. induction k as [|k IH]; intros [|x a] [|y b]; try reflexivity. cbn [firstn map2]. rewrite IH. reflexivity. Qed.
Lemma map2_len {A B X} (g : A -> B -> X) a : forall b, length a = length b -> length (map2 g a b) = length a.
Proof. induction a as [|x a IH]; intros [|y b] E; try discriminate; [reflexivity|]. cbn [map2 length]. rewrite IH; [reflexivity|]. injection E as E. exact E. Qed.
Lemma diffs_firstn k : forall xs, diffs (firstn (S k) xs) = firstn k (diffs xs).
Proof.
  induction k as [|k IH]; intros [|x [|y xs]]; try reflexivity. change (firstn (S (S k)) (x :: y :: xs)) with (x :: firstn (S k) (y :: xs)).
  specialize (IH (y :: xs)). change (diffs (x :: y :: xs)) with ((y - x)%R :: diffs (y :: xs)). change (firstn (S k) ((y - x)%R :: diffs (y :: xs))) with ((y - x)%R :: firstn k (diffs (y :: xs))). rewrite <- IH. reflexivity.
Qed.
Lemma sums_firstn k : forall xs, sums (firstn (S k) xs) = firstn k (sums xs).
Proof.
  induction k as [|k IH]; intros [|x [|y xs]]; try reflexivity. change (firstn (S (S k)) (x :: y :: xs)) with (x :: firstn (S k) (y :: xs)).
  specialize (IH (y :: xs)). change (sums (x :: y :: xs)) with ((y + x)%R :: sums (y :: xs)). change (firstn (S k) ((y + x)%R :: sums (y :: xs))) with ((y + x)%R :: firstn k (sums (y :: xs))). rewrite <- IH. reflexivity.
Qed.
Lemma cumtrap_nth init xs ys i : length xs = length ys -> (i < length xs)%nat ->
  nth i (cumtrap init xs ys) 0%R = match i with O => init | _ => trapezoids (firstn (S i) xs) (firstn (S i) ys) end.
Proof.
  intros E H. destruct i as [|i]; [reflexivity|]. unfold cumtrap. cbn [nth]. rewrite cumsum_nth.
  - rewrite <- trap_core, diffs_firstn, sums_firstn, <- map2_firstn, <- firstn_map. ring.
  - rewrite map_length, map2_len; rewrite ?diffs_len, ?sums_len; lia.
Qed.
Theorem C67_cumtrapz : forall (f : fld R R) before ax after axis n,
  readable f n -> sshape f = sshape_of (before ++ ax :: after) -> axis_ok f before after axis ->
  (f_vec f = true -> layout_of f = LInter -> ~ ambiguous (sshape_of (before ++ ax :: after)) n) ->
  exists h, cumtrapz 0%R (before ++ ax :: after) f axis = IFld h /\ f_crds h = before ++ ax :: after /\ f_vec h = f_vec f /\ readable h n /\
    forall p q c i, in_shape (sshape_of before) p -> in_shape (sshape_of after) q -> 0 <= c < n -> (i < length (snd ax))%nat ->
      exists vs, along f c p q (length (snd ax)) vs /\
        val h c (p ++ Z.of_nat i :: q) (trapezoids (firstn (S i) (snd ax)) (firstn (S i) vs)).
Proof.
  intros f before ax after axis n Rf Sf Hax Am.
  destruct (axis_core f before ax after axis n Rf Sf Hax) as (a & P & Q & La & Sa & PQ & N1 & N2 & LP & Va & Ga & Idx).
  unfold cumtrapz. rewrite La, N1, nth_error_mid, N2. unfold nd_cumtrapz. rewrite Sa, nth_mid, Nat2Z.id, Nat.eqb_refl.
  set (r := nd_scan (length P) (cumtrap 0 (snd ax)) 0%R a). set (cs := before ++ ax :: after) in *. change (F (f_vec f) _ _ _ _ _) with (plain_fld (f_vec f) cs r).
  assert (Sr : shape r = shape_of (f_vec f) (layout_of f) n (sshape_of cs)).
  { destruct (readable_load f n Rf) as (a' & La' & Sa' & _). assert (a' = a) by congruence. subst a'. rewrite Sf in Sa'. exact Sa'. }
  destruct (field_any (f_vec f) cs r (layout_of f) n Sr) as (R1 & R2). { intros V. destruct (Va V). auto. }
  eexists. split; [reflexivity|]. split; [reflexivity|]. split; [reflexivity|]. split; [exact R1|]. intros p q c i Ip Iq Ic Hi.
  pose proof (in_shape_len _ _ Ip) as Lp. rewrite sshape_of_len in Lp. destruct (Idx c p q Lp) as (p' & q' & Lp' & I1 & I2).
  exists (map (fun i => get a (idx_of (f_vec f) (layout_of f) c (p ++ i :: q))) (prog 0 1 (length (snd ax)))). split; [apply along_map; intros k _; apply Ga; reflexivity|].
  assert (I : in_shape (sshape_of cs) (p ++ Z.of_nat i :: q)) by (unfold cs; rewrite sshape_mid; apply in_shape_app; [exact Ip|constructor; [lia|exact Iq]]). specialize (R2 (p ++ Z.of_nat i :: q) c I Ic). rewrite <- I2 in R2.
  set (vs := map _ _). replace (trapezoids (firstn (S i) (snd ax)) (firstn (S i) vs)) with (get r (p' ++ Z.of_nat i :: q')); [exact R2|].
  unfold r, nd_scan. cbn [get]. rewrite Sa, <- Lp', nth_mid, Nat2Z.id. rewrite Lp', nth_mid, Nat2Z.id.
  replace (map (fun i0 => get a (set_nth (length P) i0 (p' ++ Z.of_nat i :: q'))) (prog 0 1 (length (snd ax)))) with vs.
  - rewrite cumtrap_nth by (unfold vs; rewrite ?map_length, ?prog_length; lia). destruct i; [|reflexivity]. destruct (snd ax) as [|x [|x1 l]]; destruct vs as [|v [|v1 l']]; reflexivity.
  - unfold vs. apply map_ext. intros k. rewrite <- Lp', set_nth_mid, I2. reflexivity.
Qed.
Print Assumptions C67_cumtrapz.

(** The last cumulative value is the integral. *)
Lemma along_det {C X} (f : fld C X) c p q n vs ws : along f c p q n vs -> along f c p q n ws -> vs = ws.
Proof.
  intros (L1 & V1) (L2 & V2). assert (K : forall i v w, nth_error vs i = Some v -> nth_error ws i = Some w -> v = w).
  { intros i v w E1 E2. destruct (V1 _ _ E1) as (d & D1 & ->), (V2 _ _ E2) as (d' & D2 & ->). assert (d = d') by congruence. subst. reflexivity. }
  rewrite <- L2 in L1. clear V1 V2 L2. revert ws L1 K. induction vs as [|v vs IH]; intros [|w ws] L K; try discriminate; [reflexivity|]. injection L as L. f_equal; [apply (K O); reflexivity|]. apply IH; [exact L|]. intros i. apply (K (S i)).
Qed.
Theorem C67_last : forall (f : fld R R) before ax after axis n,
  readable f n -> sshape f = sshape_of (before ++ ax :: after) -> before ++ after <> [] -> snd ax <> [] -> axis_ok f before after axis ->
  (f_vec f = false -> prod (sshape_of (before ++ after)) <> 1) ->
  (f_vec f = true -> layout_of f = LInter -> ~ ambiguous (sshape_of (before ++ after)) n /\ ~ ambiguous (sshape_of (before ++ ax :: after)) n) ->
  exists h s, trapz (before ++ ax :: after) f axis = IFld h /\ cumtrapz 0%R (before ++ ax :: after) f axis = IFld s /\
    forall p q c, in_shape (sshape_of before) p -> in_shape (sshape_of after) q -> 0 <= c < n ->
      exists v, val h c (p ++ q) v /\ val s c (p ++ Z.of_nat (length (snd ax)) - 1 :: q) v.
Proof.
  intros f before ax after axis n Rf Sf Hne Ha Hax Hs Am.
  destruct (C67_trapz f before ax after axis n Rf Sf Hne Hax Hs) as (h & H1 & _ & _ & _ & H2); [intros V L; apply (Am V L)|].
  destruct (C67_cumtrapz f before ax after axis n Rf Sf Hax) as (s & S1 & _ & _ & _ & S2); [intros V L; apply (Am V L)|].
  exists h, s. split; [exact H1|]. split; [exact S1|]. intros p q c Ip Iq Ic. destruct (H2 p q c Ip Iq Ic) as (vs & A1 & V1). exists (trapezoids (snd ax) vs). split; [exact V1|].
  assert (Hl : (0 < length (snd ax))%nat) by (destruct (snd ax); [contradiction|cbn [length]; lia]).
  destruct (S2 p q c (length (snd ax) - 1)%nat Ip Iq Ic) as (ws & A2 & V2); [lia|]. assert (ws = vs) by (eapply along_det; eassumption). subst ws.
  replace (S (length (snd ax) - 1)) with (length (snd ax)) in V2 by lia. rewrite firstn_all in V2. destruct A1 as (L1 & _). rewrite <- L1 in V2 at 2. rewrite firstn_all in V2.
  replace (Z.of_nat (length (snd ax)) - 1) with (Z.of_nat (length (snd ax) - 1)) by lia. exact V2.
Qed.
Print Assumptions C67_last.

(** A scalar field with one axis gives a number. *)
Theorem C67_one_axis : forall (f : fld R R) ax axis, holds_scalar f -> sshape f = sshape_of [ax] -> axis = 0 \/ axis = -1 ->
  exists vs, along f 0 [] [] (length (snd ax)) vs /\ trapz [ax] f axis = INum (trapezoids (snd ax) vs).
Proof.
  intros f ax axis Hf Sf Hax. destruct (axis_core f [] ax [] axis 0 (or_introl Hf) Sf) as (a & P & Q & La & Sa & PQ & N1 & N2 & LP & Va & Ga & Idx).
  { assert (Hv : f_vec f = false) by apply Hf. destruct Hax as [-> | ->]; [left; reflexivity|right; split; [reflexivity|rewrite Hv; discriminate]]. }
  assert (Hv : f_vec f = false) by apply Hf. rewrite Hv in *. cbn [app shape_of sshape_of map] in PQ. apply app_eq_nil in PQ as (-> & ->).
  exists (map (fun i => get a [i]) (prog 0 1 (length (snd ax)))). split; [apply along_map; intros i _; apply Ga; reflexivity|].
  unfold trapz. cbn [app] in N1. rewrite La, N1. cbn [nth_error length]. rewrite N2. unfold nd_trapz. rewrite Sa. cbn [app nth length]. rewrite Nat2Z.id. unfold fits. rewrite Nat.eqb_refl. cbn [orb]. change (1 <? 1)%nat with false. cbn iota.
  cbn [shape nd_reduce]. rewrite Sa. cbn [app drop_nth firstn skipn length]. change (prod []) with 1. change (1 =? 1) with true. cbn iota. f_equal. cbn [get map nd_reduce app nth length insert_at firstn skipn]. rewrite Sa; cbn [app nth]; rewrite Nat2Z.id; apply trap_eq. rewrite map_length, prog_length. reflexivity.
Qed.
Print Assumptions C67_one_axis.

(** Refuted for interlaced vectors with the axis counted from the end, which is the default: the components are
    integrated over the places of the last axis.  It raises unless the lengths fit together ... *)
Theorem C67_interlaced_default_refuted : forall (f : fld R R) before ax n, holds_vector f n -> layout_of f = LInter ->
  sshape f = sshape_of (before ++ [ax]) -> 2 < n -> (2 < length (snd ax))%nat -> Z.of_nat (length (snd ax)) <> n ->
  trapz (before ++ [ax]) f (-1) = IErr.
Proof.
  intros f before ax n Hf Lf Sf Hn Ha Ne. destruct (readable_load f n (or_intror Hf)) as (a & La & Sa & _). assert (Hv : f_vec f = true) by (destruct Hf as (_ & _ & sl & Q & _); apply Q). rewrite Hv, Lf, Sf in Sa. cbn [shape_of lay_shape] in Sa.
  unfold trapz. rewrite La. assert (N1 : norm_axis (length (before ++ [ax])) (-1) = Some (length before)) by (rewrite app_length; apply norm_axis_ok; [cbn [length]; lia|right; cbn [length]; lia]).
  rewrite N1, nth_error_mid. unfold fld_axis, nr_comp. rewrite Hv, Lf. cbn [negb]. replace (_ <? _) with true by lia.
  assert (N2 : norm_axis (length (shape a)) (-1) = Some (length (sshape_of (before ++ [ax])))) by (rewrite Sa, app_length; apply norm_axis_ok; [cbn [length]; lia|right; cbn [length]; lia]).
  rewrite N2. unfold nd_trapz. rewrite Sa, (app_nth2 _ [n]), Nat.sub_diag by lia. cbn [nth]. unfold fits. replace (_ || _)%bool with false by lia. reflexivity.
Qed.
Print Assumptions C67_interlaced_default_refuted.
(** ... and if there are as many components as places, the result has values of another axis in the place of the
    components. *)
Definition g23r : list (crd R) := [(0%nat, [0; 1]%R); (1%nat, [0; 1; 2]%R)].
Definition vec233 : fld R R := F true g23r [false; false] (SArr (ND [2; 3; 3] (fun js => match js with [x; y; c] => IZR (100 * x + 10 * y + c) | _ => 0%R end))) false None.
Theorem C67_interlaced_silent_refuted : holds_vector vec233 3 /\ layout_of vec233 = LInter /\
  exists h, trapz g23r vec233 (-1) = IFld h /\ f_crds h = [(0%nat, [0; 1]%R)] /\ f_vec h = true /\ val h 1 [1] (2 * 111)%R /\
    exists vs, comps_at vec233 3 [1; 1] vs /\ (2 * 111)%R = trapezoids [0; 1; 2]%R vs.
Proof.
  split.
  { split; [lia|]. split; [right; reflexivity|]. exists LInter. split; [|left; reflexivity]. split; [reflexivity|]. split; [lia|]. split; [reflexivity|]. split; [right; reflexivity|]. split; [reflexivity|].
    intros _ Q. inversion Q; discriminate. }
  split; [reflexivity|]. eexists. split; [unfold trapz; reflexivity|]. split; [reflexivity|]. split; [reflexivity|]. split.
  - eexists. split; [reflexivity|]. cbv -[Rplus Rmult Rdiv Rminus IZR Rinv]. lra.
  - exists [110; 111; 112]%R. split; [|cbn; lra]. split; [reflexivity|]. intros [|[|[|c]]] v E; [| | |destruct c; discriminate]; injection E as <-; eexists; (split; [reflexivity|reflexivity]).
Qed.
Print Assumptions C67_interlaced_silent_refuted.

(** Refuted if the other axes all have one place: the slice that gives the coordinates is a number, and it raises. *)
Theorem C67_unit_axes_refuted : forall (f : fld R R) before ax after axis, holds_scalar f -> sshape f = sshape_of (before ++ ax :: after) -> before ++ after <> [] ->
  axis_ok f before after axis -> prod (sshape_of (before ++ after)) = 1 -> trapz (before ++ ax :: after) f axis = IErr.
Proof.
  intros f before ax after axis Hf Sf Hne Hax Hp. destruct (axis_core f before ax after axis 0 (or_introl Hf) Sf Hax) as (a & P & Q & La & Sa & PQ & N1 & N2 & LP & Va & Ga & Idx).
  unfold trapz. rewrite La, N1, nth_error_mid, N2. unfold nd_trapz. rewrite Sa, nth_mid, Nat2Z.id. unfold fits. rewrite Nat.eqb_refl. cbn [orb].
  assert (Lc : (1 <? length (before ++ ax :: after))%nat = true) by (rewrite app_length; cbn [length]; destruct before, after; cbn [length app] in *; try contradiction; lia).
  rewrite Lc, drop_nth_mid, <- LP. assert (Hv : f_vec f = false) by apply Hf. unfold wrap. cbn [shape nd_reduce]. rewrite Sa, drop_nth_mid, PQ, Hv. cbn [shape_of]. rewrite Hp. reflexivity.
Qed.
Print Assumptions C67_unit_axes_refuted.

(** ** a field that meets the hypotheses *)
Example C67_ex : readable vec233 3 /\ axis_ok vec233 [(0%nat, [0; 1]%R)] [] 1 /\ ~ ambiguous (sshape_of [(0%nat, [0; 1]%R)]) 3 /\ increasing [0; 1; 2]%R.
Proof.
  destruct C67_interlaced_silent_refuted as (H & _). split; [right; exact H|]. split; [left; reflexivity|]. split; [intros Q; inversion Q; discriminate|]. cbn; lra.
Qed.
