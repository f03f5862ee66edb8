(** C80: the magnetopause: its paraboloid and normals, its edges and the angle across it. *)
From Verif Require Import MpauseModel.
From Coq Require Import Reals ZArith QArith Qabs Qminmax List Bool Arith Lia Lra Lqa ZifyBool ZifyNat.
Import ListNotations.

(** ** the paraboloid *)
Local Open Scope R_scope.
(** The normal is at right angles to the surface: to the directions in which the surface runs when y or z change. *)
Definition tangent_y (dx : R) : R * R * R := (dx, 1, 0).
Definition tangent_z (dx : R) : R * R * R := (dx, 0, 1).
Lemma norm_pos a b c : a <> 0 -> 0 < norm3 (a, b, c).
Proof. intros Ha. unfold norm3, dot3. apply sqrt_lt_R0. assert (0 < a * a) by (apply Rsqr_pos_lt in Ha; exact Ha). assert (0 <= b * b) by apply Rle_0_sqr. assert (0 <= c * c) by apply Rle_0_sqr. Lra.lra. Qed.
Theorem C80_normal : forall y z p normalize, ax p <> 0 -> ay p <> 0 -> az p <> 0 ->
  exists dy dz, derivable_pt_lim (fun u => paraboloid u z p) y dy /\ derivable_pt_lim (fun u => paraboloid y u p) z dz /\
    dot3 (paraboloid_normal y z p normalize) (tangent_y dy) = 0 /\ dot3 (paraboloid_normal y z p normalize) (tangent_z dz) = 0 /\
    0 < norm3 (paraboloid_normal y z p normalize) /\ (normalize = true -> norm3 (paraboloid_normal y z p normalize) = 1).
Proof.
  intros y z [px py pz a b c] nm Ha Hb Hc. cbn [ax ay az] in *.
  exists (a * (2 * (y - py) / b ^ 2)), (a * (2 * (z - pz) / c ^ 2)).
  assert (D : forall u v w k, w <> 0 -> derivable_pt_lim (fun t => a * (((t - v) / w) ^ 2 + k) + px) u (a * (2 * (u - v) / w ^ 2))).
  { intros u v w k Hw. replace (a * (2 * (u - v) / w ^ 2)) with (a * (INR 2 * ((u - v) / w) ^ 1 * ((1 - 0) * / w + (u - v) * 0) + 0) + 0) by (simpl; field; exact Hw).
    apply (derivable_pt_lim_plus (fun t => a * (((t - v) / w) ^ 2 + k)) (fun _ => px)); [|apply derivable_pt_lim_const].
    apply (derivable_pt_lim_scal (fun t => ((t - v) / w) ^ 2 + k) a).
    apply (derivable_pt_lim_plus (fun t => ((t - v) / w) ^ 2) (fun _ => k)); [|apply derivable_pt_lim_const].
    apply (derivable_pt_lim_comp (fun t => (t - v) / w) (fun t => t ^ 2)); [|apply (derivable_pt_lim_pow ((u - v) / w) 2)].
    unfold Rdiv. apply (derivable_pt_lim_mult (fun t => t - v) (fun _ => / w)); [|apply derivable_pt_lim_const].
    apply (derivable_pt_lim_minus (fun t => t) (fun _ => v)); [apply derivable_pt_lim_id|apply derivable_pt_lim_const]. }
  split; [unfold paraboloid; cbn [x0 y0 z0 ax ay az]; apply D; exact Hb|].
  split. { unfold paraboloid. cbn [x0 y0 z0 ax ay az]. intros eps He. destruct (D z pz c (((y - py) / b) ^ 2) Hc eps He) as (dl & Hdl). exists dl. intros h Hh Hl.
    specialize (Hdl h Hh Hl). rewrite (Rplus_comm (((y - py) / b) ^ 2)). rewrite (Rplus_comm (((y - py) / b) ^ 2) (((z - pz) / c) ^ 2)). exact Hdl. }
  set (n := normal_raw y z (PB px py pz a b c)).
  assert (En : n = (-1 / a * 1, 2 * (y - py) / b ^ 2, 2 * (z - pz) / c ^ 2)) by reflexivity.
  assert (Hx : -1 / a * 1 <> 0) by (unfold Rdiv; pose proof (Rinv_neq_0_compat a Ha); Lra.lra).
  assert (Np : 0 < norm3 n) by (rewrite En; apply norm_pos; exact Hx).
  assert (T1 : dot3 n (tangent_y (a * (2 * (y - py) / b ^ 2))) = 0) by (rewrite En; unfold dot3, tangent_y; field; repeat split; assumption).
  assert (T2 : dot3 n (tangent_z (a * (2 * (z - pz) / c ^ 2))) = 0) by (rewrite En; unfold dot3, tangent_z; field; repeat split; assumption).
  unfold paraboloid_normal. fold n. destruct nm; [|split; [exact T1|]; split; [exact T2|]; split; [exact Np|discriminate]].
  destruct n as [[n1 n2] n3]. set (m := norm3 (n1, n2, n3)) in *.
  assert (Sq : forall t, dot3 (n1 / m, n2 / m, n3 / m) t = dot3 (n1, n2, n3) t / m) by (intros [[t1 t2] t3]; unfold dot3; field; Lra.lra).
  assert (N1 : norm3 (n1 / m, n2 / m, n3 / m) = 1).
  { unfold norm3. rewrite Sq. replace (dot3 (n1, n2, n3) (n1 / m, n2 / m, n3 / m) / m) with ((m * m) / (m * m)).
    - rewrite <- sqrt_1. f_equal. field. Lra.lra.
    - assert (Em : m * m = n1 * n1 + n2 * n2 + n3 * n3).
      { unfold m, norm3, dot3. apply sqrt_sqrt. assert (0 <= n1 * n1) by apply Rle_0_sqr. assert (0 <= n2 * n2) by apply Rle_0_sqr. assert (0 <= n3 * n3) by apply Rle_0_sqr. Lra.lra. }
      unfold dot3. replace ((n1 * (n1 / m) + n2 * (n2 / m) + n3 * (n3 / m)) / m) with ((n1 * n1 + n2 * n2 + n3 * n3) / (m * m)) by (field; Lra.lra). rewrite <- Em. reflexivity. }
  split; [rewrite Sq, T1; field; Lra.lra|]. split; [rewrite Sq, T2; field; Lra.lra|]. split; [rewrite N1; Lra.lra|intros _; exact N1].
Qed.
Print Assumptions C80_normal.
(** Refuted: the parameters that are fitted are not determined by the surface. *)
Theorem C80_parameters_refuted : forall p s, ay p <> 0 -> az p <> 0 -> s <> 0 ->
  forall y z, paraboloid y z (PB (x0 p) (y0 p) (z0 p) (s ^ 2 * ax p) (s * ay p) (s * az p)) = paraboloid y z p.
Proof. intros p s Ha Hz Hs y z. unfold paraboloid. cbn [x0 y0 z0 ax ay az]. field. auto. Qed.
Print Assumptions C80_parameters_refuted.

(** ** the edges *)
Local Open Scope Q_scope.
(** the current at place [i] counts: it is not masked *)
Definition counts (maskval : option Q) (v : Q) : Prop := match maskval with Some m => m <= v | None => True end.
(** [m] is the largest size of the currents that count *)
Definition peak (maskval : option Q) (jy : list Q) (m : Q) : Prop :=
  (exists v, In v jy /\ counts maskval v /\ Qabs v == m) /\ forall v, In v jy -> counts maskval v -> Qabs v <= m.
(** place [i] is above the fraction [t] of the peak *)
Definition is_above (maskval : option Q) (jy : list Q) (t : Q) (i : nat) : Prop :=
  (i < length jy)%nat /\ counts maskval (nth i jy 0) /\ forall m, peak maskval jy m -> t * m < nth i jy 0.

Lemma mask_spec mv v : (match mv with Some m => if Qlt_le_dec v m then None else Some v | None => Some v end) = (if match mv with Some m => if Qlt_le_dec v m then true else false | None => false end then None else Some v).
Proof. destruct mv as [m|]; [destruct (Qlt_le_dec v m)|]; reflexivity. Qed.
Lemma absmax_peak mv jy m : absmax (mask_col mv jy) = Some m -> peak mv jy m.
Proof.
  revert m. induction jy as [|v jy IH]; intros m H; [discriminate|]. cbn [mask_col map] in H. fold (mask_col mv jy) in H. unfold peak in *.
  assert (C : counts mv v \/ ~ counts mv v /\ (match mv with Some m0 => if Qlt_le_dec v m0 then None else Some v | None => Some v end) = None).
  { unfold counts. destruct mv as [k|]; [|left; exact I]. destruct (Qlt_le_dec v k) as [L|L]; [right; split; [apply Qlt_not_le; exact L|reflexivity]|left; exact L]. }
  destruct C as [C|(C & E)].
  - assert (E : (match mv with Some m0 => if Qlt_le_dec v m0 then None else Some v | None => Some v end) = Some v).
    { destruct mv as [k|]; [|reflexivity]. cbn in C. destruct (Qlt_le_dec v k) as [L|L]; [apply Qlt_not_le in L; contradiction|reflexivity]. }
    rewrite E in H. cbn [absmax] in H. destruct (absmax (mask_col mv jy)) as [m'|] eqn:Em.
    + injection H as <-. destruct (IH m' eq_refl) as ((w & Hw & Cw & Ew) & Hall). split.
      * destruct (Q.max_spec (Qabs v) m') as [(L & Eq)|(L & Eq)]; [exists w; split; [right; exact Hw|]; split; [exact Cw|]; rewrite Eq; exact Ew|exists v; split; [left; reflexivity|]; split; [exact C|]; rewrite Eq; reflexivity].
      * intros u [<-|Hu] Cu; [apply Q.le_max_l|]. eapply Qle_trans; [apply Hall; assumption|apply Q.le_max_r].
    + injection H as <-. split; [exists v; split; [left; reflexivity|]; split; [exact C|reflexivity]|]. intros u [<-|Hu] Cu; [apply Qle_refl|]. exfalso.
      clear -Em Hu Cu. induction jy as [|x jy IH]; [contradiction|]. cbn [mask_col map absmax] in Em. fold (mask_col mv jy) in Em. destruct Hu as [->|Hu].
      * assert (E : (match mv with Some m0 => if Qlt_le_dec u m0 then None else Some u | None => Some u end) = Some u).
        { destruct mv as [k|]; [|reflexivity]. cbn in Cu. destruct (Qlt_le_dec u k) as [L|L]; [apply Qlt_not_le in L; contradiction|reflexivity]. }
        rewrite E in Em. destruct (absmax (mask_col mv jy)); discriminate.
      * destruct (match mv with Some m0 => if Qlt_le_dec x m0 then None else Some x | None => Some x end); [destruct (absmax (mask_col mv jy)); discriminate|apply IH; assumption].
  - rewrite E in H. cbn [absmax] in H. destruct (IH m H) as ((w & Hw & Cw & Ew) & Hall). split; [exists w; split; [right; exact Hw|auto]|]. intros u [<-|Hu] Cu; [contradiction|apply Hall; assumption].
Qed.
Lemma absmax_none mv jy : absmax (mask_col mv jy) = None -> forall v, In v jy -> ~ counts mv v.
Proof.
  induction jy as [|x jy IH]; intros H v Hv; [contradiction|]. cbn [mask_col map absmax] in H. fold (mask_col mv jy) in H.
  destruct (match mv with Some m0 => if Qlt_le_dec x m0 then None else Some x | None => Some x end) eqn:E; [destruct (absmax (mask_col mv jy)); discriminate|].
  destruct Hv as [<-|Hv]; [|apply IH; assumption]. unfold counts. destruct mv as [k|]; [|discriminate]. destruct (Qlt_le_dec x k) as [L|L]; [apply Qlt_not_le; exact L|discriminate].
Qed.
Lemma peak_unique mv jy m m' : peak mv jy m -> peak mv jy m' -> m == m'.
Proof. intros ((v & Hv & Cv & Ev) & Ha) ((w & Hw & Cw & Ew) & Hb). apply Qle_antisym; [rewrite <- Ev; apply Hb; assumption|rewrite <- Ew; apply Ha; assumption]. Qed.
Lemma above_spec mv jy t i : nth i (above t (mask_col mv jy)) false = true <-> is_above mv jy t i.
Proof.
  unfold above, is_above. assert (Lm : length (mask_col mv jy) = length jy) by apply map_length. destruct (absmax (mask_col mv jy)) as [m|] eqn:Em.
  - pose proof (absmax_peak mv jy m Em) as Pm.
    set (h := fun o : option Q => match o with Some v => if Qlt_le_dec (t * m) v then true else false | None => false end).
    destruct (Nat.lt_ge_cases i (length jy)) as [Hi|Hi].
    + rewrite (nth_indep _ false (h None)) by (rewrite map_length; lia). rewrite map_nth.
      set (h2 := fun v => match mv with Some m0 => if Qlt_le_dec v m0 then None else Some v | None => Some v end).
      assert (E : nth i (mask_col mv jy) None = h2 (nth i jy 0)) by (rewrite (nth_indep _ None (h2 0)) by lia; unfold mask_col; fold h2; apply map_nth).
      rewrite E. clear E. generalize (nth i jy 0) as v. intros v. unfold h2, h, counts. split.
      * destruct mv as [k|]; [destruct (Qlt_le_dec v k); [discriminate|]|]; (destruct (Qlt_le_dec (t * m) v) as [L|L]; [|discriminate]); intros _; (split; [exact Hi|]); (split; [exact I || assumption|]); intros m' Hm'; rewrite (peak_unique _ _ _ _ Hm' Pm); exact L.
      * intros (_ & Hc & Ha). specialize (Ha m Pm). destruct mv as [k|]; [destruct (Qlt_le_dec v k) as [L|L]; [apply Qlt_not_le in L; contradiction|]|]; (destruct (Qlt_le_dec (t * m) v) as [L2|L2]; [reflexivity|apply Qle_not_lt in L2; contradiction]).
    + rewrite nth_overflow by (rewrite map_length; lia). split; [discriminate|lia].
  - split.
    + intros H. exfalso. assert (A : forall (l : list (option Q)) k, nth k (map (fun _ => false) l) false = false) by (induction l as [|x l IH]; intros [|k]; cbn; auto). rewrite A in H. discriminate.
    + intros (Hi & Hc & _). exfalso. eapply absmax_none; [exact Em| |exact Hc]. apply nth_In. exact Hi.
Qed.
Lemma first_true_some l i : first_true l = Some i -> nth i l false = true /\ forall k, (k < i)%nat -> nth k l false = false.
Proof.
  revert i. induction l as [|b l IH]; intros i H; [discriminate|]. cbn [first_true] in H. destruct b.
  - injection H as <-. split; [reflexivity|lia].
  - destruct (first_true l) as [j|]; [|discriminate]. cbn in H. injection H as <-. destruct (IH j eq_refl) as (A & B). split; [exact A|]. intros [|k] Hk; [reflexivity|]. cbn. apply B. lia.
Qed.
Lemma first_true_none l : first_true l = None -> forall k, nth k l false = false.
Proof. induction l as [|b l IH]; intros H k; [destruct k; reflexivity|]. cbn [first_true] in H. destruct b; [discriminate|]. destruct (first_true l); [discriminate|]. destruct k as [|k]; [reflexivity|]. cbn. apply IH. reflexivity. Qed.
Lemma length_above t mv jy : length (above t (mask_col mv jy)) = length jy.
Proof. unfold above. destruct (absmax _); rewrite map_length; apply map_length. Qed.

(** The edge towards the magnetosphere is the first place that is above, that towards the magnetosheath the last, and the width is their distance.  An edge at
    the border of the block, or a column without such places, gives no edge. *)
Theorem C80_edges : forall xcc jy tp th mv e, length jy = length xcc -> e = find_mp_edges xcc jy tp th mv ->
  (forall v, sphere_edge e = Some v <->
     exists i, (0 < i)%nat /\ is_above mv jy tp i /\ (forall k, (k < i)%nat -> ~ is_above mv jy tp k) /\ v = nth i xcc 0 /\ sphere_ind e = i) /\
  (forall v, sheath_edge e = Some v <->
     exists i, (i < length xcc - 1)%nat /\ is_above mv jy th i /\ (forall k, (i < k)%nat -> ~ is_above mv jy th k) /\ v = nth i xcc 0 /\ sheath_ind e = i) /\
  (forall w, mp_width e = Some w <-> exists a b, sheath_edge e = Some a /\ sphere_edge e = Some b /\ w = a - b).
Proof.
  intros xcc jy tp th mv e L ->. unfold find_mp_edges. cbn [sphere_edge sheath_edge mp_width sphere_ind sheath_ind]. split; [|split].
  - intros v. unfold argmax_bool. destruct (first_true (above tp (mask_col mv jy))) as [i|] eqn:Ei.
    + destruct (first_true_some _ _ Ei) as (A & B). apply above_spec in A.
      assert (B' : forall k, (k < i)%nat -> ~ is_above mv jy tp k) by (intros k Hk Hab; apply above_spec in Hab; rewrite B in Hab by exact Hk; discriminate).
      destruct (0 <? i)%nat eqn:Ep.
      * split; [intros H; injection H as <-; exists i; repeat (split; [first [lia|assumption|reflexivity]|]); reflexivity|]. intros (k & _ & _ & _ & -> & <-). reflexivity.
      * split; [discriminate|]. intros (k & Hk & _ & _ & _ & <-). lia.
    + cbn. split; [discriminate|]. intros (k & Hk & _ & _ & _ & <-). lia.
  - intros v. unfold argmax_bool. set (ab := above th (mask_col mv jy)). assert (Lab : length ab = length xcc) by (unfold ab; rewrite length_above; exact L).
    destruct (first_true (rev ab)) as [i|] eqn:Ei.
    + destruct (first_true_some _ _ Ei) as (A & B).
      assert (Hi : (i < length ab)%nat). { destruct (Nat.lt_ge_cases i (length ab)) as [H|H]; [exact H|]. rewrite nth_overflow in A by (rewrite rev_length; exact H). discriminate. }
      rewrite rev_nth in A by exact Hi. rewrite Lab in A. apply above_spec in A. replace (length xcc - S i)%nat with (length xcc - 1 - i)%nat in A by lia.
      assert (B' : forall k, (length xcc - 1 - i < k)%nat -> ~ is_above mv jy th k).
      { intros k Hk Hab. assert (Hkl : (k < length xcc)%nat) by (rewrite <- L; apply Hab). apply above_spec in Hab. specialize (B (length xcc - 1 - k)%nat ltac:(lia)).
        rewrite rev_nth in B by lia. rewrite Lab in B. replace (length xcc - S (length xcc - 1 - k))%nat with k in B by lia. unfold ab in B. congruence. }
      destruct (length xcc - 1 - i <? length xcc - 1)%nat eqn:Ep.
      * split; [intros H; injection H as <-; exists (length xcc - 1 - i)%nat; repeat (split; [first [lia|assumption|reflexivity]|]); reflexivity|]. intros (k & _ & _ & _ & -> & <-). reflexivity.
      * split; [discriminate|]. intros (k & Hk & _ & _ & _ & <-). lia.
    + rewrite Nat.sub_0_r, Nat.ltb_irrefl. split; [discriminate|]. intros (k & Hk & _ & _ & _ & <-). lia.
  - intros w. destruct (if (_ <? length xcc - 1)%nat then _ else _) as [a|].
    + destruct (if (0 <? _)%nat then _ else _) as [b|].
      * split; [intros H; injection H as <-; exists a, b; auto|]. intros (a' & b' & Ea & Eb & ->). injection Ea as <-. injection Eb as <-. reflexivity.
      * split; [discriminate|]. intros (a' & b' & _ & Eb & _). discriminate.
    + split; [discriminate|]. intros (a' & b' & Ea & _). discriminate.
Qed.
Print Assumptions C80_edges.
(** If the mask is at a positive current and something of the current is left, the largest current lies between the two edges; with x increasing the
    width is not negative. *)
Theorem C80_order : forall xcc jy tp th mk p, length jy = length xcc -> 0 < mk -> tp < 1 -> th < 1 ->
  (p < length jy)%nat -> mk <= nth p jy 0 -> (forall k, (k < length jy)%nat -> nth k jy 0 <= nth p jy 0) ->
  let e := find_mp_edges xcc jy tp th (Some mk) in
  (sphere_ind e <= p <= sheath_ind e)%nat /\ (sheath_ind e < length xcc)%nat /\
  ((forall i k, (i <= k < length xcc)%nat -> nth i xcc 0 <= nth k xcc 0) -> forall w, mp_width e = Some w -> 0 <= w).
Proof.
  intros xcc jy tp th mk p L Hmk Htp Hth Hp Hmp Hmax e.
  assert (Pk : peak (Some mk) jy (nth p jy 0)).
  { assert (Hpos : 0 <= nth p jy 0) by Lqa.lra. split.
    - exists (nth p jy 0). split; [apply nth_In; exact Hp|]. split; [exact Hmp|]. apply Qabs_pos. exact Hpos.
    - intros v Hv Cv. cbn in Cv. apply In_nth with (d := 0) in Hv as (k & Hk & <-). rewrite Qabs_pos by Lqa.lra. apply Hmax. exact Hk. }
  assert (Ab : forall t, t < 1 -> is_above (Some mk) jy t p).
  { intros t Ht. split; [exact Hp|]. split; [exact Hmp|]. intros m Hm. rewrite (peak_unique _ _ _ _ Hm Pk).
    setoid_replace (nth p jy 0) with (1 * nth p jy 0) at 2 by ring. apply Qmult_lt_compat_r; [Lqa.lra|exact Ht]. }
  assert (S1 : (sphere_ind e <= p)%nat).
  { unfold e, find_mp_edges. cbn [sphere_ind]. unfold argmax_bool. destruct (first_true _) as [i|] eqn:Ei; [|lia]. destruct (first_true_some _ _ Ei) as (_ & B).
    destruct (Nat.lt_ge_cases p i) as [H|H]; [|exact H]. exfalso. specialize (B p H). pose proof (proj2 (above_spec (Some mk) jy tp p) (Ab tp Htp)) as A. congruence. }
  assert (S2 : (p <= sheath_ind e)%nat).
  { unfold e, find_mp_edges. cbn [sheath_ind]. unfold argmax_bool. set (ab := above th (mask_col (Some mk) jy)). assert (Lab : length ab = length xcc) by (unfold ab; rewrite length_above; exact L).
    pose proof (proj2 (above_spec (Some mk) jy th p) (Ab th Hth)) as A. fold ab in A. destruct (first_true (rev ab)) as [i|] eqn:Ei; [|lia]. destruct (first_true_some _ _ Ei) as (_ & B).
    destruct (Nat.le_gt_cases p (length xcc - 1 - i)) as [H|H]; [exact H|]. exfalso. specialize (B (length xcc - 1 - p)%nat ltac:(lia)). rewrite rev_nth in B by lia. rewrite Lab in B.
    replace (length xcc - S (length xcc - 1 - p))%nat with p in B by lia. congruence. }
  split; [lia|]. split; [unfold e, find_mp_edges; cbn [sheath_ind]; lia|].
  intros Hx w Hw. assert (Hs : (sheath_ind e < length xcc)%nat) by (unfold e, find_mp_edges; cbn [sheath_ind]; lia).
  specialize (Hx (sphere_ind e) (sheath_ind e) ltac:(lia)).
  destruct (C80_edges xcc jy tp th (Some mk) e L eq_refl) as (E1 & E2 & E3). apply E3 in Hw as (a & b & Ea & Eb & ->).
  apply E2 in Ea as (i & _ & _ & _ & -> & <-). apply E1 in Eb as (k & _ & _ & _ & -> & <-). Lqa.lra.
Qed.
Print Assumptions C80_order.
(** Refuted without the mask: a larger current of the other sign hides the layer. *)
Theorem C80_edges_unmasked_refuted : let e := find_mp_edges [0; 1; 2; 3; 4] [0; 0; 1; 0; - (20)] (1 # 10) (1 # 10) None in
  sphere_edge e = None /\ sheath_edge e = None /\
  let e' := find_mp_edges [0; 1; 2; 3; 4] [0; 0; 1; 0; - (20)] (1 # 10) (1 # 10) (Some (1 # 10000)) in sphere_edge e' = Some 2 /\ sheath_edge e' = Some 2.
Proof. vm_compute. auto. Qed.
Print Assumptions C80_edges_unmasked_refuted.

(** ** the angle *)
Local Open Scope R_scope.
Lemma cauchy a b : 0 < norm3 a -> 0 < norm3 b -> -1 <= dot3 a b / (norm3 b * norm3 a) <= 1.
Proof.
  destruct a as [[a1 a2] a3], b as [[b1 b2] b3]. intros Ha Hb. set (na := norm3 (a1, a2, a3)) in *. set (nb := norm3 (b1, b2, b3)) in *.
  assert (Ea : na * na = a1 * a1 + a2 * a2 + a3 * a3) by (unfold na, norm3, dot3; apply sqrt_sqrt; assert (0 <= a1 * a1) by apply Rle_0_sqr; assert (0 <= a2 * a2) by apply Rle_0_sqr; assert (0 <= a3 * a3) by apply Rle_0_sqr; Lra.lra).
  assert (Eb : nb * nb = b1 * b1 + b2 * b2 + b3 * b3) by (unfold nb, norm3, dot3; apply sqrt_sqrt; assert (0 <= b1 * b1) by apply Rle_0_sqr; assert (0 <= b2 * b2) by apply Rle_0_sqr; assert (0 <= b3 * b3) by apply Rle_0_sqr; Lra.lra).
  set (d := dot3 (a1, a2, a3) (b1, b2, b3)). assert (P : 0 < nb * na) by (apply Rmult_lt_0_compat; assumption).
  assert (Hd : d * d <= (nb * na) * (nb * na)).
  { replace (nb * na * (nb * na)) with ((nb * nb) * (na * na)) by ring. rewrite Ea, Eb. unfold d, dot3.
    assert (0 <= (a1 * b2 - a2 * b1) * (a1 * b2 - a2 * b1)) by apply Rle_0_sqr. assert (0 <= (a1 * b3 - a3 * b1) * (a1 * b3 - a3 * b1)) by apply Rle_0_sqr. assert (0 <= (a2 * b3 - a3 * b2) * (a2 * b3 - a3 * b2)) by apply Rle_0_sqr. Lra.lra. }
  assert (Hd2 : - (nb * na) <= d <= nb * na) by (split; [apply Rnot_lt_le; intros H|apply Rnot_lt_le; intros H]; assert (nb * na * (nb * na) < d * d) by Lra.nra; Lra.lra).
  split.
  - apply (Rmult_le_reg_r (nb * na)); [exact P|]. unfold Rdiv. rewrite Rmult_assoc, Rinv_l by Lra.lra. Lra.lra.
  - apply (Rmult_le_reg_r (nb * na)); [exact P|]. unfold Rdiv. rewrite Rmult_assoc, Rinv_l by Lra.lra. Lra.lra.
Qed.
(** the angle between two vectors in degrees *)
Definition angle_deg (a b : R * R * R) (t : R) : Prop := 0 <= t <= 180 /\ cos (PI / 180 * t) * (norm3 a * norm3 b) = dot3 a b.
(** When the angle is given, it is the angle between the fields [step] places outside the edge towards the magnetosheath and [step] places before that same edge. *)
Theorem C80_shear : forall step b e s, (0 <= step)%Z -> (sphere_ind e <= sheath_ind e)%nat -> mp_shear step b e = Some s ->
  exists i j, Z.of_nat i = (Z.of_nat (sheath_ind e) + step)%Z /\ Z.of_nat j = (Z.of_nat (sheath_ind e) - step)%Z /\ (i < length b)%nat /\
    (0 < norm3 (nth i b (0, 0, 0)) -> 0 < norm3 (nth j b (0, 0, 0)) -> angle_deg (nth i b (0, 0, 0)) (nth j b (0, 0, 0)) s).
Proof.
  intros step b e s Hs Ho H. unfold mp_shear, shear_inds in H. destruct ((_ <? _)%Z && (0 <=? _)%Z) eqn:Ok; [|discriminate]. injection H as <-.
  apply andb_prop in Ok as (O1 & O2).
  exists (Z.to_nat (clip (Z.of_nat (sheath_ind e) + step) 0 (Z.of_nat (length b) - 1))), (Z.to_nat (clip (Z.of_nat (sheath_ind e) - step) 0 (Z.of_nat (length b) - 1))).
  unfold clip. split; [lia|]. split; [lia|]. split; [lia|]. intros Pi Pj. fold (clip (Z.of_nat (sheath_ind e) + step) 0 (Z.of_nat (length b) - 1)) in *.
  set (bi := nth _ b (0, 0, 0)) in *. set (bj := nth (Z.to_nat (Z.max 0 (Z.min (Z.of_nat (sheath_ind e) - step) (Z.of_nat (length b) - 1)))) b (0, 0, 0)) in *.
  pose proof (cauchy bi bj Pi Pj) as Hc. pose proof PI_RGT_0 as Hpi. pose proof (acos_bound (dot3 bi bj / (norm3 bj * norm3 bi))) as Ab.
  split.
  - split.
    + apply Rmult_le_pos; [|apply Ab]. apply Rlt_le, Rdiv_lt_0_compat; Lra.lra.
    + apply Rle_trans with (180 / PI * PI); [|right; field; Lra.lra]. apply Rmult_le_compat_l; [apply Rlt_le, Rdiv_lt_0_compat; Lra.lra|apply Ab].
  - replace (PI / 180 * (180 / PI * acos (dot3 bi bj / (norm3 bj * norm3 bi)))) with (acos (dot3 bi bj / (norm3 bj * norm3 bi))) by (field; Lra.lra).
    rewrite cos_acos by exact Hc. field. split; Lra.lra.
Qed.
Print Assumptions C80_shear.
(** Refuted: it is not the field before the edge towards the magnetosphere, as soon as the magnetopause is wider than one place. *)
Theorem C80_shear_sphere_refuted : forall step nx sheath sphere i j, (sphere < sheath < nx)%Z -> (0 <= step)%Z ->
  shear_inds step nx sheath sphere = (i, j, true) -> i = (sheath + step)%Z /\ j <> (sphere - step)%Z.
Proof. intros step nx sheath sphere i j Ho Hs H. unfold shear_inds, clip in H. injection H as <- <- Ok. apply andb_prop in Ok as (O1 & O2). lia. Qed.
Print Assumptions C80_shear_sphere_refuted.

(** ** the theorems apply *)
Example edges_ex : let e := find_mp_edges [6; 7; 8; 9; 10]%Q [0; 2; 5; 1 # 1; 0]%Q (3 # 10) (1 # 10) (Some (1 # 10000)) in
  sphere_edge e = Some 7%Q /\ sheath_edge e = Some 9%Q /\ mp_width e = Some (9 - 7)%Q /\ sphere_ind e = 1%nat /\ sheath_ind e = 3%nat.
Proof. vm_compute. auto. Qed.
Example order_hyps : (2 < length [0; 2; 5; 1; 0]%Q)%nat /\ (1 # 10000 <= nth 2 [0; 2; 5; 1; 0] 0)%Q /\ forall k, (k < 5)%nat -> (nth k [0; 2; 5; 1; 0] 0 <= nth 2 [0; 2; 5; 1; 0] 0)%Q.
Proof. split; [cbn; lia|]. split; [discriminate|]. intros k Hk. destruct k as [|[|[|[|[|]]]]]; try lia; vm_compute; discriminate. Qed.
Example shear_ex : exists s, mp_shear 1 [(0, 0, 1); (0, 0, 1); (1, 0, 0); (1, 0, 0)]%R (ED None None None 2 1) = Some s.
Proof. eexists. reflexivity. Qed.
Example shear_refuted_hyps : shear_inds 1 10 5 3 = (6, 4, true)%Z.
Proof. reflexivity. Qed.
