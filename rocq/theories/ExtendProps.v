(** C38: boundary extension keeps the interior and extrapolates. *)
From Verif Require Import ExtendModel.
From Coq Require Import ZifyBool ZifyNat Arith Permutation Lqa.
Open Scope Z_scope.

(** ** specification *)
(** the place of the original array an index of the extended array stands for *)
Definition place (nl : nat) (axes : list nat) (js : list Z) : list Z :=
  map (fun k => if mem k axes then nth k js 0 - Z.of_nat nl else nth k js 0) (seq 0 (length js)).
(** the nearest place of an array of shape [sh] *)
Definition nearest (sh is : list Z) : list Z :=
  map (fun k => Z.max 0 (Z.min (nth k sh 0 - 1) (nth k is 0))) (seq 0 (length is)).
(** a function of the place that is linear, or advances by [dx] per step, along one axis *)
Definition linear_along (F : list Z -> Q) (ax : nat) : Prop :=
  forall js i, (F (put ax (i + 1) js) - F (put ax i js) == F (put ax i js) - F (put ax (i - 1) js))%Q.
Definition steps_along (dx : Q) (F : list Z -> Q) (ax : nat) : Prop :=
  forall js i, (F (put ax (i + 1) js) == F (put ax i js) + dx)%Q.
(** shape of the extended array *)
Definition extended (nl nh : nat) (axes : list nat) (sh : list Z) : list Z :=
  map (fun k => if mem k axes then nth k sh 0 + Z.of_nat nl + Z.of_nat nh else nth k sh 0) (seq 0 (length sh)).

(** ** index vectors *)
Lemma put_len k x : forall js, length (put k x js) = length js.
Proof. induction k as [|k IH]; intros [|j js]; cbn; auto. Qed.
Lemma nth_put_eq k x : forall js, (k < length js)%nat -> nth k (put k x js) 0 = x.
Proof. induction k as [|k IH]; intros [|j js] H; cbn in *; try lia. apply IH. lia. Qed.
Lemma nth_put_ne k x i : forall js, i <> k -> nth i (put k x js) 0 = nth i js 0.
Proof. revert i. induction k as [|k IH]; intros [|i] [|j js] H; cbn; try lia. apply IH. lia. Qed.
Lemma put_put k x y : forall js, put k x (put k y js) = put k x js.
Proof. induction k as [|k IH]; intros [|j js]; cbn; try reflexivity. rewrite IH. reflexivity. Qed.
Lemma put_nth k : forall js, (k < length js)%nat -> put k (nth k js 0) js = js.
Proof. induction k as [|k IH]; intros [|j js] H; cbn in *; try lia; try reflexivity. rewrite IH by lia. reflexivity. Qed.
Lemma nth_ext_z (a b : list Z) : length a = length b -> (forall k, (k < length a)%nat -> nth k a 0 = nth k b 0) -> a = b.
Proof. intros. apply (nth_ext a b 0 0); auto. Qed.
Lemma nth_map_seq (g : nat -> Z) n k : (k < n)%nat -> nth k (map g (seq 0 n)) 0 = g k.
Proof. intros H. rewrite (nth_indep _ 0 (g O)) by (rewrite map_length, seq_length; exact H). rewrite map_nth, seq_nth by exact H. reflexivity. Qed.
Lemma place_len nl axes js : length (place nl axes js) = length js.
Proof. unfold place. rewrite map_length, seq_length. reflexivity. Qed.
Lemma nth_place nl axes js k : (k < length js)%nat -> nth k (place nl axes js) 0 = if mem k axes then nth k js 0 - Z.of_nat nl else nth k js 0.
Proof. intros H. unfold place. rewrite nth_map_seq by exact H. reflexivity. Qed.
Lemma place_put nl axes ax i js : mem ax axes = true -> place nl axes (put ax i js) = put ax (i - Z.of_nat nl) (place nl axes js).
Proof.
  intros Hm. apply nth_ext_z; [rewrite put_len, !place_len; apply put_len|]. rewrite place_len. intros k Hk. rewrite nth_place by exact Hk.
  rewrite put_len in Hk. destruct (Nat.eq_dec k ax) as [->|Ne].
  - rewrite Hm, !nth_put_eq by (rewrite ?place_len; exact Hk). reflexivity.
  - rewrite !nth_put_ne by exact Ne. rewrite nth_place by exact Hk. reflexivity.
Qed.
Lemma mem_In k l : mem k l = true <-> In k l.
Proof.
  unfold mem. rewrite existsb_exists. split.
  - intros (x & H & E). apply Nat.eqb_eq in E. subst. exact H.
  - intros H. exists k. split; [exact H|apply Nat.eqb_refl].
Qed.
Lemma mem_notin k l : mem k l = false <-> ~ In k l.
Proof. rewrite <- mem_In. destruct (mem k l); split; intros; congruence. Qed.

Lemma target_gen nl nh axes sh : forall k, target_from nl nh k axes sh =
  map (fun i => if mem (k + i) axes then nth i sh 0 + Z.of_nat nl + Z.of_nat nh else nth i sh 0) (seq 0 (length sh)).
Proof.
  induction sh as [|s sh IH]; intros k; [reflexivity|]. cbn [target_from length seq map nth]. rewrite Nat.add_0_r. f_equal.
  rewrite IH, <- seq_shift, map_map. apply map_ext. intros i. rewrite Nat.add_succ_r. reflexivity.
Qed.
Lemma target_extended nl nh axes sh : target_from nl nh 0 axes sh = extended nl nh axes sh.
Proof. apply target_gen. Qed.
Lemma extended_len nl nh axes sh : length (extended nl nh axes sh) = length sh.
Proof. unfold extended. rewrite map_length, seq_length. reflexivity. Qed.
Lemma inner_gen nl axes : forall sh js k, length js = length sh ->
  (forall i, (i < length sh)%nat -> 0 <= (if mem (k + i) axes then nth i js 0 - Z.of_nat nl else nth i js 0) < nth i sh 0) ->
  inner_from nl k axes sh js = Some (map (fun i => if mem (k + i) axes then nth i js 0 - Z.of_nat nl else nth i js 0) (seq 0 (length js))).
Proof.
  induction sh as [|s sh IH]; intros [|j js] k Hl H; try discriminate; [reflexivity|].
  cbn [inner_from]. pose proof (H O ltac:(cbn; lia)) as H0. rewrite Nat.add_0_r in H0. cbn [nth] in H0.
  set (i0 := if mem k axes then j - Z.of_nat nl else j) in *. replace ((0 <=? i0) && (i0 <? s)) with true by lia.
  rewrite (IH js (S k)).
  - cbn [option_map length seq map nth]. rewrite Nat.add_0_r. fold i0. do 2 f_equal. rewrite <- seq_shift, map_map. apply map_ext. intros i.
    rewrite Nat.add_succ_r. reflexivity.
  - cbn in Hl. congruence.
  - intros i Hi. specialize (H (S i) ltac:(cbn; lia)). rewrite Nat.add_succ_r in H. exact H.
Qed.
Lemma in_shape_iff sh js : in_shape sh js <-> length js = length sh /\ forall k, (k < length sh)%nat -> 0 <= nth k js 0 < nth k sh 0.
Proof.
  split.
  - intros H. unfold in_shape in H. induction H as [|L j sh js Hj _ [IH1 IH2]]; [split; [reflexivity|cbn; lia]|]. split; [cbn; congruence|].
    intros [|k] Hk; cbn [nth]; [exact Hj|]. apply IH2. cbn in Hk. lia.
  - revert js. induction sh as [|L sh IH]; intros [|j js] [Hl H]; try discriminate; constructor.
    + apply (H O). cbn. lia.
    + apply IH. split; [cbn in Hl; congruence|]. intros k Hk. apply (H (S k)). cbn. lia.
Qed.
Lemma embed_inner nl axes arr js : in_shape (shape arr) (place nl axes js) -> embed nl axes arr js = get arr (place nl axes js).
Proof.
  intros H. apply in_shape_iff in H as [Hl H]. rewrite place_len in Hl. unfold embed. rewrite inner_gen; [reflexivity|exact Hl|].
  intros i Hi. cbn [Nat.add]. specialize (H i Hi). rewrite nth_place in H by lia. exact H.
Qed.

(** ** one axis *)
Section AX.
Variables (nl nh : nat) (dx : Q) (ax : nat) (L : Z) (n : nat).
Hypothesis (HL : 1 <= L).

(** [v] agrees with [G] where the coordinate along [ax] is in [lo, hi) and the others in [R] *)
Definition agrees (R : list Z -> Prop) (v G : list Z -> Q) (lo hi : Z) : Prop :=
  forall js, R js -> lo <= nth ax js 0 < hi -> (v js == G js)%Q.
Definition closed (R : list Z -> Prop) : Prop := forall js x, R js -> (ax < length js)%nat /\ R (put ax x js).

Lemma agrees_lo R v G lo hi e : closed R -> agrees R v G lo hi ->
  (forall js, R js -> nth ax js 0 = lo - 1 -> (e js == G js)%Q) -> agrees R (assign ax (lo - 1) e v) G (lo - 1) hi.
Proof.
  intros Hc H He js Hj Hr. unfold assign. destruct (Z.eqb_spec (nth ax js 0) (lo - 1)) as [E|E]; [apply He; auto|]. apply H; [exact Hj|lia].
Qed.
Lemma agrees_hi R v G lo hi e : closed R -> agrees R v G lo hi ->
  (forall js, R js -> nth ax js 0 = hi -> (e js == G js)%Q) -> agrees R (assign ax hi e v) G lo (hi + 1).
Proof.
  intros Hc H He js Hj Hr. unfold assign. destruct (Z.eqb_spec (nth ax js 0) hi) as [E|E]; [apply He; auto|]. apply H; [exact Hj|lia].
Qed.
Lemma fold_seq_ind {X} (P : nat -> X -> Prop) (f : X -> nat -> X) m x : P O x ->
  (forall j y, (j < m)%nat -> P j y -> P (S j) (f y j)) -> P m (fold_left f (seq 0 m) x).
Proof.
  intros H0 HS. assert (K : forall k s y, (s + k = m)%nat -> P s y -> P m (fold_left f (seq s k) y)).
  { induction k as [|k IH]; intros s y E Hy; cbn [seq fold_left]; [replace m with s by lia; exact Hy|].
    apply IH; [lia|]. apply HS; [lia|exact Hy]. }
  apply (K m O x); [lia|exact H0].
Qed.

Variables (R : list Z -> Prop) (v G : list Z -> Q).
Hypothesis (Hc : closed R) (Hv : agrees R v G (Z.of_nat nl) (L + Z.of_nat nl)).
Let ni := L + Z.of_nat nl.

Lemma put_same js : R js -> G js = G (put ax (nth ax js 0) js).
Proof. intros Hj. rewrite put_nth by apply (Hc js 0 Hj). reflexivity. Qed.
Lemma at_put w lo hi js x : agrees R w G lo hi -> R js -> lo <= x < hi -> (w (put ax x js) == G (put ax x js))%Q.
Proof. intros Hw Hj Hx. destruct (Hc js x Hj) as [Hlen Hp]. apply Hw; [exact Hp|]. rewrite nth_put_eq by exact Hlen. exact Hx. Qed.

Lemma steps_agree : (forall js i, (G (put ax (i + 1) js) == G (put ax i js) + dx)%Q) ->
  agrees R (fold_left (step_hi dx ax ni) (seq 0 nh) (fold_left (step_lo nl dx ax) (seq 0 nl) v)) G 0 (ni + Z.of_nat nh).
Proof.
  intros HG.
  assert (Lo : agrees R (fold_left (step_lo nl dx ax) (seq 0 nl) v) G (Z.of_nat nl - Z.of_nat nl) ni).
  { apply (fold_seq_ind (fun j w => agrees R w G (Z.of_nat nl - Z.of_nat j) ni)); [rewrite Z.sub_0_r; exact Hv|].
    intros j w Hj Hw. unfold step_lo. replace (Z.of_nat nl - Z.of_nat (S j)) with (Z.of_nat nl - Z.of_nat j - 1) by lia.
    replace (Z.of_nat nl - 1 - Z.of_nat j) with (Z.of_nat nl - Z.of_nat j - 1) by lia. apply agrees_lo; [exact Hc|exact Hw|].
    intros js Hr E. rewrite (at_put w _ _ js (Z.of_nat nl - Z.of_nat j) Hw Hr ltac:(subst ni; lia)). rewrite (put_same js Hr), E.
    pose proof (HG js (Z.of_nat nl - Z.of_nat j - 1)) as K. replace (Z.of_nat nl - Z.of_nat j - 1 + 1) with (Z.of_nat nl - Z.of_nat j) in K by lia. lra. }
  rewrite Z.sub_diag in Lo.
  apply (fold_seq_ind (fun j w => agrees R w G 0 (ni + Z.of_nat j))); [rewrite Z.add_0_r; exact Lo|].
  intros j w Hj Hw. unfold step_hi. replace (ni + Z.of_nat (S j)) with (ni + Z.of_nat j + 1) by lia. apply agrees_hi; [exact Hc|exact Hw|].
  intros js Hr E. rewrite (at_put w _ _ js (ni - 1 + Z.of_nat j) Hw Hr ltac:(subst ni; lia)). rewrite (put_same js Hr), E.
  pose proof (HG js (ni - 1 + Z.of_nat j)) as K. replace (ni - 1 + Z.of_nat j + 1) with (ni + Z.of_nat j) in K by lia. lra.
Qed.

Lemma line_agree : 2 <= L -> (forall js i, (G (put ax (i + 1) js) - G (put ax i js) == G (put ax i js) - G (put ax (i - 1) js))%Q) ->
  agrees R (fold_left (line_hi ax ni) (seq 0 nh) (fold_left (line_lo nl ax) (seq 0 nl) v)) G 0 (ni + Z.of_nat nh).
Proof.
  intros H2 HG.
  assert (Lo : agrees R (fold_left (line_lo nl ax) (seq 0 nl) v) G (Z.of_nat nl - Z.of_nat nl) ni).
  { apply (fold_seq_ind (fun j w => agrees R w G (Z.of_nat nl - Z.of_nat j) ni)); [rewrite Z.sub_0_r; exact Hv|].
    intros j w Hj Hw. unfold line_lo. replace (Z.of_nat nl - Z.of_nat (S j)) with (Z.of_nat nl - Z.of_nat j - 1) by lia.
    apply agrees_lo; [exact Hc|exact Hw|].
    intros js Hr E. rewrite (at_put w _ _ js (Z.of_nat nl - Z.of_nat j) Hw Hr ltac:(subst ni; lia)).
    rewrite (at_put w _ _ js (Z.of_nat nl - Z.of_nat j + 1) Hw Hr ltac:(subst ni; lia)). rewrite (put_same js Hr), E.
    pose proof (HG js (Z.of_nat nl - Z.of_nat j)) as K. lra. }
  rewrite Z.sub_diag in Lo.
  apply (fold_seq_ind (fun j w => agrees R w G 0 (ni + Z.of_nat j))); [rewrite Z.add_0_r; exact Lo|].
  intros j w Hj Hw. unfold line_hi. replace (ni + Z.of_nat (S j)) with (ni + Z.of_nat j + 1) by lia. apply agrees_hi; [exact Hc|exact Hw|].
  intros js Hr E. rewrite (at_put w _ _ js (ni + Z.of_nat j - 1) Hw Hr ltac:(subst ni; lia)).
  rewrite (at_put w _ _ js (ni + Z.of_nat j - 2) Hw Hr ltac:(subst ni; lia)). rewrite (put_same js Hr), E.
  pose proof (HG js (ni + Z.of_nat j - 1)) as K. replace (ni + Z.of_nat j - 1 + 1) with (ni + Z.of_nat j) in K by lia.
  replace (ni + Z.of_nat j - 1 - 1) with (ni + Z.of_nat j - 2) in K by lia. lra.
Qed.

Lemma hold_agree : (forall js i, i < Z.of_nat nl -> (G (put ax i js) == G (put ax (Z.of_nat nl) js))%Q) ->
  (forall js i, ni <= i -> (G (put ax i js) == G (put ax (ni - 1) js))%Q) ->
  agrees R (hold nl nh ax ni v) G 0 (ni + Z.of_nat nh).
Proof.
  intros Hlo Hhi. unfold hold.
  set (w := if (0 <? nl)%nat then fun js => if nth ax js 0 <? Z.of_nat nl then v (put ax (Z.of_nat nl) js) else v js else v).
  assert (Hw : agrees R w G 0 ni).
  { intros js Hj Hr. subst w. destruct (Nat.ltb_spec 0 nl) as [H0|H0].
    - destruct (Z.ltb_spec (nth ax js 0) (Z.of_nat nl)) as [Hn|Hn].
      + rewrite (at_put v _ _ js (Z.of_nat nl) Hv Hj ltac:(lia)). rewrite (put_same js Hj). symmetry. apply Hlo. exact Hn.
      + apply Hv; [exact Hj|]. subst ni. lia.
    - apply Hv; [exact Hj|]. subst ni. lia. }
  clearbody w. intros js Hj Hr. destruct (Nat.ltb_spec 0 nh) as [H0|H0].
  - destruct (Z.leb_spec ni (nth ax js 0)) as [Hn|Hn].
    + rewrite (at_put w _ _ js (ni - 1) Hw Hj ltac:(subst ni; lia)). rewrite (put_same js Hj). symmetry. apply Hhi. exact Hn.
    + apply Hw; [exact Hj|]. lia.
  - apply Hw; [exact Hj|]. lia.
Qed.
End AX.

(** the middle is never written *)
Lemma assign_keep ax d e v js : nth ax js 0 <> d -> assign ax d e v js = v js.
Proof. intros H. unfold assign. replace (nth ax js 0 =? d) with false by lia. reflexivity. Qed.
Lemma fold_keep {X} (P : X -> Prop) (f : X -> nat -> X) m x : P x -> (forall j y, (j < m)%nat -> P y -> P (f y j)) -> P (fold_left f (seq 0 m) x).
Proof. intros H K. apply (fold_seq_ind (fun _ => P) f m x H). intros j y Hj Hy. apply K; auto. Qed.
Lemma axis_keep nl nh dx order ax L v v' js : extend_axis nl nh dx order ax L v = Some v' ->
  Z.of_nat nl <= nth ax js 0 < L + Z.of_nat nl -> v' js = v js.
Proof.
  intros H Hr. unfold extend_axis in H.
  assert (S : fold_left (step_hi dx ax (L + Z.of_nat nl)) (seq 0 nh) (fold_left (step_lo nl dx ax) (seq 0 nl) v) js = v js).
  { apply (fold_keep (fun w => w js = v js)); [apply (fold_keep (fun w => w js = v js)); [reflexivity|]|].
    - intros j y Hj E. unfold step_lo. rewrite assign_keep by lia. exact E.
    - intros j y Hj E. unfold step_hi. rewrite assign_keep by lia. exact E. }
  destruct (_ && _); [injection H as <-; exact S|]. destruct (order =? 0).
  - injection H as <-. unfold hold. destruct (0 <? nl)%nat, (0 <? nh)%nat; cbv zeta;
      repeat match goal with |- context [if ?c then _ else _] => replace c with false by lia end; reflexivity.
  - destruct (L <? 2); [injection H as <-; exact S|]. destruct (order =? 1); [|discriminate]. injection H as <-.
    apply (fold_keep (fun w => w js = v js)); [apply (fold_keep (fun w => w js = v js)); [reflexivity|]|].
    + intros j y Hj E. unfold line_lo. rewrite assign_keep by lia. exact E.
    + intros j y Hj E. unfold line_hi. rewrite assign_keep by lia. exact E.
Qed.

(** ** all axes *)
(** places with the coordinate of the axes still to do in the middle *)
Definition region (nl nh : nat) (sh : list Z) (axes todo : list nat) (js : list Z) : Prop :=
  length js = length sh /\ forall k, (k < length sh)%nat ->
    if mem k todo then Z.of_nat nl <= nth k js 0 < nth k sh 0 + Z.of_nat nl
    else 0 <= nth k js 0 < nth k (extended nl nh axes sh) 0.
(** the same without the condition on one axis *)
Definition region_but (ax : nat) (nl nh : nat) (sh : list Z) (axes todo : list nat) (js : list Z) : Prop :=
  length js = length sh /\ forall k, (k < length sh)%nat -> k <> ax ->
    if mem k todo then Z.of_nat nl <= nth k js 0 < nth k sh 0 + Z.of_nat nl
    else 0 <= nth k js 0 < nth k (extended nl nh axes sh) 0.

Lemma loop_agree nl nh dx order sh axes G : Forall (fun L => 1 <= L) sh ->
  (forall ax L v v' R, In ax axes -> nth_error sh ax = Some L -> extend_axis nl nh dx order ax L v = Some v' ->
     closed ax R -> agrees ax R v G (Z.of_nat nl) (L + Z.of_nat nl) -> agrees ax R v' G 0 (L + Z.of_nat nl + Z.of_nat nh)) ->
  forall todo v v', NoDup todo -> (forall k, In k todo -> In k axes /\ (k < length sh)%nat) ->
    (forall js, region nl nh sh axes todo js -> (v js == G js)%Q) ->
    extend_loop nl nh dx order sh todo v = Some v' ->
    forall js, region nl nh sh axes [] js -> (v' js == G js)%Q.
Proof.
  intros HL Hax. induction todo as [|ax todo IH]; intros v v' Hnd Hin Hv H js Hj.
  - injection H as <-. apply Hv. exact Hj.
  - inversion Hnd as [|? ? Nx Hnd']; subst. cbn [extend_loop] in H. destruct (nth_error sh ax) as [L|] eqn:EL; [|discriminate].
    destruct (extend_axis nl nh dx order ax L v) as [v1|] eqn:E1; [|discriminate].
    destruct (Hin ax (or_introl eq_refl)) as [Hina Hlt].
    assert (ELn : nth ax sh 0 = L) by (apply nth_error_nth; exact EL).
    assert (Hm : mem ax axes = true) by (apply mem_In; exact Hina).
    assert (Nt : mem ax todo = false) by (apply mem_notin; exact Nx).
    assert (Hext : nth ax (extended nl nh axes sh) 0 = L + Z.of_nat nl + Z.of_nat nh).
    { unfold extended. rewrite nth_map_seq by exact Hlt. rewrite Hm. lia. }
    apply (IH v1 v' Hnd'); auto.
    + intros k Hk. apply Hin. right. exact Hk.
    + intros js' [Lj Hr]. apply (Hax ax L v v1 (region_but ax nl nh sh axes todo) Hina EL E1).
      * intros js0 x [L0 H0]. split; [lia|]. split; [rewrite put_len; exact L0|]. intros k Hk Ne. rewrite nth_put_ne by exact Ne. apply H0; auto.
      * intros js0 [L0 H0] Hr0. apply Hv. split; [exact L0|]. intros k Hk. destruct (Nat.eq_dec k ax) as [->|Ne].
        -- replace (mem ax (ax :: todo)) with true by (symmetry; apply mem_In; left; reflexivity). lia.
        -- specialize (H0 k Hk Ne). replace (mem k (ax :: todo)) with (mem k todo); [exact H0|].
           unfold mem. cbn [existsb]. replace (k =? ax)%nat with false by lia. reflexivity.
      * split; [exact Lj|]. intros k Hk _. apply Hr. exact Hk.
      * specialize (Hr ax Hlt). rewrite Nt in Hr. rewrite Hext in Hr. exact Hr.
Qed.
Lemma region_all nl nh sh axes js : region nl nh sh axes [] js <-> in_shape (extended nl nh axes sh) js.
Proof. unfold region. rewrite in_shape_iff, extended_len. reflexivity. Qed.
Lemma region_middle nl nh sh axes js : region nl nh sh axes axes js -> in_shape sh (place nl axes js).
Proof.
  intros [Hl H]. apply in_shape_iff. split; [rewrite place_len; exact Hl|]. intros k Hk. rewrite nth_place by lia. specialize (H k Hk).
  destruct (mem k axes) eqn:E; [lia|]. unfold extended in H. rewrite nth_map_seq, E in H by exact Hk. exact H.
Qed.
Lemma in_shape_middle nl nh sh axes js : in_shape sh (place nl axes js) -> region nl nh sh axes axes js.
Proof.
  intros H. apply in_shape_iff in H as [Hl H]. rewrite place_len in Hl. split; [exact Hl|]. intros k Hk. specialize (H k Hk). rewrite nth_place in H by lia.
  destruct (mem k axes) eqn:E; [lia|]. unfold extended. rewrite nth_map_seq, E by exact Hk. exact H.
Qed.
Lemma loop_keep nl nh dx order sh axes : forall todo v v' js, (forall k, In k todo -> In k axes) ->
  extend_loop nl nh dx order sh todo v = Some v' -> in_shape sh (place nl axes js) -> v' js = v js.
Proof.
  induction todo as [|ax todo IH]; intros v v' js Hin H Hj; [injection H as <-; reflexivity|].
  cbn [extend_loop] in H. destruct (nth_error sh ax) as [L|] eqn:EL; [|discriminate].
  destruct (extend_axis nl nh dx order ax L v) as [v1|] eqn:E1; [|discriminate].
  rewrite (IH v1 v' js (fun k Hk => Hin k (or_intror Hk)) H Hj). apply (axis_keep _ _ _ _ _ _ _ _ _ E1).
  apply in_shape_iff in Hj as [Hl Hj]. rewrite place_len in Hl.
  assert (Hlt : (ax < length sh)%nat) by (apply nth_error_Some; congruence). specialize (Hj ax Hlt). rewrite nth_place in Hj by lia.
  replace (mem ax axes) with true in Hj by (symmetry; apply mem_In; apply Hin; left; reflexivity).
  rewrite (nth_error_nth _ _ 0 EL) in Hj. lia.
Qed.
Lemma loop_some nl nh dx order sh : order = 0 \/ order = 1 -> forall todo v, (forall k, In k todo -> (k < length sh)%nat) ->
  exists v', extend_loop nl nh dx order sh todo v = Some v'.
Proof.
  intros Ho. induction todo as [|ax todo IH]; intros v Hin; [eexists; reflexivity|]. cbn [extend_loop].
  destruct (nth_error sh ax) as [L|] eqn:EL; [|apply nth_error_None in EL; specialize (Hin ax (or_introl eq_refl)); lia].
  assert (E : exists v1, extend_axis nl nh dx order ax L v = Some v1).
  { unfold extend_axis. destruct (_ && _); [eexists; reflexivity|]. destruct Ho as [-> | ->]; cbn [Z.eqb Pos.eqb]; [eexists; reflexivity|].
    destruct (L <? 2); eexists; reflexivity. }
  destruct E as [v1 ->]. apply IH. intros k Hk. apply Hin. right. exact Hk.
Qed.

(** the axes of the array meant by space axes [axes] when [nr_comp] is the component axis *)
Definition array_axes (nr_comp : option nat) (axes : list nat) : list nat :=
  match nr_comp with None => axes | Some k => map (fun ax => if (ax <? k)%nat then ax else S ax) axes end.
Definition good_axes (arr : nd Q) (axes : list nat) : Prop :=
  NoDup axes /\ forall k, In k axes -> (k < length (shape arr))%nat.

(** ** theorems *)

(** Both orders: the array is as long as asked and the original is in the middle. *)
Theorem C38_interior : forall (arr : nd Q) nl nh dx axes nr_comp order,
  order = 0 \/ order = 1 -> good_axes arr (array_axes nr_comp axes) ->
  exists v, extend_boundaries_ndarr nl nh dx arr (AxList axes) nr_comp order = Some v /\
    shape v = extended nl nh (array_axes nr_comp axes) (shape arr) /\
    forall js, in_shape (shape arr) (place nl (array_axes nr_comp axes) js) ->
      get v js = get arr (place nl (array_axes nr_comp axes) js).
Proof.
  intros arr nl nh dx axes nr_comp order Ho [Hnd Hin]. unfold extend_boundaries_ndarr. fold (array_axes nr_comp axes).
  set (ax := array_axes nr_comp axes) in *. destruct (loop_some nl nh dx order (shape arr) Ho ax (embed nl ax arr) Hin) as [v E]. rewrite E.
  eexists. split; [reflexivity|]. cbn [shape get]. split; [apply target_extended|]. intros js Hj.
  rewrite (loop_keep nl nh dx order (shape arr) ax ax _ v js (fun k Hk => Hk) E Hj). apply embed_inner. exact Hj.
Qed.
Print Assumptions C38_interior.

(** Order 0: every new value, also at edges and corners, is that of the nearest place.
    (An axis of one place and a step [invarient_dx] that is not 0 is excluded.) *)
Theorem C38_order_0 : forall (arr : nd Q) nl nh dx axes nr_comp v,
  good_axes arr (array_axes nr_comp axes) -> Forall (fun L => 1 <= L) (shape arr) ->
  (dx == 0)%Q \/ Forall (fun L => 2 <= L) (shape arr) ->
  extend_boundaries_ndarr nl nh dx arr (AxList axes) nr_comp 0 = Some v ->
  forall js, in_shape (shape v) js ->
    (get v js == get arr (nearest (shape arr) (place nl (array_axes nr_comp axes) js)))%Q.
Proof.
  intros arr nl nh dx axes nr_comp v [Hnd Hin] HL Hdx H. unfold extend_boundaries_ndarr in H. fold (array_axes nr_comp axes) in H.
  set (axs := array_axes nr_comp axes) in *. set (sh := shape arr) in *.
  destruct (extend_loop nl nh dx 0 sh axs (embed nl axs arr)) as [v'|] eqn:E; [|discriminate]. injection H as <-.
  cbn [shape get]. rewrite target_extended. intros js Hj. apply region_all in Hj.
  set (G := fun js => get arr (nearest sh (place nl axs js))).
  assert (Nn : forall is, in_shape sh is -> nearest sh is = is).
  { intros is Hi. apply in_shape_iff in Hi as [Hl Hi]. apply nth_ext_z; unfold nearest; [rewrite map_length, seq_length; reflexivity|].
    rewrite map_length, seq_length. intros k Hk. rewrite nth_map_seq by exact Hk. specialize (Hi k ltac:(lia)). lia. }
  refine (loop_agree nl nh dx 0 sh axs G HL _ axs (embed nl axs arr) v' Hnd _ _ E js Hj).
  - intros ax L w w' R Hina EL Ew Hc Hw. unfold extend_axis in Ew.
    assert (HL1 : 1 <= L) by (rewrite Forall_forall in HL; apply HL; apply nth_error_In with ax; exact EL).
    assert (Hm : mem ax axs = true) by (apply mem_In; exact Hina).
    assert (ELn : nth ax sh 0 = L) by (apply nth_error_nth; exact EL).
    replace ((L <? 2) && negb (Qeq_bool dx 0)) with false in Ew.
    + cbn [Z.eqb] in Ew. injection Ew as <-.
      assert (Gp : forall js0 i j, Z.max 0 (Z.min (L - 1) (i - Z.of_nat nl)) = Z.max 0 (Z.min (L - 1) (j - Z.of_nat nl)) -> G (put ax i js0) = G (put ax j js0)).
      { intros js0 i j Eij. unfold G. f_equal. apply nth_ext_z; unfold nearest; rewrite ?map_length, ?seq_length, ?place_len, ?put_len; [reflexivity|].
        intros k Hk. rewrite !nth_map_seq by exact Hk. rewrite !nth_place by (rewrite put_len; exact Hk). destruct (Nat.eq_dec k ax) as [->|Ne].
        - rewrite Hm, !nth_put_eq by exact Hk. rewrite ELn. exact Eij.
        - rewrite !nth_put_ne by exact Ne. reflexivity. }
      apply hold_agree; auto.
      * intros js0 i Hi. rewrite (Gp js0 i (Z.of_nat nl)) by lia. reflexivity.
      * intros js0 i Hi. rewrite (Gp js0 i (L + Z.of_nat nl - 1)) by lia. reflexivity.
    + destruct Hdx as [Hd|Hd].
      * apply Qeq_bool_iff in Hd. rewrite Hd. symmetry. apply andb_false_r.
      * rewrite Forall_forall in Hd. specialize (Hd L (nth_error_In _ _ EL)). replace (L <? 2) with false by lia. reflexivity.
  - intros k Hk. split; [exact Hk|apply Hin; exact Hk].
  - intros js0 Hr. apply region_middle in Hr. rewrite embed_inner by exact Hr. unfold G. rewrite Nn by exact Hr. reflexivity.
Qed.
Print Assumptions C38_order_0.

(** Order 1: if the data agree with a function that is linear along every extended axis
    (and advances by [invarient_dx] along axes with one place), the extended array agrees
    with it everywhere: faces, edges and corners. *)
Theorem C38_order_1 : forall (arr : nd Q) nl nh dx axes nr_comp v (F : list Z -> Q),
  good_axes arr (array_axes nr_comp axes) -> Forall (fun L => 1 <= L) (shape arr) ->
  (forall ax, In ax (array_axes nr_comp axes) -> if nth ax (shape arr) 0 <? 2 then steps_along dx F ax else linear_along F ax) ->
  (forall is, in_shape (shape arr) is -> (get arr is == F is)%Q) ->
  extend_boundaries_ndarr nl nh dx arr (AxList axes) nr_comp 1 = Some v ->
  forall js, in_shape (shape v) js -> (get v js == F (place nl (array_axes nr_comp axes) js))%Q.
Proof.
  intros arr nl nh dx axes nr_comp v F [Hnd Hin] HL HF Harr H. unfold extend_boundaries_ndarr in H. fold (array_axes nr_comp axes) in H.
  set (axs := array_axes nr_comp axes) in *. set (sh := shape arr) in *.
  destruct (extend_loop nl nh dx 1 sh axs (embed nl axs arr)) as [v'|] eqn:E; [|discriminate]. injection H as <-.
  cbn [shape get]. rewrite target_extended. intros js Hj. apply region_all in Hj.
  refine (loop_agree nl nh dx 1 sh axs (fun js => F (place nl axs js)) HL _ axs (embed nl axs arr) v' Hnd _ _ E js Hj).
  - intros ax L w w' R Hina EL Ew Hc Hw. unfold extend_axis in Ew. cbn [Z.eqb Pos.eqb] in Ew.
    assert (HL1 : 1 <= L) by (rewrite Forall_forall in HL; apply HL; apply nth_error_In with ax; exact EL).
    assert (Hm : mem ax axs = true) by (apply mem_In; exact Hina).
    specialize (HF ax Hina). rewrite (nth_error_nth _ _ 0 EL) in HF.
    destruct (L <? 2) eqn:E2.
    + assert (Ew' : w' = fold_left (step_hi dx ax (L + Z.of_nat nl)) (seq 0 nh) (fold_left (step_lo nl dx ax) (seq 0 nl) w)).
      { destruct (true && negb (Qeq_bool dx 0)) in Ew; injection Ew as <-; reflexivity. }
      rewrite Ew'. apply steps_agree; auto. intros js0 i. rewrite !place_put by exact Hm. specialize (HF (place nl axs js0) (i - Z.of_nat nl)).
      replace (i + 1 - Z.of_nat nl) with (i - Z.of_nat nl + 1) by lia. exact HF.
    + cbn [andb] in Ew. injection Ew as <-. apply line_agree; auto; [lia|]. intros js0 i. rewrite !place_put by exact Hm.
      specialize (HF (place nl axs js0) (i - Z.of_nat nl)).
      replace (i + 1 - Z.of_nat nl) with (i - Z.of_nat nl + 1) by lia. replace (i - 1 - Z.of_nat nl) with (i - Z.of_nat nl - 1) by lia. exact HF.
  - intros k Hk. split; [exact Hk|apply Hin; exact Hk].
  - intros js0 Hr. apply region_middle in Hr. rewrite embed_inner by exact Hr. apply Harr. exact Hr.
Qed.
Print Assumptions C38_order_1.

(** Refuted for the default axes ('all') of the array function. *)
Theorem C38_default_axes_refuted : forall arr nl nh dx nr_comp order,
  extend_boundaries_ndarr nl nh dx arr AxAll nr_comp order = None.
Proof. reflexivity. Qed.
Print Assumptions C38_default_axes_refuted.

(** Refuted: order 0 does not repeat the edge of an axis with one place if
    [invarient_dx] is not 0. *)
Theorem C38_order_0_one_place_refuted :
  exists v, extend_boundaries_ndarr 1 1 (1#2) (ND [1] (fun _ => 3%Q)) (AxList [0%nat]) None 0 = Some v /\ shape v = [3] /\
    (get v [0]%Z == 5#2)%Q /\ (get v [2]%Z == 7#2)%Q.
Proof. eexists. split; [reflexivity|]. repeat split; vm_compute; reflexivity. Qed.
Print Assumptions C38_order_0_one_place_refuted.

(** The coordinates of the extended field: refuted for one cell, whose new centres are at
    distance 1 (the default step) while the nodes continue with the width of the cell. *)
Theorem C38_centres_of_one_cell_refuted :
  exists nc cc, extend_crds 1 1 1 1 (ND [2] (fun js => inject_Z (10 * hd 0 js))) (ND [1] (fun _ => 5%Q)) = Some (nc, cc) /\
    shape nc = [4] /\ shape cc = [3] /\
    (get nc [2]%Z == 10)%Q /\ (get nc [3]%Z == 20)%Q /\ (get cc [2]%Z == 6)%Q.
Proof. eexists. eexists. split; [reflexivity|]. repeat split; vm_compute; reflexivity. Qed.
Print Assumptions C38_centres_of_one_cell_refuted.
(** ... and for unequal cells: the nodes 0 1 3 become -1 0 1 3 5 but the last centre is 3.5 *)
Theorem C38_centres_of_unequal_cells_refuted :
  exists nc cc, extend_crds 1 1 1 1
      (ND [3] (fun js => match js with [0%Z] => 0 | [1%Z] => 1 | _ => 3 end)%Q)
      (ND [2] (fun js => match js with [0%Z] => 1#2 | _ => 2 end)%Q) = Some (nc, cc) /\
    (get nc [3]%Z == 3)%Q /\ (get nc [4]%Z == 5)%Q /\ (get cc [3]%Z == 7#2)%Q.
Proof. eexists. eexists. split; [reflexivity|]. repeat split; vm_compute; reflexivity. Qed.
Print Assumptions C38_centres_of_unequal_cells_refuted.

(** ** a non-trivial case *)
(** 3 components (axis 0) on a 2 x 3 grid; data 100 c + 10 x + y + x y *)
Definition data : nd Q := ND [3; 2; 3] (fun js => match js with [c; x; y] => inject_Z (100 * c + 10 * x + y + x * y) | _ => 0%Q end).
Definition Fdata (js : list Z) : Q := match js with [c; x; y] => inject_Z (100 * c + 10 * x + y + x * y) | _ => 0%Q end.
Example C38_ex : good_axes data (array_axes (Some 0%nat) [0%nat; 1%nat]) /\
  (forall ax, In ax (array_axes (Some 0%nat) [0%nat; 1%nat]) -> if nth ax (shape data) 0 <? 2 then steps_along 0 Fdata ax else linear_along Fdata ax) /\
  exists v, extend_boundaries_ndarr 2 1 0 data (AxList [0%nat; 1%nat]) (Some 0%nat) 1 = Some v /\ shape v = [3; 5; 6] /\
    (get v [1; 0; 0]%Z == 100 - 20 - 2 + 4)%Q.
Proof.
  split. { split; [repeat constructor; cbn; intuition discriminate|]. intros k [<-|[<-|[]]]; cbn; lia. }
  split.
  { intros ax [<-|[<-|[]]]; cbn [nth data shape Nat.ltb Nat.leb]; change (2 <? 2) with false; change (3 <? 2) with false; cbn iota.
    - intros js i. destruct js as [|c [|x [|y [|z js]]]]; cbn [put Fdata]; try reflexivity.
      unfold Qeq, Qminus, Qplus, Qopp, inject_Z; cbn [Qnum Qden]; rewrite ?Pos.mul_1_l, ?Z.mul_1_r; ring.
    - intros js i. destruct js as [|c [|x [|y [|z js]]]]; cbn [put Fdata]; try reflexivity.
      unfold Qeq, Qminus, Qplus, Qopp, inject_Z; cbn [Qnum Qden]; rewrite ?Pos.mul_1_l, ?Z.mul_1_r; ring. }
  eexists. split; [reflexivity|]. split; [reflexivity|]. vm_compute. reflexivity.
Qed.
