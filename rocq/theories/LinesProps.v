(** C31: preparing lines for plotting. *)
From Coq Require Import List ZArith QArith Qround Bool Arith Lia ZifyBool ZifyNat Lqa.
From Verif Require Import LinesModel LinesSpec LinesProofs.
Import ListNotations.
Local Open Scope nat_scope.

(** ** points *)
(** Every point of every line is there, in order, with its three coordinates, and
    nothing else is. *)
Theorem C31_points : forall lines rows sc dc oth r,
  prepare_lines lines rows sc dc oth = Ok r ->
  length (vertices r) = list_sum (map (@length (list Q)) lines) /\
  (forall k, k < length (vertices r) -> exists i j, numbered lines k i j) /\
  forall k i j, numbered lines k i j ->
    exists l p, nth_error lines i = Some l /\ nth_error l j = Some p /\
      nth_error (vertices r) k = Some (firstn 3 p).
Proof.
  intros lines rows sc dc oth r. unfold prepare_lines. destruct lines as [|l0 ls0]; [discriminate|].
  remember (l0 :: ls0) as lines eqn:El.
  destruct (negb _); [discriminate|]. destruct (as_matrix sc) as [g|]; [|discriminate].
  destruct (prepare_scalars _ _ _); [|discriminate]. intros [= <-]. cbn [vertices].
  split; [rewrite map_length; apply concat_length|]. split.
  - intros k. rewrite map_length. apply numbered_exists.
  - intros k i j (l & Hl & Hj & ->). exists l, (nth j l []). split; [exact Hl|].
    assert (E : nth_error l j = Some (nth j l [])) by (apply nth_error_nth'; exact Hj).
    split; [exact E|]. rewrite nth_error_map, (concat_at lines i j l Hl Hj), E. reflexivity.
Qed.
Print Assumptions C31_points.

(** ** connections *)
(** Two points are connected exactly when they follow one another on the same line, and
    each such pair is listed once. *)
Theorem C31_connections : forall lines rows sc oth r,
  prepare_lines lines rows sc true oth = Ok r ->
  exists c, connections r = Some c /\ NoDup c /\
    forall x y, In (x, y) c <-> exists i j, numbered lines x i j /\ numbered lines y i (S j).
Proof.
  intros lines rows sc oth r. unfold prepare_lines. destruct lines as [|l0 ls0]; [discriminate|].
  remember (l0 :: ls0) as lines eqn:El.
  destruct (negb _); [discriminate|]. destruct (as_matrix sc) as [g|]; [|discriminate].
  destruct (prepare_scalars _ _ _); [|discriminate]. intros [= <-]. cbn [connections].
  eexists. split; [reflexivity|]. split; [apply connect_NoDup|].
  intros x y. rewrite connect_in. split.
  - intros (k & i & j & H1 & H2 & -> & ->). exists i, j. auto.
  - intros (i & j & H1 & H2). exists x, i, j. assert (y = S x).
    { destruct H1 as (? & _ & _ & E1). destruct H2 as (? & _ & _ & E2). lia. }
    subst y. auto.
Qed.
Print Assumptions C31_connections.

(** Without the flag there is no connection list. *)
Theorem C31_no_connections : forall lines rows sc oth r,
  prepare_lines lines rows sc false oth = Ok r -> connections r = None.
Proof.
  intros lines rows sc oth r. unfold prepare_lines. destruct lines as [|l0 ls0]; [discriminate|].
  destruct (negb _); [discriminate|]. destruct (as_matrix sc) as [g|]; [|discriminate].
  destruct (prepare_scalars _ _ _); [|discriminate]. intros [= <-]. reflexivity.
Qed.
Print Assumptions C31_no_connections.

(** Lines that can be joined: at least one, all with the same number of rows. *)
Definition joinable (lines : list line) (rows : nat) : Prop :=
  lines <> [] /\ Forall (Forall (fun p => length p = rows)) lines.

Lemma joinable_true lines rows : joinable lines rows ->
  negb (forallb (forallb (fun p => length p =? rows)) lines) = false.
Proof.
  intros [_ H]. apply negb_false_iff, forallb_forall. intros l Hl. rewrite Forall_forall in H.
  apply forallb_forall. intros p Hp. specialize (H l Hl). rewrite Forall_forall in H.
  apply Nat.eqb_eq. auto.
Qed.
(** what remains once the scalars are a matrix *)
Lemma prepare_given lines rows sc dc oth m : joinable lines rows -> as_matrix sc = Ok (Some m) ->
  let npts := map (@length (list Q)) lines in
  match prepare_scalars npts (list_sum npts) (Some m) with
  | Ok so => exists r, prepare_lines lines rows sc dc oth = Ok r /\ scalars r = so
  | Err e => prepare_lines lines rows sc dc oth = Err e
  end.
Proof.
  intros J E npts. unfold prepare_lines. rewrite (joinable_true _ _ J), E. fold npts.
  destruct lines as [|l0 ls0]; [destruct J; contradiction|].
  destruct (prepare_scalars _ _ _); [|reflexivity]. eexists. split; reflexivity.
Qed.

(** ** one number per line *)
Lemma list_as_matrix xs : xs <> [] ->
  as_matrix (SList (map (fun x => [x]) xs)) = Ok (Some (M (length xs) 1 xs)).
Proof.
  intros N. destruct xs as [|x xs]; [contradiction|]. cbn [map as_matrix].
  assert (E : forallb (fun r' : list Q => length r' =? length [x]) (map (fun x => [x]) xs) = true).
  { apply forallb_forall. intros y Hy. apply in_map_iff in Hy as (z & <- & _). reflexivity. }
  rewrite E. rewrite map_length. f_equal. f_equal. f_equal.
  cbn [concat app]. f_equal. clear. induction xs; cbn; congruence.
Qed.

(** given as a row, a column, a one-dimensional array (= row), or a list of numbers *)
Definition given_as (xs : list Q) (sc : scalars_in) : Prop :=
  sc = SArr (M 1 (length xs) xs) \/ sc = SArr (M (length xs) 1 xs) \/ sc = SList (map (fun x => [x]) xs).

Lemma given_matrix xs sc : xs <> [] -> given_as xs sc ->
  as_matrix sc = Ok (Some (M 1 (length xs) xs)) \/ as_matrix sc = Ok (Some (M (length xs) 1 xs)).
Proof. intros N [->|[->| ->]]; [left|right|right]; auto. apply list_as_matrix; auto. Qed.

Theorem C31_scalar_per_line : forall lines rows sc dc oth xs,
  joinable lines rows -> length xs = length lines -> given_as xs sc ->
  exists r s, prepare_lines lines rows sc dc oth = Ok r /\ scalars r = OScal s /\
    length s = list_sum (map (@length (list Q)) lines) /\
    forall k i j, numbered lines k i j -> nth_error s k = nth_error xs i.
Proof.
  intros lines rows sc dc oth xs J HL G.
  assert (NE : xs <> []) by (destruct J as [J _]; destruct xs; [destruct lines; [contradiction|discriminate]|discriminate]).
  set (npts := map (@length (list Q)) lines).
  assert (K : forall m, (m = M 1 (length xs) xs \/ m = M (length xs) 1 xs) ->
    exists s, prepare_scalars npts (list_sum npts) (Some m) = Ok (OScal s) /\
      length s = list_sum npts /\ forall k i j, numbered lines k i j -> nth_error s k = nth_error xs i).
  { intros m Hm. cbn [prepare_scalars]. unfold broadcast.
    assert (El : length npts = length lines) by apply map_length.
    destruct (shape_is m 1 1) eqn:S1.
    - apply shape_is_true in S1. assert (L1 : length xs = 1) by (destruct Hm; subst m; cbn in S1; lia).
      destruct xs as [|x [|]]; try discriminate. eexists. split; [reflexivity|].
      split; [apply repeat_length|]. intros k i j Hk.
      assert (k < list_sum npts) by (unfold npts; rewrite <- concat_length; eapply numbered_lt; eauto).
      cbn [dat]. rewrite nth_error_repeat by auto. destruct Hk as (l & Hl & _).
      assert (i = 0). { assert (i < length lines) by (apply nth_error_Some; congruence). cbn in HL. lia. }
      subst i. destruct Hm; subst m; reflexivity.
    - assert (S2 : (shape_is m 1 (length npts) || shape_is m (length npts) 1) = true).
      { apply orb_true_iff. rewrite !shape_is_true. destruct Hm; subst m; cbn; lia. }
      rewrite S2. assert (Ed : dat m = xs) by (destruct Hm; subst m; reflexivity). rewrite Ed.
      eexists. split; [reflexivity|]. split; [apply repeat_each_length; lia|].
      intros k i j Hk. cbn [dat]. unfold npts. eapply repeat_each_at; eauto. }
  destruct (given_matrix xs sc NE G) as [E|E];
    (match type of E with as_matrix _ = Ok (Some ?m) => destruct (K m) as (s & Es & Ls & Hs); [auto|];
       pose proof (prepare_given lines rows sc dc oth m J E) as HQ end);
    cbn zeta in HQ; fold npts in HQ; rewrite Es in HQ; destruct HQ as (r & Er & Sr); exists r, s; auto.
Qed.
Print Assumptions C31_scalar_per_line.

(** ** one number per point *)
Lemma list_sum_len (lines : list line) : Forall (fun l => l <> []) lines ->
  length lines <= list_sum (map (@length (list Q)) lines).
Proof.
  intros F. induction F as [|l ls H _ IH]; cbn; [lia|].
  destruct l as [|p l]; [contradiction|]. cbn [length]. unfold list_sum in IH. lia.
Qed.
Lemma repeat_each_all_one npts : forall xs, length xs = length npts -> Forall (fun n => 1 <= n) npts ->
  list_sum npts = length npts -> repeat_each xs npts = xs.
Proof.
  induction npts as [|n npts IH]; intros [|x xs] HL F HS; cbn [length repeat_each] in *; try discriminate; auto.
  inversion F as [|? ? Hn Fn]; subst. assert (length npts <= list_sum npts).
  { clear -Fn. induction Fn; cbn in *; unfold list_sum in *; lia. }
  cbn [list_sum fold_right] in HS. assert (n = 1) by (unfold list_sum in *; lia). subst n. cbn [repeat app].
  f_equal. apply IH; [lia|auto|unfold list_sum in *; lia].
Qed.

Theorem C31_scalar_per_point : forall lines rows sc dc oth xs,
  joinable lines rows -> length xs = length (concat lines) -> given_as xs sc -> xs <> [] ->
  length xs <> length lines \/ Forall (fun l => l <> []) lines ->
  exists r, prepare_lines lines rows sc dc oth = Ok r /\ scalars r = OScal xs.
Proof.
  intros lines rows sc dc oth xs J HL G NE NN. rewrite concat_length in HL.
  set (npts := map (@length (list Q)) lines) in *.
  assert (K : forall m, (m = M 1 (length xs) xs \/ m = M (length xs) 1 xs) ->
    prepare_scalars npts (list_sum npts) (Some m) = Ok (OScal xs)).
  { intros m Hm. cbn [prepare_scalars]. unfold broadcast.
    assert (El : length npts = length lines) by apply map_length.
    assert (Ed : dat m = xs) by (destruct Hm; subst m; reflexivity).
    destruct (shape_is m 1 1) eqn:S1.
    - apply shape_is_true in S1. assert (L1 : length xs = 1) by (destruct Hm; subst m; cbn in S1; lia).
      rewrite <- HL, L1. unfold at_. rewrite Ed. destruct xs as [|x [|]]; try discriminate. reflexivity.
    - destruct (shape_is m 1 (length npts) || shape_is m (length npts) 1) eqn:S2.
      + assert (L2 : length xs = length npts).
        { apply orb_true_iff in S2. rewrite !shape_is_true in S2. destruct Hm; subst m; cbn in *; lia. }
        assert (Fn : Forall (fun n => 1 <= n) npts).
        { destruct NN as [NN|NN]; [lia|]. unfold npts. clear -NN. induction NN as [|l ls H _ IH]; cbn; constructor; auto.
          destruct l; [contradiction|cbn; lia]. }
        rewrite Ed, repeat_each_all_one by (auto; lia). reflexivity.
      + assert (S3 : (shape_is m (list_sum npts) 1 || shape_is m 1 (list_sum npts)) = true).
        { apply orb_true_iff. rewrite !shape_is_true. destruct Hm; subst m; cbn; lia. }
        rewrite S3, Ed. reflexivity. }
  destruct (given_matrix xs sc NE G) as [E|E];
    (match type of E with as_matrix _ = Ok (Some ?m) => pose proof (K m ltac:(auto)) as Es;
       pose proof (prepare_given lines rows sc dc oth m J E) as HQ end);
    cbn zeta in HQ; fold npts in HQ; rewrite Es in HQ; destruct HQ as (r & Er & Sr); exists r; auto.
Qed.
Print Assumptions C31_scalar_per_point.

(** Lines of four rows bring the numbers with them. *)
Theorem C31_scalar_in_lines : forall lines dc oth,
  joinable lines 4 -> concat lines <> [] ->
  length (concat lines) <> length lines \/ Forall (fun l => l <> []) lines ->
  exists r s, prepare_lines lines 4 SNone dc oth = Ok r /\ scalars r = OScal s /\
    forall k, nth_error s k = option_map (fun p => nth 3 p 0%Q) (nth_error (concat lines) k).
Proof.
  intros lines dc oth J NE NN.
  destruct (C31_scalar_per_point lines 4 (SArr (M 1 (length (concat lines)) (map (fun p => nth 3 p 0%Q) (concat lines))))
              dc oth (map (fun p => nth 3 p 0%Q) (concat lines)) J) as (r & Er & Sr).
  - apply map_length.
  - left. rewrite map_length. reflexivity.
  - destruct (concat lines); [contradiction|discriminate].
  - rewrite map_length. exact NN.
  - exists r, (map (fun p => nth 3 p 0%Q) (concat lines)). split; [|split; [exact Sr|intros k; apply nth_error_map]].
    rewrite <- Er. unfold prepare_lines. rewrite (joinable_true _ _ J). cbn [as_matrix Nat.ltb Nat.leb Nat.sub seq flat_map].
    rewrite app_nil_r, concat_length. reflexivity.
Qed.
Print Assumptions C31_scalar_in_lines.

(** ** one colour per line *)
Lemma rows_as_matrix w rs : rs <> [] -> Forall (fun r => length r = w) rs ->
  as_matrix (SList rs) = Ok (Some (M (length rs) w (concat rs))).
Proof.
  intros N F. destruct rs as [|r rs]; [contradiction|]. inversion F as [|? ? Hr Fr]; subst. cbn [as_matrix].
  assert (E : forallb (fun r' : list Q => length r' =? length r) rs = true).
  { apply forallb_forall. intros y Hy. rewrite Forall_forall in Fr. apply Nat.eqb_eq. auto. }
  rewrite E. reflexivity.
Qed.
Lemma concat_rows_at {A} (rs : list (list A)) w : Forall (fun r => length r = w) rs ->
  forall i c r, nth_error rs i = Some r -> c < w -> nth_error (concat rs) (i * w + c) = nth_error r c.
Proof.
  intros F. induction F as [|r0 rs H _ IH]; intros i c r Hi Hc; [destruct i; discriminate|].
  cbn [concat]. destruct i as [|i]; cbn [nth_error] in Hi.
  - injection Hi as ->. rewrite nth_error_app1 by lia. reflexivity.
  - rewrite nth_error_app2 by lia. rewrite <- (IH i c r Hi Hc). f_equal. lia.
Qed.
Lemma concat_rows_length {A} (rs : list (list A)) w : Forall (fun r => length r = w) rs ->
  length (concat rs) = length rs * w.
Proof. intros F. induction F as [|r rs H _ IH]; cbn [concat length]; [reflexivity|]. rewrite app_length. lia. Qed.

(** the broadcast matrix, when line [i] has the colour [col i] *)
Lemma colour_lines lines w (col : nat -> nat -> Q) all :
  (w = 3 \/ w = 4) -> Forall (fun l => l <> []) lines ->
  (forall x, In x all <-> exists i c, i < length lines /\ c < w /\ x = col i c) ->
  Forall (fun x => (0 <= x <= 255)%Q) all ->
  let npts := map (@length (list Q)) lines in
  let N := list_sum npts in
  exists so, finish (M w N (flat_map (fun c => repeat_each (map (fun i => col i c) (seq 0 (length lines))) npts)
                             (seq 0 w))) = Ok so /\
    exists m, so = ORgb m /\ nr m = w /\ nc m = N /\ length (dat m) = w * N /\
    forall k i j c, numbered lines k i j -> c < w -> exists z, comp m c k = Some z /\ scaled all (col i c) z.
Proof.
  intros Hw NN Hall F npts N.
  set (fl := flat_map _ _).
  assert (HR : forall c, In c (seq 0 w) ->
    length (repeat_each (map (fun i => col i c) (seq 0 (length lines))) npts) = N).
  { intros c _. apply repeat_each_length. rewrite map_length, seq_length. unfold npts. rewrite map_length. reflexivity. }
  assert (HAt : forall k i j c, numbered lines k i j -> c < w -> nth_error fl (c * N + k) = Some (col i c)).
  { intros k i j c Hk Hc. assert (KN : k < N) by (unfold N, npts; rewrite <- concat_length; eapply numbered_lt; eauto).
    unfold fl. rewrite (flat_map_at _ N _ c k c); [|exact HR|apply nth_error_seq'; auto|exact KN].
    unfold npts. rewrite (repeat_each_at lines _ k i j); [|rewrite map_length, seq_length; reflexivity|exact Hk].
    destruct Hk as (l & Hl & _). assert (i < length lines) by (apply nth_error_Some; congruence).
    rewrite nth_error_map, nth_error_seq' by auto. reflexivity. }
  assert (Lf : length fl = w * N).
  { unfold fl. rewrite (flat_map_length_const _ N); [rewrite seq_length; reflexivity|exact HR]. }
  assert (HIn : forall x, In x fl <-> In x all).
  { intros x. rewrite Hall. split.
    - intros Hx. apply In_nth_error in Hx as [p Hp]. assert (P : p < w * N) by (rewrite <- Lf; apply nth_error_Some; congruence).
      assert (N <> 0) by (intros E0; rewrite E0 in P; lia).
      pose proof (Nat.div_mod p N H) as D. pose proof (Nat.mod_upper_bound p N H) as B.
      assert (p / N < w) by (apply Nat.div_lt_upper_bound; lia).
      destruct (numbered_exists lines (p mod N)) as (i & j & Hk); [rewrite concat_length; fold npts; fold N; exact B|].
      pose proof (HAt _ _ _ (p / N) Hk H0) as E. rewrite Nat.mul_comm, <- D in E. rewrite E in Hp. injection Hp as <-.
      exists i, (p / N). split; [|split; [auto|reflexivity]]. destruct Hk as (l & Hl & _). apply nth_error_Some; congruence.
    - intros (i & c & Hi & Hc & ->).
      destruct (nth_error lines i) as [l|] eqn:El; [|apply nth_error_None in El; lia].
      assert (Hl : l <> []) by (rewrite Forall_forall in NN; apply NN; eapply nth_error_In; eauto).
      eapply nth_error_In. apply (HAt (length (concat (firstn i lines)) + 0) i 0 c); [|exact Hc].
      exists l. split; [auto|]. split; [destruct l; [contradiction|cbn; lia]|reflexivity]. }
  destruct (finish_rgb (M w N fl) ltac:(cbn; auto) Lf) as (o & Eo & O1 & O2 & O3 & O4).
  { cbn [dat]. apply Forall_forall. intros x Hx. apply HIn in Hx. rewrite Forall_forall in F. auto. }
  exists (ORgb o). split; [exact Eo|]. exists o. cbn [nr nc dat] in *. split; [reflexivity|]. split; [exact O1|].
  split; [exact O2|]. split; [lia|].
  intros k i j c Hk Hc. destruct (O4 _ _ (HAt k i j c Hk Hc)) as (z & Ez & Sz). exists z.
  split; [unfold comp; rewrite O2; exact Ez|]. destruct Sz as [S1 S2]. split.
  - intros Fa. apply S1. apply Forall_forall. intros x Hx. apply HIn in Hx. rewrite Forall_forall in Fa. auto.
  - intros Ea. apply S2. apply Exists_exists in Ea as (x & Hx & Lx). apply Exists_exists. exists x.
    split; [apply HIn; auto|auto].
Qed.

(** All points of a line get the colour of the line.  [cols] are the colours, [w] is 3
    (rgb) or 4 (rgba).  (A single line with as many points as a colour has components is
    taken as having one number per point.) *)
Theorem C31_colour_per_line : forall lines rows sc dc oth w cols,
  joinable lines rows -> Forall (fun l => l <> []) lines ->
  (w = 3 \/ w = 4) -> length cols = length lines -> Forall (fun c => length c = w) cols ->
  Forall (Forall (fun x => (0 <= x <= 255)%Q)) cols ->
  (length lines = 1 -> length (concat lines) <> w) ->
  sc = SArr (M (length lines) w (concat cols)) \/ sc = SList cols ->
  exists r m, prepare_lines lines rows sc dc oth = Ok r /\ scalars r = ORgb m /\
    nr m = w /\ nc m = length (concat lines) /\ length (dat m) = w * length (concat lines) /\
    forall k i j c, numbered lines k i j -> c < w ->
      exists col x z, nth_error cols i = Some col /\ nth_error col c = Some x /\
        comp m c k = Some z /\ scaled (concat cols) x z.
Proof.
  intros lines rows sc dc oth w cols J NN Hw HL FW FR H1 G.
  assert (NE : cols <> []) by (destruct J as [J _]; destruct cols; [destruct lines; [contradiction|discriminate]|discriminate]).
  set (nl := length lines) in *. set (m := M nl w (concat cols)).
  assert (E : as_matrix sc = Ok (Some m)).
  { destruct G as [->| ->]; [reflexivity|]. rewrite (rows_as_matrix w) by auto. rewrite HL. reflexivity. }
  pose proof (prepare_given lines rows sc dc oth m J E) as HQ. cbn zeta in HQ. cbn [prepare_scalars] in HQ.
  pose proof (concat_rows_length cols w FW) as LC.
  assert (Npos : 1 <= nl) by (unfold nl; destruct J as [J _]; destruct lines; [contradiction|cbn; lia]).
  rewrite concat_length in *. set (npts := map (@length (list Q)) lines) in *. set (N := list_sum npts) in *.
  assert (Lnp : length npts = nl) by (unfold npts, nl; apply map_length).
  assert (B : broadcast npts N m = Ok (M w N (flat_map (fun c => repeat_each (map (fun i => at_ m i c) (seq 0 nl)) npts) (seq 0 w)))).
  { unfold broadcast. rewrite Lnp.
    rewrite (shape_is_false m 1 1) by (cbn; lia). rewrite (shape_is_false m 1 nl) by (cbn; lia).
    rewrite (shape_is_false m nl 1) by (cbn; lia). rewrite (shape_is_false m N 1) by (cbn; lia).
    rewrite (shape_is_false m 1 N) by (cbn; lia). cbn [orb].
    assert (S4 : (shape_is m 3 nl || shape_is m nl 3 || shape_is m 4 nl || shape_is m nl 4) = true).
    { rewrite !orb_true_iff, !shape_is_true. cbn. lia. }
    rewrite S4.
    assert (S5 : ((shape_is m 3 nl || shape_is m 4 nl) && negb (shape_is m 3 3 || shape_is m 4 4)) = false).
    { apply andb_false_iff. rewrite negb_false_iff, orb_true_iff, orb_false_iff, !shape_is_true.
      destruct (Nat.eq_dec w nl) as [Ew|Nw].
      - right. cbn. lia.
      - left. split; apply shape_is_false; cbn; lia. }
    rewrite S5. cbn [nc m]. reflexivity. }
  rewrite B in HQ. clear B.
  destruct (colour_lines lines w (fun i c => at_ m i c) (concat cols) Hw NN) as (so & Eso & mo & Emo & O1 & O2 & O3 & O4).
  { intros x. fold nl. split.
    - intros Hx. apply In_nth_error in Hx as [p Hp].
      assert (P : p < nl * w) by (rewrite <- HL, <- LC; apply nth_error_Some; congruence).
      pose proof (Nat.div_mod p w ltac:(lia)) as D. pose proof (Nat.mod_upper_bound p w ltac:(lia)) as Bd.
      exists (p / w), (p mod w). split; [apply Nat.div_lt_upper_bound; lia|]. split; [exact Bd|].
      pose proof (at_some m (p / w) (p mod w)) as A. cbn [nr nc dat m] in A.
      assert (D' : p / w * w + p mod w = p) by (rewrite D at 3; ring). rewrite D' in A. rewrite A in Hp; [congruence|apply Nat.div_lt_upper_bound; lia|exact Bd|lia].
    - intros (i & c & Hi & Hc & ->). eapply nth_error_In. apply (at_some m i c); cbn; lia. }
  { clear -FR. induction FR as [|c cs H _ IH]; cbn [concat]; [constructor|]. apply Forall_app. auto. }
  fold npts N nl in Eso, O2, O3. rewrite Eso in HQ. destruct HQ as (r & Er & Sr). exists r, mo.
  split; [exact Er|]. split; [congruence|]. split; [exact O1|]. split; [exact O2|]. split; [exact O3|].
  intros k i j c Hk Hc. destruct (O4 k i j c Hk Hc) as (z & Ez & Sz).
  assert (Hi : i < nl) by (destruct Hk as (l & Hl & _); apply nth_error_Some; congruence).
  destruct (nth_error cols i) as [col|] eqn:Ec; [|apply nth_error_None in Ec; lia].
  assert (Lc : length col = w) by (rewrite Forall_forall in FW; apply FW; eapply nth_error_In; eauto).
  exists col, (at_ m i c), z. split; [reflexivity|]. split; [|split; [exact Ez|exact Sz]].
  rewrite <- (concat_rows_at cols w FW i c col Ec Hc). apply (at_some m i c); cbn; lia.
Qed.
Print Assumptions C31_colour_per_line.

(** The same with one column for each line (unless there are as many lines as
    components, when the array is read by rows). *)
Lemma transpose_at m i c : i < nc m -> c < nr m -> at_ (transpose m) i c = at_ m c i.
Proof.
  intros Hi Hc. unfold at_ at 1, transpose. cbn [dat nc].
  apply nth_error_nth. rewrite (flat_map_at _ (nr m) (seq 0 (nc m)) i c i).
  - rewrite nth_error_map, nth_error_seq' by auto. reflexivity.
  - intros; rewrite map_length, seq_length; reflexivity.
  - rewrite nth_error_seq' by auto. reflexivity.
  - exact Hc.
Qed.
Theorem C31_colour_per_line_columns : forall lines rows dc oth w xs,
  joinable lines rows -> Forall (fun l => l <> []) lines ->
  (w = 3 \/ w = 4) -> length xs = w * length lines -> length lines <> w ->
  Forall (fun x => (0 <= x <= 255)%Q) xs ->
  (length lines = 1 -> length (concat lines) <> w) ->
  exists r m, prepare_lines lines rows (SArr (M w (length lines) xs)) dc oth = Ok r /\ scalars r = ORgb m /\
    nr m = w /\ nc m = length (concat lines) /\
    forall k i j c, numbered lines k i j -> c < w ->
      exists x z, nth_error xs (c * length lines + i) = Some x /\ comp m c k = Some z /\ scaled xs x z.
Proof.
  intros lines rows dc oth w xs J NN Hw HL Nw FR H1.
  set (nl := length lines) in *. set (m := M w nl xs).
  pose proof (prepare_given lines rows (SArr m) dc oth m J eq_refl) as HQ. cbn zeta in HQ. cbn [prepare_scalars] in HQ.
  assert (Npos : 1 <= nl) by (unfold nl; destruct J as [J _]; destruct lines; [contradiction|cbn; lia]).
  rewrite concat_length in *. set (npts := map (@length (list Q)) lines) in *. set (N := list_sum npts) in *.
  assert (Lnp : length npts = nl) by (unfold npts, nl; apply map_length).
  assert (NN1 : nl <= N) by (apply list_sum_len; exact NN).
  assert (B : broadcast npts N m = Ok (M w N (flat_map (fun c => repeat_each (map (fun i => at_ (transpose m) i c) (seq 0 nl)) npts) (seq 0 w)))).
  { unfold broadcast. rewrite Lnp.
    rewrite (shape_is_false m 1 1) by (cbn; lia). rewrite (shape_is_false m 1 nl) by (cbn; lia).
    rewrite (shape_is_false m nl 1) by (cbn; lia). rewrite (shape_is_false m N 1) by (cbn; lia).
    rewrite (shape_is_false m 1 N) by (cbn; lia). cbn [orb].
    assert (S4 : (shape_is m 3 nl || shape_is m nl 3 || shape_is m 4 nl || shape_is m nl 4) = true).
    { rewrite !orb_true_iff, !shape_is_true. cbn. lia. }
    rewrite S4.
    assert (S5 : ((shape_is m 3 nl || shape_is m 4 nl) && negb (shape_is m 3 3 || shape_is m 4 4)) = true).
    { apply andb_true_iff. rewrite negb_true_iff, orb_true_iff, orb_false_iff, !shape_is_true.
      split; [cbn; lia|]. split; apply shape_is_false; cbn; lia. }
    rewrite S5. reflexivity. }
  rewrite B in HQ. clear B.
  destruct (colour_lines lines w (fun i c => at_ (transpose m) i c) xs Hw NN) as (so & Eso & mo & Emo & O1 & O2 & O3 & O4).
  { intros x. fold nl. split.
    - intros Hx. apply In_nth_error in Hx as [p Hp].
      assert (P : p < w * nl) by (rewrite <- HL; apply nth_error_Some; congruence).
      pose proof (Nat.div_mod p nl ltac:(lia)) as D. pose proof (Nat.mod_upper_bound p nl ltac:(lia)) as Bd.
      assert (Dl : p / nl < w) by (apply Nat.div_lt_upper_bound; lia).
      exists (p mod nl), (p / nl). split; [exact Bd|]. split; [exact Dl|].
      rewrite transpose_at by (cbn; auto).
      pose proof (at_some m (p / nl) (p mod nl)) as A. cbn [nr nc dat m] in A.
      assert (D' : p / nl * nl + p mod nl = p) by (rewrite D at 3; ring). rewrite D' in A.
      rewrite A in Hp; [congruence|exact Dl|exact Bd|lia].
    - intros (i & c & Hi & Hc & ->). rewrite transpose_at by (cbn; auto).
      eapply nth_error_In. apply (at_some m c i); cbn; lia. }
  { exact FR. }
  fold npts N nl in Eso, O2, O3. rewrite Eso in HQ. destruct HQ as (r & Er & Sr). exists r, mo.
  split; [exact Er|]. split; [congruence|]. split; [exact O1|]. split; [exact O2|].
  intros k i j c Hk Hc. destruct (O4 k i j c Hk Hc) as (z & Ez & Sz).
  assert (Hi : i < nl) by (destruct Hk as (l & Hl & _); apply nth_error_Some; congruence).
  rewrite transpose_at in Sz by (cbn; auto).
  exists (at_ m c i), z. split; [apply (at_some m c i); cbn; lia|]. split; [exact Ez|exact Sz].
Qed.
Print Assumptions C31_colour_per_line_columns.

(** ** the same colour for all *)
Theorem C31_single_colour : forall lines rows sc dc oth w col,
  joinable lines rows -> concat lines <> [] -> (w = 3 \/ w = 4) -> length col = w ->
  Forall (fun x => (0 <= x <= 255)%Q) col -> length lines <> 1 ->
  length lines <> w -> length (concat lines) <> w ->
  sc = SArr (M 1 w col) \/ sc = SArr (M w 1 col) \/ sc = SList (map (fun x => [x]) col) \/ sc = SList [col] ->
  length (concat lines) <> 1 ->
  exists r, prepare_lines lines rows sc dc oth = Ok r /\
    is_colouring (scalars r) w (length (concat lines)) col (fun c _ => nth_error col c).
Proof.
  intros lines rows sc dc oth w col J NE Hw HL F L1 Lw Nw G N1.
  assert (Hm : exists m, as_matrix sc = Ok (Some m) /\ dat m = col /\ (nr m = 1 /\ nc m = w \/ nr m = w /\ nc m = 1)).
  { destruct G as [->|[->|[->| ->]]].
    - eexists. split; [reflexivity|]. cbn. auto.
    - eexists. split; [reflexivity|]. cbn. auto.
    - rewrite list_as_matrix by (intros ->; cbn in HL; lia). eexists. split; [reflexivity|]. cbn [dat nr nc]. split; [reflexivity|lia].
    - rewrite (rows_as_matrix w) by (discriminate || (constructor; [auto|constructor])).
      eexists. split; [reflexivity|]. cbn [dat nr nc concat length]. rewrite app_nil_r. auto. }
  destruct Hm as (m & E & Ed & Hs).
  pose proof (prepare_given lines rows sc dc oth m J E) as HQ. cbn zeta in HQ. cbn [prepare_scalars] in HQ.
  rewrite concat_length in *. set (npts := map (@length (list Q)) lines) in *. set (N := list_sum npts) in *.
  set (nl := length lines) in *.
  assert (Lnp : length npts = nl) by (unfold npts, nl; apply map_length).
  assert (Nl0 : nl <> 0) by (unfold nl; destruct J as [J _]; destruct lines; [contradiction|discriminate]).
  assert (N0 : N <> 0).
  { unfold N, npts. rewrite <- concat_length. destruct (concat lines); [contradiction|discriminate]. }
  assert (B : broadcast npts N m = Ok (M w N (flat_map (fun x => repeat x N) col))).
  { unfold broadcast. rewrite Lnp.
    rewrite (shape_is_false m 1 1) by lia. rewrite (shape_is_false m 1 nl) by lia.
    rewrite (shape_is_false m nl 1) by lia. rewrite (shape_is_false m N 1) by lia.
    rewrite (shape_is_false m 1 N) by lia.
    rewrite (shape_is_false m 3 nl) by lia. rewrite (shape_is_false m nl 3) by lia.
    rewrite (shape_is_false m 4 nl) by lia. rewrite (shape_is_false m nl 4) by lia.
    rewrite (shape_is_false m 3 N) by lia. rewrite (shape_is_false m N 3) by lia.
    rewrite (shape_is_false m 4 N) by lia. rewrite (shape_is_false m N 4) by lia. cbn [orb].
    assert (S : (shape_is m 1 3 || shape_is m 3 1 || shape_is m 1 4 || shape_is m 4 1) = true).
    { rewrite !orb_true_iff, !shape_is_true. lia. }
    rewrite S, Ed. do 2 f_equal. nia. }
  rewrite B in HQ. clear B. set (bm := M w N (flat_map (fun x => repeat x N) col)) in *.
  assert (Lf : length (dat bm) = nr bm * nc bm).
  { cbn. rewrite (flat_map_length_const _ N); [lia|]. intros; apply repeat_length. }
  assert (HAt : forall c k, c < w -> k < N -> nth_error (dat bm) (c * N + k) = nth_error col c).
  { intros c k Hc Hk. destruct (nth_error col c) as [x|] eqn:Ec; [|apply nth_error_None in Ec; lia].
    cbn [dat bm]. rewrite (flat_map_at _ N col c k x); [apply nth_error_repeat; auto|intros; apply repeat_length|auto|auto]. }
  assert (HIn : forall x, In x (dat bm) <-> In x col).
  { intros x. cbn [dat bm]. rewrite in_flat_map. split.
    - intros (y & Hy & Hx). apply repeat_spec in Hx. subst; auto.
    - intros Hx. exists x. split; [auto|]. destruct N; [contradiction|]. left. reflexivity. }
  destruct (finish_rgb bm) as (o & Eo & O1 & O2 & O3 & O4); [exact Hw|exact Lf| |].
  { apply Forall_forall. intros x Hx. apply HIn in Hx. rewrite Forall_forall in F. auto. }
  rewrite Eo in HQ. destruct HQ as (r & Er & Sr). exists r. split; [exact Er|]. exists o. split; [exact Sr|].
  split; [exact O1|]. split; [exact O2|]. split; [rewrite O3, Lf; reflexivity|].
  intros c k Hc Hk. destruct (nth_error col c) as [x|] eqn:Ec; [|apply nth_error_None in Ec; lia].
  destruct (O4 (c * N + k) x) as (z & Ez & S1 & S2); [rewrite HAt by auto; exact Ec|]. exists x, z.
  split; [reflexivity|]. split; [unfold comp; rewrite O2; exact Ez|]. split.
  - intros Fa. apply S1. apply Forall_forall. intros y Hy. apply HIn in Hy. rewrite Forall_forall in Fa. auto.
  - intros Ea. apply S2. apply Exists_exists in Ea as (y & Hy & Ly). apply Exists_exists. exists y.
    split; [apply HIn; auto|auto].
Qed.
Print Assumptions C31_single_colour.

(** ** other arrays *)
Theorem C31_other_per_line : forall lines rows sc dc oth r key m,
  prepare_lines lines rows sc dc oth = Ok r -> In (key, m) oth ->
  (nr m = 1 /\ nc m = length lines \/ nr m = length lines /\ nc m = 1) -> length (dat m) = length lines ->
  exists m', In (key, m') (others r) /\ nr m' = 1 /\ nc m' = length (concat lines) /\
    forall k i j, numbered lines k i j -> nth_error (dat m') k = nth_error (dat m) i.
Proof.
  intros lines rows sc dc oth r key m. unfold prepare_lines. destruct lines as [|l0 ls0]; [discriminate|].
  remember (l0 :: ls0) as lines eqn:El.
  destruct (negb _); [discriminate|]. destruct (as_matrix sc) as [g|]; [|discriminate].
  destruct (prepare_scalars _ _ _); [|discriminate]. intros [= <-] Hin Hs HL. cbn [others].
  set (npts := map (@length (list Q)) lines).
  exists (M 1 (list_sum npts) (repeat_each (dat m) npts)). split.
  - apply in_map_iff. exists (key, m). split; [|exact Hin]. cbn [fst snd]. f_equal. unfold prepare_other1.
    assert (S : (shape_is m 1 (length npts) || shape_is m (length npts) 1) = true).
    { unfold npts. rewrite map_length, orb_true_iff, !shape_is_true. lia. }
    rewrite S. reflexivity.
  - split; [reflexivity|]. split; [cbn [nc]; rewrite concat_length; reflexivity|].
    intros k i j Hk. cbn [dat]. unfold npts. eapply repeat_each_at; eauto.
Qed.
Print Assumptions C31_other_per_line.

(** ** where it fails *)
(** One colour per point, whichever way it is given, is always an error, unless there
    are 1, 3 or 4 points or as many points as lines. *)
Theorem C31_colour_per_point_refuted : forall lines rows m dc oth,
  joinable lines rows ->
  let N := length (concat lines) in
  ~ In N [1; 3; 4; length lines] ->
  (nr m = 3 \/ nr m = 4) /\ nc m = N \/ (nc m = 3 \/ nc m = 4) /\ nr m = N ->
  length lines <> N ->
  prepare_lines lines rows (SArr m) dc oth = Err ValueE.
Proof.
  intros lines rows m dc oth J N HN Hs HL. cbn [In] in HN.
  pose proof (prepare_given lines rows (SArr m) dc oth m J eq_refl) as HQ. cbn zeta in HQ. cbn [prepare_scalars] in HQ.
  unfold N in *. rewrite concat_length in *. set (npts := map (@length (list Q)) lines) in *. clear N. set (N := list_sum npts) in *.
  set (nl := length lines) in *.
  assert (Lnp : length npts = nl) by (unfold npts, nl; apply map_length).
  assert (Nl0 : nl <> 0) by (unfold nl; destruct J as [J _]; destruct lines; [contradiction|discriminate]).
  assert (B : exists b, broadcast npts N m = Ok b /\ nr b = N).
  { unfold broadcast. rewrite Lnp.
    rewrite (shape_is_false m 1 1) by lia. rewrite (shape_is_false m 1 nl) by lia.
    rewrite (shape_is_false m nl 1) by lia. rewrite (shape_is_false m N 1) by lia.
    rewrite (shape_is_false m 1 N) by lia.
    rewrite (shape_is_false m 3 nl) by lia. rewrite (shape_is_false m nl 3) by lia.
    rewrite (shape_is_false m 4 nl) by lia. rewrite (shape_is_false m nl 4) by lia. cbn [orb].
    assert (S : (shape_is m 3 N || shape_is m N 3 || shape_is m 4 N || shape_is m N 4) = true).
    { rewrite !orb_true_iff, !shape_is_true. lia. }
    rewrite S. rewrite (shape_is_false m 3 3), (shape_is_false m 4 4) by lia. cbn [orb negb]. rewrite andb_true_r.
    eexists. split; [reflexivity|]. destruct (shape_is m 3 N || shape_is m 4 N) eqn:S2.
    - apply orb_true_iff in S2. rewrite !shape_is_true in S2. cbn. lia.
    - apply orb_false_iff in S2 as [S2 S3]. destruct Hs as [[H1 H2]|[_ H2]]; [|exact H2]. exfalso.
      destruct H1 as [H1|H1].
      + assert (K : shape_is m 3 N = true) by (apply shape_is_true; auto). congruence.
      + assert (K : shape_is m 4 N = true) by (apply shape_is_true; auto). congruence. }
  destruct B as (b & -> & Nb) in HQ. unfold finish in HQ.
  destruct (Nat.eqb_spec (nr b) 1); [lia|]. destruct (Nat.eqb_spec (nr b) 3); [lia|].
  destruct (Nat.eqb_spec (nr b) 4); [lia|]. cbn [orb] in HQ. exact HQ.
Qed.
Print Assumptions C31_colour_per_point_refuted.

(** In particular the documented lines of six rows (points and colours) never work. *)
Theorem C31_six_rows_refuted : forall lines dc oth,
  joinable lines 6 -> ~ In (length (concat lines)) [1; 3; 4; length lines] ->
  prepare_lines lines 6 SNone dc oth = Err ValueE.
Proof.
  intros lines dc oth J HN.
  rewrite <- (C31_colour_per_point_refuted lines 6
    (M 3 (length (concat lines)) (flat_map (fun c => map (fun p => nth c p 0%Q) (concat lines)) (seq 3 3))) dc oth J HN).
  - unfold prepare_lines. rewrite concat_length. reflexivity.
  - left. cbn. auto.
  - intros E. apply HN. cbn. auto.
Qed.
Print Assumptions C31_six_rows_refuted.

(** Three points with a colour each, given as a list of colours: the components are
    mixed up. *)
Theorem C31_three_points_refuted :
  exists lines r, joinable lines 3 /\
    prepare_lines lines 3 (SList [[1; 0; 0]; [1; 0; 0]; [1; 0; 0]]%Q) false [] = Ok r /\
    exists m, scalars r = ORgb m /\ comp m 0 0 = Some 255%Z /\ comp m 1 0 = Some 255%Z /\ comp m 2 0 = Some 255%Z.
Proof.
  exists [[[0;0;0];[1;0;0]]; [[0;0;1]]]%Q. eexists. split.
  - split; [discriminate|]. repeat constructor.
  - split; [vm_compute; reflexivity|]. eexists. split; [reflexivity|]. repeat split.
Qed.
Print Assumptions C31_three_points_refuted.

(** A component just below 256 becomes 0. *)
Theorem C31_byte_wraps_refuted :
  exists lines r m, joinable lines 3 /\
    prepare_lines lines 3 (SList [[511 # 2; 0; 0]; [0; 0; 0]]%Q) false [] = Ok r /\
    scalars r = ORgb m /\ comp m 0 0 = Some 0%Z.
Proof.
  exists [[[0;0;0];[1;0;0]]; [[0;0;1];[0;1;0]]]%Q. do 2 eexists. split.
  - split; [discriminate|]. repeat constructor.
  - split; [vm_compute; reflexivity|]. split; reflexivity.
Qed.
Print Assumptions C31_byte_wraps_refuted.

(** A tuple (a documented way to give one colour) is a TypeError. *)
Theorem C31_tuple_refuted : forall lines rows dc oth t ts,
  joinable lines rows -> prepare_lines lines rows (STuple (t :: ts)) dc oth = Err TypeE.
Proof.
  intros lines rows dc oth t ts J. unfold prepare_lines. rewrite (joinable_true _ _ J).
  destruct lines; [destruct J; contradiction|]. reflexivity.
Qed.
Print Assumptions C31_tuple_refuted.

(** ** the hypotheses can be met *)
Definition ex_lines : list line := [[[0;0;0];[1;0;0]]; [[5;5;5]]; [[0;1;0];[0;2;0];[0;3;0]]]%Q.
Example C31_ex_joinable : joinable ex_lines 3 /\ Forall (fun l => l <> []) ex_lines.
Proof.
  split; [split; [discriminate|]|]; repeat constructor; discriminate.
Qed.
Example C31_ex_scalars :
  prepare_lines ex_lines 3 (SList [[7]; [8]; [9]]%Q) true [] =
  Ok (P (concat ex_lines) (OScal [7;7;8;9;9;9]%Q) (Some [(0,1); (3,4); (4,5)]) []).
Proof. vm_compute. reflexivity. Qed.
Example C31_ex_colours :
  exists r, prepare_lines ex_lines 3 (SList [[1;0;0]; [0;1;0]; [0;0;1]]%Q) false [] = Ok r /\
  scalars r = ORgb (M 3 6 [255;255;0;0;0;0; 0;0;255;0;0;0; 0;0;0;255;255;255]%Z).
Proof. eexists. split; vm_compute; reflexivity. Qed.
Example C31_ex_refuted : ~ In (length (concat ex_lines)) [1; 3; 4; length ex_lines].
Proof. cbn. lia. Qed.
