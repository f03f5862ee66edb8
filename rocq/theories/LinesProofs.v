(** Lemmas about [prepare_lines]. *)
From Coq Require Import List ZArith QArith Qround Bool Arith Lia ZifyBool ZifyNat Lqa.
From Verif Require Import LinesModel LinesSpec.
Import ListNotations.
Local Open Scope nat_scope.

Lemma shape_is_true {A} (m : mat A) r c : shape_is m r c = true <-> nr m = r /\ nc m = c.
Proof. unfold shape_is. rewrite andb_true_iff, !Nat.eqb_eq. tauto. Qed.
Lemma shape_is_false {A} (m : mat A) r c : nr m <> r \/ nc m <> c -> shape_is m r c = false.
Proof.
  intros H. destruct (shape_is m r c) eqn:E; [|reflexivity]. apply shape_is_true in E. lia.
Qed.

(** ** numbering *)
Lemma concat_length {A} (l : list (list A)) : length (concat l) = list_sum (map (@length A) l).
Proof. induction l; cbn; rewrite ?app_length; auto. Qed.
Lemma numbered_lt lines k i j : numbered lines k i j -> k < length (concat lines).
Proof.
  intros (l & Hl & Hj & ->). apply nth_error_split in Hl as (l1 & l2 & -> & E).
  rewrite firstn_app, firstn_all2, <- E, Nat.sub_diag by lia. cbn [firstn]. rewrite app_nil_r.
  rewrite concat_app, app_length. cbn [concat]. rewrite app_length. lia.
Qed.
Lemma numbered_exists lines : forall k, k < length (concat lines) -> exists i j, numbered lines k i j.
Proof.
  induction lines as [|l lines IH]; intros k H; cbn [concat length] in H; [lia|].
  rewrite app_length in H. destruct (Nat.lt_ge_cases k (length l)) as [L|L].
  - exists 0, k. exists l. cbn. auto.
  - destruct (IH (k - length l)) as (i & j & l' & Hl & Hj & E); [lia|].
    exists (S i), j, l'. split; [exact Hl|]. split; [exact Hj|]. cbn [firstn concat].
    rewrite app_length. lia.
Qed.
Lemma numbered_unique lines : forall k i j i' j', numbered lines k i j -> numbered lines k i' j' ->
  i = i' /\ j = j'.
Proof.
  induction lines as [|l lines IH]; intros k i j i' j' (a & Ha & Hj & E) (b & Hb & Hj' & E').
  - destruct i; discriminate.
  - destruct i as [|i], i' as [|i']; cbn [nth_error firstn concat length] in *.
    + lia.
    + injection Ha as ->. rewrite app_length in E'. lia.
    + injection Hb as ->. rewrite app_length in E. lia.
    + rewrite app_length in E, E'. destruct (IH (k - length l) i j i' j') as [-> ->]; [| |auto].
      * exists a. split; [auto|]. split; [auto|lia].
      * exists b. split; [auto|]. split; [auto|lia].
Qed.
Lemma concat_at {A} (lines : list (list A)) : forall i j l, nth_error lines i = Some l -> j < length l ->
  nth_error (concat lines) (length (concat (firstn i lines)) + j) = nth_error l j.
Proof.
  induction lines as [|x lines IH]; intros [|i] j l Hl Hj; cbn [nth_error firstn concat length] in *; try discriminate.
  - injection Hl as ->. rewrite nth_error_app1 by lia. reflexivity.
  - rewrite app_length, nth_error_app2 by lia. rewrite <- (IH i j l Hl Hj). f_equal. lia.
Qed.

(** ** repeating one value per line *)
Lemma repeat_each_length npts : forall xs, length xs = length npts -> length (repeat_each xs npts) = list_sum npts.
Proof.
  induction npts as [|n npts IH]; intros [|x xs] H; cbn [repeat_each length list_sum fold_right] in *; try discriminate; auto.
  rewrite app_length, repeat_length, IH by lia. reflexivity.
Qed.
Lemma repeat_each_at (lines : list line) : forall xs k i j, length xs = length lines -> numbered lines k i j ->
  nth_error (repeat_each xs (map (@length (list Q)) lines)) k = nth_error xs i.
Proof.
  induction lines as [|l lines IH]; intros [|x xs] k i j H (l' & Hl & Hj & ->);
    cbn [length] in H; try discriminate; [destruct i; discriminate|].
  cbn [map repeat_each]. destruct i as [|i]; cbn [nth_error firstn concat length] in *.
  - injection Hl as ->. rewrite nth_error_app1 by (rewrite repeat_length; lia).
    rewrite nth_error_repeat by lia. reflexivity.
  - rewrite app_length, nth_error_app2; rewrite repeat_length; [|lia].
    rewrite <- (IH xs (length (concat (firstn i lines)) + j) i j).
    + f_equal. lia.
    + lia.
    + exists l'. auto.
Qed.

(** ** connections *)
Lemma combine_seq n : forall a b x y, In (x, y) (combine (seq a n) (seq b n)) <->
  exists d, d < n /\ x = a + d /\ y = b + d.
Proof.
  induction n as [|n IH]; intros a b x y; cbn [seq combine].
  - split; [intros []|]. intros (d & Hd & _). lia.
  - cbn [In]. rewrite IH. split.
    + intros [[= <- <-]|(d & Hd & -> & ->)]; [exists 0; lia|exists (S d); lia].
    + intros ([|d] & Hd & -> & ->); [left; f_equal; lia|]. right. exists d. lia.
Qed.
Lemma connect_in (lines : list line) : forall o x y,
  In (x, y) (connect (offsets o (map (@length (list Q)) lines)) (map (@length (list Q)) lines)) <->
  exists k i j, numbered lines k i j /\ numbered lines (S k) i (S j) /\ x = o + k /\ y = o + S k.
Proof.
  induction lines as [|l lines IH]; intros o x y.
  - cbn. split; [intros []|]. intros (k & i & j & (l & Hl & _) & _). destruct i; discriminate.
  - cbn [map offsets connect]. rewrite in_app_iff. unfold connect1. rewrite combine_seq, IH. split.
    + intros [(d & Hd & -> & ->)|(k & i & j & (a & Ha & Hj & E) & (b & Hb & Hj' & E') & -> & ->)].
      * exists d, 0, d. split; [exists l; cbn; split; [auto|lia]|].
        split; [exists l; cbn; split; [auto|lia]|]. lia.
      * exists (length l + k), (S i), j. split; [|split; [|lia]].
        -- exists a. split; [exact Ha|]. split; [exact Hj|]. cbn [firstn concat]. rewrite app_length. lia.
        -- exists b. split; [exact Hb|]. split; [exact Hj'|]. cbn [firstn concat]. rewrite app_length. lia.
    + intros (k & i & j & (a & Ha & Hj & E) & (b & Hb & Hj' & E') & -> & ->).
      destruct i as [|i]; cbn [nth_error firstn concat length] in *.
      * left. injection Ha as ->. injection Hb as ->. exists j. lia.
      * right. rewrite app_length in E, E'. exists (k - length l), i, j.
        split; [exists a; split; [auto|]; split; [auto|lia]|].
        split; [exists b; split; [auto|]; split; [auto|lia]|]. lia.
Qed.
Lemma combine_seq_NoDup n : forall a b, NoDup (combine (seq a n) (seq b n)).
Proof.
  induction n as [|n IH]; intros a b; cbn [seq combine]; constructor; auto.
  rewrite combine_seq. intros (d & Hd & E & _). lia.
Qed.
Lemma NoDup_app' {A} (l1 l2 : list A) : NoDup l1 -> NoDup l2 -> (forall x, In x l1 -> ~ In x l2) -> NoDup (l1 ++ l2).
Proof.
  induction l1 as [|x l1 IH]; intros H1 H2 H; [exact H2|]. inversion H1; subst. cbn. constructor.
  - rewrite in_app_iff. intros [K|K]; [auto|]. apply (H x); [left; auto|auto].
  - apply IH; auto. intros y Hy. apply H. right; auto.
Qed.
Lemma connect_NoDup (lines : list line) : forall o,
  NoDup (connect (offsets o (map (@length (list Q)) lines)) (map (@length (list Q)) lines)).
Proof.
  induction lines as [|l lines IH]; intros o; [constructor|]. cbn [map offsets connect].
  apply NoDup_app'; [apply combine_seq_NoDup|apply IH|]. intros [x y] H K.
  unfold connect1 in H. apply combine_seq in H as (d & Hd & -> & ->).
  apply connect_in in K as (k & i & j & _ & _ & E & _). lia.
Qed.

(** ** rows of a matrix made with [flat_map] over [seq] *)
Lemma flat_map_length_const {A B} (f : A -> list B) n l : (forall x, In x l -> length (f x) = n) ->
  length (flat_map f l) = length l * n.
Proof.
  induction l as [|x l IH]; intros H; cbn [flat_map length]; [reflexivity|].
  rewrite app_length, H, IH by (auto; left; auto) || (intros; apply H; right; auto). lia.
Qed.
Lemma flat_map_at {A B} (f : A -> list B) n : forall l c k x, (forall x, In x l -> length (f x) = n) ->
  nth_error l c = Some x -> k < n -> nth_error (flat_map f l) (c * n + k) = nth_error (f x) k.
Proof.
  induction l as [|y l IH]; intros c k x H Hc Hk; [destruct c; discriminate|].
  cbn [flat_map]. pose proof (H y (or_introl eq_refl)) as Hy. destruct c as [|c]; cbn [nth_error] in Hc.
  - injection Hc as ->. rewrite nth_error_app1 by lia. reflexivity.
  - rewrite nth_error_app2 by lia. rewrite <- (IH c k x); auto.
    + f_equal. rewrite Hy. lia.
    + intros; apply H; right; auto.
Qed.
Lemma nth_error_seq' n : forall a i, i < n -> nth_error (seq a n) i = Some (a + i).
Proof.
  induction n as [|n IH]; intros a [|i] H; cbn; try lia; [f_equal; lia|].
  rewrite IH by lia. f_equal. lia.
Qed.
Lemma at_some m i j : i < nr m -> j < nc m -> length (dat m) = nr m * nc m ->
  nth_error (dat m) (i * nc m + j) = Some (at_ m i j).
Proof. intros. unfold at_. apply nth_error_nth'. nia. Qed.

(** ** rounding *)
Lemma round_even_near x : (x - (1 # 2) <= inject_Z (round_even x) <= x + (1 # 2))%Q.
Proof.
  unfold round_even. pose proof (Qfloor_le x) as H1. pose proof (Qlt_floor x) as H2.
  rewrite inject_Z_plus in H2. set (f := Qfloor x) in *.
  destruct (Qcompare_spec (x - inject_Z f) (1 # 2)) as [E|E|E].
  - destruct (Z.even f); [split; lra|]. rewrite inject_Z_plus. change (inject_Z 1) with 1%Q. split; lra.
  - split; lra.
  - rewrite inject_Z_plus. change (inject_Z 1) with 1%Q in *. split; lra.
Qed.
Lemma round_even_byte x : (0 <= x)%Q -> (x <= 255)%Q -> (0 <= round_even x < 256)%Z.
Proof.
  intros H0 H1. pose proof (round_even_near x) as [A B].
  assert (C : (inject_Z (-1) < inject_Z (round_even x))%Q) by (change (inject_Z (-1)) with (-1)%Q; lra).
  assert (D : (inject_Z (round_even x) < inject_Z 256)%Q) by (change (inject_Z 256) with 256%Q; lra).
  rewrite <- Zlt_Qlt in C, D. lia.
Qed.
Lemma u1_round x : (0 <= x)%Q -> (x <= 255)%Q -> nearest_byte x (u1 (round_even x)).
Proof.
  intros H0 H1. pose proof (round_even_byte x H0 H1) as B. unfold nearest_byte, u1.
  rewrite Z.mod_small by lia. split; [lia|]. apply round_even_near.
Qed.

(** ** colours *)
Lemma finish_rgb m : (nr m = 3 \/ nr m = 4) -> length (dat m) = nr m * nc m ->
  Forall (fun x => (0 <= x <= 255)%Q) (dat m) ->
  exists o, finish m = Ok (ORgb o) /\ nr o = nr m /\ nc o = nc m /\ length (dat o) = length (dat m) /\
    forall p x, nth_error (dat m) p = Some x -> exists z, nth_error (dat o) p = Some z /\ scaled (dat m) x z.
Proof.
  intros Hr Hl F. unfold finish.
  destruct (Nat.eqb_spec (nr m) 1); [lia|].
  assert (E : ((nr m =? 3) || (nr m =? 4)) = true) by lia. rewrite E. clear E.
  destruct (forallb _ (dat m)) eqn:A1.
  - eexists. split; [reflexivity|]. cbn [nr nc dat]. split; [auto|]. split; [auto|].
    split; [apply map_length|]. intros p x Hp.
    eexists. split; [rewrite nth_error_map, Hp; reflexivity|].
    rewrite forallb_forall in A1. rewrite Forall_forall in F.
    pose proof (nth_error_In _ _ Hp) as Hx. pose proof (A1 x Hx) as B.
    apply andb_true_iff in B as [B1 B2]. rewrite Qle_bool_iff in B1, B2. split.
    + intros _. change (inject_Z 255) with 255%Q. apply u1_round; lra.
    + intros X. exfalso. apply Exists_exists in X as (y & Hy & X). pose proof (A1 y Hy) as C.
      apply andb_true_iff in C as [_ C]. rewrite Qle_bool_iff in C. lra.
  - assert (A2 : forallb (fun x => Qle_bool 0 x && negb (Qle_bool (inject_Z 256) x)) (dat m) = true).
    { apply forallb_forall. intros x Hx. rewrite Forall_forall in F. specialize (F x Hx).
      apply andb_true_iff. split; [apply Qle_bool_iff; lra|].
      destruct (Qle_bool (inject_Z 256) x) eqn:Q; [|reflexivity]. apply Qle_bool_iff in Q.
      change (inject_Z 256) with 256%Q in Q. lra. }
    rewrite A2. eexists. split; [reflexivity|]. cbn [nr nc dat]. split; [auto|]. split; [auto|].
    split; [apply map_length|]. intros p x Hp.
    eexists. split; [rewrite nth_error_map, Hp; reflexivity|].
    rewrite Forall_forall in F. pose proof (F x (nth_error_In _ _ Hp)) as Fx. split.
    + intros X. exfalso. rewrite <- not_true_iff_false in A1. apply A1. apply forallb_forall.
      intros y Hy. rewrite Forall_forall in X. apply andb_true_iff. rewrite !Qle_bool_iff.
      split; [apply F; auto|apply X; auto].
    + intros _. apply u1_round; lra.
Qed.
