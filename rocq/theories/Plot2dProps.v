(** C97: the plane in which points and lines are drawn. *)
From Coq Require Import String List ZArith QArith Qabs Bool Arith Lia Lqa ZifyBool ZifyNat.
From Verif Require Import PrepModel PrepProps Plot2dModel.
From Verif Require LinesModel LinesProps.
Import ListNotations.
Local Open Scope nat_scope.

(** ** Specification *)
(** the two axes of the plane across direction [z] *)
Definition plane (z : nat) (x y : nat) : Prop := (z = 0 /\ x = 1 /\ y = 2) \/ (z = 1 /\ x = 0 /\ y = 2) \/ (z = 2 /\ x = 0 /\ y = 1).
Definition turned (flip : bool) (x y x' y' : nat) : Prop := if flip then x' = y /\ y' = x else x' = x /\ y' = y.
Definition name_of (z : nat) (s : string) : Prop := (z = 0 /\ s = "x"%string) \/ (z = 1 /\ s = "y"%string) \/ (z = 2 /\ s = "z"%string).
(** all values are the first one, up to the tolerances of numpy *)
Definition flat (row : list Q) : Prop := Forall (fun v => (Qabs (v - hd 0 row) <= (1 # 100000000) + (1 # 100000) * Qabs (hd 0 row))%Q) row.
(** the direction the points are seen along: the last one in which they do not differ, z if they differ in all *)
Definition across (rows : list (list Q)) (z : nat) : Prop :=
  (z < 3 /\ flat (nth z rows []) /\ forall k, z < k < 3 -> ~ flat (nth k rows [])) \/ (z = 2 /\ forall k, k < 3 -> ~ flat (nth k rows [])).
(** the pieces seen in the plane of axes [x] and [y] *)
Definition seen (x y : nat) (ab : list Q * list Q) : (cell * cell) * (cell * cell) :=
  ((Some (nth x (fst ab) 0%Q), Some (nth y (fst ab) 0%Q)), (Some (nth x (snd ab) 0%Q), Some (nth y (snd ab) 0%Q))).
(** piece with ends that differ *)
Definition distinct (ab : list Q * list Q) : Prop :=
  exists k, k < length (fst ab) /\ k < length (snd ab) /\
    ((1 # 100000000) + (1 # 100000) * Qabs (nth k (fst ab) 0) < Qabs (nth k (snd ab) 0 - nth k (fst ab) 0))%Q.

(** ** Lemmas *)
Lemma row_const_flat rows i : row_const rows i = true <-> flat (nth i rows []).
Proof.
  unfold row_const, flat. rewrite forallb_forall, Forall_forall. unfold isclose. split; intros H v Hv; specialize (H v Hv); apply Qle_bool_iff; exact H.
Qed.
Lemma row_const_not rows i : row_const rows i = false <-> ~ flat (nth i rows []).
Proof. rewrite <- row_const_flat. destruct (row_const rows i); split; intros H; congruence. Qed.
Lemma named n c z s : 3 <= n -> name_of z s -> exists x y, plane z x y /\ xyzind n c s = Ok (x, y, Some z).
Proof.
  intros Hn H. unfold xyzind. replace (n <? 3) with false by (symmetry; apply Nat.ltb_ge; exact Hn). destruct H as [[-> ->]|[[-> ->]|[-> ->]]]; cbn.
  - exists 1, 2. unfold plane. split; [left; auto|reflexivity].
  - exists 0, 2. unfold plane. split; [right; left; auto|reflexivity].
  - exists 0, 1. unfold plane. split; [right; right; auto|reflexivity].
Qed.
Lemma filter_le {A} (f : A -> bool) (l : list A) : length (filter f l) <= length l.
Proof. induction l as [|a l IH]; cbn; [lia|]. destruct (f a); cbn; lia. Qed.
Lemma drop_many c k : forall kept, 3 <= length (filter (fun i => negb (c i)) (seq 0 k)) + length kept -> 3 <= length (drop_const c k (seq 0 k ++ kept)).
Proof.
  induction k as [|k IH]; intros kept H; [exact H|]. cbn [drop_const]. rewrite seq_S, filter_app, app_length in H. cbn [plus] in *. rewrite seq_S. cbn [plus]. rewrite <- app_assoc. cbn [app].
  assert (L : length (seq 0 k ++ k :: kept) = k + S (length kept)) by (rewrite app_length, seq_length; reflexivity).
  destruct (c k) eqn:E; cbn [filter] in H; rewrite E in H; cbn [negb length] in H.
  - pose proof (filter_le (fun i => negb (c i)) (seq 0 k)) as F. rewrite seq_length in F. replace (2 <? length (seq 0 k ++ k :: kept)) with true by (symmetry; apply Nat.ltb_lt; lia). cbn [andb].
    assert (P : firstn k (seq 0 k ++ k :: kept) ++ skipn (S k) (seq 0 k ++ k :: kept) = seq 0 k ++ kept).
    { rewrite firstn_app, skipn_app, seq_length, Nat.sub_diag. rewrite (firstn_all2 (n := k) (seq 0 k)) by (rewrite seq_length; lia). cbn [firstn]. rewrite app_nil_r. rewrite (skipn_all2 (n := S k) (seq 0 k)) by (rewrite seq_length; lia). replace (S k - k) with 1 by lia. reflexivity. }
    rewrite P. apply IH. lia.
  - rewrite andb_false_r. apply IH. cbn [length]. lia.
Qed.
Lemma auto_many n c : 3 <= length (filter (fun i => negb (c i)) (seq 0 n)) -> xyzind n c "" = Ok (0, 1, Some 2).
Proof.
  intros H. unfold xyzind. cbn [String.eqb negb]. pose proof (drop_many c n []) as D. rewrite app_nil_r in D. cbn [length] in D. specialize (D ltac:(lia)).
  pose proof (filter_le (fun i => negb (c i)) (seq 0 n)) as F. rewrite seq_length in F.
  destruct (drop_const c n (seq 0 n)) as [|a [|b [|e l]]]; cbn [length] in D; try lia. cbn [length]. change (2 <? S (S (S (length l)))) with true. cbv iota.
  replace (2 <? n) with true by (symmetry; apply Nat.ltb_lt; lia). destruct n as [|[|[|n]]]; try lia. reflexivity.
Qed.

(** ** Theorems *)
(** Points in space are drawn in the plane across the given direction, or else across the last direction in which they do not differ; they can be coloured by their place in that direction. *)
Theorem C97_points : forall r0 r1 r2 s z flip zloc, let rows := [r0; r1; r2] in
  name_of z s \/ (s = ""%string /\ across rows z) ->
  exists x y x' y', plane z x y /\ turned flip x y x' y' /\
    scatter_2d rows s flip zloc = Ok (Dots (nth x' rows []) (nth y' rows []) (if zloc then Some (nth z rows []) else None)).
Proof.
  intros r0 r1 r2 s z flip zloc rows H.
  assert (A : exists x y, plane z x y /\ xyzind 3 (row_const rows) s = Ok (x, y, Some z)).
  { destruct H as [H|[-> H]]; [apply named; [lia|exact H]|].
    destruct H as [(Hz & F & L)|(-> & L)].
    - apply row_const_flat in F. assert (L' : forall k, z < k < 3 -> row_const rows k = false) by (intros k Hk; apply row_const_not; apply L; exact Hk).
      destruct z as [|[|[|z]]]; try lia; unfold xyzind; cbn [String.eqb negb seq drop_const length Nat.ltb Nat.leb andb firstn skipn app].
      + rewrite (L' 2), (L' 1), F by lia. cbn. exists 1, 2. split; [left; auto|reflexivity].
      + rewrite (L' 2), F by lia. cbn. destruct (row_const rows 0); cbn; exists 0, 2; (split; [right; left; auto|reflexivity]).
      + rewrite F. cbn. exists 0, 1. split; [right; right; auto|reflexivity].
    - assert (L' : forall k, k < 3 -> row_const rows k = false) by (intros k Hk; apply row_const_not; apply L; exact Hk).
      unfold xyzind. cbn [String.eqb negb seq drop_const length Nat.ltb Nat.leb andb firstn skipn app]. rewrite (L' 2), (L' 1), (L' 0) by lia. cbn. exists 0, 1. split; [right; right; auto|reflexivity]. }
  destruct A as (x & y & P & E). exists x, y, (if flip then y else x), (if flip then x else y). split; [exact P|]. split; [destruct flip; split; reflexivity|].
  unfold scatter_2d. change (length rows) with 3. rewrite E. destruct P as [(-> & -> & ->)|[(-> & -> & ->)|(-> & -> & ->)]]; destruct flip, zloc; reflexivity.
Qed.
Print Assumptions C97_points.

Lemma seen_all o new nums x y : shows o 3 new nums -> Forall (Forall (fun p => length p = 3)) new -> x < 3 -> y < 3 ->
  map (fun ab => ((nth x (fst ab) None, nth y (fst ab) None), (nth x (snd ab) None, nth y (snd ab) None))) (segments o) = map (seen x y) (concat (map pieces new)).
Proof.
  intros (_ & S & _ & _) D Hx Hy. rewrite S, map_map. apply map_ext_in. intros [a b] Hab. cbn [fst snd].
  assert (L : length a = 3 /\ length b = 3).
  { apply in_concat in Hab as (ps & Hp & Hab). apply in_map_iff in Hp as (l & <- & Hl). rewrite Forall_forall in D. specialize (D l Hl). rewrite Forall_forall in D. unfold pieces in Hab. split; apply D.
    - exact (in_combine_l _ _ _ _ Hab).
    - pose proof (in_combine_r _ _ _ _ Hab) as T. destruct l; [destruct T|right; exact T]. }
  destruct L as [La Lb]. unfold seen. cbn [fst snd].
  assert (N : forall (l : list Q) k, length l = 3 -> k < 3 -> nth k (map Some l) None = Some (nth k l 0%Q)).
  { intros l k Hl Hk. rewrite (nth_indep _ None (Some 0%Q)) by (rewrite map_length; lia). apply (map_nth Some). }
  rewrite !N by assumption. reflexivity.
Qed.
Lemma seen_z o new nums z : shows o 3 new nums -> Forall (Forall (fun p => length p = 3)) new -> z < 3 ->
  map (fun ab => nth z (fst ab) None) (segments o) = map (fun ab => Some (nth z (fst ab) 0%Q)) (concat (map pieces new)).
Proof.
  intros Sh D Hz. pose proof (seen_all o new nums z z Sh D Hz Hz) as E. apply (f_equal (map (fun q : (cell * cell) * (cell * cell) => fst (fst q)))) in E. rewrite !map_map in E. exact E.
Qed.
(** Lines in space with at least three pieces are drawn, piece by piece, in the plane across the direction that is given, with their numbers or (zloc) coloured by the place of the first point of the piece in that direction. *)
Theorem C97_lines : forall o new nums s z flip zloc, shows o 3 new nums -> Forall (Forall (fun p => length p = 3)) new ->
  name_of z s -> 3 <= length (concat (map pieces new)) ->
  exists x y x' y', plane z x y /\ turned flip x y x' y' /\
    plot2d 3 o s flip zloc = Ok (Pic (map (seen x' y') (concat (map pieces new)))
      (if zloc then Some (map (fun ab => Some (nth z (fst ab) 0%Q)) (concat (map pieces new)))
       else option_map (fun ns => map Some (concat (map (@removelast Q) ns))) nums)).
Proof.
  intros o new nums s z flip zloc Sh D Hs H. assert (Ls : length (segments o) = length (concat (map pieces new))) by (destruct Sh as (_ & -> & _); apply map_length).
  destruct (named (length (segments o)) (seg_const (segments o)) z s ltac:(lia) Hs) as (x & y & P & E). exists x, y, (if flip then y else x), (if flip then x else y).
  split; [exact P|]. split; [destruct flip; split; reflexivity|]. unfold plot2d. rewrite E.
  assert (Hx : x < 3 /\ y < 3 /\ z < 3) by (destruct P as [(-> & -> & ->)|[(-> & -> & ->)|(-> & -> & ->)]]; lia). destruct Hx as (Hx & Hy & Hz). assert (Sc := proj2 (proj2 (proj2 Sh))).
  destruct flip, zloc; cbv iota beta; try (replace (z <? 3) with true by (symmetry; apply Nat.ltb_lt; exact Hz)); replace (x <? 3) with true by (symmetry; apply Nat.ltb_lt; exact Hx); replace (y <? 3) with true by (symmetry; apply Nat.ltb_lt; exact Hy); cbn [andb]; rewrite (seen_all o new nums) by assumption; try rewrite (seen_z o new nums) by assumption; try rewrite Sc; reflexivity.
Qed.
Print Assumptions C97_lines.

(** Lines with one or two pieces can not be drawn when the direction is given: the pieces are counted instead of the coordinates. *)
Theorem C97_few_pieces_refuted : forall o new nums s z flip zloc, shows o 3 new nums -> name_of z s -> length (concat (map pieces new)) < 3 ->
  plot2d 3 o s flip zloc = Raise ValueError.
Proof.
  intros o new nums s z flip zloc Sh Hs H. assert (Ls : length (segments o) = length (concat (map pieces new))) by (destruct Sh as (_ & -> & _); apply map_length).
  unfold plot2d, xyzind. replace (length (segments o) <? 3) with true by (symmetry; apply Nat.ltb_lt; lia). destruct Hs as [[-> ->]|[[-> ->]|[-> ->]]]; reflexivity.
Qed.
Print Assumptions C97_few_pieces_refuted.

Lemma seg_const_distinct o new nums i : shows o 3 new nums -> (exists ab, nth_error (concat (map pieces new)) i = Some ab /\ distinct ab) -> seg_const (segments o) i = false.
Proof.
  intros (_ & S & _ & _) ([a b] & Hn & (k & Ka & Kb & Hd)). unfold seg_const. rewrite S, nth_error_map, Hn. cbn [option_map fst snd] in *. apply andb_false_iff. right. apply not_true_iff_false. intros C. unfold allclose in C. rewrite forallb_forall in C.
  specialize (C (Some (nth k b 0%Q), Some (nth k a 0%Q))). cbn [fst snd isclose] in C. apply (Qlt_not_le _ _ Hd). apply Qle_bool_iff. apply C.
  assert (E : nth k (combine (map Some b) (map Some a)) (None, None) = (Some (nth k b 0%Q), Some (nth k a 0%Q)) /\ k < length (combine (map Some b) (map Some a))).
  { clear -Ka Kb. revert a b Ka Kb. induction k as [|k IH]; intros [|x a] [|y b] Ka Kb; cbn [length] in *; try lia; cbn [map combine nth length].
    - split; [reflexivity|lia].
    - destruct (IH a b ltac:(lia) ltac:(lia)) as [E L]. split; [exact E|lia]. }
  destruct E as [E L]. rewrite <- E. apply nth_In. exact L.
Qed.
(** Without a direction, lines with three pieces that are not points are always drawn in the plane of x and y, whatever plane they lie in. *)
Theorem C97_no_direction_refuted : forall o new nums flip, shows o 3 new nums -> Forall (Forall (fun p => length p = 3)) new ->
  (exists i j k ab1 ab2 ab3, i < j < k /\ nth_error (concat (map pieces new)) i = Some ab1 /\ nth_error (concat (map pieces new)) j = Some ab2 /\
     nth_error (concat (map pieces new)) k = Some ab3 /\ distinct ab1 /\ distinct ab2 /\ distinct ab3) ->
  exists x y, turned flip 0 1 x y /\
    plot2d 3 o "" flip false = Ok (Pic (map (seen x y) (concat (map pieces new))) (option_map (fun ns => map Some (concat (map (@removelast Q) ns))) nums)).
Proof.
  intros o new nums flip Sh D (i & j & k & ab1 & ab2 & ab3 & O & N1 & N2 & N3 & D1 & D2 & D3).
  assert (Ls : length (segments o) = length (concat (map pieces new))) by (destruct Sh as (_ & -> & _); apply map_length).
  assert (Lk : k < length (segments o)) by (rewrite Ls; apply nth_error_Some; congruence).
  assert (F : 3 <= length (filter (fun q => negb (seg_const (segments o) q)) (seq 0 (length (segments o))))).
  { change 3 with (length [i; j; k]). apply NoDup_incl_length.
    - repeat constructor; cbn [In]; lia.
    - intros q Hq. apply filter_In. cbn [In] in Hq. split; [apply in_seq; lia|]. apply negb_true_iff. apply (seg_const_distinct o new nums q Sh). destruct Hq as [<-|[<-|[<-|[]]]]; eexists; eauto. }
  exists (if flip then 1 else 0), (if flip then 0 else 1). split; [destruct flip; split; reflexivity|]. unfold plot2d. rewrite (auto_many _ _ F). assert (Sc := proj2 (proj2 (proj2 Sh))).
  destruct flip; cbv iota beta; cbn [Nat.ltb Nat.leb andb]; rewrite (seen_all o new nums) by (assumption || lia); rewrite Sc; reflexivity.
Qed.
Print Assumptions C97_no_direction_refuted.
(** A single piece is drawn with x against x. *)
Theorem C97_single_piece_refuted : forall o new nums ab flip, shows o 3 new nums -> Forall (Forall (fun p => length p = 3)) new -> concat (map pieces new) = [ab] ->
  plot2d 3 o "" flip false = Ok (Pic [seen 0 0 ab] (seg_scalars o)).
Proof.
  intros o new nums ab flip Sh D E. assert (Ls : length (segments o) = 1) by (destruct Sh as (_ & -> & _); rewrite map_length, E; reflexivity).
  unfold plot2d, xyzind. rewrite Ls. cbn [String.eqb negb seq drop_const length Nat.ltb Nat.leb andb]. destruct flip; cbv iota beta; cbn [Nat.ltb Nat.leb andb]; rewrite (seen_all o new nums) by (assumption || lia); rewrite E; reflexivity.
Qed.
Print Assumptions C97_single_piece_refuted.
(** Lines with points that come twice can be refused. *)
Theorem C97_repeated_refuted : exists lines o, LinesProps.joinable lines 3 /\ prep_lines true 0 lines 3 LinesModel.SNone = Some o /\ plot2d 3 o "" false false = Raise IndexError.
Proof.
  exists [[[0;0;0]; [0;0;0]; [0;0;0]; [1;0;0]; [2;1;0]]]%Q. eexists. split; [split; [discriminate|repeat constructor]|]. split; [vm_compute; reflexivity|vm_compute; reflexivity].
Qed.
Print Assumptions C97_repeated_refuted.

(** ** the hypotheses are met *)
(** a line in the plane x = 1: seen along x when this is asked for, but drawn with x as axis when not *)
Definition in_plane : list (list (list Q)) := [[[1;0;0]; [1;1;0]; [1;1;1]; [1;2;3]]]%Q.
Example in_plane_ok : exists o, shows o 3 in_plane None /\ Forall (Forall (fun p => length p = 3)) in_plane /\ 3 <= length (concat (map pieces in_plane)) /\
  Forall distinct (concat (map pieces in_plane)).
Proof.
  destruct (C96_drawn true 0 in_plane 3 LinesModel.SNone None) as (o & _ & Sh); [apply Qle_refl|split; [discriminate|repeat constructor]|repeat constructor; discriminate|split; [reflexivity|lia]|].
  exists o. split; [exact Sh|]. split; [repeat constructor|]. split; [cbn; lia|].
  cbn [in_plane map concat pieces combine tl app]. constructor; [exists 1; repeat split; cbn; lia|]. constructor; [exists 2; repeat split; cbn; lia|]. constructor; [exists 2; repeat split; cbn; lia|]. constructor.
Qed.
Example in_plane_x : exists o, prep_lines true 0 in_plane 3 LinesModel.SNone = Some o /\
  (exists p, plot2d 3 o "x" false false = Ok p /\ nth 2 (pairs p) ((None, None), (None, None)) = ((Some 1, Some 1), (Some 2, Some 3))%Q) /\
  (exists p, plot2d 3 o "" false false = Ok p /\ nth 2 (pairs p) ((None, None), (None, None)) = ((Some 1, Some 1), (Some 1, Some 2))%Q).
Proof. eexists. split; [vm_compute; reflexivity|]. split; eexists; (split; [vm_compute; reflexivity|reflexivity]). Qed.
Example across_ok : across [[1;2]; [5;5]; [3;4]]%Q 1.
Proof.
  left. split; [lia|]. split; [repeat constructor; vm_compute; discriminate|]. intros k Hk. replace k with 2 by lia. intros F. inversion F as [|a l Ha Hl E]; subst. inversion Hl as [|a' l' Hb Hl' E']; subst. revert Hb. vm_compute. intros Hb. apply Hb. reflexivity.
Qed.
