(** C47: edge and face centred fields: staggering, averages, divergence. *)
From Verif Require Import EcfcModel ExtendProps.
From Coq Require Import Lia ZifyBool QArith Qfield Setoid.
Open Scope Z_scope.

(** * specification *)
Definition coord (d : nat) (p : ix) : Z := let '(x, y, z) := p in nth d [x; y; z] 0.
(* the next place along axis d *)
Definition next (d : nat) (p : ix) : ix := let '(x, y, z) := p in match d with 0%nat => (x + 1, y, z) | 1%nat => (x, y + 1, z) | _ => (x, y, z + 1) end.
Definition in_box (n : nat -> Z) (p : ix) : Prop := forall d, (d < 3)%nat -> 0 <= coord d p < n d.
(* the value stored with cell i along d is that of the upper side of the cell, not of the lower one *)
Definition upper (f : fld) (d : nat) : bool := match stagger f d with Trailing => negb (flip f d) | Leading => flip f d end.
(* F d (i, j, k): flux through the lower side across d of cell (i, j, k) *)
Definition face_data (f : fld) (F : nat -> ix -> Q) : Prop :=
  center f = Face /\ forall d p, (d < 3)%nat -> in_box (shp f) p -> comp f d p = F d (if upper f d then next d p else p).
(* E d (i, j, k): value on the edge of cell (i, j, k) along d that is lowest in the other two *)
Definition up (f : fld) (c d : nat) (p : ix) : ix := if (negb (Nat.eqb c d) && upper f d)%bool then next d p else p.
Definition edge_data (f : fld) (E : nat -> ix -> Q) : Prop :=
  center f = Edge /\ forall c p, (c < 3)%nat -> in_box (shp f) p -> comp f c p = E c (up f c 0 (up f c 1 (up f c 2 p))).
(* the stored convention is not yet dealt with *)
Definition raw (f : fld) : Prop := pre f = Some false.
(* cells of the result: for each axis, p is cell p + 1 of the field *)
Definition plus1 (p : ix) : ix := let '(x, y, z) := p in (x + 1, y + 1, z + 1).
(* the nearest cell that is not the first or last along an axis *)
Definition inner (n : nat -> Z) (js : list Z) : ix :=
  let c d := Z.max 1 (Z.min (n d - 2) (nth d js 0)) in (c 0%nat, c 1%nat, c 2%nat).

Ltac cl := repeat (apply (f_equal2 cons); [lia|]); reflexivity.
Ltac tr := apply (f_equal2 pair); [apply (f_equal2 pair)|]; lia.
Lemma lt3 (P : nat -> Prop) : P 0%nat -> P 1%nat -> P 2%nat -> forall d, (d < 3)%nat -> P d.
Proof. intros A B C [|[|[|d]]] H; [exact A|exact B|exact C|lia]. Qed.
Lemma box3 n x y z : in_box n (x, y, z) <-> 0 <= x < n 0%nat /\ 0 <= y < n 1%nat /\ 0 <= z < n 2%nat.
Proof. split; [intros H; split; [apply (H 0%nat); lia|split; [apply (H 1%nat); lia|apply (H 2%nat); lia]]|intros (A & B & C); exact (lt3 (fun d => 0 <= coord d (x, y, z) < n d) A B C)]. Qed.

Section BIG.
  Variable f : fld.
  Hypothesis H : forall d, (d < 3)%nat -> 2 <= shp f d.
  Lemma big d : (d < 3)%nat -> (shp f d =? 1) = false /\ (shp f d <? 1) = false.
  Proof. intros D. specialize (H d D). lia. Qed.
  Lemma sc_len d : (d < 3)%nat -> sl_len (sc f d) (shp f d) = shp f d - 1 /\ sl_off (sc f d) = 1.
  Proof. intros D. unfold sc. destruct (big d D) as (-> & _). cbn [sl_len sl_off]. specialize (H d D). lia. Qed.
  (* every slice drops one value *)
  Lemma sd_len c d : (c < 3)%nat -> (d < 3)%nat -> sl_len (sd true f c d) (shp f d) = shp f d - 1 /\
    sl_off (sd true f c d) = if (match center f with Face => Nat.eqb c d | _ => negb (Nat.eqb c d) end && xorb (match stagger f c with Trailing => true | _ => false end) (flip f d))%bool then 0 else 1.
  Proof.
    intros C D. unfold sd. destruct (big c C) as (-> & _). specialize (H d D). unfold offs, SA, SB.
    destruct (stagger f c), (flip f d), (center f), (Nat.eqb c d); cbn; lia.
  Qed.
  Lemma big2 d : (d < 3)%nat -> (shp f d <? 1) = false.
  Proof. intros D. apply (big d D). Qed.
  Lemma scl d : (d < 3)%nat -> sl_len (sc f d) (shp f d) = shp f d - 1.
  Proof. intros D. apply (sc_len d D). Qed.
  Lemma sdl c d : (c < 3)%nat -> (d < 3)%nat -> sl_len (sd true f c d) (shp f d) = shp f d - 1.
  Proof. intros C D. apply (sd_len c d C D). Qed.
  Lemma sdo c d : (c < 3)%nat -> (d < 3)%nat -> sl_off (sd true f c d) = if (match center f with Face => Nat.eqb c d | _ => negb (Nat.eqb c d) end && xorb (match stagger f c with Trailing => true | _ => false end) (flip f d))%bool then 0 else 1.
  Proof. intros C D. apply (sd_len c d C D). Qed.
End BIG.

(* bc does nothing *)
Lemma bc_in m x : 0 <= x < m -> bc m x = x.
Proof. intros X. unfold bc. destruct (m =? 1) eqn:E; lia. Qed.

Lemma leading_some f : raw f -> center f <> Other -> (forall d, (d < 3)%nat -> 2 <= shp f d) ->
  exists g, make_leading true f = Some g /\ pre g = Some true /\ (forall d, (d < 3)%nat -> shp g d = shp f d - 1) /\ (forall d i, (d < 3)%nat -> node g d i = node f d (i + 1)) /\
    forall c x y z, (c < 3)%nat -> in_box (shp g) (x, y, z) -> comp g c (x, y, z) = comp f c (x + sl_off (sd true f c 0), y + sl_off (sd true f c 1), z + sl_off (sd true f c 2)).
Proof.
  intros R Ce N. unfold make_leading. rewrite R.
  assert (B : existsb (fun k => shp f k <? 1) axes3 = false) by (cbn [existsb axes3]; rewrite !(big2 f N) by lia; reflexivity).
  assert (F : forallb (fun c => forallb (fun k => fits (sl_len (sc f k) (shp f k)) (sl_len (sd true f c k) (shp f k))) axes3) axes3 = true).
  { cbn [forallb axes3]. rewrite !(sdl f N), !(scl f N) by lia. unfold fits. rewrite !Z.eqb_refl. reflexivity. }
  destruct (center f); [| |contradiction]; rewrite B, F; eexists; (split; [reflexivity|]); cbn [pre shp node comp]; (split; [reflexivity|]);
    (split; [intros d D; apply (sc_len f N d D)|]); (split; [intros d i D; rewrite (proj2 (sc_len f N d D)); reflexivity|]);
    intros c x y z C I; apply box3 in I; rewrite !bc_in by (rewrite (sdl f N) by lia; cbn [shp] in I; rewrite !(scl f N) in I by lia; lia); reflexivity.
Qed.

(** * the leading convention *)
(* Whatever the staggering and the flipped axes, afterwards value i along each axis belongs to the lower side of cell i + 1. *)
Theorem C47_faces_leading : forall f F, raw f -> face_data f F -> (forall d, (d < 3)%nat -> 2 <= shp f d) ->
  exists g, make_leading true f = Some g /\ (forall d, (d < 3)%nat -> shp g d = shp f d - 1) /\
    (forall d i, (d < 3)%nat -> node g d i = node f d (i + 1)) /\
    forall d p, (d < 3)%nat -> in_box (shp g) p -> comp g d p = F d (plus1 p).
Proof.
  intros f F R (Ce & D) N. destruct (leading_some f R ltac:(rewrite Ce; discriminate) N) as (g & G & _ & S & Nd & V). exists g. split; [exact G|]. split; [exact S|]. split; [exact Nd|].
  intros d ((x & y) & z) Hd I. rewrite V by assumption. apply box3 in I. rewrite !S in I by lia. rewrite D; [|exact Hd|].
  - f_equal. rewrite !(sdo f N) by lia; rewrite Ce. destruct d as [|[|[|d]]]; [| | |lia]; cbn [Nat.eqb andb plus1]; unfold upper; destruct (stagger f _), (flip f _); cbn [xorb negb next]; f_equal; try f_equal; lia.
  - apply box3. rewrite !(sdo f N) by lia. repeat match goal with |- context [if ?b then _ else _] => destruct b end; lia.
Qed.
Print Assumptions C47_faces_leading.

Theorem C47_edges_leading : forall f E, raw f -> edge_data f E -> (forall d, (d < 3)%nat -> 2 <= shp f d) ->
  (forall c d, (c < 3)%nat -> (d < 3)%nat -> stagger f c = stagger f d) ->
  exists g, make_leading true f = Some g /\ (forall d, (d < 3)%nat -> shp g d = shp f d - 1) /\
    (forall d i, (d < 3)%nat -> node g d i = node f d (i + 1)) /\
    forall c p, (c < 3)%nat -> in_box (shp g) p -> comp g c p = E c (plus1 p).
Proof.
  intros f E R (Ce & D) N U. destruct (leading_some f R ltac:(rewrite Ce; discriminate) N) as (g & G & _ & S & Nd & V). exists g. split; [exact G|]. split; [exact S|]. split; [exact Nd|].
  intros c ((x & y) & z) Hd I. rewrite V by assumption. apply box3 in I. rewrite !S in I by lia. rewrite D; [|exact Hd|].
  - f_equal. rewrite !(sdo f N) by lia; rewrite Ce. assert (U1 := U 1%nat 0%nat ltac:(lia) ltac:(lia)). assert (U2 := U 2%nat 0%nat ltac:(lia) ltac:(lia)). unfold up, upper.
    destruct c as [|[|[|c]]]; [| | |lia]; cbn [Nat.eqb negb andb]; rewrite ?U1, ?U2; destruct (stagger f 0%nat), (flip f 0%nat), (flip f 1%nat), (flip f 2%nat); cbn [xorb negb next plus1]; repeat f_equal; lia.
  - apply box3. rewrite !(sdo f N) by lia. repeat match goal with |- context [if ?b then _ else _] => destruct b end; lia.
Qed.
Print Assumptions C47_edges_leading.

(** * averages and divergence *)
Definition nearest_in (a x : Z) : Z := Z.max 0 (Z.min (a - 1) x).
Lemma bnd_spec (v : nd Q) a b c : shape v = [a; b; c] -> 1 <= a -> 1 <= b -> 1 <= c ->
  exists w, bnd_of true v = Some w /\ shape w = [a + 2; b + 2; c + 2] /\
    forall x y z, in_shape (shape w) [x; y; z] -> (get w [x; y; z] == get v [nearest_in a (x - 1); nearest_in b (y - 1); nearest_in c (z - 1)])%Q.
Proof.
  intros Sv A B C. assert (Ga : good_axes v (array_axes None axes3)). { split; [repeat constructor; cbn; intuition discriminate|]. rewrite Sv. intros k [<-|[<-|[<-|[]]]]; cbn; lia. }
  destruct (C38_interior v 1 1 0%Q axes3 None 0 (or_introl eq_refl) Ga) as (w & W & Sw & _). exists w. split; [exact W|]. split.
  - rewrite Sw, Sv. cbn. f_equal; [lia|]. f_equal; [lia|]. f_equal. lia.
  - intros x y z I. assert (F : Forall (fun L => 1 <= L) (shape v)) by (rewrite Sv; repeat constructor; assumption).
    rewrite (C38_order_0 v 1 1 0%Q axes3 None w Ga F (or_introl (Qeq_refl 0)) W [x; y; z] I). rewrite Sv. reflexivity.
Qed.

(* the slices of a field with two or more values along each axis *)
Section CUT.
  Variable g : fld.
  Hypothesis N : forall d, (d < 3)%nat -> 2 <= shp g d.
  Lemma prep_true : prep_ok g = true.
  Proof. unfold prep_ok. cbn [forallb axes3]. pose proof (N 0%nat ltac:(lia)). pose proof (N 1%nat ltac:(lia)). pose proof (N 2%nat ltac:(lia)). lia. Qed.
  Lemma s0_eq d : (d < 3)%nat -> s0 g d = Head /\ sm g d = Head /\ sp g d = Tail.
  Proof. intros D. unfold s0, sm, sp. destruct (big g N d D) as (-> & _). auto. Qed.
  Lemma cc_eq : cc_shape g = [shp g 0 - 1; shp g 1 - 1; shp g 2 - 1].
  Proof. unfold cc_shape. cbn [map axes3]. rewrite (proj1 (s0_eq 0 ltac:(lia))), (proj1 (s0_eq 1 ltac:(lia))), (proj1 (s0_eq 2 ltac:(lia))). cbn [sl_len]. pose proof (N 0%nat ltac:(lia)). pose proof (N 1%nat ltac:(lia)). pose proof (N 2%nat ltac:(lia)). cl. Qed.
  Lemma cut_lo c d x y z : (c < 3)%nat -> (d < 3)%nat -> cut3 g c (with1 g d (sm g d)) (x, y, z) = comp g c (x, y, z).
  Proof.
    intros C D. destruct (s0_eq 0 ltac:(lia)) as (A0 & B0 & C0), (s0_eq 1 ltac:(lia)) as (A1 & B1 & C1), (s0_eq 2 ltac:(lia)) as (A2 & B2 & C2).
    destruct d as [|[|[|d]]]; [| | |lia]; unfold cut3, with1; cbn [Nat.eqb]; rewrite ?A0, ?A1, ?A2, ?B0, ?B1, ?B2; cbn [sl_off]; rewrite !Z.add_0_r; reflexivity.
  Qed.
  Lemma cut_hi c d x y z : (c < 3)%nat -> (d < 3)%nat -> cut3 g c (with1 g d (sp g d)) (x, y, z) = comp g c (next d (x, y, z)).
  Proof.
    intros C D. destruct (s0_eq 0 ltac:(lia)) as (A0 & B0 & C0), (s0_eq 1 ltac:(lia)) as (A1 & B1 & C1), (s0_eq 2 ltac:(lia)) as (A2 & B2 & C2).
    destruct d as [|[|[|d]]]; [| | |lia]; unfold cut3, with1; cbn [Nat.eqb next]; rewrite ?A0, ?A1, ?A2, ?C0, ?C1, ?C2; cbn [sl_off]; rewrite !Z.add_0_r; reflexivity.
  Qed.
  Lemma cut2 c a b x y z (s t : bool) : (a < b < 3)%nat -> (c < 3)%nat ->
    cut3 g c (with2 g a b (if s then sp g a else sm g a) (if t then sp g b else sm g b)) (x, y, z) = comp g c ((if s then next a else fun p => p) ((if t then next b else fun p => p) (x, y, z))).
  Proof.
    intros D C. destruct (s0_eq 0 ltac:(lia)) as (A0 & B0 & C0), (s0_eq 1 ltac:(lia)) as (A1 & B1 & C1), (s0_eq 2 ltac:(lia)) as (A2 & B2 & C2).
    assert (K : (a = 0 /\ b = 1 \/ a = 0 /\ b = 2 \/ a = 1 /\ b = 2)%nat) by lia. destruct K as [(-> & ->)|[(-> & ->)|(-> & ->)]]; unfold cut3, with2; cbn [Nat.eqb]; rewrite ?A0, ?A1, ?A2, ?B0, ?B1, ?B2, ?C0, ?C1, ?C2; destruct s, t; cbn [sl_off next]; rewrite ?Z.add_0_r; reflexivity.
  Qed.
End CUT.

(* average over the two sides of a cell across c, and over the four edges along c *)
Definition side_mean (F : nat -> ix -> Q) (c : nat) (q : ix) : Q := ((F c q + F c (next c q)) / 2)%Q.
Definition edge_mean (E : nat -> ix -> Q) (c : nat) (q : ix) : Q :=
  match c with
  | 0%nat => ((E c q + E c (next 1 q) + E c (next 2 q) + E c (next 1 (next 2 q))) / 4)%Q
  | 1%nat => ((E c q + E c (next 0 q) + E c (next 2 q) + E c (next 0 (next 2 q))) / 4)%Q
  | _ => ((E c q + E c (next 0 q) + E c (next 1 q) + E c (next 0 (next 1 q))) / 4)%Q
  end.
(* net flux out of a cell over its volume *)
Definition div_of (X : nat -> Z -> Q) (F : nat -> ix -> Q) (q : ix) : Q :=
  let t d := ((F d (next d q) - F d q) / (X d (coord d q + 1)%Z - X d (coord d q)))%Q in (t 0%nat + t 1%nat + t 2%nat)%Q.

Lemma shape3 a b c js : in_shape [a; b; c] js -> exists x y z, js = [x; y; z] /\ 0 <= x < a /\ 0 <= y < b /\ 0 <= z < c.
Proof.
  intros I. apply in_shape_iff in I as (L & I). destruct js as [|x [|y [|z [|w js]]]]; try discriminate L. exists x, y, z. split; [reflexivity|].
  split; [apply (I 0%nat); cbn; lia|]. split; [apply (I 1%nat); cbn; lia|apply (I 2%nat); cbn; lia].
Qed.

(* results with and without the boundary layer, for a function of the place *)
Lemma bnd_cells (g : fld) (G : list Z -> Q) (K : ix -> Q) (bnd : bool) : (forall d, (d < 3)%nat -> 2 <= shp g d) ->
  (forall x y z, in_box (fun d => shp g d - 1) (x, y, z) -> (G [x; y; z] == K (x, y, z))%Q) ->
  exists w, bnd_of bnd (ND (cc_shape g) G) = Some w /\
    if bnd then shape w = [shp g 0 + 1; shp g 1 + 1; shp g 2 + 1] /\ forall x y z, in_shape (shape w) [x; y; z] -> (get w [x; y; z] == K (nearest_in (shp g 0 - 1) (x - 1), nearest_in (shp g 1 - 1) (y - 1), nearest_in (shp g 2 - 1) (z - 1)))%Q
    else shape w = [shp g 0 - 1; shp g 1 - 1; shp g 2 - 1] /\ forall x y z, in_shape (shape w) [x; y; z] -> (get w [x; y; z] == K (x, y, z))%Q.
Proof.
  intros N HG. pose proof (N 0%nat ltac:(lia)) as N0. pose proof (N 1%nat ltac:(lia)) as N1. pose proof (N 2%nat ltac:(lia)) as N2. destruct bnd.
  - destruct (bnd_spec (ND (cc_shape g) G) (shp g 0 - 1) (shp g 1 - 1) (shp g 2 - 1) (cc_eq g N) ltac:(lia) ltac:(lia) ltac:(lia)) as (w & W & S & V). exists w. split; [exact W|]. split; [rewrite S; cl|].
    intros x y z I. rewrite (V x y z I). cbn [get]. apply HG. apply box3. unfold nearest_in. lia.
  - eexists. split; [reflexivity|]. cbn [shape get]. split; [apply (cc_eq g N)|]. intros x y z I. apply HG. rewrite (cc_eq g N) in I. apply shape3 in I. destruct I as (x' & y' & z' & E & I). injection E as -> -> ->. apply box3. exact I.
Qed.

Lemma assemble (r : nat -> option (nd Q)) (P : nat -> nd Q -> Prop) : (forall c, (c < 3)%nat -> exists w, r c = Some w /\ P c w) ->
  exists l, all_some (map r axes3) = Some l /\ length l = 3%nat /\ forall c w, nth_error l c = Some w -> P c w.
Proof.
  intros B. destruct (B 0%nat ltac:(lia)) as (w0 & W0 & P0), (B 1%nat ltac:(lia)) as (w1 & W1 & P1), (B 2%nat ltac:(lia)) as (w2 & W2 & P2).
  exists [w0; w1; w2]. split; [cbn [map axes3 all_some]; rewrite W0, W1, W2; reflexivity|]. split; [reflexivity|].
  intros [|[|[|c]]] w Hw; cbn [nth_error] in Hw; [injection Hw as <-; exact P0|injection Hw as <-; exact P1|injection Hw as <-; exact P2|destruct c; discriminate Hw].
Qed.
(* what one array of the result is: [K] of the cells of the leading field *)
Definition cells_of (bnd : bool) (n : nat -> Z) (K : ix -> Q) (w : nd Q) : Prop :=
  if bnd then shape w = [n 0%nat + 1; n 1%nat + 1; n 2%nat + 1] /\ forall js, in_shape (shape w) js -> (get w js == K (nearest_in (n 0%nat - 1) (nth 0 js 0 - 1), nearest_in (n 1%nat - 1) (nth 1 js 0 - 1), nearest_in (n 2%nat - 1) (nth 2 js 0 - 1))%Z)%Q
  else shape w = [n 0%nat - 1; n 1%nat - 1; n 2%nat - 1] /\ forall js, in_shape (shape w) js -> (get w js == K (ix_of js))%Q.
Lemma cells g G K bnd : (forall d, (d < 3)%nat -> 2 <= shp g d) ->
  (forall x y z, in_box (fun d => shp g d - 1) (x, y, z) -> (G [x; y; z] == K (x, y, z))%Q) ->
  exists w, bnd_of bnd (ND (cc_shape g) G) = Some w /\ cells_of bnd (shp g) K w.
Proof.
  intros N HG. destruct (bnd_cells g G K bnd N HG) as (w & W & H). exists w. split; [exact W|]. unfold cells_of.
  destruct bnd; destruct H as (S & V); (split; [exact S|]); intros js I; pose proof I as I'; rewrite S in I'; apply shape3 in I'; destruct I' as (x & y & z & -> & _); exact (V x y z I).
Qed.
(* the boundary layer in terms of the original field *)
Lemma cells_inner f g K w : (forall d, (d < 3)%nat -> 3 <= shp f d) -> (forall d, (d < 3)%nat -> shp g d = shp f d - 1) -> cells_of true (shp g) (fun p => K (plus1 p)) w ->
  shape w = [shp f 0; shp f 1; shp f 2] /\ forall js, in_shape (shape w) js -> (get w js == K (inner (shp f) js))%Q.
Proof.
  intros N S (Sw & V). split; [rewrite Sw, !S by lia; cl|]. intros js I. rewrite (V js I), !S by lia. replace (plus1 _) with (inner (shp f) js); [reflexivity|].
  unfold inner, nearest_in. cbn [plus1]. pose proof (N 0%nat ltac:(lia)). pose proof (N 1%nat ltac:(lia)). pose proof (N 2%nat ltac:(lia)). tr.
Qed.
Lemma plus1_next c p : plus1 (next c p) = next c (plus1 p).
Proof. destruct p as ((x & y) & z), c as [|[|c]]; reflexivity. Qed.
Lemma next_box n c p : (c < 3)%nat -> in_box (fun d => n d - 1) p -> in_box n p /\ in_box n (next c p).
Proof. destruct p as ((x & y) & z). intros C I. apply box3 in I. destruct c as [|[|[|c]]]; [| | |lia]; cbn [next]; rewrite !box3; lia. Qed.
Lemma next2_box n a b p : (a < b < 3)%nat -> in_box (fun d => n d - 1) p -> in_box n (next a (next b p)).
Proof. destruct p as ((x & y) & z). intros C I. apply box3 in I. assert (K : (a = 0 /\ b = 1 \/ a = 0 /\ b = 2 \/ a = 1 /\ b = 2)%nat) by lia. destruct K as [(-> & ->)|[(-> & ->)|(-> & ->)]]; cbn [next]; rewrite !box3; lia. Qed.

(* from a leading field g whose values are G *)
Lemma fc2cc_core bnd f g G : make_leading true f = Some g -> (forall d, (d < 3)%nat -> 2 <= shp g d) -> (forall c p, (c < 3)%nat -> in_box (shp g) p -> comp g c p = G c p) ->
  exists r, fc2cc bnd f = Some r /\ length r = 3%nat /\ forall c w, nth_error r c = Some w -> cells_of bnd (shp g) (side_mean G c) w.
Proof.
  intros L N V. unfold fc2cc. rewrite L, (prep_true g N). apply (assemble _ (fun c w => cells_of bnd (shp g) (side_mean G c) w)). intros c C. apply cells; [exact N|].
  intros x y z I. change (ix_of [x; y; z]) with (x, y, z). rewrite (cut_lo g N c c), (cut_hi g N c c) by exact C. destruct (next_box _ c _ C I) as (I0 & I1). rewrite !V by assumption. unfold side_mean. field.
Qed.
Lemma ec2cc_core bnd f g G : make_leading true f = Some g -> (forall d, (d < 3)%nat -> 2 <= shp g d) -> (forall c p, (c < 3)%nat -> in_box (shp g) p -> comp g c p = G c p) ->
  exists r, ec2cc bnd f = Some r /\ length r = 3%nat /\ forall c w, nth_error r c = Some w -> cells_of bnd (shp g) (edge_mean G c) w.
Proof.
  intros L N V. unfold ec2cc. rewrite L, (prep_true g N). apply (assemble _ (fun c w => cells_of bnd (shp g) (edge_mean G c) w)). intros c C.
  assert (Q : forall a b x y z, (a < b < 3)%nat -> in_box (fun d => shp g d - 1) (x, y, z) ->
    ((1 # 4) * (cut3 g c (with2 g a b (sm g a) (sm g b)) (ix_of [x; y; z]) + cut3 g c (with2 g a b (sm g a) (sp g b)) (ix_of [x; y; z])
                     + cut3 g c (with2 g a b (sp g a) (sm g b)) (ix_of [x; y; z]) + cut3 g c (with2 g a b (sp g a) (sp g b)) (ix_of [x; y; z]))
     == (G c (x, y, z) + G c (next a (x, y, z)) + G c (next b (x, y, z)) + G c (next a (next b (x, y, z)))) / 4)%Q).
  { intros a b x y z AB I. change (ix_of [x; y; z]) with (x, y, z). pose proof (fun s t => cut2 g N c a b x y z s t AB C) as Cu. pose proof (Cu false false) as C1. pose proof (Cu false true) as C2. pose proof (Cu true false) as C3. pose proof (Cu true true) as C4. cbv iota beta in C1, C2, C3, C4. rewrite C1, C2, C3, C4.
    destruct (next_box (shp g) a _ ltac:(lia) I) as (I0 & I1). destruct (next_box (shp g) b _ ltac:(lia) I) as (_ & I2). pose proof (next2_box (shp g) a b _ AB I) as I3. rewrite !V by assumption. field. }
  destruct c as [|[|[|c]]]; [| | |lia]; cbn [others]; apply cells; try exact N; intros x y z I; apply Q; (exact I || lia).
Qed.

(** Averages to the centres.  The result has the shape of the field.  The value of each cell, except those on
    the boundary, is the mean over the sides or edges of this cell; the others repeat the nearest value. *)
Theorem C47_fc2cc : forall f F, raw f -> face_data f F -> (forall d, (d < 3)%nat -> 3 <= shp f d) ->
  exists r, fc2cc true f = Some r /\ length r = 3%nat /\
    forall c w, nth_error r c = Some w -> shape w = [shp f 0; shp f 1; shp f 2] /\
      forall js, in_shape (shape w) js -> (get w js == side_mean F c (inner (shp f) js))%Q.
Proof.
  intros f F R D N. destruct (C47_faces_leading f F R D ltac:(intros d Hd; specialize (N d Hd); lia)) as (g & G & S & _ & V).
  assert (Ng : forall d, (d < 3)%nat -> 2 <= shp g d) by (intros d Hd; rewrite S by exact Hd; specialize (N d Hd); lia).
  destruct (fc2cc_core true f g (fun c p => F c (plus1 p)) G Ng V) as (r & E & L & W). exists r. split; [exact E|]. split; [exact L|]. intros c w Hw. apply (cells_inner f g (side_mean F c) w N S). specialize (W c w Hw). unfold cells_of, side_mean in *. destruct W as (W1 & W2). split; [exact W1|]. intros js I. rewrite (W2 js I), plus1_next. reflexivity.
Qed.
Print Assumptions C47_fc2cc.
Theorem C47_ec2cc : forall f E, raw f -> edge_data f E -> (forall c d, (c < 3)%nat -> (d < 3)%nat -> stagger f c = stagger f d) -> (forall d, (d < 3)%nat -> 3 <= shp f d) ->
  exists r, ec2cc true f = Some r /\ length r = 3%nat /\
    forall c w, nth_error r c = Some w -> shape w = [shp f 0; shp f 1; shp f 2] /\
      forall js, in_shape (shape w) js -> (get w js == edge_mean E c (inner (shp f) js))%Q.
Proof.
  intros f F R D U N. destruct (C47_edges_leading f F R D ltac:(intros d Hd; specialize (N d Hd); lia) U) as (g & G & S & _ & V).
  assert (Ng : forall d, (d < 3)%nat -> 2 <= shp g d) by (intros d Hd; rewrite S by exact Hd; specialize (N d Hd); lia).
  destruct (ec2cc_core true f g (fun c p => F c (plus1 p)) G Ng V) as (r & E & L & W). exists r. split; [exact E|]. split; [exact L|]. intros c w Hw. apply (cells_inner f g (edge_mean F c) w N S). specialize (W c w Hw). unfold cells_of, edge_mean in *. destruct W as (W1 & W2). split; [exact W1|]. intros js I. rewrite (W2 js I). destruct c as [|[|c]]; rewrite !plus1_next; reflexivity.
Qed.
Print Assumptions C47_ec2cc.
(** A field that does not come from OpenGGCM, or is converted already: value i is the lower side of cell i. *)
Theorem C47_plain : forall f, pre f <> Some false -> (forall d, (d < 3)%nat -> 2 <= shp f d) ->
  exists a b, fc2cc false f = Some a /\ ec2cc false f = Some b /\ length a = 3%nat /\ length b = 3%nat /\
    (forall c w, nth_error a c = Some w -> shape w = [shp f 0 - 1; shp f 1 - 1; shp f 2 - 1] /\ forall x y z, in_shape (shape w) [x; y; z] -> (get w [x; y; z] == side_mean (comp f) c (x, y, z))%Q) /\
    (forall c w, nth_error b c = Some w -> shape w = [shp f 0 - 1; shp f 1 - 1; shp f 2 - 1] /\ forall x y z, in_shape (shape w) [x; y; z] -> (get w [x; y; z] == edge_mean (comp f) c (x, y, z))%Q).
Proof.
  intros f P N. assert (L : exists g, make_leading true f = Some g /\ shp g = shp f /\ comp g = comp f) by (unfold make_leading; destruct (pre f) as [[|]|]; [|contradiction|]; eexists; (split; [reflexivity|]); split; reflexivity).
  destruct L as (g & G & S & Cg). assert (Ng : forall d, (d < 3)%nat -> 2 <= shp g d) by (rewrite S; exact N).
  destruct (fc2cc_core false f g (comp f) G Ng ltac:(intros; rewrite Cg; reflexivity)) as (a & A1 & A2 & A3). destruct (ec2cc_core false f g (comp f) G Ng ltac:(intros; rewrite Cg; reflexivity)) as (b & B1 & B2 & B3). exists a, b. split; [exact A1|]. split; [exact B1|]. split; [exact A2|]. split; [exact B2|]. rewrite S in A3, B3. split.
  - intros c w Hw. destruct (A3 c w Hw) as (W1 & W2). split; [exact W1|]. intros x y z I. exact (W2 [x; y; z] I).
  - intros c w Hw. destruct (B3 c w Hw) as (W1 & W2). split; [exact W1|]. intros x y z I. exact (W2 [x; y; z] I).
Qed.
Print Assumptions C47_plain.

(** * divergence *)
Definition increasing (X : Z -> Q) (n : Z) : Prop := forall i, 0 <= i < n -> (X i < X (i + 1)%Z)%Q.
Lemma no_zero_width g : (forall d, (d < 3)%nat -> 2 <= shp g d) -> (forall d i, (d < 3)%nat -> 0 <= i < shp g d - 1 -> (node g d i < node g d (i + 1)%Z)%Q) -> zero_width g = false.
Proof.
  intros N X. unfold zero_width. destruct (existsb _ axes3) eqn:E; [|reflexivity]. exfalso. apply existsb_exists in E. destruct E as (k & K & E). assert (Hk : (k < 3)%nat) by (destruct K as [<-|[<-|[<-|[]]]]; lia).
  apply existsb_exists in E. destruct E as (i & I & E). apply in_seq in I. destruct (s0_eq g N k Hk) as (_ & M & P). unfold xp, xm in E. rewrite M in I, E. rewrite P in E. cbn [sl_len sl_off] in I, E. rewrite Z.add_0_r in E. apply Qeq_bool_iff in E.
  assert (T := X k (Z.of_nat i) Hk ltac:(specialize (N k Hk); lia)). apply Qlt_minus_iff in T. unfold Qminus in E. rewrite E in T. discriminate T.
Qed.
Lemma div_core bnd f g G : make_leading true f = Some g -> (forall d, (d < 3)%nat -> 2 <= shp g d) -> (forall d i, (d < 3)%nat -> 0 <= i < shp g d - 1 -> (node g d i < node g d (i + 1)%Z)%Q) ->
  (forall c p, (c < 3)%nat -> in_box (shp g) p -> comp g c p = G c p) ->
  exists w, div_fc bnd f = Some (Div w) /\ cells_of bnd (shp g) (div_of (node g) G) w.
Proof.
  intros L N X V. unfold div_fc. rewrite L, (prep_true g N), (no_zero_width g N X).
  destruct (cells g (fun js => (flux g 0 js + flux g 1 js + flux g 2 js)%Q) (div_of (node g) G) bnd N) as (w & W & P).
  - intros x y z I. unfold flux, div_of, xp, xm. change (ix_of [x; y; z]) with (x, y, z).
    destruct (s0_eq g N 0 ltac:(lia)) as (_ & M0 & P0), (s0_eq g N 1 ltac:(lia)) as (_ & M1 & P1), (s0_eq g N 2 ltac:(lia)) as (_ & M2 & P2).
    rewrite (cut_lo g N 0 0), (cut_hi g N 0 0), (cut_lo g N 1 1), (cut_hi g N 1 1), (cut_lo g N 2 2), (cut_hi g N 2 2) by lia. rewrite M0, M1, M2, P0, P1, P2. cbn [sl_off nth coord]. rewrite !Z.add_0_r.
    destruct (next_box (shp g) 0 _ ltac:(lia) I) as (I0 & J0). destruct (next_box (shp g) 1 _ ltac:(lia) I) as (_ & J1). destruct (next_box (shp g) 2 _ ltac:(lia) I) as (_ & J2). rewrite !V by (assumption || lia). reflexivity.
  - exists w. rewrite W. split; [reflexivity|exact P].
Qed.
(** The divergence of an inner cell is the net flux out of this cell, with the widths between its own nodes. *)
Theorem C47_div : forall f F, raw f -> face_data f F -> (forall d, (d < 3)%nat -> 3 <= shp f d) -> (forall d, (d < 3)%nat -> increasing (node f d) (shp f d)) ->
  exists w, div_fc true f = Some (Div w) /\ shape w = [shp f 0; shp f 1; shp f 2] /\
    forall js, in_shape (shape w) js -> (get w js == div_of (node f) F (inner (shp f) js))%Q.
Proof.
  intros f F R D N X. destruct (C47_faces_leading f F R D ltac:(intros d Hd; specialize (N d Hd); lia)) as (g & G & S & Nd & V).
  assert (Ng : forall d, (d < 3)%nat -> 2 <= shp g d) by (intros d Hd; rewrite S by exact Hd; specialize (N d Hd); lia).
  assert (Xg : forall d i, (d < 3)%nat -> 0 <= i < shp g d - 1 -> (node g d i < node g d (i + 1)%Z)%Q) by (intros d i Hd I; rewrite !Nd by exact Hd; rewrite S in I by exact Hd; apply X; [exact Hd|lia]).
  destruct (div_core true f g (fun c p => F c (plus1 p)) G Ng Xg V) as (w & W & P). exists w. split; [exact W|]. apply (cells_inner f g (div_of (node f) F) w N S). unfold cells_of in *. destruct P as (P1 & P2). split; [exact P1|]. intros js I. rewrite (P2 js I). unfold div_of. cbv zeta. rewrite !plus1_next, !Nd by lia.
  cbn [coord nth plus1]. reflexivity.
Qed.
Print Assumptions C47_div.

(** ** Gauss: the sum of the divergences times the volumes of all inner cells is the flux out of their hull *)
Fixpoint sum (lo : Z) (n : nat) (h : Z -> Q) : Q := match n with O => 0 | S m => h lo + sum (lo + 1) m h end%Q.
Lemma sum_ext n : forall lo h k, (forall i, lo <= i < lo + Z.of_nat n -> (h i == k i)%Q) -> (sum lo n h == sum lo n k)%Q.
Proof. induction n as [|n IH]; intros lo h k H; [reflexivity|]. cbn [sum]. rewrite (H lo ltac:(lia)), (IH (lo + 1) h k); [reflexivity|]. intros i I. apply H. lia. Qed.
Lemma sum_add n : forall lo h k, (sum lo n (fun i => h i + k i) == sum lo n h + sum lo n k)%Q.
Proof. induction n as [|n IH]; intros lo h k; [reflexivity|]. cbn [sum]. rewrite IH. ring. Qed.
Lemma sum_zero n : forall lo, (sum lo n (fun _ => 0) == 0)%Q.
Proof. induction n as [|n IH]; intros lo; [reflexivity|]. cbn [sum]. rewrite IH. ring. Qed.
Lemma sum_swap n m : forall lo lo' (h : Z -> Z -> Q), (sum lo n (fun i => sum lo' m (h i)) == sum lo' m (fun j => sum lo n (fun i => h i j)))%Q.
Proof.
  induction n as [|n IH]; intros lo lo' h; cbn [sum]; [symmetry; apply sum_zero|]. rewrite IH, <- sum_add. reflexivity.
Qed.
Lemma sum_tele n : forall lo (h : Z -> Q) s, (sum lo n (fun i => s * (h (i + 1)%Z - h i)) == s * (h (lo + Z.of_nat n)%Z - h lo))%Q.
Proof.
  induction n as [|n IH]; intros lo h s; cbn [sum]; [replace (lo + Z.of_nat 0) with lo by lia; ring|]. rewrite IH. replace (lo + 1 + Z.of_nat n) with (lo + Z.of_nat (S n)) by lia. ring.
Qed.
Definition width (f : fld) (d : nat) (i : Z) : Q := (node f d (i + 1)%Z - node f d i)%Q.
Theorem C47_gauss : forall f F w, raw f -> face_data f F -> (forall d, (d < 3)%nat -> 3 <= shp f d) -> (forall d, (d < 3)%nat -> increasing (node f d) (shp f d)) ->
  div_fc true f = Some (Div w) ->
  let cells d h := sum 1 (Z.to_nat (shp f d - 2)) h in let last d := shp f d - 1 in let wd := width f in
  (cells 0%nat (fun i => cells 1%nat (fun j => cells 2%nat (fun k => get w [i; j; k] * (wd 0%nat i * wd 1%nat j * wd 2%nat k))))
   == cells 1%nat (fun j => cells 2%nat (fun k => wd 1%nat j * wd 2%nat k * (F 0%nat (last 0%nat, j, k) - F 0%nat (1, j, k)%Z)))
    + cells 0%nat (fun i => cells 2%nat (fun k => wd 0%nat i * wd 2%nat k * (F 1%nat (i, last 1%nat, k) - F 1%nat (i, 1, k)%Z)))
    + cells 0%nat (fun i => cells 1%nat (fun j => wd 0%nat i * wd 1%nat j * (F 2%nat (i, j, last 2%nat) - F 2%nat (i, j, 1)%Z))))%Q.
Proof.
  intros f F w R D N X W. cbv zeta. destruct (C47_div f F R D N X) as (w' & W' & S & V). rewrite W in W'. injection W' as <-.
  pose proof (N 0%nat ltac:(lia)) as N0. pose proof (N 1%nat ltac:(lia)) as N1. pose proof (N 2%nat ltac:(lia)) as N2.
  assert (Wp : forall d i, (d < 3)%nat -> 1 <= i < 1 + Z.of_nat (Z.to_nat (shp f d - 2)) -> ~ (width f d i == 0)%Q).
  { intros d i Hd I E. assert (T := X d Hd i ltac:(specialize (N d Hd); lia)). apply Qlt_minus_iff in T. unfold width, Qminus in E. rewrite E in T. discriminate T. }
  transitivity (sum 1 (Z.to_nat (shp f 0 - 2)) (fun i => sum 1 (Z.to_nat (shp f 1 - 2)) (fun j => sum 1 (Z.to_nat (shp f 2 - 2)) (fun k =>
     (width f 1 j * width f 2 k * (F 0%nat (i + 1, j, k)%Z - F 0%nat (i, j, k)) + width f 0 i * width f 2 k * (F 1%nat (i, j + 1, k)%Z - F 1%nat (i, j, k)) + width f 0 i * width f 1 j * (F 2%nat (i, j, k + 1)%Z - F 2%nat (i, j, k)))%Q)))).
  - apply sum_ext. intros i I. apply sum_ext. intros j J. apply sum_ext. intros k K. rewrite V.
    + assert (E : inner (shp f) [i; j; k] = (i, j, k)) by (unfold inner; cbn [nth]; tr). rewrite E. unfold div_of. cbn [next coord nth].
      assert (A0 := Wp 0%nat i ltac:(lia) I). assert (A1 := Wp 1%nat j ltac:(lia) J). assert (A2 := Wp 2%nat k ltac:(lia) K). unfold width in *. field. auto.
    + rewrite S. apply in_shape_iff. split; [reflexivity|]. cbn [length]. intros [|[|[|d]]] Hd; cbn [nth]; lia.
  - rewrite (sum_ext _ _ _ (fun i => (sum 1 (Z.to_nat (shp f 1 - 2)) (fun j => sum 1 (Z.to_nat (shp f 2 - 2)) (fun k => width f 1 j * width f 2 k * (F 0%nat (i + 1, j, k)%Z - F 0%nat (i, j, k))))
        + sum 1 (Z.to_nat (shp f 1 - 2)) (fun j => sum 1 (Z.to_nat (shp f 2 - 2)) (fun k => width f 0 i * width f 2 k * (F 1%nat (i, j + 1, k)%Z - F 1%nat (i, j, k))))
        + sum 1 (Z.to_nat (shp f 1 - 2)) (fun j => sum 1 (Z.to_nat (shp f 2 - 2)) (fun k => width f 0 i * width f 1 j * (F 2%nat (i, j, k + 1)%Z - F 2%nat (i, j, k)))))%Q)).
    2:{ intros i I. rewrite <- !sum_add. apply sum_ext. intros j J. rewrite <- !sum_add. reflexivity. }
    rewrite !sum_add. apply Qplus_comp; [apply Qplus_comp|].
    + rewrite sum_swap. apply sum_ext. intros j J. rewrite sum_swap. apply sum_ext. intros k K. rewrite (sum_tele _ 1 (fun i => F 0%nat (i, j, k))). replace (1 + Z.of_nat (Z.to_nat (shp f 0 - 2))) with (shp f 0 - 1) by lia. reflexivity.
    + apply sum_ext. intros i I. rewrite sum_swap. apply sum_ext. intros k K. rewrite (sum_tele _ 1 (fun j => F 1%nat (i, j, k))). replace (1 + Z.of_nat (Z.to_nat (shp f 1 - 2))) with (shp f 1 - 1) by lia. reflexivity.
    + apply sum_ext. intros i I. apply sum_ext. intros j J. rewrite (sum_tele _ 1 (fun k => F 2%nat (i, j, k))). replace (1 + Z.of_nat (Z.to_nat (shp f 2 - 2))) with (shp f 2 - 1) by lia. reflexivity.
Qed.
Print Assumptions C47_gauss.

(** ** the divergence of a curl is zero *)
(* circulation of edge values around the lower side across d of a cell, over its area *)
Definition curl_of (X : nat -> Z -> Q) (E : nat -> ix -> Q) (d : nat) (p : ix) : Q :=
  let dif a b := ((E b (next a p) - E b p) / (X a (coord a p + 1)%Z - X a (coord a p)))%Q in
  match d with 0%nat => (dif 1%nat 2%nat - dif 2%nat 1%nat)%Q | 1%nat => (dif 2%nat 0%nat - dif 0%nat 2%nat)%Q | _ => (dif 0%nat 1%nat - dif 1%nat 0%nat)%Q end.
Theorem C47_div_curl : forall f E, raw f -> face_data f (curl_of (node f) E) -> (forall d, (d < 3)%nat -> 3 <= shp f d) -> (forall d, (d < 3)%nat -> increasing (node f d) (shp f d)) ->
  exists w, div_fc true f = Some (Div w) /\ shape w = [shp f 0; shp f 1; shp f 2] /\ forall js, in_shape (shape w) js -> (get w js == 0)%Q.
Proof.
  intros f E R D N X. destruct (C47_div f _ R D N X) as (w & W & S & V). exists w. split; [exact W|]. split; [exact S|]. intros js I. rewrite (V js I). destruct (inner (shp f) js) as ((x & y) & z). unfold div_of, curl_of. cbn [next coord nth]. unfold Qdiv. ring.
Qed.
Print Assumptions C47_div_curl.

(** * refuted *)
(* a field with one cell along one axis and more along another, as in 2-D output, cannot be converted *)
Theorem C47_one_cell_refuted : forall f a b, raw f -> (forall d, (d < 3)%nat -> 1 <= shp f d) -> (a < 3)%nat -> (b < 3)%nat -> shp f a = 1 -> 2 <= shp f b ->
  make_leading true f = None /\ forall bnd, fc2cc bnd f = None /\ ec2cc bnd f = None /\ div_fc bnd f = None.
Proof.
  intros f a b R N A B Sa Sb. assert (M : make_leading true f = None).
  { unfold make_leading. rewrite R. destruct (center f) eqn:Ce; [| |reflexivity]; (destruct (existsb _ axes3); [reflexivity|]); (match goal with |- (if ?c then _ else _) = _ => destruct c eqn:F end; [|reflexivity]); exfalso;
    rewrite forallb_forall in F; (assert (Ib : In b axes3) by (destruct b as [|[|[|b]]]; cbn; tauto || lia)); (assert (Ia : In a axes3) by (destruct a as [|[|[|a]]]; cbn; tauto || lia)); specialize (F b Ib); rewrite forallb_forall in F; specialize (F a Ia);
    unfold fits, sc, sd in F; rewrite Sa in F; cbn [Z.eqb Pos.eqb sl_len] in F; (replace (shp f b =? 1) with false in F by lia); rewrite Ce in F; unfold offs, SA, SB in F; destruct (stagger f b), (flip f a), (Nat.eqb b a); discriminate F. }
  split; [exact M|]. intros bnd. unfold fc2cc, ec2cc, div_fc. rewrite M. auto.
Qed.
Print Assumptions C47_one_cell_refuted.
(* the option not to trim leading fields never works *)
Theorem C47_untrimmed_refuted : forall f c, raw f -> (forall d, (d < 3)%nat -> 2 <= shp f d) -> (c < 3)%nat -> stagger f c = Leading -> make_leading false f = None.
Proof.
  intros f c R N C St. unfold make_leading. rewrite R. destruct (center f) eqn:Ce; [| |reflexivity]; (destruct (existsb _ axes3); [reflexivity|]); (match goal with |- (if ?c then _ else _) = _ => destruct c eqn:F end; [|reflexivity]); exfalso;
    rewrite forallb_forall in F; (assert (Ic : In c axes3) by (destruct c as [|[|[|c]]]; cbn; tauto || lia)); specialize (F c Ic); rewrite forallb_forall in F; specialize (F c Ic); pose proof (N c C) as Nc;
    unfold fits, sc, sd in F; (replace (shp f c =? 1) with false in F by lia); rewrite Ce, St in F; unfold offs, SA, SB in F; rewrite Nat.eqb_refl in F; destruct (flip f c); cbn [negb andb nth sl_len] in F; lia.
Qed.
Print Assumptions C47_untrimmed_refuted.
(* one cell along an axis: the divergence of a plain field is 0 / 0 *)
Theorem C47_div_one_cell_refuted : forall f bnd a, pre f <> Some false -> (forall d, (d < 3)%nat -> 1 <= shp f d) -> (a < 3)%nat -> shp f a = 1 -> div_fc bnd f = Some Nan.
Proof.
  intros f bnd a P N A Sa. assert (L : exists g, make_leading true f = Some g /\ shp g = shp f) by (unfold make_leading; destruct (pre f) as [[|]|]; [|contradiction|]; eexists; (split; [reflexivity|]); reflexivity).
  destruct L as (g & G & S). unfold div_fc. rewrite G. assert (K : prep_ok g = true) by (unfold prep_ok; cbn [forallb axes3]; rewrite S; pose proof (N 0%nat ltac:(lia)); pose proof (N 1%nat ltac:(lia)); pose proof (N 2%nat ltac:(lia)); lia). rewrite K.
  replace (zero_width g) with true; [reflexivity|]. symmetry. unfold zero_width. apply existsb_exists. exists a. split; [destruct a as [|[|[|a]]]; cbn; tauto || lia|]. apply existsb_exists. exists 0%nat. unfold xp, xm, sm, sp. rewrite S, Sa. cbn [Z.eqb Pos.eqb sl_len sl_off]. split; [left; reflexivity|]. apply Qeq_bool_iff. ring.
Qed.
Print Assumptions C47_div_one_cell_refuted.
(* two cells along x: the result has three cells and is not averaged.  The flux is the place of the side, so that the mean over a cell is 1/2 or 3/2. *)
Definition demo (c : centering) (s : nat -> stag) (fl : nat -> bool) (n : nat -> Z) (v : nat -> ix -> Q) : fld := FC c (Some false) s fl n v (fun _ i => inject_Z i).
Definition two : fld := demo Face (fun _ => Leading) (fun _ => false) (fun d => match d with 0%nat => 2 | _ => 3 end) (fun d p => inject_Z (coord d p)).
Theorem C47_two_cells_refuted : face_data two (fun d p => inject_Z (coord d p)) /\
  exists r w, fc2cc true two = Some r /\ nth_error r 0 = Some w /\ shape w = [3; 3; 3] /\ forall x y z, 0 <= x < 3 -> 0 <= y < 3 -> 0 <= z < 3 -> (get w [x; y; z] == 1)%Q.
Proof.
  split; [split; reflexivity|]. eexists. eexists. split; [reflexivity|]. split; [reflexivity|]. split; [reflexivity|]. intros x y z X Y Z.
  assert (A : x = 0 \/ x = 1 \/ x = 2) by lia. assert (B : y = 0 \/ y = 1 \/ y = 2) by lia. assert (C : z = 0 \/ z = 1 \/ z = 2) by lia. destruct A as [-> |[-> | ->]], B as [-> |[-> | ->]], C as [-> |[-> | ->]]; vm_compute; reflexivity.
Qed.
Print Assumptions C47_two_cells_refuted.
(* edges: different staggering along the axes is not supported *)
Definition mixed : fld := demo Edge (fun d => match d with 0%nat => Trailing | _ => Leading end) (fun _ => false) (fun _ => 3) (fun c p => inject_Z (coord 0 (up (demo Edge (fun d => match d with 0%nat => Trailing | _ => Leading end) (fun _ => false) (fun _ => 3) (fun _ _ => 0%Q)) c 0 p) + 10 * coord 1 p + 100 * coord 2 p)).
Theorem C47_mixed_refuted : let E := fun (_ : nat) p => inject_Z (coord 0 p + 10 * coord 1 p + 100 * coord 2 p) in
  edge_data mixed E /\ exists g, make_leading true mixed = Some g /\ shp g 0 = 2 /\ shp g 1 = 2 /\ shp g 2 = 2 /\ comp g 0 (0, 0, 0) = inject_Z 1 /\ E 0%nat (plus1 (0, 0, 0)) = inject_Z 111.
Proof.
  cbv zeta. split.
  - split; [reflexivity|]. intros c ((x & y) & z) C _. destruct c as [|[|[|c]]]; [| | |lia]; reflexivity.
  - eexists. split; [reflexivity|]. repeat split; vm_compute; reflexivity.
Qed.
Print Assumptions C47_mixed_refuted.

(** * the hypotheses can be met *)
Definition sides (d : nat) (p : ix) : Q := inject_Z (match d with 0%nat => coord 0 p ^ 2 | 1%nat => 5 * coord 1 p | _ => coord 0 p - 2 * coord 2 p end).
Definition ggcm : fld := demo Face (fun _ => Trailing) (fun d => match d with 2%nat => false | _ => true end) (fun d => match d with 0%nat => 4 | _ => 3 end)
  (fun d p => sides d (match d with 2%nat => next 2 p | _ => p end)).
Example C47_nonvacuous : raw ggcm /\ face_data ggcm sides /\ (forall d, (d < 3)%nat -> 3 <= shp ggcm d) /\ (forall d, (d < 3)%nat -> increasing (node ggcm d) (shp ggcm d)) /\
  exists w, div_fc true ggcm = Some (Div w) /\ (get w [2; 1; 1]%Z == 5 + 5 - 2)%Q /\ (get w [3; 2; 0]%Z == 8)%Q.
Proof.
  split; [reflexivity|]. split; [split; [reflexivity|]; intros d ((x & y) & z) C _; destruct d as [|[|[|d]]]; [| | |lia]; reflexivity|].
  split; [intros [|[|[|d]]] C; cbn; lia|]. split; [intros d C i I; cbn [node ggcm demo]; rewrite <- Zlt_Qlt; lia|].
  eexists. split; [reflexivity|]. split; vm_compute; reflexivity.
Qed.
Definition edges (c : nat) (p : ix) : Q := inject_Z (coord ((c + 1) mod 3)%nat p * coord ((c + 2) mod 3)%nat p).
Definition eggcm : fld := demo Edge (fun _ => Trailing) (fun _ => false) (fun d => match d with 0%nat => 4 | _ => 3 end)
  (fun c p => edges c (match c with 0%nat => next 1 (next 2 p) | 1%nat => next 0 (next 2 p) | _ => next 0 (next 1 p) end)).
Example C47_nonvacuous_edges : raw eggcm /\ edge_data eggcm edges /\ (forall c d, (c < 3)%nat -> (d < 3)%nat -> stagger eggcm c = stagger eggcm d) /\ (forall d, (d < 3)%nat -> 3 <= shp eggcm d) /\
  exists r w, ec2cc true eggcm = Some r /\ nth_error r 2 = Some w /\ (get w [2; 1; 1]%Z == 15 # 4)%Q.
Proof.
  split; [reflexivity|]. split; [split; [reflexivity|]; intros c ((x & y) & z) C _; destruct c as [|[|[|c]]]; [| | |lia]; reflexivity|].
  split; [reflexivity|]. split; [intros [|[|[|d]]] C; cbn; lia|].
  eexists. eexists. split; [reflexivity|]. split; [reflexivity|]. vm_compute. reflexivity.
Qed.
(* fluxes that are a curl *)
Definition curled : fld := demo Face (fun _ => Leading) (fun _ => false) (fun _ => 3) (curl_of (fun _ i => inject_Z i) (fun c p => inject_Z (coord 0 p * coord 1 p + Z.of_nat c * coord 2 p ^ 2))).
Example C47_nonvacuous_curl : raw curled /\ face_data curled (curl_of (node curled) (fun c p => inject_Z (coord 0 p * coord 1 p + Z.of_nat c * coord 2 p ^ 2))) /\ ~ (comp curled 0 (1, 1, 1)%Z == 0)%Q.
Proof. split; [reflexivity|]. split; [split; reflexivity|]. vm_compute. discriminate. Qed.
