(** C74: an XDMF file loads as the tree of grids it describes. *)
From Coq Require Import String.
From Verif Require Import XdmfModel.
From Coq Require Import List QArith Lqa Lia Permutation Sorted.
Import ListNotations.

(** ** what a file describes *)
Section SPEC.
Context {T G A : Type}.
Definition or {X} (a b : option X) : option X := match a with Some _ => a | None => b end.
(** the time of a grid is its own, or else the one given from above *)
Definition single (tm : option xtime) : option Q := match tm with Some (XSingle t) => Some t | _ => None end.
(** the i-th step of a temporal collection has the i-th time of its list *)
Definition listed (tm : option xtime) (i : nat) : option Q :=
  match tm with
  | Some (XList l) => nth_error l i
  | Some (XHyper t0 dt n) => if (i <? n)%nat then Some (t0 + inject_Z (Z.of_nat i) * dt)%Q else None
  | _ => None
  end.
(** a spatial collection with no time has the time of its first grid *)
Definition first_time (l : list (node G A)) : option Q := match l with n :: _ => own_time n | [] => None end.
(** the steps of a temporal collection are in the order of their times, and steps of one time are in the order of the file *)
Definition in_time_order (l : list (node G A)) (steps : list (Q * node G A)) : Prop :=
  exists pairs, Forall2 (fun n p => snd p = n /\ own_time n = Some (fst p)) l pairs /\ Permutation pairs steps /\
    StronglySorted (fun a b => fst a <= fst b)%Q steps /\
    forall t, filter (fun p => Qeq_bool (fst p) t) steps = filter (fun p => Qeq_bool (fst p) t) pairs.
(** [means t g x n]: the grid [x] inside something with time [t] and geometry [g] describes the node [n] *)
Inductive means : option Q -> option G -> xgrid T G A -> node G A -> Prop :=
| m_uniform t g tm topo geo attrs subs :
    means t g (XGrid Uniform tm topo geo attrs subs) (NGrid (or (single tm) t) (or geo g) attrs)
| m_spatial t g tm topo geo attrs subs l :
    length l = length subs ->
    (forall i x n, nth_error subs i = Some x -> nth_error l i = Some n -> means (or (single tm) t) (or geo g) x n) ->
    means t g (XGrid Spatial tm topo geo attrs subs) (NSpatial (or (or (single tm) t) (first_time l)) l)
| m_temporal t g tm topo geo attrs subs l steps :
    length l = length subs ->
    (forall i x n, nth_error subs i = Some x -> nth_error l i = Some n -> means (or (listed tm i) (or (single tm) t)) (or geo g) x n) ->
    in_time_order l steps ->
    means t g (XGrid Temporal tm topo geo attrs subs) (NTemporal (or (single tm) t) steps).

(** files for which the reader gets it right: every grid has its own topology, geometry and an attribute; collections have no geometry and are
    not empty; times are single, no grid has a time inside another that has one ([b]: there is one above); a spatial collection is of grids, at least two
    if they have times; a temporal collection has no time of its own, but each step has one *)
Definition timed (b : bool) (tm : option xtime) : Prop := tm = None \/ (b = false /\ exists t, tm = Some (XSingle t)).
Definition above (b : bool) (tm : option xtime) : bool := match tm with Some _ => true | None => b end.
Definition own_xtime (x : xgrid T G A) : option xtime := match x with XGrid _ tm _ _ _ _ => tm end.
Definition is_uniform (x : xgrid T G A) : Prop := match x with XGrid Uniform _ _ _ _ _ => True | _ => False end.
Definition has_time (x : xgrid T G A) : Prop :=
  match x with
  | XGrid Spatial None _ _ _ (y :: _) => own_xtime y <> None
  | XGrid _ tm _ _ _ _ => tm <> None
  end.
Inductive plain : bool -> xgrid T G A -> Prop :=
| p_uniform b tm topo geo attrs subs : attrs <> [] -> timed b tm -> plain b (XGrid Uniform tm (Some topo) (Some geo) attrs subs)
| p_spatial b tm topo attrs subs : subs <> [] -> timed b tm -> (forall x, In x subs -> plain (above b tm) x /\ is_uniform x) ->
    (2 <= length subs)%nat \/ (forall x, In x subs -> own_xtime x = None) ->
    plain b (XGrid Spatial tm topo None attrs subs)
| p_temporal b topo attrs subs : subs <> [] -> (forall x, In x subs -> plain b x) ->
    (forall x, In x subs -> b = true \/ has_time x) ->
    plain b (XGrid Temporal None topo None attrs subs).
(** grids that cannot be read: a geometry without a topology, an unknown kind of collection, wherever they are *)
Inductive broken : xgrid T G A -> Prop :=
| b_geometry gt tm g attrs subs : broken (XGrid gt tm None (Some g) attrs subs)
| b_collection tm topo geo attrs subs : broken (XGrid OtherCollection tm topo geo attrs subs)
| b_inside gt tm topo geo attrs subs x : gt = Temporal \/ gt = Spatial -> In x subs -> broken x -> broken (XGrid gt tm topo geo attrs subs).
End SPEC.

Section PROOFS.
Context {T G A : Type}.
Notation node := (node G A).
Notation xgrid := (xgrid T G A).

(** ** steps *)
Lemma insert_perm t (n : node) l : Permutation ((t, n) :: l) (insert t n l).
Proof.
  induction l as [|[t' n'] l IH]; cbn [insert]; [reflexivity|]. destruct (Qle_bool t' t); [|reflexivity].
  rewrite perm_swap. now constructor.
Qed.
Lemma insert_sorted t (n : node) l : StronglySorted (fun a b => fst a <= fst b)%Q l -> StronglySorted (fun a b => fst a <= fst b)%Q (insert t n l).
Proof.
  induction 1 as [|[t' n'] l Ss IH F]; cbn [insert]; [repeat constructor|]. destruct (Qle_bool t' t) eqn:E.
  - apply Qle_bool_iff in E. constructor; [exact IH|]. rewrite Forall_forall in *. intros p Hp.
    apply (Permutation_in _ (Permutation_sym (insert_perm t n l))) in Hp. destruct Hp as [<-|Hp]; [exact E|auto].
  - assert (t < t')%Q. { destruct (Qlt_le_dec t t') as [|L]; [assumption|]. apply Qle_bool_iff in L. congruence. }
    constructor; [now constructor|]. constructor; [cbn; lra|]. rewrite Forall_forall in *. intros p Hp. specialize (F p Hp). cbn in *. lra.
Qed.
Lemma insert_filter t (n : node) l t0 : StronglySorted (fun a b => fst a <= fst b)%Q l ->
  filter (fun p => Qeq_bool (fst p) t0) (insert t n l) = filter (fun p => Qeq_bool (fst p) t0) l ++ filter (fun p => Qeq_bool (fst p) t0) [(t, n)].
Proof.
  induction 1 as [|[t' n'] l Ss IH F]; cbn [insert]; [reflexivity|]. destruct (Qle_bool t' t) eqn:E.
  - cbn [filter fst] in IH |- *. rewrite IH. destruct (Qeq_bool t' t0); reflexivity.
  - assert (t < t')%Q. { destruct (Qlt_le_dec t t') as [|L]; [assumption|]. apply Qle_bool_iff in L. congruence. }
    cbn [filter fst]. destruct (Qeq_bool t t0) eqn:E0; [|now rewrite app_nil_r]. apply Qeq_bool_iff in E0.
    assert (Z1 : Qeq_bool t' t0 = false). { destruct (Qeq_bool t' t0) eqn:E1; [|reflexivity]. apply Qeq_bool_iff in E1. lra. }
    assert (Z2 : filter (fun p : Q * node => Qeq_bool (fst p) t0) l = []).
    { clear - F H E0. induction F as [|p l Hp F IH]; [reflexivity|]. cbn [filter]. cbn in Hp. destruct (Qeq_bool (fst p) t0) eqn:E1; [|exact IH]. apply Qeq_bool_iff in E1. lra. }
    rewrite Z1, Z2. reflexivity.
Qed.
Lemma steps_ok (l : list node) : forall acc pairs0 l0, (forall n, In n l -> own_time n <> None) ->
  Forall2 (fun n p => snd p = n /\ own_time n = Some (fst p)) l0 pairs0 -> Permutation pairs0 acc -> StronglySorted (fun a b => fst a <= fst b)%Q acc ->
  (forall t, filter (fun p => Qeq_bool (fst p) t) acc = filter (fun p => Qeq_bool (fst p) t) pairs0) ->
  in_time_order (l0 ++ l) (fold_left (fun s n => add_step n s) l acc).
Proof.
  induction l as [|n l IH]; intros acc pairs0 l0 H F P Ss Fi; cbn [fold_left].
  - rewrite app_nil_r. exists pairs0. auto.
  - destruct (own_time n) as [t|] eqn:E; [|exfalso; apply (H n); [now left|exact E]]. unfold add_step at 2. rewrite E.
    replace (l0 ++ n :: l) with ((l0 ++ [n]) ++ l) by (rewrite <- app_assoc; reflexivity).
    apply (IH (insert t n acc) (pairs0 ++ [(t, n)])).
    + intros m Hm. apply H. now right.
    + apply Forall2_app; [exact F|]. constructor; [auto|constructor].
    + rewrite <- insert_perm, <- P. rewrite Permutation_app_comm. reflexivity.
    + now apply insert_sorted.
    + intros t0. rewrite insert_filter by exact Ss. rewrite filter_app, Fi. reflexivity.
Qed.

(** ** the tree *)
Lemma add_all_ok (parse : xgrid -> parsed) subs : (forall x, In x subs -> exists n, parse x = PNode n) ->
  exists l, add_all parse subs = Some l /\ length l = length subs /\ forall i x n, nth_error subs i = Some x -> nth_error l i = Some n -> parse x = PNode n.
Proof.
  induction subs as [|x subs IH]; intros H; [exists []; split; [reflexivity|]; split; [reflexivity|]; intros [|i]; discriminate|].
  destruct IH as (l & E & L & N); [intros y Hy; apply H; now right|]. destruct (H x (or_introl eq_refl)) as (n & En).
  exists (n :: l). unfold add_all in *. cbn [fold_right]. rewrite En, E. split; [reflexivity|]. split; [cbn; lia|].
  intros [|i] y m; cbn [nth_error]; [intros [= ->] [= ->]; exact En|apply N].
Qed.
Lemma single_timed b tm : timed b tm -> forall t, b = (match t with Some _ => true | None => false end) ->
  (match t, tm with None, Some XRange => true | _, _ => false end) = false /\
  (match t, tm with None, Some (XSingle s) => Some s | _, _ => t end) = or (single tm) t /\
  above b tm = (match or (single tm) t with Some _ => true | None => false end) /\ (match tm with Some XRange => true | _ => false end) = false /\ forall i, listed tm i = None.
Proof.
  intros [->|(-> & s & ->)] t E.
  - cbn. destruct t; auto.
  - destruct t; [discriminate|]. cbn. auto.
Qed.

Fixpoint depth (x : xgrid) : nat := match x with XGrid _ _ _ _ _ subs => S (fold_right Nat.max 0%nat (map depth subs)) end.
Lemma depth_sub x subs : In x subs -> (depth x <= fold_right Nat.max 0 (map depth subs))%nat.
Proof. induction subs as [|y subs IH]; intros []; cbn [map fold_right]; [subst; lia|]. specialize (IH H). lia. Qed.

Lemma timed_own b (x : xgrid) : plain b x -> timed b (own_xtime x).
Proof. intros P. inversion P; subst; cbn [own_xtime]; auto. now left. Qed.
Lemma parse_plain d : forall (x : xgrid) b t g, (depth x <= d)%nat -> plain b x -> b = (match t with Some _ => true | None => false end) ->
  exists n, parse_grid x t = PNode n /\ means t g x n /\ (is_uniform x -> is_grid n = true /\ own_time n = or (single (own_xtime x)) t) /\
    (b = true \/ has_time x -> own_time n <> None).
Proof.
  induction d as [|d IH]; intros x b t g D P Eb; [destruct x; cbn in D; lia|].
  destruct P as [b tm topo geo attrs subs Ha Ht|b tm topo attrs subs Hs Ht Hp H2|b topo attrs subs Hs Hp Hst].
  - destruct (single_timed b tm Ht t Eb) as (B1 & B2 & B3 & B4 & B5); cbn [parse_grid own_xtime]; rewrite B1, B2.
    eexists. split; [destruct attrs; [congruence|reflexivity]|]. split; [exact (m_uniform t g tm (Some topo) (Some geo) attrs subs)|]. split; [split; reflexivity|].
    cbn [own_time has_time]. intros H. destruct Ht as [->|(-> & s & ->)]; [|discriminate]. cbn [single or]. destruct H as [H|H]; [|congruence]. destruct t; congruence.
  - destruct (single_timed b tm Ht t Eb) as (B1 & B2 & B3 & B4 & B5); cbn [parse_grid own_xtime]; rewrite B1, B2.
    set (t' := or (single tm) t) in *.
    assert (K : forall x, In x subs -> exists n, parse_grid x t' = PNode n /\ means t' g x n /\ is_grid n = true /\ own_time n = or (single (own_xtime x)) t').
    { intros x Hx. destruct (Hp x Hx) as (Hpx & Hu). destruct (IH x (above b tm) t' g) as (n & E1 & E2 & E3 & _); auto; [cbn [depth] in D; pose proof (depth_sub x subs Hx); lia|].
      exists n. specialize (E3 Hu). tauto. }
    destruct (add_all_ok (fun x => parse_grid x t') subs) as (l & El & Ll & Nl); [intros x Hx; destruct (K x Hx) as (n & En & _); eauto|].
    assert (Gl : forallb is_grid l = true).
    { apply forallb_forall. intros n Hn. destruct (In_nth_error _ _ Hn) as (i & Ei).
      destruct (nth_error subs i) as [x|] eqn:Ex; [|apply nth_error_None in Ex; assert (i < length l)%nat by (apply nth_error_Some; congruence); lia].
      pose proof (Nl i x n Ex Ei) as En'. destruct (K x (nth_error_In _ _ Ex)) as (m & Em & _ & Gm & _). assert (m = n) by congruence. now subst m. }
    assert (A1 : amr_time t' l = or t' (first_time l)).
    { unfold amr_time, first_time. destruct t' as [s|] eqn:Et; [reflexivity|]. cbn [or]. destruct l as [|n0 [|n1 l]]; [reflexivity| |now rewrite Gl].
      destruct H2 as [H2|H2]; [cbn in Ll; lia|]. destruct subs as [|x0 subs]; [discriminate Ll|].
      pose proof (Nl 0%nat x0 n0 eq_refl eq_refl) as En'. destruct (K x0 (or_introl eq_refl)) as (m & Em & _ & _ & Om). assert (m = n0) by congruence. subst m.
      rewrite Om, (H2 x0 (or_introl eq_refl)). reflexivity. }
    assert (Ne : l <> []) by (intros ->; destruct subs; [congruence|discriminate Ll]).
    exists (NSpatial (or t' (first_time l)) l).
    split; [rewrite El, A1; destruct topo; (destruct l; [congruence|reflexivity])|]. split; [|split; [intros []|]].
    + unfold t'. apply m_spatial; [exact Ll|]. fold t'. intros i x n Ex En.
      destruct (K x (nth_error_In _ _ Ex)) as (m & Em & Mm & _). pose proof (Nl i x n Ex En) as En'. assert (m = n) by congruence. subst m. exact Mm.
    + cbn [own_time]. intros H. destruct t' as [s|] eqn:Et; [discriminate|]. destruct Ht as [->|(-> & s & ->)]; [|unfold t' in Et; discriminate].
      destruct H as [H|H]; [unfold t' in Et; destruct t; [discriminate|congruence]|]. cbn [or]. destruct subs as [|x0 subs]; [congruence|]. destruct l as [|n0 l]; [congruence|].
      cbn [first_time has_time] in *. pose proof (Nl 0%nat x0 n0 eq_refl eq_refl) as En'. destruct (K x0 (or_introl eq_refl)) as (m & Em & _ & _ & Om). assert (m = n0) by congruence. subst m.
      rewrite Om. destruct (Hp x0 (or_introl eq_refl)) as (Hpx & _). destruct (timed_own _ _ Hpx) as [W|(_ & s & W)]; [congruence|]. rewrite W. discriminate.
  - assert (K : forall x, In x subs -> exists n, parse_grid x t = PNode n /\ means t g x n /\ (b = true \/ has_time x -> own_time n <> None)).
    { intros x Hx. destruct (IH x b t g) as (n & E1 & E2 & _ & E4); auto; [cbn [depth] in D; pose proof (depth_sub x subs Hx); lia|]. eauto. }
    destruct (add_all_ok (fun x => parse_grid x t) subs) as (l & El & Ll & Nl); [intros x Hx; destruct (K x Hx) as (n & En & _); eauto|].
    assert (Ne : l <> []) by (intros ->; destruct subs; [congruence|discriminate Ll]).
    exists (NTemporal t (fold_left (fun s n => add_step n s) l [])).
    split; [cbn [parse_grid]; destruct topo, t; rewrite El; (destruct l; [congruence|reflexivity])|]. split; [|split; [intros []|]].
    + apply (m_temporal t g None topo None attrs subs l); [exact Ll| |].
      * intros i x n Ex En. cbn [or listed single].
        destruct (K x (nth_error_In _ _ Ex)) as (m & Em & Mm & _). pose proof (Nl i x n Ex En) as En'. assert (m = n) by congruence. subst m. exact Mm.
      * apply (steps_ok l [] [] []); try constructor. intros n Hn E0. destruct (In_nth_error _ _ Hn) as (i & Ei).
        destruct (nth_error subs i) as [x|] eqn:Ex; [|apply nth_error_None in Ex; assert (i < length l)%nat by (apply nth_error_Some; congruence); lia].
        pose proof (Nl i x n Ex Ei) as En'. pose proof (nth_error_In _ _ Ex) as Hx. destruct (K x Hx) as (m & Em & _ & Om). assert (m = n) by congruence. subst m.
        exact (Om (Hst x Hx) E0).
    + cbn [own_time has_time]. intros [H|H]; [destruct t; congruence|congruence].
Qed.

(** such files load as the tree of grids they describe *)
Theorem C74_load (l : list xgrid) : Forall (plain false) l -> exists nodes, load l = Some nodes /\ Forall2 (means None None) l nodes.
Proof.
  intros F. assert (K : exists nodes, parse_all l = Some (map PNode nodes) /\ Forall2 (means None None) l nodes).
  { induction F as [|x l P F IH]; [exists []; split; [reflexivity|constructor]|]. destruct IH as (nodes & E & M).
    destruct (parse_plain (depth x) x false None None (Nat.le_refl _) P eq_refl) as (n & En & Mn & _).
    exists (n :: nodes). unfold parse_all in *. cbn [fold_right map]. rewrite En, E. split; [reflexivity|now constructor]. }
  destruct K as (nodes & E & M). exists nodes. split; [|exact M]. unfold load. rewrite E. cbn [option_map]. f_equal. clear.
  replace (flat_map (fun p : parsed => match p with PEmpty n => [n] | _ => [] end) (map PNode nodes)) with (@nil node) by (induction nodes; auto).
  rewrite app_nil_r. induction nodes as [|n nodes IH]; [reflexivity|]. cbn [map flat_map app]. now rewrite IH.
Qed.

(** a grid that cannot be read is never left out silently *)
Lemma parse_broken (x : xgrid) : broken x -> forall t, parse_grid x t = PErr.
Proof.
  induction 1 as [gt tm g attrs subs|tm topo geo attrs subs|gt tm topo geo attrs subs x Hgt Hx B IH]; intros t.
  - reflexivity.
  - cbn [parse_grid]. destruct geo, topo, t, tm as [[]|]; reflexivity.
  - assert (E : forall s, add_all (fun x : xgrid => parse_grid x s) subs = None).
    { intros s. unfold add_all. induction subs as [|y subs IHs]; [destruct Hx|]. cbn [fold_right]. destruct Hx as [->|Hx]; [now rewrite IH|].
      rewrite (IHs Hx). destruct (parse_grid y s); reflexivity. }
    cbn [parse_grid]. destruct Hgt as [-> | ->]; destruct geo, topo, t, tm as [[]|]; rewrite ?E; try reflexivity; destruct subs; try reflexivity; destruct Hx.
Qed.
Theorem C74_no_silent_loss (l : list xgrid) x : In x l -> broken x -> load l = None.
Proof.
  intros Hx B. unfold load. replace (parse_all l) with (@None (list (@parsed G A))); [reflexivity|]. symmetry. pose proof (parse_broken x B None) as E.
  unfold parse_all. induction l as [|y l IH]; [destruct Hx|]. cbn [fold_right]. destruct Hx as [->|Hx]; [now rewrite E|]. rewrite (IH Hx). destruct (parse_grid y None); reflexivity.
Qed.

(** ** what the reader gets wrong *)
Lemma load_one (x : xgrid) : load [x] = match parse_grid x None with PErr | PNone => None | PEmpty n | PNode n => Some [n] end.
Proof. unfold load, parse_all. cbn [fold_right]. destruct (parse_grid x None); reflexivity. Qed.
Definition bare (p : T * G * (A * list A)) : xgrid := let '(t, g, (a, r)) := p in XGrid Uniform None (Some t) (Some g) (a :: r) [].
(** the list of times of a temporal collection is ignored: every step is at time 0 *)
Theorem C74_list_times_refuted tm gs : gs <> [] -> (exists l, tm = XList l) \/ (exists t0 dt n, tm = XHyper t0 dt n) ->
  load [XGrid Temporal (Some tm) None None [] (map bare gs)] =
    Some [NTemporal None (map (fun p => (0, NGrid (Some 0) (Some (snd (fst p))) (fst (snd p) :: snd (snd p))))%Q gs)].
Proof.
  intros Hne Htm. rewrite load_one; cbn [parse_grid].
  assert (E : add_all (fun x : xgrid => parse_grid x None) (map bare gs) = Some (map (fun p => NGrid None (Some (snd (fst p))) (fst (snd p) :: snd (snd p))) gs)).
  { clear. unfold add_all. induction gs as [|[[t g] [a r]] gs IH]; [reflexivity|]. cbn [map bare fold_right parse_grid]. rewrite IH. reflexivity. }
  assert (F : forall pre, (forall p, In p pre -> fst p = 0%Q) -> fold_left (fun s n => add_step n s) (map (fun p : T * G * (A * list A) => NGrid None (Some (snd (fst p))) (fst (snd p) :: snd (snd p))) gs) pre =
    pre ++ map (fun p => (0%Q, NGrid (Some 0%Q) (Some (snd (fst p))) (fst (snd p) :: snd (snd p)))) gs).
  { clear. induction gs as [|p gs IH]; intros pre H; cbn [map fold_left]; [now rewrite app_nil_r|]. cbn [add_step own_time set_time].
    assert (I : forall n, insert 0 n pre = pre ++ [(0%Q, n)]).
    { intros n. clear IH. induction pre as [|[t m] pre IHp]; [reflexivity|]. cbn [insert]. assert (t = 0%Q) by (apply (H (t, m)); now left). subst t. cbn [Qle_bool]. rewrite IHp; [reflexivity|]. intros q Hq. apply H. now right. }
    rewrite I. rewrite IH by (intros q Hq; apply in_app_or in Hq; destruct Hq as [Hq|[<-|[]]]; [now apply H|reflexivity]). rewrite <- app_assoc. reflexivity. }
  specialize (F [] (fun p H => match H with end)). cbn [app] in F.
  destruct Htm as [(l & ->)|(t0 & dt & n & ->)]; cbv iota zeta; rewrite E; (destruct gs as [|p gs]; [congruence|]); cbn [map] in *; rewrite F; reflexivity.
Qed.
(** a collection with a geometry for its grids cannot be loaded; and if its grids have no geometry of their own they are lost *)
Theorem C74_geometry_refuted tm topo geo gt gs : gs <> [] -> gt = Temporal \/ gt = Spatial -> tm <> Some XRange ->
  load [XGrid gt tm (Some topo) (Some geo) [] (map bare gs)] = None.
Proof.
  intros Hne Hgt Htm. rewrite load_one; cbn [parse_grid].
  assert (E : forall t, exists l, l <> [] /\ add_all (fun x : xgrid => parse_grid x t) (map bare gs) = Some l).
  { intros t. exists (map (fun p => NGrid t (Some (snd (fst p))) (fst (snd p) :: snd (snd p))) gs). split; [destruct gs; [congruence|discriminate]|].
    clear. unfold add_all. induction gs as [|[[t0 g] [a r]] gs IH]; [reflexivity|]. cbn [map bare fold_right parse_grid]. rewrite IH. destruct t; reflexivity. }
  destruct tm as [[s|l|t0 dt n|]|]; try congruence; cbv iota zeta; destruct Hgt as [-> | ->];
    match goal with |- context [add_all (fun x => parse_grid x ?t) _] => destruct (E t) as ([|n1 l1] & Hl & ->); [congruence|(reflexivity || (destruct gs; [congruence|reflexivity]))] end.
Qed.
Theorem C74_shared_geometry_refuted topo geo (ls : list (list A)) gt : gt = Temporal \/ gt = Spatial ->
  exists n, load [XGrid (T := T) (G := G) gt None (Some topo) (Some geo) [] (map (fun a => XGrid (T := T) (G := G) Uniform None None None a []) ls)] = Some [n] /\ (n = NTemporal None [] \/ n = NSpatial None []).
Proof.
  intros Hgt. rewrite load_one; cbn [parse_grid].
  assert (E : add_all (fun x : xgrid => parse_grid x None) (map (fun a => XGrid (T := T) Uniform None None None a []) ls) = Some []).
  { unfold add_all. induction ls as [|a ls IH]; [reflexivity|]. cbn [map fold_right parse_grid]. exact IH. }
  destruct Hgt as [-> | ->]; cbv iota zeta; rewrite E; eauto.
Qed.
(** the time of a grid is ignored if a collection around it has a time *)
Theorem C74_own_time_refuted t1 t2 topo geo a : exists n, load [XGrid Spatial (Some (XSingle t1)) None None [] [XGrid (T := T) (G := G) (A := A) Uniform (Some (XSingle t2)) (Some topo) (Some geo) [a] []]] =
  Some [NSpatial (Some t1) [n]] /\ own_time n = Some t1.
Proof. eexists. split; reflexivity. Qed.
(** a temporal collection with a time of its own cannot be loaded *)
Theorem C74_temporal_time_refuted t topo attrs x subs : load [XGrid (T := T) (G := G) (A := A) Temporal (Some (XSingle t)) topo None attrs (x :: subs)] = None.
Proof. unfold load, parse_all. cbn [fold_right parse_grid]. destruct topo; reflexivity. Qed.
(** steps that are spatial collections of one grid that has the time: every step is at time 0 *)
Theorem C74_one_grid_refuted t (p : T * G * (A * list A)) : exists n, load [XGrid Temporal None None None [] [XGrid Spatial None None None [] [match bare p with XGrid gt _ a b c d => XGrid gt (Some (XSingle t)) a b c d end]]] =
  Some [NTemporal None [(0%Q, NSpatial (Some 0%Q) [n])]] /\ own_time n = Some t.
Proof. destruct p as [[t0 g] [a r]]. eexists. split; reflexivity. Qed.
(** a grid without attributes in a collection is lost *)
Theorem C74_no_fields_refuted topo geo subs (p : T * G * (A * list A)) : exists n, load [XGrid Spatial None None None [] [XGrid Uniform None (Some topo) (Some geo) [] subs; bare p]] = Some [NSpatial None [n]].
Proof. destruct p as [[t g] [a r]]. eexists. reflexivity. Qed.
(** a grid of a kind that is to be ignored makes the whole file fail *)
Theorem C74_ignored_refuted tm topo attrs subs (l r : list xgrid) : load (l ++ XGrid OtherGrid tm topo None attrs subs :: r) = None.
Proof.
  unfold load. replace (parse_all (l ++ XGrid OtherGrid tm topo None attrs subs :: r)) with (@None (list (@parsed G A))); [reflexivity|]. symmetry.
  induction l as [|x l IH].
  - unfold parse_all. cbn [app fold_right parse_grid]. destruct topo, tm as [[]|]; reflexivity.
  - unfold parse_all in *. cbn [app fold_right]. rewrite IH. destruct (parse_grid x None); reflexivity.
Qed.
End PROOFS.
Print Assumptions C74_load.
Print Assumptions C74_no_silent_loss.
Print Assumptions C74_list_times_refuted.
Print Assumptions C74_geometry_refuted.
Print Assumptions C74_shared_geometry_refuted.
Print Assumptions C74_own_time_refuted.
Print Assumptions C74_temporal_time_refuted.
Print Assumptions C74_one_grid_refuted.
Print Assumptions C74_no_fields_refuted.
Print Assumptions C74_ignored_refuted.

Example C74_load_nonvacuous :
  let u t := XGrid (T := unit) (G := nat) (A := string) Uniform t (Some tt) (Some 7%nat) ["b"%string] [] in
  let f := [XGrid Temporal None None None [] [XGrid Spatial (Some (XSingle 2)) None None [] [u None; u None]; u (Some (XSingle 1))]] in
  Forall (plain false) f /\
  load f = Some [NTemporal None [(1, NGrid (Some 1) (Some 7%nat) ["b"%string]); (2, NSpatial (Some 2) [NGrid (Some 2) (Some 7%nat) ["b"%string]; NGrid (Some 2) (Some 7%nat) ["b"%string]])]]%Q.
Proof.
  split; [|reflexivity]. constructor; [|constructor]. apply p_temporal; [discriminate| |].
  - intros x [<-|[<-|[]]].
    + apply p_spatial; [discriminate|right; eauto| |left; cbn; lia]. intros x [<-|[<-|[]]]; (split; [apply p_uniform; [discriminate|now left]|exact I]).
    + apply p_uniform; [discriminate|right; eauto].
  - intros x [<-|[<-|[]]]; right; cbn; discriminate.
Qed.
Example C74_no_silent_loss_nonvacuous :
  broken (XGrid Temporal None None None [] [XGrid Spatial None None None [] [XGrid (T := unit) (A := string) Uniform None None (Some 7%nat) ["b"%string] []]]).
Proof. eapply b_inside; [now left|now left|]. eapply b_inside; [now right|now left|]. apply b_geometry. Qed.
