(** C69: saved fields load again. *)
From Coq Require Import String Ascii.
From Verif Require Import SaveModel FldProofs LayoutProps TransProps ArithProps TrapzProps.
From Coq Require Import ZifyBool ZifyNat Arith Permutation.
Open Scope Z_scope.

(** ** specification *)
(** the field [f], with [n] components if it is a vector, is on the grid with the nodes [nodes] and its values can be read *)
Definition savable {V} (places : center -> list V -> list V) (nodes : list (crd V)) (f : sfield) (n : Z) : Prop :=
  s_nodes f = nodes /\ readable (s_fld f) n /\ sshape (s_fld f) = map (fun ax => Z.of_nat (length (places (s_center f) (snd ax)))) nodes.
(** the loaded field [g] has the centering, the axes, the places and the values of the saved field *)
Definition same_field {V} (places : center -> list V -> list V) (f : sfield) (n : Z) (g : center * fld V V) : Prop :=
  fst g = s_center f /\ f_crds (snd g) = map (fun ax => (fst ax, places (s_center f) (snd ax))) (s_nodes f) /\ f_vec (snd g) = f_vec (s_fld f) /\
  readable (snd g) n /\
  forall js c, in_shape (sshape (s_fld f)) js -> 0 <= c < n -> exists v, val (s_fld f) c js v /\ val (snd g) c js v.
(** the names an npz file uses itself *)
Definition npz_names : list string := ["crd_names"; "field_names_nc"; "field_names_cc"; "field_names_fc"; "field_names_ec"; "file"]%string.

(** ** dictionaries and lists *)
Notation aget := (dget string_dec).
Notation aset := (dset string_dec).
Lemma aset_new {X} (d : list (string * X)) k v : ~ In k (dkeys d) -> aset d k v = d ++ [(k, v)].
Proof.
  induction d as [|[k' v'] d IH]; intros H; [reflexivity|]. cbn [dset app]. destruct (string_dec k k') as [->|N]; [elim H; left; reflexivity|].
  rewrite IH; [reflexivity|]. intros Q. apply H. right. exact Q.
Qed.
Lemma dkeys_app {X} (a b : list (string * X)) : dkeys (a ++ b) = dkeys a ++ dkeys b.
Proof. apply map_app. Qed.
Lemma sremove_in s l : In s l -> exists r, sremove s l = Some r /\ Permutation l (s :: r).
Proof.
  induction l as [|x l IH]; [intros []|]. cbn [sremove]. destruct (String.eqb_spec s x) as [->|N]; [eexists; split; [reflexivity|apply Permutation_refl]|].
  intros [->|H]; [congruence|]. destruct (IH H) as (r & -> & P). exists (x :: r). split; [reflexivity|]. rewrite P. apply perm_swap.
Qed.
Lemma sremoves_in ss : forall l rest, Permutation l (ss ++ rest) -> exists r, sremoves ss l = Some r /\ Permutation r rest.
Proof.
  induction ss as [|s ss IH]; intros l rest P; [exists l; split; [reflexivity|exact P]|]. cbn [sremoves].
  destruct (sremove_in s l) as (r & -> & Q); [apply (Permutation_in s (Permutation_sym P)); left; reflexivity|].
  apply IH. apply (Permutation_cons_inv (a := s)). rewrite <- Q. exact P.
Qed.

Section P.
Context {V : Type} (places : center -> list V -> list V).
Implicit Types (nodes : list (crd V)) (flds : list (string * @sfield V)).

(** ** a field in a file *)
Lemma sshape_placed c nodes : sshape_of (placed places c nodes) = map (fun ax => Z.of_nat (length (places c (snd ax)))) nodes.
Proof. unfold sshape_of, placed. rewrite map_map. reflexivity. Qed.
Lemma plain_placed (vec : bool) c nodes (a : nd V) : F vec (placed places c nodes) (map (fun _ => false) nodes) (SArr a) false None = plain_fld vec (placed places c nodes) a.
Proof. unfold plain_fld, placed. rewrite map_map. reflexivity. Qed.
Lemma plain_same nodes f n a l : savable places nodes f n -> load (s_fld f) = Some a -> l = layout_of (s_fld f) ->
  (f_vec (s_fld f) = true -> l = LInter -> ~ ambiguous (sshape (s_fld f)) n) ->
  same_field places f n (s_center f, F (f_vec (s_fld f)) (placed places (s_center f) nodes) (map (fun _ => false) nodes) (SArr a) false None).
Proof.
  intros (En & R & Sh) La -> Am. destruct (readable_load _ n R) as (a' & La' & Sa & Va & Ga). assert (a' = a) by congruence. subst a'.
  split; [reflexivity|]. cbn [snd f_crds f_vec]. split; [unfold placed; rewrite En; reflexivity|]. split; [reflexivity|].
  pose proof (field_any (f_vec (s_fld f)) (placed places (s_center f) nodes) a (layout_of (s_fld f)) n) as Q.
  rewrite plain_placed. rewrite sshape_placed, <- Sh in Q. destruct Q as (Q1 & Q2).
  - exact Sa.
  - intros E. split; [apply Va; exact E|]. split; [apply Va; exact E|]. auto.
  - split; [exact Q1|]. intros js c Hj Hc. eexists. split; [apply Ga; reflexivity|]. apply Q2; assumption.
Qed.

(** ** npz *)
Lemma load_shape nodes f n a : savable places nodes f n -> load (s_fld f) = Some a ->
  length (shape a) = if f_vec (s_fld f) then S (length nodes) else length nodes.
Proof.
  intros (_ & R & Sh) La. destruct (readable_load _ n R) as (a' & La' & Sa & Va & _). assert (a' = a) by congruence. subst a'. rewrite Sa, Sh. unfold shape_of.
  destruct (f_vec (s_fld f)); [|apply map_length]. destruct (proj2 (Va eq_refl)) as [-> | ->]; cbn [lay_shape]; rewrite ?app_length; cbn [length]; rewrite map_length; [reflexivity|apply Nat.add_1_r].
Qed.
Definition loaded (f : @sfield V) (a : nd V) : Prop := load (s_fld f) = Some a.
Lemma put_flds_ok flds : forall d, (forall name f, In (name, f) flds -> exists a, loaded f a) -> NoDup (map fst flds) -> (forall name, In name (map fst flds) -> ~ In name (dkeys d)) ->
  exists arrs, put_flds d flds = Some (d ++ combine (map fst flds) (map AData arrs)) /\ Forall2 (fun nf a => loaded (snd nf) a) flds arrs.
Proof.
  induction flds as [|[name f] flds IH]; intros d L Nd Hn; [exists []; split; [cbn; rewrite app_nil_r; reflexivity|constructor]|].
  destruct (L name f) as (a & La); [left; reflexivity|]. cbn [put_flds]. unfold loaded in La. rewrite La. cbn [map fst] in *. apply NoDup_cons_iff in Nd as (Ni & Nd).
  rewrite aset_new by (apply Hn; left; reflexivity).
  destruct (IH (d ++ [(name, AData a)])) as (arrs & E & F2).
  - intros nm g H. apply (L nm g). right. exact H.
  - exact Nd.
  - intros nm H. rewrite dkeys_app. intros Q. apply in_app_or in Q as [Q|[Q|[]]]; [apply (Hn nm); [right; exact H|exact Q]|]. cbn in Q. congruence.
  - exists (a :: arrs). split; [rewrite E, <- app_assoc; reflexivity|]. constructor; [exact La|exact F2].
Qed.
Lemma put_crds_ok nodes : forall d, NoDup (map (fun ax => axname (fst ax)) nodes) -> (forall ax, In ax nodes -> ~ In (axname (fst ax)) (dkeys d)) ->
  fold_left (fun d ax => aset d (axname (fst ax)) (ACrd (snd ax))) nodes d = d ++ map (fun ax => (axname (fst ax), ACrd (snd ax))) nodes.
Proof.
  induction nodes as [|ax nodes IH]; intros d Nd H; [cbn; rewrite app_nil_r; reflexivity|]. cbn [fold_left map] in *. apply NoDup_cons_iff in Nd as (Ni & Nd). rewrite aset_new by (apply H; left; reflexivity).
  rewrite (IH _ Nd); [rewrite <- app_assoc; reflexivity|]. intros ax' Ha. rewrite dkeys_app. intros Q. apply in_app_or in Q as [Q|[Q|[]]]; [apply (H ax'); [right; exact Ha|exact Q]|].
  cbn [dkeys map fst] in Q. apply Ni. rewrite Q. apply (in_map (fun a => axname (fst a)) nodes ax'). exact Ha.
Qed.
Lemma axof_name k : (k < 9)%nat -> axof (axname k) = k.
Proof. intros H. do 9 (destruct k as [|k]; [reflexivity|]). lia. Qed.
Lemma read_nodes_ok d nodes : (forall ax, In ax nodes -> (fst ax < 9)%nat /\ aget d (axname (fst ax)) = Some (ACrd (snd ax))) ->
  read_nodes d (map (fun ax => axname (fst ax)) nodes) = Some nodes.
Proof.
  induction nodes as [|[k l] nodes IH]; intros H; [reflexivity|]. cbn [map read_nodes]. destruct (H (k, l)) as (Hk & E); [left; reflexivity|]. cbn [fst snd] in *. rewrite E. cbn [as_list].
  rewrite IH by (intros ax Ha; apply H; right; exact Ha). rewrite axof_name by exact Hk. reflexivity.
Qed.
(** the fields of one centering *)
Lemma lazy_flds_ok d nodes c flds : (forall name f, In (name, f) flds -> exists n a, savable places nodes f n /\ loaded f a /\ aget d name = Some (AData a) /\ s_center f = c) ->
  exists out, lazy_flds places d nodes c (map fst flds) = Some out /\ map fst out = map fst flds /\
    forall name f, In (name, f) flds -> exists a, loaded f a /\ In (name, (c, F (f_vec (s_fld f)) (placed places c nodes) (map (fun _ => false) nodes) (SArr a) false None)) out.
Proof.
  induction flds as [|[name f] flds IH]; intros H; [exists []; split; [reflexivity|split; [reflexivity|intros ? ? []]]|].
  destruct IH as (out & E & M & G); [intros nm g Hi; apply H; right; exact Hi|]. destruct (H name f) as (n & a & Sv & La & Ga & Ec); [left; reflexivity|].
  cbn [map fst lazy_flds]. rewrite E. unfold lazy_fld. rewrite Ga. cbn [as_data]. rewrite (load_shape nodes f n a Sv La).
  exists ((name, (c, F (f_vec (s_fld f)) (placed places c nodes) (map (fun _ => false) nodes) (SArr a) false None)) :: out). split; [|split].
  - destruct (f_vec (s_fld f)).
    + destruct (Nat.eqb_spec (S (length nodes)) (length nodes)) as [Q|_]; [elim (Nat.neq_succ_diag_l _ Q)|]. rewrite Nat.eqb_refl. reflexivity.
    + rewrite Nat.eqb_refl. reflexivity.
  - cbn [map fst]. rewrite M. reflexivity.
  - intros nm g [Hi|Hi]; [injection Hi as <- <-; exists a; split; [exact La|left; reflexivity]|]. destruct (G nm g Hi) as (b & Lb & I). exists b. split; [exact Lb|right; exact I].
Qed.
Definition of_center (c : center) flds : list (string * sfield) := filter (fun nf => center_eqb (s_center (snd nf)) c) flds.
Lemma center_eqb_eq a b : center_eqb a b = true <-> a = b.
Proof. destruct a, b; split; intros; try reflexivity; discriminate. Qed.
Lemma read_centers_ok d nodes flds : (forall name f, In (name, f) flds -> exists n a, savable places nodes f n /\ loaded f a /\ aget d name = Some (AData a)) ->
  (forall c, aget d (key_flds c) = Some (ANames (names_of c flds))) ->
  forall cs keys rest, Permutation keys (flat_map (fun c => key_flds c :: names_of c flds) cs ++ rest) ->
  exists out k, read_centers places d nodes cs keys = Some (out, k) /\ Permutation k rest /\ map fst out = flat_map (fun c => names_of c flds) cs /\
    forall name f, In (name, f) flds -> In (s_center f) cs -> exists a, loaded f a /\
      In (name, (s_center f, F (f_vec (s_fld f)) (placed places (s_center f) nodes) (map (fun _ => false) nodes) (SArr a) false None)) out.
Proof.
  intros H K. induction cs as [|c cs IH]; intros keys rest P; [exists [], keys; split; [reflexivity|]; split; [exact P|]; split; [reflexivity|intros ? ? ? []]|].
  cbn [flat_map] in P. cbn [app] in P. rewrite <- app_assoc in P. cbn [read_centers]. rewrite K.
  destruct (sremove_in (key_flds c) keys) as (k1 & -> & P1); [apply (Permutation_in _ (Permutation_sym P)); left; reflexivity|].
  assert (P2 : Permutation k1 (names_of c flds ++ (flat_map (fun c => key_flds c :: names_of c flds) cs ++ rest))) by (apply (Permutation_cons_inv (a := key_flds c)); rewrite <- P1; exact P).
  destruct (sremoves_in _ _ _ P2) as (k2 & E2 & P3). destruct (lazy_flds_ok d nodes c (of_center c flds)) as (o1 & E1 & M1 & G1).
  { intros name f Hi. apply filter_In in Hi as (Hi & Hc). cbn [snd] in Hc. apply center_eqb_eq in Hc. destruct (H name f Hi) as (n & a & Q1 & Q2 & Q3). exists n, a. auto. }
  change (map fst (of_center c flds)) with (names_of c flds) in *. rewrite E1, E2. destruct (IH k2 rest P3) as (o2 & k & -> & P4 & M2 & G2). exists (o1 ++ o2), k. split; [reflexivity|]. split; [exact P4|]. split.
  - rewrite map_app, M1, M2. reflexivity.
  - intros name f Hi [Ec|Hc].
    + subst c. destruct (G1 name f) as (a & La & I); [apply filter_In; split; [exact Hi|cbn [snd]; apply center_eqb_eq; reflexivity]|]. exists a. split; [exact La|]. apply in_or_app. left. exact I.
    + destruct (G2 name f Hi Hc) as (a & La & I). exists a. split; [exact La|]. apply in_or_app. right. exact I.
Qed.
Lemma names_perm flds : Permutation (flat_map (fun c => names_of c flds) centers) (map fst flds).
Proof.
  induction flds as [|[name f] flds IH]; [reflexivity|]. unfold names_of in *. cbn [centers flat_map filter map fst snd app] in *. rewrite !app_nil_r in *.
  set (A := map fst (filter (fun nf => center_eqb (s_center (snd nf)) Node) flds)) in *. set (B := map fst (filter (fun nf => center_eqb (s_center (snd nf)) Cell) flds)) in *.
  set (D := map fst (filter (fun nf => center_eqb (s_center (snd nf)) Face) flds)) in *. set (E := map fst (filter (fun nf => center_eqb (s_center (snd nf)) Edge) flds)) in *.
  destruct (s_center f); cbn [center_eqb map fst app]; fold A B D E.
  - constructor. exact IH.
  - etransitivity; [symmetry; apply (Permutation_middle A (B ++ D ++ E))|]. constructor. exact IH.
  - etransitivity; [|constructor; exact IH]. rewrite (app_assoc A B (name :: D ++ E)), (app_assoc A B (D ++ E)). symmetry. apply Permutation_middle.
  - etransitivity; [|constructor; exact IH]. rewrite (app_assoc B D (name :: E)), (app_assoc A (B ++ D) (name :: E)), (app_assoc B D E), (app_assoc A (B ++ D) E). symmetry. apply Permutation_middle.
Qed.
End P.

Lemma nodup_app {X} (a b : list X) : NoDup a -> NoDup b -> (forall x, In x a -> ~ In x b) -> NoDup (a ++ b).
Proof.
  induction a as [|x a IH]; intros Na Nb H; [exact Nb|]. apply NoDup_cons_iff in Na as (Ni & Na). cbn [app]. constructor.
  - intros Q. apply in_app_or in Q as [Q|Q]; [contradiction|]. apply (H x); [left; reflexivity|exact Q].
  - apply IH; auto. intros y Hy. apply H. right. exact Hy.
Qed.
Lemma flat_map_keys {X} (k : X -> string) (n : X -> list string) cs : Permutation (flat_map (fun c => k c :: n c) cs) (flat_map n cs ++ map k cs).
Proof.
  induction cs as [|c cs IH]; [reflexivity|]. cbn [flat_map map app]. rewrite <- app_assoc. rewrite IH. rewrite !app_assoc. apply Permutation_middle.
Qed.
Section P2.
Context {V : Type}.
Implicit Types (nodes : list (crd V)) (flds : list (string * @sfield V)).

Lemma combine_keys flds (arrs : list (nd V)) : Forall2 (fun nf a => loaded (snd nf) a) flds arrs -> dkeys (combine (map fst flds) (map AData arrs)) = map fst flds.
Proof. intros F2. induction F2 as [|nf a flds arrs _ _ IH]; [reflexivity|]. cbn [map combine dkeys fst]. unfold dkeys in IH. rewrite IH. reflexivity. Qed.
Lemma combine_in flds (arrs : list (nd V)) name f : Forall2 (fun nf a => loaded (snd nf) a) flds arrs -> In (name, f) flds ->
  exists a, loaded f a /\ In (name, AData a) (combine (map fst flds) (map AData arrs)).
Proof.
  intros F2. induction F2 as [|nf a flds arrs H _ IH]; [intros []|]. cbn [map combine]. intros [E|Hi].
  - subst nf. exists a. split; [exact H|left; reflexivity].
  - destruct (IH Hi) as (b & Lb & I). exists b. split; [exact Lb|right; exact I].
Qed.
Lemma axis_names nodes : Forall (fun ax => (fst ax < 9)%nat) nodes -> NoDup (map fst nodes) ->
  NoDup (map (fun ax => axname (fst ax)) nodes) /\ forall ax, In ax nodes -> ~ In (axname (fst ax)) npz_names.
Proof.
  intros H9 Nd. split.
  - apply (NoDup_map_inv axof). rewrite map_map. rewrite (map_ext_in (fun x => axof (axname (fst x))) fst); [exact Nd|]. intros ax Ha. apply axof_name. exact (proj1 (Forall_forall _ _) H9 ax Ha).
  - intros ax Ha. pose proof (proj1 (Forall_forall _ _) H9 ax Ha) as Hk. cbv beta in Hk. destruct ax as [k l]. cbn [fst] in *. do 9 (destruct k as [|k]; [intros Q; cbn in Q; intuition discriminate|]). lia.
Qed.

(** the contents of a file *)
Definition file_of nodes flds (arrs : list (nd V)) : archive :=
  map (fun ax => (axname (fst ax), ACrd (snd ax))) nodes ++ [(key_crds, ANames (map (fun ax => axname (fst ax)) nodes))] ++
  combine (map fst flds) (map AData arrs) ++ map (fun c => (key_flds c, ANames (names_of c flds))) centers.
Definition good_names nodes flds : Prop :=
  NoDup (map fst nodes) /\ Forall (fun ax => (fst ax < 9)%nat) nodes /\ NoDup (map fst flds) /\
  forall name, In name (map fst flds) -> ~ In name npz_names /\ ~ In name (map (fun ax => axname (fst ax)) nodes).
Lemma file_keys nodes flds arrs : Forall2 (fun nf a => loaded (snd nf) a) flds arrs ->
  dkeys (file_of nodes flds arrs) = map (fun ax => axname (fst ax)) nodes ++ [key_crds] ++ map fst flds ++ map key_flds centers.
Proof.
  intros F2. unfold file_of. rewrite !dkeys_app, combine_keys by exact F2. unfold dkeys at 1. rewrite map_map. reflexivity.
Qed.
Lemma keys_disjoint c : In (key_flds c) npz_names.
Proof. destruct c; cbn; intuition. Qed.
Lemma file_wf nodes flds arrs : good_names nodes flds -> Forall2 (fun nf a => loaded (snd nf) a) flds arrs -> NoDup (dkeys (file_of nodes flds arrs)).
Proof.
  intros (N1 & H9 & N2 & Hn) F2. rewrite (file_keys nodes flds arrs F2). destruct (axis_names nodes H9 N1) as (N3 & Ha).
  assert (Ck : NoDup (map key_flds centers)) by (cbn; repeat constructor; cbn; intuition discriminate).
  apply nodup_app; [exact N3| |].
  - cbn [app]. constructor.
    + intros Q. apply in_app_or in Q as [Q|Q]; [apply (proj1 (Hn _ Q)); left; reflexivity|]. cbn in Q. intuition discriminate.
    + apply nodup_app; [exact N2|exact Ck|]. intros s Hs Q. apply (proj1 (Hn s Hs)). apply in_map_iff in Q as (c & <- & _). apply keys_disjoint.
  - intros s Hs Q. apply in_map_iff in Hs as (ax & <- & Hax). cbn [app] in Q. destruct Q as [Q|Q]; [apply (Ha ax Hax); rewrite <- Q; left; reflexivity|].
    apply in_app_or in Q as [Q|Q]; [apply (proj2 (Hn _ Q)); apply (in_map (fun a => axname (fst a)) nodes ax); exact Hax|].
    apply in_map_iff in Q as (c & E & _). apply (Ha ax Hax). rewrite <- E. apply keys_disjoint.
Qed.
Lemma save_npz_ok nodes flds : flds <> [] -> (forall name f, In (name, f) flds -> s_nodes f = nodes) -> good_names nodes flds ->
  (forall name f, In (name, f) flds -> exists a, loaded f a) ->
  exists arrs, Forall2 (fun nf a => loaded (snd nf) a) flds arrs /\ save_npz flds = Some (file_of nodes flds arrs).
Proof.
  intros Ne Hs G L. pose proof G as (N1 & H9 & N2 & Hn). destruct (axis_names nodes H9 N1) as (N3 & Ha). destruct flds as [|[n0 f0] fl] eqn:Ef; [congruence|]. rewrite <- Ef in *.
  assert (E0 : s_nodes f0 = nodes) by (apply (Hs n0 f0); rewrite Ef; left; reflexivity). unfold save_npz. rewrite Ef, <- Ef. rewrite E0.
  rewrite put_crds_ok; [|exact N3|intros ? ? []]. cbn [app].
  set (d1 := map (fun ax => (axname (fst ax), ACrd (snd ax))) nodes).
  assert (K1 : dkeys d1 = map (fun ax => axname (fst ax)) nodes) by (unfold d1, dkeys; rewrite map_map; reflexivity).
  rewrite aset_new by (rewrite K1; intros Q; apply in_map_iff in Q as (ax & E & Hax); apply (Ha ax Hax); rewrite E; left; reflexivity).
  destruct (put_flds_ok flds (d1 ++ [(key_crds, ANames (map (fun ax => axname (fst ax)) nodes))]) L N2) as (arrs & E & F2).
  { intros name Hi. rewrite dkeys_app, K1. intros Q. apply in_app_or in Q as [Q|[Q|[]]]; [apply (proj2 (Hn name Hi)); exact Q|]. apply (proj1 (Hn name Hi)). rewrite <- Q. left. reflexivity. }
  exists arrs. split; [exact F2|]. rewrite E. set (d2 := (d1 ++ _) ++ _).
  assert (K3 : forall c, ~ In (key_flds c) (dkeys d2)).
  { intros c Q. unfold d2 in Q. rewrite !dkeys_app, K1, (combine_keys flds arrs F2) in Q. apply in_app_or in Q as [Q|Q]; [apply in_app_or in Q as [Q|[Q|[]]]|].
    - apply in_map_iff in Q as (ax & Ea & Hax). apply (Ha ax Hax). rewrite Ea. apply keys_disjoint.
    - destruct c; discriminate.
    - apply (proj1 (Hn _ Q)). apply keys_disjoint. }
  cbn [centers fold_left].
  assert (St : forall d' c v, (forall s, In s (dkeys d') -> exists c', s = key_flds c' /\ c' <> c) -> aset (d2 ++ d') (key_flds c) v = d2 ++ (d' ++ [(key_flds c, v)])).
  { intros d' c v H. rewrite aset_new; [symmetry; apply app_assoc|]. rewrite dkeys_app. intros Q. apply in_app_or in Q as [Q|Q]; [apply (K3 c Q)|]. destruct (H _ Q) as (c' & Ec & Nc). destruct c, c'; try discriminate; congruence. }
  pose proof (St [] Node (ANames (names_of Node flds))) as S1. rewrite app_nil_r in S1. rewrite S1 by (intros ? []). cbn [app].
  rewrite St by (intros s [<-|[]]; exists Node; split; [reflexivity|discriminate]). cbn [app].
  rewrite St by (intros s [<-|[<-|[]]]; [exists Node|exists Cell]; split; try reflexivity; discriminate). cbn [app].
  rewrite St by (intros s [<-|[<-|[<-|[]]]]; [exists Node|exists Cell|exists Face]; split; try reflexivity; discriminate). cbn [app].
  assert (Fo : d2 ++ [(key_flds Node, ANames (names_of Node flds)); (key_flds Cell, ANames (names_of Cell flds)); (key_flds Face, ANames (names_of Face flds)); (key_flds Edge, ANames (names_of Edge flds))] = file_of nodes flds arrs).
  { unfold file_of, d2. rewrite <- !app_assoc. reflexivity. }
  rewrite Fo. unfold dmem. replace (aget (file_of nodes flds arrs) "file"%string) with (@None (@entry V)); [reflexivity|]. symmetry. apply dget_None. rewrite (file_keys nodes flds arrs F2).
  intros Q. apply in_app_or in Q as [Q|Q]; [apply in_map_iff in Q as (ax & Ea & Hax); apply (Ha ax Hax); rewrite Ea; cbn; intuition|]. cbn [app] in Q. destruct Q as [Q|Q]; [discriminate|].
  apply in_app_or in Q as [Q|Q]; [apply (proj1 (Hn _ Q)); cbn; intuition|]. cbn in Q. intuition discriminate.
Qed.
End P2.

(** Fields on one grid, with names that differ from each other, from the axes and from the names the file uses itself,
    are the same after saving to an npz file and loading; nothing else is in the file. *)
Theorem C69_npz : forall V (places : center -> list V -> list V) (nodes : list (crd V)) flds, flds <> [] -> good_names nodes flds ->
  (forall name f, In (name, f) flds -> exists n, savable places nodes f n) ->
  exists d out, save_npz flds = Some d /\ load_npz places d = Some out /\ Permutation (map fst out) (map fst flds) /\
    forall name f n, In (name, f) flds -> savable places nodes f n -> (f_vec (s_fld f) = true -> layout_of (s_fld f) = LInter -> ~ ambiguous (sshape (s_fld f)) n) ->
      exists g, In (name, g) out /\ same_field places f n g.
Proof.
  intros V places nodes flds Ne G Hs.
  assert (L : forall name f, In (name, f) flds -> exists a, loaded f a) by (intros name f Hi; destruct (Hs name f Hi) as (n & _ & R & _); destruct (readable_load _ n R) as (a & La & _); exists a; exact La).
  destruct (save_npz_ok nodes flds Ne) as (arrs & F2 & E); [intros name f Hi; destruct (Hs name f Hi) as (n & En & _); exact En|exact G|exact L|].
  pose proof (file_wf nodes flds arrs G F2) as W. set (d := file_of nodes flds arrs) in *. exists d.
  assert (Gk : forall k e, In (k, e) d -> aget d k = Some e) by (intros k e Hi; apply dget_wf_In; [exact W|exact Hi]).
  pose proof G as (N1 & H9 & N2 & Hn). destruct (axis_names nodes H9 N1) as (N3 & Ha).
  assert (Gc : aget d key_crds = Some (ANames (map (fun ax => axname (fst ax)) nodes))) by (apply Gk; unfold d, file_of; apply in_or_app; right; left; reflexivity).
  assert (Gn : forall ax, In ax nodes -> aget d (axname (fst ax)) = Some (ACrd (snd ax))).
  { intros ax Hax. apply Gk. unfold d, file_of. apply in_or_app. left. apply (in_map (fun ax => (axname (fst ax), ACrd (snd ax)))). exact Hax. }
  assert (Gf : forall name f, In (name, f) flds -> exists n a, savable places nodes f n /\ loaded f a /\ aget d name = Some (AData a)).
  { intros name f Hi. destruct (Hs name f Hi) as (n & Sv). destruct (combine_in flds arrs name f F2 Hi) as (a & La & I). exists n, a. split; [exact Sv|]. split; [exact La|]. apply Gk. unfold d, file_of.
    apply in_or_app. right. apply in_or_app. right. apply in_or_app. left. exact I. }
  assert (Gs : forall c, aget d (key_flds c) = Some (ANames (names_of c flds))).
  { intros c. apply Gk. unfold d, file_of. apply in_or_app. right. apply in_or_app. right. apply in_or_app. right. destruct c; cbn; intuition. }
  pose proof (file_keys nodes flds arrs F2) as Kd. fold d in Kd.
  unfold load_npz. rewrite Gc.
  assert (Fa : forallb (dmem string_dec d) (map (fun ax => axname (fst ax)) nodes) = true).
  { apply forallb_forall. intros s Hi. apply in_map_iff in Hi as (ax & <- & Hax). unfold dmem. rewrite Gn by exact Hax. reflexivity. }
  rewrite Fa. destruct (sremove_in key_crds (dkeys d)) as (k1 & -> & P1); [rewrite Kd; apply in_or_app; right; left; reflexivity|].
  rewrite (read_nodes_ok d nodes) by (intros ax Hax; split; [exact (proj1 (Forall_forall _ _) H9 ax Hax)|apply Gn; exact Hax]).
  assert (P2 : Permutation k1 (map (fun ax => axname (fst ax)) nodes ++ (map fst flds ++ map key_flds centers))).
  { apply (Permutation_cons_inv (a := key_crds)). rewrite <- P1, Kd. cbn [app]. symmetry. apply Permutation_middle. }
  destruct (sremoves_in _ _ _ P2) as (k2 & -> & P3).
  assert (P4 : Permutation k2 (flat_map (fun c => key_flds c :: names_of c flds) centers ++ [])).
  { rewrite app_nil_r. rewrite P3, flat_map_keys, names_perm. reflexivity. }
  destruct (read_centers_ok places d nodes flds Gf Gs centers k2 [] P4) as (out & k & -> & P5 & M & Go). apply Permutation_sym, Permutation_nil in P5. subst k. cbn [lazy_flds].
  exists (out ++ []). split; [exact E|]. split; [reflexivity|]. rewrite app_nil_r. split; [rewrite M; apply names_perm|].
  intros name f n Hi Sv Am. destruct (Go name f Hi) as (a & La & I); [destruct (s_center f); cbn; intuition|]. eexists. split; [exact I|]. apply (plain_same places nodes f n a (layout_of (s_fld f))); auto.
Qed.
Print Assumptions C69_npz.

(** ** hdf5 with xdmf *)
(** a name that stands for itself in the xml file and in an hdf5 path *)
Definition plain_char (c : ascii) : bool := xml_char c && negb (Ascii.eqb c ":"%char) && negb (Ascii.eqb c "/"%char).
Fixpoint ends_plain (s : string) : bool :=
  match s with EmptyString => false | String c EmptyString => negb (Ascii.eqb c " "%char) | String _ r => ends_plain r end.
Definition plain_name (s : string) : Prop := sforall plain_char s = true /\ ends_plain s = true.

Lemma sforall_app p a b : sforall p (a ++ b)%string = sforall p a && sforall p b.
Proof. induction a as [|c a IH]; [reflexivity|]. cbn [append sforall]. rewrite IH, andb_assoc. reflexivity. Qed.
Lemma sforall_imp (p q : ascii -> bool) s : (forall c, p c = true -> q c = true) -> sforall p s = true -> sforall q s = true.
Proof. intros H. induction s as [|c s IH]; [reflexivity|]. cbn [sforall]. intros E. apply andb_prop in E as (E1 & E2). rewrite (H c E1), (IH E2). reflexivity. Qed.
Lemma rstrip_ends s : ends_plain s = true -> rstrip s = s.
Proof.
  induction s as [|c s IH]; [discriminate|]. destruct s as [|c' s].
  - cbn [ends_plain rstrip]. unfold space. destruct (Ascii.eqb c " "%char); [discriminate|reflexivity].
  - intros E. change (ends_plain (String c' s) = true) in E. specialize (IH E). cbn [rstrip] in *. rewrite IH. reflexivity.
Qed.
Lemma ends_app a b : b <> ""%string -> ends_plain (a ++ b)%string = ends_plain b.
Proof.
  intros Nb. induction a as [|c a IH]; [reflexivity|]. cbn [append]. rewrite <- IH. destruct (a ++ b)%string eqn:E; [|reflexivity].
  destruct a; [elim Nb; exact E|discriminate].
Qed.
Definition no_colon (c : ascii) : bool := negb (Ascii.eqb c ":"%char).
Lemma split_none s : sforall no_colon s = true -> split_colon s = [s].
Proof.
  induction s as [|c s IH]; [reflexivity|]. cbn [sforall split_colon]. intros E. apply andb_prop in E as (E1 & E2). unfold no_colon in E1. destruct (Ascii.eqb c ":"%char); [discriminate|].
  rewrite IH by exact E2. reflexivity.
Qed.
Lemma split_app a b : sforall no_colon a = true -> split_colon (a ++ String ":"%char b)%string = a :: split_colon b.
Proof.
  induction a as [|c a IH]; [reflexivity|]. cbn [append sforall split_colon]. intros E. apply andb_prop in E as (E1 & E2). unfold no_colon in E1. destruct (Ascii.eqb c ":"%char); [discriminate|].
  rewrite IH by exact E2. reflexivity.
Qed.
Lemma plain_no_colon c : plain_char c = true -> no_colon c = true.
Proof. unfold plain_char, no_colon. intros E. apply andb_prop in E as (E & _). apply andb_prop in E as (_ & E). exact E. Qed.
Lemma plain_xml c : plain_char c = true -> xml_char c = true.
Proof. unfold plain_char. intros E. apply andb_prop in E as (E & _). apply andb_prop in E as (E & _). exact E. Qed.

Lemma data_item_ok {V} base (d : @archive V) number loc : In number ["Float"; "Int"]%string -> sforall plain_char base = true -> sforall no_colon loc = true -> ends_plain loc = true ->
  data_item base d number ("./" ++ base ++ ":" ++ loc) = aget d loc.
Proof.
  intros Hn Hb Hl He. unfold data_item. replace (existsb (String.eqb number) _) with true by (destruct Hn as [<-|[<-|[]]]; reflexivity). cbn [negb].
  assert (Nl : loc <> ""%string) by (intros ->; discriminate).
  rewrite rstrip_ends.
  - change (("./" ++ base ++ ":" ++ loc)%string) with (String "."%char (String "/"%char (base ++ String ":"%char loc)))%string. cbn [lstrip]. change (Ascii.eqb "."%char space) with false. cbv iota.
    change (String "."%char (String "/"%char (base ++ String ":"%char loc)))%string with ((String "."%char (String "/"%char base)) ++ String ":"%char loc)%string. rewrite split_app.
    + rewrite split_none by exact Hl. change ("./" ++ base)%string with (String "."%char (String "/"%char base)). rewrite String.eqb_refl. reflexivity.
    + cbn [sforall]. rewrite (sforall_imp _ _ base plain_no_colon Hb). reflexivity.
  - rewrite ends_app by (destruct base; discriminate). rewrite ends_app by discriminate. rewrite ends_app by exact Nl. exact He.
Qed.

Lemma loc_inj c n c' n' : loc_of c n = loc_of c' n' -> c = c' /\ n = n'.
Proof. destruct c, c'; unfold loc_of, group; cbn [append]; intros E; injection E as E; try discriminate; split; try reflexivity; congruence. Qed.
Lemma loc_plain c n : plain_name n -> sforall no_colon (loc_of c n) = true /\ ends_plain (loc_of c n) = true /\ sforall xml_char (loc_of c n) = true.
Proof.
  intros (P & E). assert (Nn : n <> ""%string) by (intros ->; discriminate). unfold loc_of. rewrite !sforall_app, (sforall_imp _ _ n plain_no_colon P), (sforall_imp _ _ n plain_xml P).
  rewrite ends_app by (destruct n; discriminate). rewrite ends_app by exact Nn. split; [destruct c; reflexivity|]. split; [exact E|destruct c; reflexivity].
Qed.

Section H.
Context {V : Type} (places : center -> list V -> list V).
Implicit Types (nodes : list (crd V)) (flds : list (string * @sfield V)).

Lemma put_h5_ok flds : forall d, (forall name f, In (name, f) flds -> exists a, loaded f a /\ prod (shape a) <> 1) -> NoDup (map fst flds) ->
  NoDup (dkeys d) -> (forall name f, In (name, f) flds -> ~ In (loc_of (s_center f) name) (dkeys d)) ->
  exists d', put_h5 d flds = Some d' /\ (forall k e, aget d k = Some e -> aget d' k = Some e) /\
    forall name f, In (name, f) flds -> exists a, loaded f a /\ aget d' (loc_of (s_center f) name) = Some (AData (nd_T a)).
Proof.
  induction flds as [|[name f] flds IH]; intros d L Nd Wd Hn; [exists d; split; [reflexivity|]; split; [auto|intros ? ? []]|].
  destruct (L name f) as (a & La & Pa); [left; reflexivity|]. cbn [put_h5]. pose proof La as La'. unfold loaded in La'. rewrite La'.
  pose proof (Hn name f (or_introl eq_refl)) as Nk. rewrite (proj2 (dget_None string_dec d _)) by exact Nk. destruct (Z.eqb_spec (prod (shape a)) 1) as [Q|_]; [contradiction|].
  cbn [map fst] in Nd. apply NoDup_cons_iff in Nd as (Ni & Nd). rewrite aset_new by exact Nk. set (d1 := d ++ [(loc_of (s_center f) name, AData (nd_T a))]).
  assert (W1 : NoDup (dkeys d1)). { unfold d1. rewrite dkeys_app. apply nodup_app; [exact Wd|constructor; [intros []|constructor]|]. intros x Hx [<-|[]]. exact (Nk Hx). }
  destruct (IH d1) as (d' & E & K & G).
  - intros nm g Hi. apply (L nm g). right. exact Hi.
  - exact Nd.
  - exact W1.
  - intros nm g Hi. unfold d1. rewrite dkeys_app. intros Q. apply in_app_or in Q as [Q|[Q|[]]]; [exact (Hn nm g (or_intror Hi) Q)|]. cbn [fst] in Q. apply loc_inj in Q as (_ & Q). apply Ni. rewrite Q. exact (in_map fst flds (nm, g) Hi).
  - exists d'. split; [exact E|]. split.
    + intros k e Hk. apply K. apply dget_wf_In; [exact W1|]. apply in_or_app. left. apply (dget_In string_dec). exact Hk.
    + intros nm g [Hi|Hi]; [|apply G; exact Hi]. injection Hi as <- <-. exists a. split; [exact La|]. apply K. apply dget_wf_In; [exact W1|]. apply in_or_app. right. left. reflexivity.
Qed.

(** an array that was saved with its axes reversed *)
Definition from_h5 nodes (f : @sfield V) (a : nd V) : fld V V :=
  F (f_vec (s_fld f)) (placed places (s_center f) nodes) (map (fun _ => false) nodes) (SArr (nd_T a)) true None.
Lemma from_h5_val nodes f n a sl : sshape (s_fld f) = map (fun ax => Z.of_nat (length (places (s_center f) (snd ax)))) nodes ->
  shape (nd_T a) = shape_of (f_vec (s_fld f)) sl n (rev (sshape (s_fld f))) ->
  (f_vec (s_fld f) = true -> 1 < n /\ vector_layout sl /\ (sl = LInter -> ~ ambiguous (sshape (s_fld f)) n)) ->
  readable (from_h5 nodes f a) n /\ (f_vec (s_fld f) = true -> layout_of (from_h5 nodes f a) = sl) /\
  forall js c, in_shape (sshape (s_fld f)) js -> 0 <= c < n -> val (from_h5 nodes f a) c js (get (nd_T a) (idx_of (f_vec (s_fld f)) sl c (rev js))).
Proof.
  intros Sh Sa Hv. set (g := from_h5 nodes f a).
  assert (Sg : sshape g = sshape (s_fld f)) by (rewrite Sh; unfold g, sshape, from_h5; cbn [f_crds]; apply sshape_placed).
  assert (Ng : native_sshape g = rev (sshape (s_fld f))) by (unfold native_sshape; rewrite Sg; reflexivity).
  assert (Lr : length (f_refl g) = length (f_crds g)) by (cbn [g from_h5 f_refl f_crds]; unfold placed; rewrite !map_length; reflexivity).
  assert (Fl : forall js, in_shape (sshape (s_fld f)) js -> flip_idx (sshape g) (f_refl g) js = js).
  { intros js _. cbn [g from_h5 f_refl]. apply flip_false. }
  assert (Vg : f_vec g = f_vec (s_fld f)) by reflexivity.
  destruct (f_vec (s_fld f)) eqn:Ev; unfold shape_of in Sa; unfold idx_of.
  - destruct (Hv eq_refl) as (Hn & Lv & Am).
    assert (El : layout_of g = sl).
    { unfold layout_of, src_layout. change (f_force g) with (@None layout). change (f_src g) with (SArr (nd_T a)). cbv iota. rewrite Ng, Sa. destruct Lv as [-> | ->]; cbn [lay_shape]; [apply detect_flat|]. apply detect_inter. rewrite ambiguous_rev. apply Am. reflexivity. }
    assert (Hh : holds g sl n).
    { split; [exact Vg|]. split; [lia|]. split; [exact Lr|]. change (f_src g) with (SArr (nd_T a)). cbv iota. rewrite Ng, Sg. auto. }
    split; [right; split; [exact Hn|]; rewrite El; split; [exact Lv|]; exists sl; split; [exact Hh|left; reflexivity]|]. split; [intros _; exact El|].
    intros js c Hj Hc. destruct (C37_load V V g sl n Hh) as (d & Ed & _ & Gd); [rewrite El; exact Lv|left; exact El|]. exists d. split; [exact Ed|]. rewrite Vg, El.
    specialize (Gd c js Hc). rewrite Sg, El in Gd. specialize (Gd Hj). unfold mirrored in Gd. rewrite <- Sg, Fl in Gd by exact Hj. unfold stored in Gd. change (f_src g) with (SArr (nd_T a)) in Gd. change (f_zyx g) with true in Gd. cbv iota in Gd.
    rewrite <- Gd. destruct Lv as [-> | ->]; reflexivity.
  - assert (Hs : holds_scalar g). { split; [exact Vg|]. split; [exact Lr|]. split; [reflexivity|]. exists (nd_T a). split; [reflexivity|]. rewrite Ng. exact Sa. }
    split; [left; exact Hs|]. split; [discriminate|]. intros js c Hj _. destruct (load_scalar g Hs) as (a' & d & Ea & Ed & _ & Gd). change (f_src g) with (SArr (nd_T a)) in Ea. injection Ea as <-.
    exists d. split; [exact Ed|]. rewrite Vg. rewrite Gd by (rewrite Sg; exact Hj). rewrite Fl by exact Hj. reflexivity.
Qed.
Lemma cube_snoc sh n : ambiguous sh n -> sh ++ [n] = n :: sh.
Proof. unfold ambiguous. intros H. induction H as [|x sh <- _ IH]; [reflexivity|]. cbn [app]. rewrite IH. reflexivity. Qed.
(** the same field, with its vectors in the other layout *)
Lemma h5_same nodes f n a : savable places nodes f n -> loaded f a ->
  (f_vec (s_fld f) = true -> layout_of (s_fld f) = LFlat -> ~ ambiguous (sshape (s_fld f)) n) ->
  same_field places f n (s_center f, from_h5 nodes f a) /\ (f_vec (s_fld f) = true -> layout_of (from_h5 nodes f a) <> layout_of (s_fld f)).
Proof.
  intros (En & R & Sh) La Am. destruct (readable_load _ n R) as (a' & La' & Sa & Va & Ga). assert (a' = a) by (unfold loaded in La; congruence). subst a'.
  set (sl := match layout_of (s_fld f) with LFlat => LInter | _ => LFlat end).
  destruct (from_h5_val nodes f n a sl Sh) as (Rg & El & Gg).
  - cbn [nd_T shape]. rewrite Sa. unfold shape_of. destruct (f_vec (s_fld f)) eqn:Ev; [|reflexivity]. destruct (proj2 (Va eq_refl)) as [E|E]; unfold sl; rewrite E; cbn [lay_shape rev]; [reflexivity|]. rewrite rev_app_distr. reflexivity.
  - intros Ev. destruct (Va Ev) as (Hn & Lv). split; [exact Hn|]. unfold sl. destruct Lv as [E|E]; rewrite E; (split; [unfold vector_layout; auto|]); [intros _; apply Am; auto|discriminate].
  - split.
    + split; [reflexivity|]. split; [cbn [snd from_h5 f_crds]; unfold placed; rewrite En; reflexivity|]. split; [reflexivity|]. split; [exact Rg|]. intros js c Hj Hc. eexists. split; [apply Ga; reflexivity|].
      cbn [snd]. replace (get a _) with (get (nd_T a) (idx_of (f_vec (s_fld f)) sl c (rev js))); [apply Gg; assumption|]. cbn [nd_T get]. f_equal. unfold idx_of.
      destruct (f_vec (s_fld f)) eqn:Ev; [|apply rev_involutive]. destruct (proj2 (Va eq_refl)) as [E|E]; unfold sl; rewrite E; [rewrite rev_app_distr|cbn [rev]]; rewrite rev_involutive; reflexivity.
    + intros Ev. rewrite (El Ev). unfold sl. destruct (proj2 (Va Ev)) as [E|E]; rewrite E; discriminate.
Qed.
Lemma read_attrs_ok base d nodes flds : sforall plain_char base = true ->
  (forall name f, In (name, f) flds -> plain_name name /\ In (s_kind f) [KFloat; KInt] /\ exists a, loaded f a /\ aget d (loc_of (s_center f) name) = Some (AData (nd_T a))) ->
  exists out, read_attrs places base d nodes (map (attr_of base) flds) = Some out /\ map fst out = map fst flds /\
    forall name f, In (name, f) flds -> exists a, loaded f a /\ In (name, (s_center f, from_h5 nodes f a)) out.
Proof.
  intros Hb. induction flds as [|[name f] flds IH]; intros H; [exists []; split; [reflexivity|]; split; [reflexivity|intros ? ? []]|].
  destruct IH as (out & E & M & G); [intros nm g Hi; apply H; right; exact Hi|]. destruct (H name f) as (Pn & Kk & a & La & Ga); [left; reflexivity|].
  destruct (loc_plain (s_center f) name Pn) as (L1 & L2 & L3).
  cbn [map read_attrs]. rewrite E. unfold read_attr. cbn [attr_of xa_name xa_text xa_number xa_vec xa_center].
  rewrite (sforall_imp _ _ name plain_xml (proj1 Pn)). rewrite (sforall_app _ "./"), (sforall_app _ base), (sforall_app _ ":"), (sforall_imp _ _ base plain_xml Hb), L3. cbn [sforall]. change (xml_char "."%char) with true. change (xml_char "/"%char) with true. change (xml_char ":"%char) with true. cbn [andb].
  rewrite data_item_ok; [|destruct Kk as [<-|[<-|[]]]; cbn; auto|exact Hb|exact L1|exact L2]. rewrite Ga. cbn [as_data]. eexists. split; [reflexivity|]. split; [cbn [map fst]; rewrite M; reflexivity|].
  intros nm g [Hi|Hi]; [injection Hi as <- <-; exists a; split; [exact La|left; reflexivity]|]. destruct (G nm g Hi) as (b & Lb & I). exists b. split; [exact Lb|right; exact I].
Qed.
End H.

(** Fields on one grid with the axes x, y and z, with different plain names, with floating point or integer values and not
    with a single value, are the same after saving to an hdf5 file and loading the xdmf file, in the order they were
    saved in; vectors come back in the other layout. *)
Definition h5_fields {V} (places : center -> list V -> list V) (nodes : list (crd V)) (flds : list (string * sfield)) : Prop :=
  map fst nodes = [0; 1; 2]%nat /\ flds <> [] /\ NoDup (map fst flds) /\
  forall name f, In (name, f) flds -> plain_name name /\ In (s_kind f) [KFloat; KInt] /\ exists n, savable places nodes f n /\
    prod (sshape (s_fld f)) * (if f_vec (s_fld f) then n else 1) <> 1.
Lemma prod_snoc l x : prod (l ++ [x]) = prod l * x.
Proof. unfold prod. induction l as [|y l IH]; cbn [app fold_right]; [lia|]. rewrite IH. lia. Qed.
Lemma readable_one {V} (f : fld V V) n m : readable f n -> readable f m -> f_vec f = true -> n = m.
Proof.
  intros R1 R2 Ev. destruct (readable_load f n R1) as (a & L1 & S1 & V1 & _), (readable_load f m R2) as (b & L2 & S2 & V2 & _). assert (a = b) by congruence. subst b. rewrite S1 in S2. unfold shape_of in S2. rewrite Ev in S2.
  destruct (proj2 (V1 Ev)) as [E|E]; rewrite E in S2; cbn [lay_shape] in S2; [congruence|]. apply app_inj_tail in S2. apply S2.
Qed.
Theorem C69_xdmf : forall V (places : center -> list V -> list V) zero base nodes flds, sforall plain_char base = true -> h5_fields places nodes flds ->
  exists d x out, save_h5 zero base flds = Some (d, x) /\ load_xdmf places base d x = Some out /\ map fst out = map fst flds /\
    forall name f n, In (name, f) flds -> savable places nodes f n -> (f_vec (s_fld f) = true -> layout_of (s_fld f) = LFlat -> ~ ambiguous (sshape (s_fld f)) n) ->
      exists g, In (name, g) out /\ same_field places f n g /\ (f_vec (s_fld f) = true -> layout_of (snd g) <> layout_of (s_fld f)).
Proof.
  intros V places zero base nodes flds Hb (Ax & Ne & Nd & Hf).
  destruct nodes as [|[k0 xs] [|[k1 ys] [|[k2 zs] [|]]]]; try discriminate. cbn [map fst] in Ax. injection Ax as -> -> ->. set (nodes := [(0%nat, xs); (1%nat, ys); (2%nat, zs)]) in *.
  unfold save_h5. destruct flds as [|[name0 f0] flds0] eqn:Ef; [contradiction|]. rewrite <- Ef in *.
  assert (N0 : s_nodes f0 = nodes) by (destruct (Hf name0 f0) as (_ & _ & n & (En & _) & _); [rewrite Ef; left; reflexivity|exact En]). rewrite N0.
  change (3 <? length nodes)%nat with false. cbv iota. set (d := map _ _).
  assert (Ed : d = [("/crds/x"%string, ACrd xs); ("/crds/y"%string, ACrd ys); ("/crds/z"%string, ACrd zs)]) by reflexivity. rewrite Ed. clear Ed d. set (d := [_; _; _]).
  destruct (put_h5_ok flds d) as (d' & E & K & G).
  - intros name f Hi. destruct (Hf name f Hi) as (_ & _ & n & (_ & R & _) & Hp). destruct (readable_load _ n R) as (a & La & Sa & Va & _). exists a. split; [exact La|]. rewrite Sa. unfold shape_of.
    destruct (f_vec (s_fld f)); [|lia]. destruct (proj2 (Va eq_refl)) as [E|E]; rewrite E; cbn [lay_shape]; [change (prod (n :: ?s)) with (n * prod s); lia|rewrite prod_snoc; exact Hp].
  - exact Nd.
  - cbn. repeat constructor; cbn; intuition discriminate.
  - intros name f _ Q. cbn [d dkeys map fst] in Q. destruct Q as [Q|[Q|[Q|[]]]]; destruct (s_center f); discriminate.
  - rewrite E. destruct (read_attrs_ok places base d' nodes flds Hb) as (out & Eo & M & Go).
    { intros name f Hi. destruct (Hf name f Hi) as (Pn & Kk & _). split; [exact Pn|]. split; [exact Kk|]. apply G. exact Hi. }
    exists d', (XD (map (fun n => ("./" ++ base ++ ":" ++ crd_loc n)%string) ["x"; "y"; "z"]%string) (map (attr_of base) flds)), out. split; [reflexivity|]. split; [|split; [exact M|]].
    + unfold load_xdmf. cbn [x_crds x_attrs map read_crds]. rewrite !data_item_ok by (cbn; auto). rewrite (K (crd_loc "x") (ACrd xs)), (K (crd_loc "y") (ACrd ys)), (K (crd_loc "z") (ACrd zs)) by reflexivity. cbn [as_list]. exact Eo.
    + intros name f n Hi Sv Am. destruct (Go name f Hi) as (a & La & I). destruct (h5_same places nodes f n a Sv La Am) as (Q1 & Q2). exists (s_center f, from_h5 places nodes f a). auto.
Qed.
Print Assumptions C69_xdmf.

(** ** what does not load *)
(** A field with unsigned, boolean or complex values makes the file unreadable: no other field of it can be read either. *)
Lemma read_attrs_none {V} (places : center -> list V -> list V) base d nodes xs x : In x xs -> read_attr places base d nodes x = None -> read_attrs places base d nodes xs = None.
Proof.
  induction xs as [|y xs IH]; [intros []|]. intros [->|H] E; cbn [read_attrs]; [rewrite E; reflexivity|]. rewrite IH by assumption. destruct (read_attr places base d nodes y); reflexivity.
Qed.
Lemma save_h5_attrs {V} zero base (flds : list (string * @sfield V)) d x : save_h5 zero base flds = Some (d, x) -> x_attrs x = map (attr_of base) flds.
Proof.
  unfold save_h5. destruct flds as [|[n0 f0] r]; [discriminate|]. destruct (3 <? _)%nat; [discriminate|]. destruct (put_h5 _ _); [|discriminate]. intros E. injection E as _ <-. reflexivity.
Qed.
Lemma load_none {V} (places : center -> list V -> list V) zero base flds d x name f : save_h5 zero base flds = Some (d, x) -> In (name, f) flds ->
  (forall nodes, read_attr places base d nodes (attr_of base (name, f)) = None) -> load_xdmf places base d x = None.
Proof.
  intros E Hi H. unfold load_xdmf. destruct (read_crds _ _ _ _) as [nodes|]; [|reflexivity]. rewrite (save_h5_attrs _ _ _ _ _ E). apply (read_attrs_none places base d nodes _ (attr_of base (name, f))); [|apply H].
  exact (in_map (attr_of base) flds (name, f) Hi).
Qed.
Theorem C69_xdmf_kind_refuted : forall V (places : center -> list V -> list V) zero base flds d x name f, save_h5 zero base flds = Some (d, x) ->
  In (name, f) flds -> In (s_kind f) [KUInt; KBool; KComplex] -> load_xdmf places base d x = None.
Proof.
  intros V places zero base flds d x name f E Hi Hk. apply (load_none places zero base flds d x name f E Hi). intros nodes. unfold read_attr. destruct (sforall _ _ && _); [|reflexivity].
  unfold data_item. cbn [attr_of xa_number]. destruct Hk as [<-|[<-|[<-|[]]]]; reflexivity.
Qed.
Print Assumptions C69_xdmf_kind_refuted.

(** So does a field whose name has a colon. *)
Lemma split_len a b : length (split_colon (a ++ String ":"%char b)%string) = (length (split_colon a) + length (split_colon b))%nat.
Proof.
  induction a as [|c a IH]; [reflexivity|]. cbn [append split_colon]. destruct (Ascii.eqb c ":"%char); [cbn [length]; rewrite IH; reflexivity|].
  destruct (split_colon (a ++ String ":"%char b)) eqn:E1, (split_colon a) eqn:E2; cbn [length] in *; try lia. exfalso. destruct a; cbn [split_colon] in E2; [discriminate|]. destruct (Ascii.eqb a ":"%char); [discriminate|]. destruct (split_colon a0); discriminate.
Qed.
Lemma split_pos a : (0 < length (split_colon a))%nat.
Proof. destruct a as [|c a]; cbn [split_colon]; [cbn; lia|]. destruct (Ascii.eqb c ":"%char); [cbn; lia|]. destruct (split_colon a); cbn; lia. Qed.
Lemma sapp_assoc a b c : ((a ++ b) ++ c)%string = (a ++ b ++ c)%string.
Proof. induction a as [|x a IH]; [reflexivity|]. cbn [append]. rewrite IH. reflexivity. Qed.
Theorem C69_xdmf_colon_refuted : forall V (places : center -> list V -> list V) zero base flds d x pre post f, save_h5 zero base flds = Some (d, x) ->
  In ((pre ++ ":" ++ post)%string, f) flds -> ends_plain (pre ++ ":" ++ post)%string = true -> load_xdmf places base d x = None.
Proof.
  intros V places zero base flds d x pre post f E Hi He. apply (load_none places zero base flds d x _ f E Hi). intros nodes. unfold read_attr. destruct (sforall _ _ && _); [|reflexivity].
  unfold data_item. cbn [attr_of xa_number xa_text]. destruct (negb _); [reflexivity|].
  assert (Nn : (pre ++ ":" ++ post)%string <> ""%string) by (destruct pre; discriminate).
  rewrite rstrip_ends.
  - set (t := ("./" ++ _)%string). assert (Et : t = (("./" ++ base) ++ String ":"%char ((group (s_center f) ++ "/" ++ pre) ++ String ":"%char post))%string).
    { unfold t, loc_of. rewrite !sapp_assoc. reflexivity. }
    assert (El : lstrip t = t) by reflexivity. rewrite El, Et. pose proof (split_len ("./" ++ base) ((group (s_center f) ++ "/" ++ pre) ++ String ":"%char post)) as Q. pose proof (split_len (group (s_center f) ++ "/" ++ pre) post) as Q2.
    pose proof (split_pos ("./" ++ base)) as P1. pose proof (split_pos (group (s_center f) ++ "/" ++ pre)) as P2. pose proof (split_pos post) as P3.
    destruct (split_colon (("./" ++ base) ++ _)) as [|u [|v [|w l]]]; cbn [length] in Q; try reflexivity; lia.
  - unfold loc_of. rewrite ends_app by (destruct base; discriminate). rewrite ends_app by (destruct base; discriminate). rewrite ends_app by (destruct (s_center f); discriminate). rewrite ends_app by discriminate. rewrite ends_app by exact Nn. exact He.
Qed.
Print Assumptions C69_xdmf_colon_refuted.

(** A field with one value cannot be saved to hdf5. *)
Lemma put_h5_none {V} flds : forall (d : @archive V) name f a, In (name, f) flds -> loaded f a -> prod (shape a) = 1 -> put_h5 d flds = None.
Proof.
  induction flds as [|[nm g] flds IH]; intros d name f a Hi La Pa; [destruct Hi|]. cbn [put_h5]. destruct Hi as [Hi|Hi].
  - injection Hi as -> ->. unfold loaded in La. rewrite La. destruct (aget d _); [reflexivity|]. rewrite Pa. reflexivity.
  - destruct (load (s_fld g)); [|reflexivity]. destruct (aget d _); [reflexivity|]. destruct (_ =? 1); [reflexivity|]. apply (IH _ name f a Hi La Pa).
Qed.
Theorem C69_xdmf_single_refuted : forall V (zero : V) base flds name f a, In (name, f) flds -> load (s_fld f) = Some a -> prod (shape a) = 1 -> save_h5 zero base flds = None.
Proof.
  intros V zero base flds name f a Hi La Pa. unfold save_h5. destruct flds as [|[n0 f0] r] eqn:Ef; [destruct Hi|]. rewrite <- Ef in *. destruct (3 <? _)%nat; [reflexivity|].
  rewrite (put_h5_none flds _ name f a Hi La Pa). reflexivity.
Qed.
Print Assumptions C69_xdmf_single_refuted.

(** Vectors on a grid with as many places along each axis as there are components mix up: what is read as component [c] at
    the grid point [j, js] was saved as the component [j] at the grid point [js, c] ... *)
Theorem C69_xdmf_cube_refuted : forall V (places : center -> list V -> list V) zero base nodes flds, sforall plain_char base = true -> h5_fields places nodes flds ->
  exists d x out, save_h5 zero base flds = Some (d, x) /\ load_xdmf places base d x = Some out /\
    forall name f n, In (name, f) flds -> savable places nodes f n -> f_vec (s_fld f) = true -> layout_of (s_fld f) = LFlat -> ambiguous (sshape (s_fld f)) n ->
      exists g, In (name, g) out /\ forall j js c v, in_shape (sshape (s_fld f)) (j :: js) -> 0 <= c < n -> val (s_fld f) j (js ++ [c]) v -> val (snd g) c (j :: js) v.
Proof.
  intros V places zero base nodes flds Hb (Ax & Ne & Nd & Hf).
  destruct nodes as [|[k0 xs] [|[k1 ys] [|[k2 zs] [|]]]]; try discriminate. cbn [map fst] in Ax. injection Ax as -> -> ->. set (nodes := [(0%nat, xs); (1%nat, ys); (2%nat, zs)]) in *.
  unfold save_h5. destruct flds as [|[name0 f0] flds0] eqn:Ef; [contradiction|]. rewrite <- Ef in *.
  assert (N0 : s_nodes f0 = nodes) by (destruct (Hf name0 f0) as (_ & _ & n & (En & _) & _); [rewrite Ef; left; reflexivity|exact En]). rewrite N0.
  change (3 <? length nodes)%nat with false. cbv iota. set (d := map _ _).
  assert (Ed : d = [("/crds/x"%string, ACrd xs); ("/crds/y"%string, ACrd ys); ("/crds/z"%string, ACrd zs)]) by reflexivity. rewrite Ed. clear Ed d. set (d := [_; _; _]).
  destruct (put_h5_ok flds d) as (d' & E & K & G).
  - intros name f Hi. destruct (Hf name f Hi) as (_ & _ & n & (_ & R & _) & Hp). destruct (readable_load _ n R) as (a & La & Sa & Va & _). exists a. split; [exact La|]. rewrite Sa. unfold shape_of.
    destruct (f_vec (s_fld f)); [|lia]. destruct (proj2 (Va eq_refl)) as [E|E]; rewrite E; cbn [lay_shape]; [change (prod (n :: ?s)) with (n * prod s); lia|rewrite prod_snoc; exact Hp].
  - exact Nd.
  - cbn. repeat constructor; cbn; intuition discriminate.
  - intros name f _ Q. cbn [d dkeys map fst] in Q. destruct Q as [Q|[Q|[Q|[]]]]; destruct (s_center f); discriminate.
  - rewrite E. destruct (read_attrs_ok places base d' nodes flds Hb) as (out & Eo & M & Go).
    { intros name f Hi. destruct (Hf name f Hi) as (Pn & Kk & _). split; [exact Pn|]. split; [exact Kk|]. apply G. exact Hi. }
    exists d', (XD (map (fun n => ("./" ++ base ++ ":" ++ crd_loc n)%string) ["x"; "y"; "z"]%string) (map (attr_of base) flds)), out. split; [reflexivity|]. split.
    + unfold load_xdmf. cbn [x_crds x_attrs map read_crds]. rewrite !data_item_ok by (cbn; auto). rewrite (K (crd_loc "x") (ACrd xs)), (K (crd_loc "y") (ACrd ys)), (K (crd_loc "z") (ACrd zs)) by reflexivity. cbn [as_list]. exact Eo.
    + intros name f n Hi Sv Ev El Am. destruct (Go name f Hi) as (a & La & I). exists (s_center f, from_h5 places nodes f a). split; [exact I|].
      destruct Sv as (En & R & Sh). destruct (readable_load _ n R) as (a' & La' & Sa & Va & Ga). assert (a' = a) by (unfold loaded in La; congruence). subst a'.
      destruct (from_h5_val places nodes f n a LFlat Sh) as (_ & _ & Gg).
      * cbn [nd_T shape]. rewrite Sa, Ev, El. cbn [shape_of lay_shape rev]. apply cube_snoc. apply ambiguous_rev. exact Am.
      * intros _. split; [apply Va; exact Ev|]. split; [left; reflexivity|discriminate].
      * intros j js c v Hj Hc Hv. apply Ga in Hv. specialize (Gg _ c Hj Hc). rewrite Ev in *. rewrite El in Hv. unfold idx_of in *. cbn [nd_T get] in Gg.
        replace (rev (c :: rev (j :: js))) with (j :: js ++ [c]) in Gg by (cbn [rev]; rewrite rev_app_distr, rev_involutive; reflexivity). rewrite Hv. exact Gg.
Qed.
Print Assumptions C69_xdmf_cube_refuted.
(** ... and so do interlaced vectors in an npz file, the other way round. *)
Theorem C69_npz_cube_refuted : forall V (places : center -> list V -> list V) (nodes : list (crd V)) f n a, savable places nodes f n ->
  f_vec (s_fld f) = true -> layout_of (s_fld f) = LInter -> ambiguous (sshape (s_fld f)) n -> load (s_fld f) = Some a ->
  let g := F true (placed places (s_center f) nodes) (map (fun _ => false) nodes) (SArr a) false None in
  lazy_fld places [("b"%string, AData a)] nodes (s_center f) "b" = Some ("b"%string, (s_center f, g)) /\
  forall j js c v, in_shape (sshape (s_fld f)) (js ++ [j]) -> 0 <= c < n -> val (s_fld f) j (c :: js) v -> val g c (js ++ [j]) v.
Proof.
  intros V places nodes f n a Sv Ev El Am La g. split.
  - pose proof (load_shape places nodes f n a Sv La) as Ls. rewrite Ev in Ls. unfold lazy_fld. cbn [dget as_data]. destruct (string_dec "b" "b") as [_|]; [|contradiction]. cbn [as_data]. rewrite Ls.
    destruct (Nat.eqb_spec (S (length nodes)) (length nodes)) as [Q|_]; [elim (Nat.neq_succ_diag_l _ Q)|]. rewrite Nat.eqb_refl. reflexivity.
  - destruct Sv as (En & R & Sh). destruct (readable_load _ n R) as (a' & La' & Sa & Va & Ga). assert (a' = a) by congruence. subst a'. intros j js c v Hj Hc Hv. apply Ga in Hv. rewrite Ev, El in Hv. cbn [idx_of] in Hv.
    destruct (field_any true (placed places (s_center f) nodes) a LFlat n) as (_ & Q).
    + rewrite Sa, Ev, El, sshape_placed, <- Sh. cbn [shape_of lay_shape]. apply cube_snoc. exact Am.
    + intros _. split; [left; reflexivity|]. split; [apply Va; exact Ev|discriminate].
    + unfold g. rewrite plain_placed, Hv. rewrite sshape_placed, <- Sh in Q. exact (Q _ c Hj Hc).
Qed.
Print Assumptions C69_npz_cube_refuted.

(** A field named "file" cannot be saved to an npz file. *)
Lemma in_aset {X} (d : list (string * X)) k v k' : k' = k \/ In k' (dkeys d) -> In k' (dkeys (aset d k v)).
Proof.
  intros H. rewrite dset_keys. unfold dmem. destruct (aget d k) eqn:E; [|apply in_or_app; destruct H as [->|H]; [right; left; reflexivity|left; exact H]].
  destruct H as [->|H]; [|exact H]. apply (dget_key string_dec d k _ E).
Qed.
Lemma put_flds_mem {V} flds : forall (d d' : @archive V) k, put_flds d flds = Some d' -> In k (map fst flds) \/ In k (dkeys d) -> In k (dkeys d').
Proof.
  induction flds as [|[nm f] flds IH]; intros d d' k E H; [injection E as <-; destruct H as [[]|H]; exact H|]. cbn [put_flds] in E. destruct (load (s_fld f)) as [a|]; [|discriminate]. apply (IH _ _ k E).
  cbn [map fst] in H. destruct H as [[<-|H]|H]; [right|left; exact H|right]; apply in_aset; auto.
Qed.
Theorem C69_npz_file_refuted : forall V (flds : list (string * @sfield V)), In "file"%string (map fst flds) -> save_npz flds = None.
Proof.
  intros V flds Hi. unfold save_npz. destruct flds as [|[n0 f0] r] eqn:Ef; [reflexivity|]. rewrite <- Ef in *. destruct (put_flds _ flds) as [d|] eqn:E; [|reflexivity].
  pose proof (put_flds_mem flds _ d "file"%string E (or_introl Hi)) as Q. set (d' := fold_left _ _ _).
  assert (Q' : In "file"%string (dkeys d')) by (unfold d'; cbn [fold_left centers]; do 4 (apply in_aset; right); exact Q).
  unfold dmem. destruct (aget d' "file"%string) eqn:G; [reflexivity|]. apply dget_None in G. contradiction.
Qed.
Print Assumptions C69_npz_file_refuted.

(** A field named like an axis takes the place of the coordinates, and the file cannot be read; here for one axis. *)
Theorem C69_npz_axis_refuted : forall V (places : center -> list V -> list V) xs k (f : @sfield V) d, (k < 9)%nat -> s_nodes f = [(k, xs)] ->
  save_npz [(axname k, f)] = Some d -> load_npz places d = None.
Proof.
  intros V places xs k f d Hk Sn E. unfold save_npz in E. rewrite Sn in E. cbn [map fst snd fold_left] in E. cbn [put_flds] in E. destruct (load (s_fld f)) as [a|]; [|discriminate]. unfold names_of in E. cbn [filter snd] in E.
  do 9 (destruct k as [|k]; [destruct (s_center f); lazy in E; injection E as <-; unfold load_npz; cbn -[as_list as_data]; destruct (as_list (AData a)); cbn [as_data]; repeat match goal with |- context [if ?b then _ else _] => destruct b end; reflexivity|]). lia.
Qed.
Print Assumptions C69_npz_axis_refuted.

(** Fields on another grid than the first get the coordinates of the first; here two fields on a line. *)
Definition line {V} (xs : list V) (a : nd V) : sfield := SF Node [(0%nat, xs)] (F false [(0%nat, xs)] [false] (SArr a) false None) KFloat.
Theorem C69_npz_grids_refuted : forall V (places : center -> list V -> list V) xs ys (a b : nd V), readable (s_fld (line xs a)) 1 -> readable (s_fld (line ys b)) 1 ->
  exists d out g, save_npz [("a"%string, line xs a); ("b"%string, line ys b)] = Some d /\ load_npz places d = Some out /\ In ("b"%string, g) out /\ f_crds (snd g) = [(0%nat, places Node xs)].
Proof.
  intros V places xs ys a b Ra Rb. destruct (readable_load _ 1 Ra) as (a' & La & Sa & _), (readable_load _ 1 Rb) as (b' & Lb & Sb & _).
  unfold save_npz. cbn [map fst snd fold_left line s_nodes]. cbn [put_flds]. rewrite La, Lb. cbn -[load_npz]. match goal with |- exists d out g, Some ?x = _ /\ _ => exists x end. unfold load_npz. cbn -[Nat.eqb]. rewrite Sa, Sb. cbn.
  eexists _, _. split; [reflexivity|]. split; [reflexivity|]. split; [right; left; reflexivity|]. reflexivity.
Qed.
Print Assumptions C69_npz_grids_refuted.

(** ** the hypotheses are met *)
Definition zpl (c : center) (l : list Z) : list Z := match c with Node => l | _ => removelast l end.
Definition zgrid : list (crd Z) := [(0%nat, [0; 1; 2]); (1%nat, [0; 10]); (2%nat, [5; 7; 9; 11])].
Definition zrho : @sfield Z := SF Cell zgrid (F false (placed zpl Cell zgrid) [false; true; false] (SArr (ND [2; 1; 3] (fun js => nth 0 js 0 + 100 * nth 2 js 0))) false None) KInt.
Definition zb : @sfield Z := SF Node zgrid (F true (placed zpl Node zgrid) [false; false; false] (SArr (ND [3; 2; 4; 3] (fun js => nth 0 js 0 + 10 * nth 1 js 0 + 100 * nth 3 js 0))) false None) KFloat.
Lemma zrho_savable n : savable zpl zgrid zrho n.
Proof. split; [reflexivity|]. split; [left|reflexivity]. split; [reflexivity|]. split; [reflexivity|]. split; [reflexivity|]. eexists. split; reflexivity. Qed.
Lemma zb_savable : savable zpl zgrid zb 3.
Proof.
  split; [reflexivity|]. split; [right|reflexivity]. split; [lia|]. split; [right; reflexivity|]. exists LInter. split; [|left; reflexivity]. split; [reflexivity|]. split; [lia|]. split; [reflexivity|]. split; [right; reflexivity|]. split; [reflexivity|].
  intros _ Q. unfold ambiguous in Q. rewrite Forall_forall in Q. specialize (Q 2). cbn in Q. intuition discriminate.
Qed.
Example C69_ex_npz : exists d out g, save_npz [("rho"%string, zrho); ("b"%string, zb)] = Some d /\ load_npz zpl d = Some out /\ In ("b"%string, g) out /\ same_field zpl zb 3 g.
Proof.
  destruct (C69_npz Z zpl zgrid [("rho"%string, zrho); ("b"%string, zb)]) as (d & out & E1 & E2 & _ & G); [discriminate| | |].
  - repeat split.
    + repeat constructor; cbn; intuition discriminate.
    + repeat constructor; cbn; lia.
    + repeat constructor; cbn; intuition discriminate.
    + cbn in *. intuition (subst; discriminate).
    + cbn in *. intuition (subst; discriminate).
  - intros name f [Q|[Q|[]]]; injection Q as <- <-; [exists 1; apply zrho_savable|exists 3; apply zb_savable].
  - destruct (G "b"%string zb 3) as (g & I & S1); [right; left; reflexivity|apply zb_savable| |].
    + intros _ _ Q. unfold ambiguous in Q. rewrite Forall_forall in Q. specialize (Q 2). cbn in Q. intuition discriminate.
    + exists d, out, g. auto.
Qed.
Example C69_ex_xdmf : exists d x out g, save_h5 0 "f.h5" [("rho"%string, zrho); ("b"%string, zb)] = Some (d, x) /\ load_xdmf zpl "f.h5" d x = Some out /\ In ("b"%string, g) out /\ same_field zpl zb 3 g /\ layout_of (snd g) = LFlat.
Proof.
  destruct (C69_xdmf Z zpl 0 "f.h5" zgrid [("rho"%string, zrho); ("b"%string, zb)]) as (d & x & out & E1 & E2 & _ & G); [reflexivity| |].
  - split; [reflexivity|]. split; [discriminate|]. split; [repeat constructor; cbn; intuition discriminate|].
    intros name f [Q|[Q|[]]]; injection Q as <- <-; (split; [split; reflexivity|]); (split; [cbn; auto|]); [exists 1|exists 3]; (split; [apply zrho_savable || apply zb_savable|vm_compute; discriminate]).
  - destruct (G "b"%string zb 3) as (g & I & S1 & S2); [right; left; reflexivity|apply zb_savable|discriminate|]. exists d, x, out, g. split; [exact E1|]. split; [exact E2|]. split; [exact I|]. split; [exact S1|].
    specialize (S2 eq_refl). destruct S1 as (_ & _ & Ev & R & _). destruct (readable_load _ 3 R) as (_ & _ & _ & Lv & _). destruct (proj2 (Lv Ev)) as [Q|Q]; [exact Q|]. elim S2. rewrite Q. reflexivity.
Qed.
