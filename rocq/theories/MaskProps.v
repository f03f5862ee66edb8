(** C68: masks. *)
From Verif Require Import MaskModel FldProofs LayoutProps TransProps ArithProps ReduceProps TrapzProps.
From Coq Require Import ZifyBool ZifyNat Arith Reals Lra.
Open Scope Z_scope.

(** ** specification *)
(** the distance of the grid point with the indices [js] from the origin *)
Inductive place : list (crd R) -> list Z -> list R -> Prop :=
  | place_nil : place [] [] []
  | place_cons c cs j js x xs : 0 <= j -> nth_error (snd c) (Z.to_nat j) = Some x -> place cs js xs -> place (c :: cs) (j :: js) (x :: xs).
Definition distance (xs : list R) : R := sqrt (fold_right (fun x s => x * x + s)%R 0%R xs).
(** the array [r] has for component [c] at the grid point [js] the value [alpha a + beta b] where the mask is true and
    the value of [out] elsewhere *)
Definition filled {C} (alpha beta : R) (a b : fld C R) (m : fld C bool) (out : fld C R) (n : Z) (r : nd R) : Prop :=
  forall js c, in_shape (sshape out) js -> 0 <= c < n ->
    exists va vb vo vm, val a c js va /\ val b c js vb /\ val out c js vo /\ val m c js vm /\
      (if f_vec out then comp_at (layout_of out) r c js else get r js) = if vm then (alpha * va + beta * vb)%R else vo.

(** ** choosing *)
Lemma map2_same {V W X} (op : V -> W -> X) (x : nd V) (y : nd W) S : shape x = S -> shape y = S ->
  exists r, nd_map2 op x y = Some r /\ shape r = S /\ forall i, in_shape S i -> get r i = op (get x i) (get y i).
Proof.
  intros Sx Sy. unfold nd_map2. rewrite Sx, Sy, bshape_same. eexists. split; [reflexivity|]. split; [reflexivity|]. intros i Hi. cbn [get]. rewrite !bidx_same by assumption. reflexivity.
Qed.
Lemma choose_any {V} (mk : nd bool) (x y : nd V) S : shape x = S -> shape y = S -> bshape (shape mk) S = Some S ->
  exists r, nd_choose mk x y = Some r /\ shape r = S /\ forall i, in_shape S i -> get r i = if get mk (bidx (shape mk) i) then get y i else get x i.
Proof.
  intros Sx Sy B. unfold nd_choose. destruct (map2_same pair x y S Sx Sy) as (p & -> & Sp & Gp). unfold nd_map2. rewrite Sp, B. eexists. split; [reflexivity|]. split; [reflexivity|].
  intros i Hi. cbn [get]. rewrite (bidx_same S i Hi), Gp by exact Hi. cbn [fst snd]. reflexivity.
Qed.
Lemma assign_same {V} (o r : nd V) S : shape o = S -> shape r = S -> exists r', assign o r = Some r' /\ shape r' = S /\ forall i, in_shape S i -> get r' i = get r i.
Proof.
  intros So Sr. unfold assign. rewrite So, Sr, bshape_same. rewrite leqb_refl. eexists. split; [reflexivity|]. split; [reflexivity|]. intros i Hi. cbn [get]. rewrite bidx_same by exact Hi. reflexivity.
Qed.
Lemma choose_field_any {C V} (cs : list (crd C)) (m : fld C bool) (mk : nd bool) (x y : nd V) vec l n :
  shape x = shape_of vec l n (sshape_of cs) -> shape y = shape_of vec l n (sshape_of cs) ->
  bshape (shape mk) (shape_of vec l n (sshape_of cs)) = Some (shape_of vec l n (sshape_of cs)) ->
  (vec = true -> vector_layout l /\ 1 < n /\ (l = LInter -> ~ ambiguous (sshape_of cs) n)) -> (vec = false -> prod (sshape_of cs) <> 1) ->
  exists r, match choose_field cs m mk x y with Some r => assign x r | None => None end = Some r /\ shape r = shape x /\
    forall js c, in_shape (sshape_of cs) js -> 0 <= c < n ->
      get r (idx_of vec l c js) = if get mk (bidx (shape mk) (idx_of vec l c js)) then get y (idx_of vec l c js) else get x (idx_of vec l c js).
Proof.
  intros Sx Sy B Hv Hs. destruct (choose_any mk x y _ Sx Sy B) as (r & E & Sr & Gr). unfold choose_field. rewrite E.
  assert (W : exists h d, wrap (f_vec m) cs r None = WFld h /\ load h = Some d /\ nd_eq d r).
  { destruct vec.
    - destruct (Hv eq_refl) as (Lv & N & Am). destruct (wrap_vector (f_vec m) cs r l n Lv N Sr Am) as (h & d & E1 & _ & _ & _ & _ & E2 & E3). eauto.
    - destruct (wrap_scalar (f_vec m) cs r Sr) as (h & d & E1 & _ & _ & _ & E2 & E3); [rewrite Sr; apply Hs; reflexivity|]. eauto. }
  destruct W as (h & d & -> & -> & Sd & Gd). destruct (assign_same x d (shape x) eq_refl) as (r' & -> & Sr' & Gr'); [rewrite Sd, Sr; symmetry; exact Sx|]. exists r'. split; [reflexivity|]. split; [exact Sr'|].
  intros js c Hj Hc. assert (I : in_shape (shape_of vec l n (sshape_of cs)) (idx_of vec l c js)) by (apply idx_in_shape; [intros V0; apply (Hv V0)|exact Hj|exact Hc]).
  rewrite Gr' by (rewrite Sx; exact I). rewrite Gd by (rewrite Sd, Sr; exact I). apply Gr. exact I.
Qed.

(** ** theorems *)
(** the fields and the mask fit: all are on grids of one shape; the mask is a scalar or a vector of as many components.
    For interlaced fields with a scalar mask, the last axis has neither one place nor as many as there are components,
    or no axis has one place *)
Definition fit {C} (cs : list (crd C)) (n : Z) (a b out : fld C R) (m : fld C bool) : Prop :=
  readable a n /\ readable b n /\ readable out n /\ readable m n /\
  sshape a = sshape_of cs /\ sshape b = sshape_of cs /\ sshape out = sshape_of cs /\ sshape m = sshape_of cs /\
  f_vec a = f_vec out /\ f_vec b = f_vec out /\ (f_vec out = true -> layout_of a = layout_of out /\ layout_of b = layout_of out) /\
  (f_vec out = false -> n = 1 /\ f_vec m = false /\ prod (sshape_of cs) <> 1) /\
  (f_vec out = true -> layout_of out = LInter \/ f_vec m = true -> ~ ambiguous (sshape_of cs) n) /\
  (f_vec out = true -> layout_of out = LInter -> f_vec m = false ->
     Forall (fun L => 1 < L) (sshape_of cs) \/ last (sshape_of cs) 1 <> 1 /\ last (sshape_of cs) 1 <> n).

Lemma last_rev {X} (l : list X) d : last l d = hd d (rev l).
Proof. destruct (rev l) as [|x r] eqn:E; [rewrite <- (rev_involutive l), E; reflexivity|]. rewrite <- (rev_involutive l), E. cbn [rev hd]. apply last_last. Qed.
Lemma inter_refused s n : 1 < n -> ~ ambiguous s n -> Forall (fun L => 1 < L) s \/ last s 1 <> 1 /\ last s 1 <> n -> bshape s (s ++ [n]) = None.
Proof.
  intros N A H. unfold bshape. rewrite rev_unit. destruct H as [F|(L1 & Ln)].
  - destruct (bshape_r_inter n (rev s)) as (_ & ->); [apply Forall_rev; exact F|exact N|rewrite ambiguous_rev; exact A|]. reflexivity.
  - rewrite last_rev in L1, Ln. destruct (rev s) as [|x r]; cbn [hd] in *; [lia|]. cbn [bshape_r]. replace (x =? n) with false by lia. replace (x =? 1) with false by lia. replace (n =? 1) with false by lia. reflexivity.
Qed.

(** [set_in_region] sets the values inside the mask and leaves the others. *)
Theorem C68_region : forall C (cs : list (crd C)) n alpha beta a b out m, fit cs n a b out m ->
  exists o r, load out = Some o /\ set_in_region Float alpha beta a b (Some (cs, m)) out = Some r /\ shape r = shape o /\ filled alpha beta a b m out n r.
Proof.
  intros C cs n alpha beta a b out m (Ra & Rb & Ro & Rm & Sa & Sb & So & Sm & Va & Vb & Ls & Hs & Am & Th).
  destruct (readable_load a n Ra) as (x & La & Sx & _ & Gx). destruct (readable_load b n Rb) as (y & Lb & Sy & _ & Gy). destruct (readable_load out n Ro) as (o & Lo & Soo & Vo & Go).
  rewrite Sa, Va in *. rewrite Sb, Vb in *. rewrite So in *. exists o.
  set (l := layout_of out) in *. set (S := shape_of (f_vec out) l n (sshape_of cs)) in *.
  assert (Ex : shape x = S) by (rewrite Sx; unfold S; destruct (f_vec out); [destruct (Ls eq_refl) as (-> & _)|]; reflexivity).
  assert (Ey : shape y = S) by (rewrite Sy; unfold S; destruct (f_vec out); [destruct (Ls eq_refl) as (_ & ->)|]; reflexivity).
  assert (Ix : forall c js, idx_of (f_vec out) (layout_of a) c js = idx_of (f_vec out) l c js) by (intros; destruct (f_vec out); [destruct (Ls eq_refl) as (-> & _)|]; reflexivity).
  assert (Iy : forall c js, idx_of (f_vec out) (layout_of b) c js = idx_of (f_vec out) l c js) by (intros; destruct (f_vec out); [destruct (Ls eq_refl) as (_ & ->)|]; reflexivity).
  destruct (map2_same (fun u v => (put Float alpha * u + put Float beta * v)%R) x y S Ex Ey) as (vals & Ev & Sv & Gv).
  unfold set_in_region. rewrite La, Lb, Lo, Ev.
  assert (Hv : f_vec out = true -> vector_layout l /\ 1 < n /\ (l = LInter -> ~ ambiguous (sshape_of cs) n)).
  { intros V. destruct (Vo V) as (N & Lv). split; [exact Lv|]. split; [exact N|]. intros E. apply Am; [exact V|left; exact E]. }
  (* the rest follows from the values of the result *)
  assert (Fin : forall r, shape r = shape o -> (forall js c, in_shape (sshape_of cs) js -> 0 <= c < n -> exists vm, val m c js vm /\
      get r (idx_of (f_vec out) l c js) = if vm then get vals (idx_of (f_vec out) l c js) else get o (idx_of (f_vec out) l c js)) ->
      filled alpha beta a b m out n r).
  { intros r Sr H js c Hj Hc. rewrite So in Hj. destruct (H js c Hj Hc) as (vm & Vm & E). exists (get x (idx_of (f_vec out) l c js)), (get y (idx_of (f_vec out) l c js)), (get o (idx_of (f_vec out) l c js)), vm.
    split; [apply Gx; rewrite Ix; reflexivity|]. split; [apply Gy; rewrite Iy; reflexivity|]. split; [apply Go; reflexivity|]. split; [exact Vm|].
    rewrite Gv in E by (apply idx_in_shape; [intros V; apply (Hv V)|exact Hj|exact Hc]). cbn [put] in E. rewrite <- E. destruct (f_vec out); [|reflexivity]. fold l. destruct (Hv eq_refl) as ([L|L] & _); rewrite L; reflexivity. }
  (* an array of the mask that can be chosen with at once *)
  assert (Once : forall m' mk, load m' = Some mk -> bshape (shape mk) S = Some S ->
      (forall js c, in_shape (sshape_of cs) js -> 0 <= c < n -> val m c js (get mk (bidx (shape mk) (idx_of (f_vec out) l c js)))) ->
      exists r, match match choose_field cs m' mk o vals with Some r => assign o r | None => None end with Some r => Some r | None => match nd_reshape (sshape m' ++ [1]) mk with Some mk1 => match nd_choose mk1 o vals with Some r => assign o r | None => None end | None => None end end = Some r /\
        shape r = shape o /\ filled alpha beta a b m out n r).
  { intros m' mk Lm B H. destruct (choose_field_any cs m' mk o vals (f_vec out) l n Soo Sv B Hv) as (r & E & Sr & Gr); [intros V; apply (Hs V)|]. exists r. rewrite E. split; [reflexivity|]. split; [exact Sr|].
    apply Fin; [exact Sr|]. intros js c Hj Hc. eexists. split; [apply (H js c Hj Hc)|]. apply Gr; assumption. }
  destruct (readable_load m n Rm) as (mk & Lm & Smk & Vm & Gm). rewrite Sm in Smk.
  destruct (f_vec m) eqn:Em.
  - (* a vector mask *)
    destruct (f_vec out) eqn:Eo; [|destruct (Hs eq_refl) as (_ & Q & _); discriminate]. destruct (Hv eq_refl) as (Lv & N & _). destruct (Ls eq_refl) as (La' & Lb').
    destruct Rm as [Rm|Rm]; [assert (f_vec m = false) by apply Rm; congruence|]. pose proof Rm as (_ & Lvm & sl & Hh & Hz).
    destruct (C37_as_layout C bool m cs sl n l mk Hh Lvm Lv (eq_trans (eq_sym eq_refl) (eq_sym Sm)) N Hz) as (g & dg & Eg & Lg & Ldg & Sdg & Gdg); [intros _ _; rewrite Sm; apply Am; auto|exact Lm|].
    rewrite La'. rewrite Eg, Ldg. rewrite Sm in Sdg, Gdg. fold S in Sdg. destruct (Once g dg Ldg) as (r & H1 & H2 & H3).
    + assert (Q : shape dg = S) by exact Sdg. rewrite Q. apply bshape_same.
    + intros js c Hj Hc. assert (I : in_shape S (idx_of true l c js)) by (apply idx_in_shape; auto). assert (Q : shape dg = S) by exact Sdg. rewrite Q, bidx_same by exact I.
      apply Gm. specialize (Gdg c js Hc Hj). transitivity (comp_at l dg c js); [destruct Lv as [L|L]; rewrite L; reflexivity|]. rewrite Gdg. destruct Lvm as [L|L]; rewrite L; reflexivity.
    + exists r. split; [reflexivity|]. auto.
  - (* a scalar mask *)
    rewrite Lm. cbn [shape_of idx_of] in Smk, Gm. destruct (f_vec out) eqn:Eo.
    + destruct (Hv eq_refl) as ([L|L] & N & A).
      * destruct (Once m mk Lm) as (r & H1 & H2 & H3).
        -- rewrite Smk. unfold S. rewrite L. apply bshape_flat_r.
        -- intros js c Hj Hc. apply Gm. rewrite Smk, L. cbn [idx_of]. rewrite bidx_flat by exact Hj. reflexivity.
        -- exists r. split; [reflexivity|]. auto.
      * assert (B : bshape (shape mk) S = None). { rewrite Smk. unfold S. rewrite L. apply inter_refused; [exact N|apply A; exact L|apply Th; auto]. }
        assert (C1 : choose_field cs m mk o vals = None).
        { unfold choose_field, nd_choose. destruct (map2_same pair o vals S Soo Sv) as (p & -> & Sp & _). unfold nd_map2. rewrite Sp, B. reflexivity. }
        rewrite C1. unfold nd_reshape. rewrite Sm, Smk. assert (Ne : sshape_of cs <> sshape_of cs ++ [1]) by (intros Q; apply (f_equal (@length Z)) in Q; rewrite app_length in Q; cbn [length] in Q; lia).
        rewrite (leqb_neq _ _ Ne), prod_app. change (prod [1]) with 1. rewrite Z.mul_1_r, Z.eqb_refl.
        set (mk1 := ND _ _). destruct (choose_any mk1 o vals S Soo Sv) as (r0 & E0 & Sr0 & Gr0).
        { unfold S. rewrite L. apply (bshape_unit (sshape_of cs) [] n). }
        rewrite E0. destruct (assign_same o r0 S Soo Sr0) as (r & -> & Sr & Gr). exists r. split; [reflexivity|]. split; [reflexivity|]. split; [congruence|]. apply Fin; [congruence|]. intros js c Hj Hc.
        assert (I : in_shape S (idx_of true l c js)) by (apply idx_in_shape; [right; exact L|exact Hj|exact Hc]).
        exists (get mk js). split; [apply Gm; reflexivity|]. rewrite Gr, Gr0 by exact I. rewrite L. unfold mk1. cbn [idx_of shape get]. rewrite (bidx_unit (sshape_of cs) [] js [] c Hj ltac:(constructor)). cbn [get].
        rewrite ravel_unit by (apply in_shape_len; exact Hj). rewrite !app_nil_r, unravel_ravel by exact Hj. reflexivity.
    + destruct (Once m mk Lm) as (r & H1 & H2 & H3).
      * rewrite Smk. apply bshape_same.
      * intros js c Hj Hc. apply Gm. cbn [idx_of]. rewrite Smk, bidx_same by exact Hj. reflexivity.
      * exists r. split; [reflexivity|]. auto.
Qed.
Print Assumptions C68_region.

(** Without a mask all values are set. *)
Theorem C68_everywhere : forall C n alpha beta (a b out : fld C R),
  readable a n -> readable b n -> readable out n -> sshape a = sshape out -> sshape b = sshape out -> f_vec a = f_vec out -> f_vec b = f_vec out ->
  (f_vec out = true -> layout_of a = layout_of out /\ layout_of b = layout_of out) ->
  exists o r, load out = Some o /\ set_in_region Float alpha beta a b None out = Some r /\ shape r = shape o /\
    forall js c, in_shape (sshape out) js -> 0 <= c < n -> exists va vb, val a c js va /\ val b c js vb /\
      (if f_vec out then comp_at (layout_of out) r c js else get r js) = (alpha * va + beta * vb)%R.
Proof.
  intros C n alpha beta a b out Ra Rb Ro Sa Sb Va Vb Ls.
  destruct (readable_load a n Ra) as (x & La & Sx & _ & Gx). destruct (readable_load b n Rb) as (y & Lb & Sy & _ & Gy). destruct (readable_load out n Ro) as (o & Lo & Soo & Vo & Go).
  rewrite Sa, Va in *. rewrite Sb, Vb in *. exists o. set (l := layout_of out) in *. set (S := shape_of (f_vec out) l n (sshape out)) in *.
  assert (Ex : shape x = S) by (rewrite Sx; unfold S; destruct (f_vec out); [destruct (Ls eq_refl) as (-> & _)|]; reflexivity).
  assert (Ey : shape y = S) by (rewrite Sy; unfold S; destruct (f_vec out); [destruct (Ls eq_refl) as (_ & ->)|]; reflexivity).
  assert (Ix : forall c js, idx_of (f_vec out) (layout_of a) c js = idx_of (f_vec out) l c js) by (intros; destruct (f_vec out); [destruct (Ls eq_refl) as (-> & _)|]; reflexivity).
  assert (Iy : forall c js, idx_of (f_vec out) (layout_of b) c js = idx_of (f_vec out) l c js) by (intros; destruct (f_vec out); [destruct (Ls eq_refl) as (_ & ->)|]; reflexivity).
  destruct (map2_same (fun u v => (put Float alpha * u + put Float beta * v)%R) x y S Ex Ey) as (vals & Ev & Sv & Gv).
  unfold set_in_region. rewrite La, Lb, Lo, Ev. destruct (assign_same o vals S Soo Sv) as (r & -> & Sr & Gr). exists r. split; [reflexivity|]. split; [reflexivity|]. split; [congruence|].
  intros js c Hj Hc. exists (get x (idx_of (f_vec out) l c js)), (get y (idx_of (f_vec out) l c js)). split; [apply Gx; rewrite Ix; reflexivity|]. split; [apply Gy; rewrite Iy; reflexivity|].
  assert (I : in_shape S (idx_of (f_vec out) l c js)) by (apply idx_in_shape; [intros V; apply (Vo V)|exact Hj|exact Hc]). specialize (Gr _ I). rewrite Gv in Gr by exact I. cbn [put] in Gr. rewrite <- Gr.
  destruct (f_vec out); [|reflexivity]. destruct (Vo eq_refl) as (_ & [L|L]); rewrite L; reflexivity.
Qed.
Print Assumptions C68_everywhere.

(** Refuted for fields of integers: a factor below one is cut to zero, and the first field does not count. *)
Lemma trunc_small alpha : (0 <= alpha < 1)%R -> trunc alpha = 0%R.
Proof.
  intros H. unfold trunc. destruct (Rle_dec 0 alpha) as [_|N]; [|lra]. replace (Int_part alpha) with 0; [reflexivity|].
  unfold Int_part. rewrite <- (tech_up alpha 1); [reflexivity| |]; lra.
Qed.
Theorem C68_integers_refuted : forall C alpha beta (a b out : fld C R) mask, (0 <= alpha < 1)%R ->
  set_in_region Int alpha beta a b mask out = set_in_region Int 0%R beta a b mask out.
Proof. intros C alpha beta a b out mask H. unfold set_in_region. cbn [put]. rewrite (trunc_small alpha H), (trunc_small 0%R) by lra. reflexivity. Qed.
Print Assumptions C68_integers_refuted.

(** Refuted for interlaced fields and a scalar mask on thin grids: the mask is paired with the components. *)
Definition thin : list (crd nat) := [(0, [0]); (1, [0; 1])]%nat.
Definition thin_vec (v : R) : fld nat R := F true thin [false; false] (SArr (ND [1; 2; 2] (fun _ => v))) false None.
Definition thin_mask : fld nat bool := F false thin [false; false] (SArr (ND [1; 2] (fun js => match js with [_; y] => y =? 0 | _ => false end))) false None.
Theorem C68_thin_refuted : (forall v, holds_vector (thin_vec v) 2) /\ holds_scalar thin_mask /\
  exists r, set_in_region Float 1 1 (thin_vec 5) (thin_vec 0) (Some (thin, thin_mask)) (thin_vec 0) = Some r /\
    val thin_mask 0 [0; 1] false /\ comp_at LInter r 0 [0; 1] = 5%R /\ val thin_mask 1 [0; 0] true /\ comp_at LInter r 1 [0; 0] = 0%R.
Proof.
  split.
  { intros v. split; [lia|]. split; [right; reflexivity|]. exists LInter. split; [|left; reflexivity]. split; [reflexivity|]. split; [lia|]. split; [reflexivity|]. split; [right; reflexivity|]. split; [reflexivity|].
    intros _ Q. inversion Q; discriminate. }
  split; [split; [reflexivity|]; split; [reflexivity|]; split; [reflexivity|]; eexists; split; reflexivity|].
  eexists. split; [lazy -[Rplus Rmult IZR]; reflexivity|]. split; [eexists; split; reflexivity|]. split; [lazy -[Rplus Rmult IZR]; lra|]. split; [eexists; split; reflexivity|reflexivity].
Qed.
Print Assumptions C68_thin_refuted.

(** ** dipoles with a mask *)
(** For flat fields, and for masks with components in the layout of the field, the dipole is put inside the mask. *)
Theorem C68_fill : forall C V (cs : list (crd C)) (B : fld C V) m b dip n, holds_vector B n -> sshape B = sshape_of cs -> load B = Some b -> shape dip = shape b ->
  readable m n -> sshape m = sshape_of cs -> layout_of B = LFlat /\ f_vec m = false \/ f_vec m = true /\ layout_of m = layout_of B -> (layout_of B = LInter -> ~ ambiguous (sshape_of cs) n) ->
  exists r, fill_masked cs m b dip = Some r /\ shape r = shape b /\
    forall js c, in_shape (sshape_of cs) js -> 0 <= c < n -> exists vm, val m c js vm /\
      comp_at (layout_of B) r c js = comp_at (layout_of B) (if vm then dip else b) c js.
Proof.
  intros C V cs B m b dip n HB SB LB Sd Rm Sm H Am. destruct (readable_load B n (or_intror HB)) as (b' & Lb & Sb & Vb & _). assert (b' = b) by congruence. subst b'. assert (Hv : f_vec B = true) by (destruct HB as (_ & _ & sl & Q & _); apply Q).
  rewrite Hv, SB in *. destruct (Vb eq_refl) as (N & Lv). destruct (readable_load m n Rm) as (mk & Lm & Smk & _ & Gm). rewrite Sm in Smk. unfold fill_masked. rewrite Lm.
  destruct (choose_field_any cs m mk b dip true (layout_of B) n Sb (eq_trans Sd Sb)) as (r & E & Sr & Gr).
  - rewrite Smk. destruct H as [(L & Em)|(Em & L)]; rewrite Em, L; cbn [shape_of lay_shape]; [apply bshape_flat_r|apply bshape_same].
  - intros _. auto.
  - discriminate.
  - exists r. rewrite E. split; [reflexivity|]. split; [exact Sr|]. intros js c Hj Hc. exists (get mk (bidx (shape mk) (idx_of true (layout_of B) c js))). split.
    + apply Gm. rewrite Smk. destruct H as [(L & Em)|(Em & L)]; rewrite Em, L; cbn [shape_of idx_of lay_shape].
      * rewrite bidx_flat by exact Hj. reflexivity.
      * rewrite bidx_same; [reflexivity|]. apply (idx_in_shape true); auto.
    + specialize (Gr js c Hj Hc). destruct Lv as [L|L]; rewrite L in *; cbn [idx_of comp_at] in *; rewrite Gr; destruct (get mk _); reflexivity.
Qed.
Print Assumptions C68_fill.
(** Refuted for interlaced fields, which [make_dipole] makes, and scalar masks: it raises. *)
Theorem C68_fill_interlaced_refuted : forall C V (cs : list (crd C)) (B : fld C V) m b dip n, holds_vector B n -> layout_of B = LInter -> sshape B = sshape_of cs -> load B = Some b -> shape dip = shape b ->
  holds_scalar m -> sshape m = sshape_of cs -> ~ ambiguous (sshape_of cs) n -> Forall (fun L => 1 < L) (sshape_of cs) -> fill_masked cs m b dip = None.
Proof.
  intros C V cs B m b dip n HB L SB LB Sd Hm Sm Am Th. destruct (readable_load B n (or_intror HB)) as (b' & Lb & Sb & Vb & _). assert (b' = b) by congruence. subst b'. assert (Hv : f_vec B = true) by (destruct HB as (_ & _ & sl & Q & _); apply Q).
  rewrite Hv, L, SB in *. destruct (readable_load m n (or_introl Hm)) as (mk & Lm & Smk & _ & _). assert (Em : f_vec m = false) by apply Hm. rewrite Em, Sm in Smk. unfold fill_masked. rewrite Lm.
  unfold choose_field, nd_choose. destruct (map2_same pair b dip _ Sb (eq_trans Sd Sb)) as (p & -> & Sp & _). unfold nd_map2. rewrite Sp, Smk. cbn [shape_of lay_shape]. rewrite inter_refused; [reflexivity|apply (Vb eq_refl)|exact Am|left; exact Th].
Qed.
Print Assumptions C68_fill_interlaced_refuted.

(** ** spheres *)
Lemma place_rsq cs js xs : place cs js xs -> rsq_at cs js = fold_right (fun x s => x * x + s)%R 0%R xs /\ (0 <= fold_right (fun x s => x * x + s) 0 xs)%R /\ in_shape (sshape_of cs) js.
Proof.
  intros H. induction H as [|c cs j js x xs Hj E H (IH1 & IH2 & IH3)]; [split; [reflexivity|split; [cbn; lra|constructor]]|]. cbn [rsq_at fold_right]. split; [|split].
  - rewrite IH1. unfold coord. rewrite (nth_error_nth _ _ 0%R E). reflexivity.
  - pose proof (Rle_0_sqr x) as Q. unfold Rsqr in Q. lra.
  - constructor; [|exact IH3]. assert (I : (Z.to_nat j < length (snd c))%nat) by (apply nth_error_Some; congruence). lia.
Qed.
Lemma between_spec rmin rmax xs : (0 <= rmin)%R -> (0 <= rmax)%R -> (0 <= fold_right (fun x s => x * x + s) 0 xs)%R ->
  MaskModel.between rmin rmax (fold_right (fun x s => x * x + s) 0 xs)%R = true <-> (rmin <= distance xs < rmax)%R.
Proof.
  intros H0 H1 P. unfold distance. set (q := fold_right _ _ _) in *. unfold MaskModel.between. pose proof (sqrt_pos q) as P1. pose proof (sqrt_sqrt q P) as P2. set (r := sqrt q) in *.
  destruct (Rle_dec (rmin * rmin) q) as [A|A], (Rlt_dec q (rmax * rmax)) as [B|B]; cbn [andb]; split; try discriminate; try reflexivity; intros H.
  - split; [destruct (Rle_lt_dec rmin r); [assumption|nra]|destruct (Rlt_le_dec r rmax); [assumption|nra]].
  - exfalso. apply B. nra.
  - exfalso. apply A. nra.
  - exfalso. apply A. nra.
Qed.
(** The mask of a sphere is true at the places from [rmin] to less than [rmax] from the origin. *)
Theorem C68_sphere : forall rmin rmax cs js xs, (0 <= rmin)%R -> (0 <= rmax)%R -> place cs js xs ->
  holds_scalar (spherical_mask rmin rmax cs) /\ exists v, val (spherical_mask rmin rmax cs) 0 js v /\ (v = true <-> (rmin <= distance xs < rmax)%R).
Proof.
  intros rmin rmax cs js xs H0 H1 H. destruct (place_rsq cs js xs H) as (E & P & I). set (r := ND (sshape_of cs) (fun js => MaskModel.between rmin rmax (rsq_at cs js))).
  assert (Hs : holds_scalar (spherical_mask rmin rmax cs)) by (split; [reflexivity|split; [apply map_length|split; [reflexivity|exists r; split; reflexivity]]]). split; [exact Hs|].
  destruct (load_scalar _ Hs) as (a & d & Ea & Ed & Sd & Gd). injection Ea as <-. exists (MaskModel.between rmin rmax (rsq_at cs js)). split.
  - exists d. split; [exact Ed|]. cbn [f_vec spherical_mask]. rewrite Gd by exact I. cbn [f_zyx f_refl spherical_mask]. rewrite flip_false. reflexivity.
  - rewrite E. apply between_spec; assumption.
Qed.
Print Assumptions C68_sphere.
(** For edge and face centred fields each component has its own places. *)
Theorem C68_sphere_staggered : forall rmin rmax cs (comps : nat -> list (crd R)) (inter : bool) js c xs, (0 <= rmin)%R -> (0 <= rmax)%R ->
  (forall i, sshape_of (comps i) = sshape_of cs) -> (inter = true -> ~ ambiguous (sshape_of cs) 3) -> 0 <= c < 3 -> place (comps (Z.to_nat c)) js xs ->
  let m := spherical_mask_ecfc rmin rmax cs comps inter in
  holds_vector m 3 /\ exists v, val m c js v /\ (v = true <-> (rmin <= distance xs < rmax)%R).
Proof.
  intros rmin rmax cs comps inter js c xs H0 H1 Sc Am Hc H. destruct (place_rsq _ js xs H) as (E & P & I). rewrite Sc in I.
  set (l := if inter then LInter else LFlat). unfold spherical_mask_ecfc. cbv zeta.
  match goal with |- context [SArr ?x] => set (r := x) end. change (F true cs (map (fun _ => false) cs) (SArr r) false None) with (TrapzProps.plain_fld true cs r).
  destruct (TrapzProps.field_any true cs r l 3) as (R1 & R2).
  - unfold l, r. destruct inter; reflexivity.
  - intros _. unfold l. destruct inter; [split; [right; reflexivity|split; [lia|intros _; apply Am; reflexivity]]|split; [left; reflexivity|split; [lia|discriminate]]].
  - destruct R1 as [R1|R1]; [destruct R1; discriminate|]. split; [exact R1|]. specialize (R2 js c I Hc). eexists. split; [exact R2|].
    assert (G : get r (idx_of true l c js) = MaskModel.between rmin rmax (rsq_at (comps (Z.to_nat c)) js)). { unfold r, l. destruct inter; cbn [idx_of get]; [rewrite last_last, removelast_last|]; reflexivity. }
    rewrite G, E. apply between_spec; assumption.
Qed.
Print Assumptions C68_sphere_staggered.
(** Refuted for a negative inner radius: its square counts, and the places near the origin are left out. *)
Theorem C68_negative_refuted : forall rmin rmax cs js xs, (rmin < 0)%R -> place cs js xs -> (distance xs < - rmin)%R ->
  (rmin <= distance xs)%R /\ val (spherical_mask rmin rmax cs) 0 js false.
Proof.
  intros rmin rmax cs js xs Hr H Hd. destruct (place_rsq cs js xs H) as (E & P & I). unfold distance in *. pose proof (sqrt_pos (fold_right (fun x s => x * x + s) 0 xs)%R) as P1. split; [lra|].
  destruct (C68_sphere 0 0 cs js xs ltac:(lra) ltac:(lra) H) as (_ & _). set (r := ND (sshape_of cs) (fun js => MaskModel.between rmin rmax (rsq_at cs js))).
  assert (Hs : holds_scalar (spherical_mask rmin rmax cs)) by (split; [reflexivity|split; [apply map_length|split; [reflexivity|exists r; split; reflexivity]]]).
  destruct (load_scalar _ Hs) as (a & d & Ea & Ed & Sd & Gd). injection Ea as <-. exists d. split; [exact Ed|]. cbn [f_vec spherical_mask]. rewrite Gd by exact I. cbn [f_zyx f_refl spherical_mask]. rewrite flip_false. cbn [get r].
  rewrite E. unfold MaskModel.between. pose proof (sqrt_sqrt _ P) as P2. set (q := fold_right _ _ _) in *. destruct (Rle_dec (rmin * rmin) q) as [A|A]; [|reflexivity]. exfalso. nra.
Qed.
Print Assumptions C68_negative_refuted.

(** ** fields that meet the hypotheses *)
Definition g24 : list (crd nat) := [(0, [0; 1]); (1, [0; 1; 2; 3])]%nat.
Definition vec24 (v : R) : fld nat R := F true g24 [false; false] (SArr (ND [2; 4; 3] (fun _ => v))) false None.
Definition mask24 : fld nat bool := F false g24 [false; false] (SArr (ND [2; 4] (fun js => match js with [_; y] => y =? 0 | _ => false end))) false None.
Example C68_ex : fit g24 3 (vec24 1) (vec24 2) (vec24 0) mask24 /\ place [(0%nat, [0; 3]%R); (1%nat, [0; 4]%R)] [1; 1] [3; 4]%R /\ distance [3; 4]%R = 5%R.
Proof.
  assert (Hv : forall v, holds_vector (vec24 v) 3).
  { intros v. split; [lia|]. split; [right; reflexivity|]. exists LInter. split; [|left; reflexivity]. split; [reflexivity|]. split; [lia|]. split; [reflexivity|]. split; [right; reflexivity|]. split; [reflexivity|].
    intros _ Q. inversion Q; discriminate. }
  assert (Hm : holds_scalar mask24) by (split; [reflexivity|]; split; [reflexivity|]; split; [reflexivity|]; eexists; split; reflexivity).
  split; [|split].
  - split; [right; apply Hv|]. split; [right; apply Hv|]. split; [right; apply Hv|]. split; [left; exact Hm|]. repeat (split; [reflexivity|]). split; [intros _; split; reflexivity|]. split; [discriminate|].
    split; [intros _ _ Q; inversion Q; discriminate|]. intros _ _ _. left. repeat constructor.
  - constructor; [lia|reflexivity|]. constructor; [lia|reflexivity|constructor].
  - unfold distance. cbn [fold_right]. replace (3 * 3 + (4 * 4 + 0))%R with (5 * 5)%R by lra. apply sqrt_square. lra.
Qed.
