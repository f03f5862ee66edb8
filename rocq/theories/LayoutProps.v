(** C37: vector layout conversions are lossless. *)
From Verif Require Import FldModel FwdSliceNd FldProofs.
From Coq Require Import ZifyBool ZifyNat Arith.
Open Scope Z_scope.

(** ** specification *)
(** the value of component [c] at grid point [js] of an array in layout [l] *)
Definition comp_at {V} (l : layout) (d : nd V) (c : Z) (js : list Z) : V :=
  match l with LInter => get d (js ++ [c]) | _ => get d (c :: js) end.
Definition lay_shape (l : layout) (sh : list Z) (n : Z) : list Z :=
  match l with LInter => sh ++ [n] | _ => n :: sh end.
Definition vector_layout (l : layout) : Prop := l = LFlat \/ l = LInter.

(** A vector field with [n] components stored in layout [sl]: an array with one
    component axis first or last, or a list with one array per component; the space axes
    in the order of the coordinates, or all reversed. *)
Definition holds {C V} (f : fld C V) (sl : layout) (n : Z) : Prop :=
  f_vec f = true /\ 0 < n /\ length (f_refl f) = length (f_crds f) /\
  match f_src f with
  | SArr a => vector_layout sl /\ shape a = lay_shape sl (native_sshape f) n /\
              (sl = LInter -> ~ ambiguous (sshape f) n)
  | SList l => sl = LFlat /\ Z.of_nat (length l) = n /\ Forall (fun a => shape a = native_sshape f) l
  end.
(** the value the source holds for component [c] at the grid point [js] *)
Definition stored {C V} (f : fld C V) (sl : layout) (c : Z) (js : list Z) (v : V) : Prop :=
  let js' := if f_zyx f then rev js else js in
  match f_src f with
  | SArr a => comp_at sl a c js' = v
  | SList l => exists a, nth_error l (Z.to_nat c) = Some a /\ get a js' = v
  end.
(** the place of a grid point before the reflections *)
Definition mirrored (sh : list Z) (refl : list bool) (js : list Z) : list Z := flip_idx sh refl js.

(** ** proofs *)
Section P.
Context {C V : Type}.
Implicit Types (f : fld C V) (a : nd V).

Lemma sshape_nonneg f : Forall (fun L => 0 <= L) (sshape f).
Proof. unfold sshape, sshape_of. apply Forall_forall. intros x H. apply in_map_iff in H as (c & <- & _). lia. Qed.
Lemma sshape_len f : length (sshape f) = length (f_crds f).
Proof. unfold sshape, sshape_of. apply map_length. Qed.
Lemma native_len f : length (native_sshape f) = length (f_crds f).
Proof. unfold native_sshape. destruct (f_zyx f); rewrite ?rev_length; apply sshape_len. Qed.
Lemma native_ambiguous f n : ambiguous (native_sshape f) n <-> ambiguous (sshape f) n.
Proof. unfold native_sshape. destruct (f_zyx f); [apply ambiguous_rev|reflexivity]. Qed.

Lemma holds_src_layout f sl n : holds f sl n -> src_layout f = sl.
Proof.
  intros (_ & _ & _ & H). unfold src_layout. destruct (f_src f) as [a|l].
  - destruct H as ([-> | ->] & E & Ha); rewrite E; cbn [lay_shape].
    + apply detect_flat.
    + apply detect_inter. rewrite native_ambiguous. auto.
  - destruct H as (-> & _). reflexivity.
Qed.
Lemma holds_nr_comps f sl n : holds f sl n -> nr_comps f = Some n.
Proof.
  intros Hh. pose proof (holds_src_layout f sl n Hh) as El. destruct Hh as (Hv & _ & _ & H).
  unfold nr_comps. rewrite Hv, El. cbn [negb]. destruct (f_src f) as [a|l].
  - destruct H as ([-> | ->] & E & _); rewrite E; cbn [lay_shape hd]; [reflexivity|]. rewrite last_snoc. reflexivity.
  - destruct H as (-> & E & _). rewrite E. reflexivity.
Qed.
Lemma holds_nr_comp f sl n : holds f sl n -> vector_layout (layout_of f) ->
  nr_comp f = Some (match layout_of f with LInter => length (f_crds f) | _ => O end).
Proof.
  intros (Hv & _) [E|E]; unfold nr_comp; rewrite Hv, E; reflexivity.
Qed.
Lemma holds_fshape f sl n : holds f sl n -> vector_layout (layout_of f) ->
  fshape f = Some (lay_shape (layout_of f) (sshape f) n).
Proof.
  intros H L. unfold fshape. rewrite (holds_nr_comp f sl n H L), (holds_nr_comps f sl n H).
  destruct L as [-> | ->]; cbn [lay_shape]; [reflexivity|]. rewrite insert_at_len' by apply sshape_len. reflexivity.
Qed.

Lemma flip_snoc sh : forall rv js L c, length rv = length sh -> length js = length sh ->
  flip_idx (sh ++ [L]) (rv ++ [false]) (js ++ [c]) = flip_idx sh rv js ++ [c].
Proof.
  induction sh as [|x sh IH]; intros [|r rv] [|j js] L c H1 H2; cbn in H1, H2; try discriminate; [reflexivity|].
  cbn [app flip_idx]. rewrite IH by congruence. reflexivity.
Qed.
Lemma flip_in_shape sh : forall rv js, in_shape sh js -> in_shape sh (flip_idx sh rv js).
Proof.
  intros rv js H. revert rv. induction H as [|L j sh js Hj H IH]; intros rv; [destruct rv; constructor|].
  destruct rv as [|r rv]; [constructor; [exact Hj|exact H]|]. cbn [flip_idx]. constructor; [destruct r; lia|apply IH].
Qed.

(** reading an array of the field's shape, with reflections *)
Lemma dat_to_nd_ok f sl n a : holds f sl n -> vector_layout (layout_of f) ->
  shape a = lay_shape (layout_of f) (sshape f) n ->
  exists d, dat_to_nd f (SArr a) = Some d /\ shape d = lay_shape (layout_of f) (sshape f) n /\
    forall c js, 0 <= c < n -> in_shape (sshape f) js ->
      comp_at (layout_of f) d c js = comp_at (layout_of f) a c (flip_idx (sshape f) (f_refl f) js).
Proof.
  intros H L Es. unfold dat_to_nd. rewrite (holds_fshape f sl n H L). unfold nd_reshape. rewrite Es, leqb_refl.
  unfold reflect_arr. rewrite (holds_nr_comp f sl n H L), (holds_nr_comps f sl n H).
  assert (Hn : 0 < n) by apply H. assert (Hr : length (f_refl f) = length (sshape f)) by (rewrite sshape_len; apply H).
  set (rv := match layout_of f with LInter => f_refl f ++ [false] | _ => false :: f_refl f end).
  assert (E1 : insert_at (match layout_of f with LInter => length (f_crds f) | _ => O end) n (sshape f) = lay_shape (layout_of f) (sshape f) n).
  { destruct L as [-> | ->]; cbn [lay_shape]; [reflexivity|]. apply insert_at_len'. apply sshape_len. }
  assert (E2 : insert_at (match layout_of f with LInter => length (f_crds f) | _ => O end) false (f_refl f) = rv).
  { subst rv. destruct L as [-> | ->]; [reflexivity|]. apply insert_at_len'. apply H. }
  rewrite E1, E2.
  destruct (reflect_whole a (lay_shape (layout_of f) (sshape f) n) rv) as (fs & ss & b & d & M1 & M2 & M3 & M4).
  - exact Es.
  - destruct L as [-> | ->]; cbn [lay_shape].
    + constructor; [lia|apply sshape_nonneg].
    + apply Forall_app. split; [apply sshape_nonneg|repeat constructor; lia].
  - subst rv. destruct L as [-> | ->]; cbn [lay_shape]; rewrite ?app_length; cbn [length]; rewrite Hr; lia.
  - rewrite M1, M2, M3. exists d. split; [reflexivity|]. destruct M4 as [S4 G4]. cbn [shape nd_flip get] in *.
    split; [congruence|]. rewrite S4, Es in G4. intros c js Hc Hj. subst rv. destruct L as [El | El]; rewrite El in *; cbn [lay_shape comp_at] in *.
    + rewrite G4 by (constructor; auto). reflexivity.
    + rewrite G4 by (apply in_shape_snoc; auto). rewrite flip_snoc; [reflexivity|exact Hr|]. apply in_shape_len. exact Hj.
Qed.

Lemma dat_to_nd_stack f l a : nd_stack l = Some a -> dat_to_nd f (SList l) = dat_to_nd f (SArr a).
Proof. intros H. unfold dat_to_nd. rewrite H. reflexivity. Qed.

Lemma nd_stack_ok (l : list (nd V)) sh : l <> [] -> Forall (fun a => shape a = sh) l ->
  exists a, nd_stack l = Some a /\ shape a = Z.of_nat (length l) :: sh /\
    forall c js b, 0 <= c < Z.of_nat (length l) -> nth_error l (Z.to_nat c) = Some b -> get a (c :: js) = get b js.
Proof.
  intros NE F. destruct l as [|a0 l]; [contradiction|]. unfold nd_stack.
  assert (E : forallb (fun b => leqb (shape b) (shape a0)) (a0 :: l) = true).
  { apply forallb_forall. intros b Hb. rewrite Forall_forall in F. rewrite (F b Hb), (F a0 (or_introl eq_refl)). apply leqb_refl. }
  rewrite E. eexists. split; [reflexivity|]. cbn [shape get]. inversion F; subst. split; [reflexivity|].
  intros c js b Hc Hb. rewrite (nth_error_nth _ _ a0 Hb). reflexivity.
Qed.

(** the source in the order of the coordinates, when its layout is the field's *)
Lemma xyz_same f sl n : holds f sl n -> layout_of f = sl \/ f_zyx f = false \/ (exists l, f_src f = SList l) ->
  exists a s, xyz_src f = Some s /\
    (s = SArr a \/ exists l, s = SList l /\ nd_stack l = Some a) /\
    shape a = lay_shape sl (sshape f) n /\
    forall c js, 0 <= c < n -> in_shape (sshape f) js -> stored f sl c js (comp_at sl a c js).
Proof.
  intros Hh Hz. pose proof (holds_nr_comps f sl n Hh) as Nc. assert (Hn : 0 < n) by apply Hh.
  unfold xyz_src, stored. pose proof Hh as (Hv & _ & Hr & H).
  destruct (f_src f) as [a|l] eqn:Es.
  - destruct H as (Hl & Sh & Am). unfold native_sshape in Sh. destruct (f_zyx f) eqn:Ez.
    + assert (El : layout_of f = sl) by (destruct Hz as [E|[E|[l E]]]; [exact E|discriminate|discriminate]).
      rewrite Nc. replace (0 <? n) with true by lia.
      rewrite (holds_nr_comp f sl n Hh) by (rewrite El; exact Hl). rewrite El, Sh.
      destruct Hl as [-> | ->]; cbn [lay_shape comp_at].
      * cbn [length seq]. cbn [remove_val Nat.eqb insert_at]. rewrite rev_length, sshape_len.
        eexists. eexists. split; [reflexivity|]. split; [left; reflexivity|]. split.
        -- cbn [shape nd_transpose]. rewrite Sh. cbn [lay_shape]. rewrite shape_flat by (rewrite rev_length; apply sshape_len).
           rewrite rev_involutive. reflexivity.
        -- intros c js Hc Hj. cbn [get nd_transpose]. rewrite unperm_flat by (rewrite <- sshape_len; apply in_shape_len; exact Hj). reflexivity.
      * rewrite app_length, rev_length, sshape_len. cbn [length]. rewrite Nat.add_1_r, seq_S'.
        rewrite remove_val_notin_app by (rewrite in_seq; lia). rewrite app_nil_r.
        rewrite insert_at_len' by (rewrite rev_length, seq_length; reflexivity).
        eexists. eexists. split; [reflexivity|]. split; [left; reflexivity|]. split.
        -- cbn [shape nd_transpose]. rewrite Sh. cbn [lay_shape]. rewrite shape_inter by (rewrite rev_length; apply sshape_len).
           rewrite rev_involutive. reflexivity.
        -- intros c js Hc Hj. cbn [get nd_transpose]. rewrite unperm_inter by (rewrite <- sshape_len; apply in_shape_len; exact Hj). reflexivity.
    + eexists. eexists. split; [reflexivity|]. split; [left; reflexivity|]. split; [exact Sh|]. reflexivity.
  - destruct H as (-> & Ln & F). assert (NE : l <> []) by (intros ->; cbn in Ln; lia).
    unfold native_sshape in F. cbn [lay_shape comp_at].
    destruct (f_zyx f) eqn:Ez.
    + destruct (nd_stack_ok (map nd_T l) (sshape f)) as (a & E1 & E2 & E3).
      * destruct l; [contradiction|discriminate].
      * rewrite Forall_map. eapply Forall_impl; [|exact F]. intros b Hb. cbn [shape nd_T]. rewrite Hb. apply rev_involutive.
      * rewrite map_length in E2, E3. exists a. eexists. split; [reflexivity|]. split; [right; eauto|].
        split; [rewrite E2; congruence|]. intros c js Hc Hj.
        destruct (nth_error l (Z.to_nat c)) as [b|] eqn:Eb; [|apply nth_error_None in Eb; lia].
        exists b. split; [reflexivity|]. rewrite (E3 c js (nd_T b)) by (lia || (rewrite nth_error_map, Eb; reflexivity)). reflexivity.
    + destruct (nd_stack_ok l (sshape f) NE F) as (a & E1 & E2 & E3).
      exists a. eexists. split; [reflexivity|]. split; [right; eauto|]. split; [rewrite E2; congruence|]. intros c js Hc Hj.
      destruct (nth_error l (Z.to_nat c)) as [b|] eqn:Eb; [|apply nth_error_None in Eb; lia].
      exists b. split; [reflexivity|]. rewrite (E3 c js b) by (lia || exact Eb). reflexivity.
Qed.
End P.

(** ** theorems *)

(** Loading a vector field: every component value is found at its grid point, for data
    stored in either order of the axes, in either layout or as a list of components. *)
Theorem C37_load : forall (C V : Type) (f : fld C V) sl n,
  holds f sl n -> vector_layout (layout_of f) ->
  layout_of f = sl \/ f_zyx f = false \/ (exists l, f_src f = SList l) ->
  exists d, load f = Some d /\ shape d = lay_shape (layout_of f) (sshape f) n /\
    forall c js, 0 <= c < n -> in_shape (sshape f) js ->
      stored f sl c (mirrored (sshape f) (f_refl f) js) (comp_at (layout_of f) d c js).
Proof.
  intros C V f sl n Hh Lv Hz.
  destruct (xyz_same f sl n Hh Hz) as (a & s & Ex & Hs & Sa & Ga).
  pose proof (holds_src_layout f sl n Hh) as Esl. assert (Hn : 0 < n) by apply Hh.
  assert (Hsl : vector_layout sl).
  { destruct Hh as (_ & _ & _ & H). destruct (f_src f); [apply H|left; apply H]. }
  assert (Step : forall a', shape a' = lay_shape (layout_of f) (sshape f) n ->
    (forall c js, 0 <= c < n -> in_shape (sshape f) js -> stored f sl c js (comp_at (layout_of f) a' c js)) ->
    exists d, dat_to_nd f (SArr a') = Some d /\ shape d = lay_shape (layout_of f) (sshape f) n /\
      forall c js, 0 <= c < n -> in_shape (sshape f) js ->
        stored f sl c (mirrored (sshape f) (f_refl f) js) (comp_at (layout_of f) d c js)).
  { intros a' Sa' Ga'. destruct (dat_to_nd_ok f sl n a' Hh Lv Sa') as (d & E & Sd & Gd). exists d. split; [exact E|]. split; [exact Sd|].
    intros c js Hc Hj. rewrite Gd by auto. apply Ga'; [exact Hc|]. apply flip_in_shape. exact Hj. }
  assert (Hd : dat_to_nd f s = dat_to_nd f (SArr a)).
  { destruct Hs as [-> | (l & -> & El)]; [reflexivity|]. apply dat_to_nd_stack. exact El. }
  unfold load. rewrite Esl, Ex, (holds_nr_comps f sl n Hh), (holds_fshape f sl n Hh Lv).
  destruct (f_force f) as [fl|] eqn:Ef.
  - assert (El : layout_of f = fl) by (unfold layout_of; rewrite Ef; reflexivity). rewrite El in *.
    destruct (lay_eqb fl sl) eqn:Eq.
    + apply lay_eqb_eq in Eq. rewrite <- Eq in *. cbn [orb]. rewrite Hd. apply Step; [exact Sa|exact Ga].
    + destruct Hsl as [-> | ->]; cbn [lay_eqb orb]; destruct Lv as [-> | ->]; try discriminate Eq.
      * (* flat -> interlaced *)
        cbn [lay_eqb negb lay_shape]. rewrite removelast_snoc. cbn [lay_shape comp_at] in *.
        assert (Em : match s with
                | SArr a => if leqb (tl (shape a)) (sshape f) && (n <=? hd 0 (shape a)) then Some a else None
                | SList l => match nd_stack l with
                             | Some a => if leqb (tl (shape a)) (sshape f) then Some a else None
                             | None => None
                             end
                end = Some a).
        { destruct Hs as [-> | (l & -> & Els)].
          - rewrite Sa. cbn [tl hd]. rewrite leqb_refl. replace (n <=? n) with true by lia. reflexivity.
          - rewrite Els, Sa. cbn [tl]. rewrite leqb_refl. reflexivity. }
        rewrite Em. apply Step; [reflexivity|]. intros c js Hc Hj. cbn [get]. rewrite last_snoc, removelast_snoc. apply Ga; auto.
      * (* interlaced -> flat *)
        cbn [lay_eqb negb lay_shape tl]. cbn [lay_shape comp_at] in *.
        destruct Hs as [-> | (l & -> & Els)].
        -- rewrite Sa, removelast_snoc, last_snoc, leqb_refl. replace (n <=? n) with true by lia. cbn [andb].
           apply Step; [reflexivity|]. intros c js Hc Hj. cbn [get]. apply Ga; auto.
        -- exfalso. destruct Hh as (_ & _ & _ & H). unfold xyz_src in Ex. destruct (f_src f) as [a0|l0]; [|destruct H; discriminate].
           destruct (f_zyx f); [|discriminate]. destruct (nr_comps f); [|discriminate]. destruct (0 <? z); [|discriminate].
           destruct (nr_comp f); [|discriminate]. destruct (remove_val _ _); discriminate.
  - assert (El : layout_of f = sl) by (unfold layout_of; rewrite Ef; exact Esl). rewrite El in *. cbn [orb]. rewrite Hd. apply Step; [exact Sa|exact Ga].
Qed.
Print Assumptions C37_load.

(** the coordinates with reflections have as many places *)
Definition crds_like {C V} (f : fld C V) (cs : list (crd C)) : Prop := sshape_of cs = sshape f.

Lemma prod_pos_not1 (sh : list Z) : (exists x, In x sh /\ 1 < x) -> Forall (fun x => 0 <= x) sh -> prod sh <> 1.
Proof.
  intros (x & Hx & H1) F E. assert (K : forall l, Forall (fun x => 0 <= x) l -> prod l = 1 -> Forall (fun x => x = 1) l).
  { clear. induction l as [|y l IH]; intros F E; [constructor|]. inversion F as [|? ? Hy F']; subst.
    change (y * prod l = 1) in E. apply Z.eq_mul_1_nonneg in E as [E1 E2]; [|exact Hy]. constructor; auto. }
  specialize (K sh F E). rewrite Forall_forall in K. specialize (K x Hx). lia.
Qed.

(** Changing the layout of a field moves every component value to the same grid point
    and component, for every shape that is not all axes as long as the number of
    components. *)
Theorem C37_as_layout : forall (C V : Type) (f : fld C V) cs sl n to d,
  holds f sl n -> vector_layout (layout_of f) -> vector_layout to -> crds_like f cs -> 1 < n ->
  layout_of f = sl \/ f_zyx f = false \/ (exists l, f_src f = SList l) ->
  (layout_of f = LInter -> to = LFlat -> ~ ambiguous (sshape f) n) ->
  load f = Some d ->
  exists g d', as_layout cs to f = WFld g /\ layout_of g = to /\ load g = Some d' /\
    shape d' = lay_shape to (sshape f) n /\
    forall c js, 0 <= c < n -> in_shape (sshape f) js -> comp_at to d' c js = comp_at (layout_of f) d c js.
Proof.
  intros C V f cs sl n to d Hh Lv Lt Ec Hn1 Hz Am Hd.
  destruct (C37_load C V f sl n Hh Lv Hz) as (d0 & Ed & Sd & Gd). assert (d0 = d) by congruence. subst d0.
  unfold as_layout. destruct (lay_eqb (layout_of f) to) eqn:Eq.
  - apply lay_eqb_eq in Eq. exists f, d. split; [reflexivity|]. split; [exact Eq|]. split; [exact Hd|]. rewrite <- Eq. auto.
  - rewrite Hd. unfold wrap.
    assert (Hp : (prod (shape d) =? 1) = false).
    { apply Z.eqb_neq. apply prod_pos_not1.
      - exists n. split; [|exact Hn1]. rewrite Sd. destruct Lv as [-> | ->]; cbn [lay_shape]; [left; reflexivity|]. apply in_or_app. right. left. reflexivity.
      - rewrite Sd. destruct Lv as [-> | ->]; cbn [lay_shape]; [constructor; [lia|apply sshape_nonneg]|].
        apply Forall_app. split; [apply sshape_nonneg|repeat constructor; lia]. }
    rewrite Hp. unfold crds_like in Ec. rewrite Ec.
    assert (Hs1 : leqb (shape d) (sshape f) = false).
    { apply leqb_len. rewrite Sd. destruct Lv as [-> | ->]; cbn [lay_shape]; rewrite ?app_length; cbn [length]; lia. }
    assert (Hs2 : leqb (tl (shape d)) (sshape f) || leqb (removelast (shape d)) (sshape f) = true).
    { rewrite Sd. destruct Lv as [-> | ->]; cbn [lay_shape tl]; rewrite ?removelast_snoc, leqb_refl; [reflexivity|]. apply orb_true_r. }
    rewrite Hs1, Hs2. set (g := F true cs (map (fun _ => false) cs) (SArr d) false (Some to)).
    assert (Sg : sshape g = sshape f) by exact Ec.
    assert (Hg : holds g (layout_of f) n).
    { split; [reflexivity|]. split; [lia|]. split; [apply map_length|]. split; [exact Lv|]. split.
      - unfold native_sshape. cbn [f_zyx g]. rewrite Sg. exact Sd.
      - intros El. rewrite Sg. apply Am; [exact El|]. rewrite El in Eq. destruct Lt as [-> | ->]; [reflexivity|discriminate]. }
    rewrite (holds_nr_comps g _ n Hg). replace (n =? 1) with false by lia.
    assert (Lg : layout_of g = to) by reflexivity.
    destruct (C37_load C V g (layout_of f) n Hg ltac:(rewrite Lg; exact Lt) (or_intror (or_introl eq_refl))) as (d' & E' & S' & G').
    exists g, d'. split; [reflexivity|]. split; [exact Lg|]. split; [exact E'|]. split; [rewrite S', Lg, Sg; reflexivity|].
    intros c js Hc Hj. rewrite <- Sg in Hj. specialize (G' c js Hc Hj). rewrite Lg in G'. rewrite <- G'.
    unfold stored. cbn [g f_src f_zyx]. f_equal. unfold mirrored. cbn [f_refl g].
    assert (Hfl : forall sh k js, flip_idx sh (map (fun _ : crd C => false) k) js = js).
    { clear. induction sh as [|x sh IH]; intros [|y k] [|j js]; try reflexivity. cbn [map flip_idx]. rewrite IH. reflexivity. }
    apply Hfl.
Qed.
Print Assumptions C37_as_layout.

(** Converting back gives the array of the original. *)
Theorem C37_round_trip : forall (C V : Type) (f : fld C V) cs sl n to d,
  holds f sl n -> vector_layout (layout_of f) -> vector_layout to -> crds_like f cs -> 1 < n ->
  layout_of f = sl \/ f_zyx f = false \/ (exists l, f_src f = SList l) ->
  ~ ambiguous (sshape f) n -> load f = Some d ->
  exists g h d', as_layout cs to f = WFld g /\ as_layout cs (layout_of f) g = WFld h /\
    layout_of h = layout_of f /\ load h = Some d' /\ nd_eq d' d.
Proof.
  intros C V f cs sl n to d Hh Lv Lt Ec Hn1 Hz Am Hd.
  destruct (C37_as_layout C V f cs sl n to d Hh Lv Lt Ec Hn1 Hz (fun _ _ => Am) Hd) as (g & dg & Eg & Lg & Hdg & Sg & Gg).
  destruct (C37_load C V f sl n Hh Lv Hz) as (d0 & Ed & Sd & Gd). assert (d0 = d) by congruence. subst d0.
  destruct (lay_eqb (layout_of f) to) eqn:Eq.
  - assert (g = f) by (unfold as_layout in Eg; rewrite Eq in Eg; congruence). subst g.
    exists f, f, d. unfold as_layout at 2. rewrite lay_eqb_refl. split; [exact Eg|]. split; [reflexivity|]. split; [reflexivity|]. split; [exact Hd|apply nd_eq_refl].
  - assert (Hg : holds g (layout_of f) n /\ sshape g = sshape f /\ f_zyx g = false).
    { unfold as_layout in Eg. rewrite Eq, Hd in Eg. unfold wrap in Eg. destruct (_ =? 1); [discriminate|].
      unfold crds_like in Ec. rewrite Ec in Eg.
      assert (Hs1 : leqb (shape d) (sshape f) = false).
      { apply leqb_len. rewrite Sd. destruct Lv as [-> | ->]; cbn [lay_shape]; rewrite ?app_length; cbn [length]; lia. }
      assert (Hs2 : leqb (tl (shape d)) (sshape f) || leqb (removelast (shape d)) (sshape f) = true).
      { rewrite Sd. destruct Lv as [-> | ->]; cbn [lay_shape tl]; rewrite ?removelast_snoc, leqb_refl; [reflexivity|]. apply orb_true_r. }
      rewrite Hs1, Hs2 in Eg. destruct (nr_comps _) as [m|]; [|discriminate]. destruct (m =? 1); [discriminate|]. injection Eg as <-.
      split; [|split; [exact Ec|reflexivity]].
      split; [reflexivity|]. split; [lia|]. split; [apply map_length|]. split; [exact Lv|]. split.
      - unfold native_sshape. cbn [f_zyx]. change (sshape_of cs = sshape f) in Ec. unfold sshape at 1. cbn [f_crds]. rewrite Ec. exact Sd.
      - intros _. unfold sshape at 1. cbn [f_crds]. rewrite Ec. exact Am. }
    destruct Hg as (Hg & Esh & Zg).
    destruct (C37_as_layout C V g cs (layout_of f) n (layout_of f) dg Hg ltac:(rewrite Lg; exact Lt) Lv
      ltac:(unfold crds_like in *; congruence) Hn1 (or_intror (or_introl Zg)) ltac:(intros _ _; rewrite Esh; exact Am) Hdg)
      as (h & dh & Eh & Lh & Hdh & Sh & Gh).
    exists g, h, dh. split; [exact Eg|]. split; [exact Eh|]. split; [exact Lh|]. split; [exact Hdh|].
    rewrite Esh in Sh, Gh. rewrite Lg in Gh. split; [congruence|]. rewrite Sh. intros js Hj.
    destruct Lv as [El | El]; rewrite El in *; cbn [lay_shape comp_at] in *.
    + inversion Hj as [|? c ? r Hc Hr]; subst. rewrite Gh, Gg by auto. reflexivity.
    + apply in_shape_snoc_inv in Hj as (r & c & -> & Hr & Hc). rewrite Gh, Gg by auto. reflexivity.
Qed.
Print Assumptions C37_round_trip.

(** Refuted when every axis is as long as there are components: the interlaced array is
    taken for a flat one when it is converted back, and comes back as it is. *)
Definition cube_flat : nd Z := ND [2; 2; 2] (fun js => match js with [c; x; y] => 100 * c + 10 * x + y | _ => 0 end).
Definition cube : fld nat Z := F true [(0%nat, [0%nat; 1%nat]); (1%nat, [0%nat; 1%nat])] [false; false] (SArr cube_flat) false None.
Theorem C37_round_trip_refuted :
  holds cube LFlat 2 /\
  exists g h d', as_layout (f_crds cube) LInter cube = WFld g /\ as_layout (f_crds cube) LFlat g = WFld h /\
    layout_of h = LFlat /\ load h = Some d' /\
    comp_at LFlat cube_flat 1 [0; 0] = 100 /\ comp_at LFlat d' 1 [0; 0] = 10.
Proof.
  split; [repeat split; try (left; reflexivity); discriminate|].
  eexists. eexists. eexists. split; [vm_compute; reflexivity|]. split; [vm_compute; reflexivity|].
  split; [reflexivity|]. split; [vm_compute; reflexivity|]. split; vm_compute; reflexivity.
Qed.
Print Assumptions C37_round_trip_refuted.

(** Refuted for a layout forced on one array stored in reversed axis order: the axes are
    reversed as if the array were in the forced layout already.  The read raises, or
    returns values of other grid points. *)
Definition rev_inter : nd Z :=
  ND [2; 3; 2; 3] (fun js => match js with [z; y; x; c] => 1000 * c + 100 * x + 10 * y + z | _ => 0 end).
Definition forced : fld nat Z :=
  F true [(0%nat, [0%nat; 1%nat]); (1%nat, [0%nat; 1%nat; 2%nat]); (2%nat, [0%nat; 1%nat])] [false; false; false]
    (SArr rev_inter) true (Some LFlat).
Definition rev_inter2 : nd Z := ND [4; 3; 2; 3] (fun _ => 0).
Definition forced2 : fld nat Z :=
  F true [(0%nat, [0%nat; 1%nat]); (1%nat, [0%nat; 1%nat; 2%nat]); (2%nat, [0%nat; 1%nat; 2%nat; 3%nat])] [false; false; false]
    (SArr rev_inter2) true (Some LFlat).
Theorem C37_forced_layout_reversed_axes_refuted :
  holds forced LInter 3 /\
  (exists d, load forced = Some d /\ shape d = [3; 2; 3; 2] /\
     stored forced LInter 1 [0; 2; 0] 1020 /\ comp_at LFlat d 1 [0; 2; 0] = 2010) /\
  holds forced2 LInter 3 /\ load forced2 = None.
Proof.
  assert (H1 : holds forced LInter 3).
  { repeat split; [right; reflexivity|]. intros _ H. inversion H; discriminate. }
  assert (H2 : holds forced2 LInter 3).
  { repeat split; [right; reflexivity|]. intros _ H. inversion H; discriminate. }
  split; [exact H1|]. split; [|split; [exact H2|vm_compute; reflexivity]].
  eexists. split; [vm_compute; reflexivity|]. split; [reflexivity|]. split; reflexivity.
Qed.
Print Assumptions C37_forced_layout_reversed_axes_refuted.

(** ** a non-trivial field that meets the hypotheses *)
Definition ex_src : nd Z := ND [2; 3; 2] (fun js => match js with [c; y; x] => 100 * c + 10 * x + y | _ => 0 end).
Definition ex : fld nat Z :=
  F true [(0%nat, [0%nat; 1%nat]); (1%nat, [0%nat; 1%nat; 2%nat])] [true; false] (SArr ex_src) true None.
Example C37_ex : holds ex LFlat 2 /\ vector_layout (layout_of ex) /\ ~ ambiguous (sshape ex) 2 /\
  (exists d, load ex = Some d /\ shape d = [2; 2; 3] /\ get d [1; 0; 2] = 112) /\
  exists g d', as_layout (f_crds ex) LInter ex = WFld g /\ load g = Some d' /\ get d' [0; 2; 1] = 112.
Proof.
  split; [repeat split; [left; reflexivity|discriminate]|]. split; [left; reflexivity|].
  split; [intros H; inversion H as [|? ? ? H2]; inversion H2; discriminate|]. split.
  - eexists. split; [vm_compute; reflexivity|]. split; reflexivity.
  - eexists. eexists. split; [vm_compute; reflexivity|]. split; [vm_compute; reflexivity|]. reflexivity.
Qed.
