(** C65: arithmetic on fields is done point by point. *)
From Verif Require Import ArithModel FwdSliceNd FldProofs LayoutProps TransProps.
From Coq Require Import ZifyBool ZifyNat Arith.
Open Scope Z_scope.

(** ** specification *)
(** the value of component [c] of [f] at the grid point with the indices [js]; the component does not matter for
    scalar fields *)
Definition val {C V} (f : fld C V) (c : Z) (js : list Z) (v : V) : Prop :=
  exists d, load f = Some d /\ v = (if f_vec f then comp_at (layout_of f) d c js else get d js).
(** a field whose values can be read: a scalar field, or a vector field of [n] components *)
Definition readable {C V} (f : fld C V) (n : Z) : Prop := holds_scalar f \/ holds_vector f n.
(** the field [h] is on the grid [cs] and has at every grid point the value of [op] on the values of [f] and [g] *)
Definition pointwise {C D V W X} (op : V -> W -> X) (cs : list (crd C)) (n : Z) (f : fld C V) (g : fld D W) (h : fld C X) : Prop :=
  f_crds h = cs /\ readable h n /\ f_vec h = f_vec f || f_vec g /\
  forall js c, in_shape (sshape_of cs) js -> 0 <= c < n ->
    exists v w, val f c js v /\ val g c js w /\ val h c js (op v w).
Definition pointwise1 {C V X} (op : V -> X) (cs : list (crd C)) (n : Z) (f : fld C V) (h : fld C X) : Prop :=
  f_crds h = cs /\ readable h n /\ f_vec h = f_vec f /\
  forall js c, in_shape (sshape_of cs) js -> 0 <= c < n -> exists v, val f c js v /\ val h c js (op v).

(** ** broadcasting *)
Lemma bshape_r_same s : bshape_r s s = Some s.
Proof. induction s as [|x s IH]; [reflexivity|]. cbn [bshape_r]. rewrite Z.eqb_refl, IH. reflexivity. Qed.
Lemma bshape_same s : bshape s s = Some s.
Proof. unfold bshape. rewrite bshape_r_same. cbn [option_map]. rewrite rev_involutive. reflexivity. Qed.
Lemma bshape_r_l s n : bshape_r (s ++ [n]) s = Some (s ++ [n]).
Proof. induction s as [|x s IH]; [reflexivity|]. cbn [app bshape_r]. rewrite Z.eqb_refl, IH. reflexivity. Qed.
Lemma bshape_r_r s n : bshape_r s (s ++ [n]) = Some (s ++ [n]).
Proof. induction s as [|x s IH]; [reflexivity|]. cbn [app bshape_r]. rewrite Z.eqb_refl, IH. reflexivity. Qed.
Lemma bshape_flat_l s n : bshape (n :: s) s = Some (n :: s).
Proof. unfold bshape. cbn [rev]. rewrite bshape_r_l. cbn [option_map]. rewrite rev_unit, rev_involutive. reflexivity. Qed.
Lemma bshape_flat_r s n : bshape s (n :: s) = Some (n :: s).
Proof. unfold bshape. cbn [rev]. rewrite bshape_r_r. cbn [option_map]. rewrite rev_unit, rev_involutive. reflexivity. Qed.
Lemma bshape_num s : bshape s [] = Some s.
Proof. unfold bshape. cbn [rev]. destruct (rev s) eqn:E; cbn [bshape_r option_map]; rewrite <- E, rev_involutive; reflexivity. Qed.

Lemma zero_ones_same s js : in_shape s js -> zero_ones s js = js.
Proof.
  intros H. induction H as [|L j s js Hj _ IH]; [reflexivity|]. cbn [zero_ones]. rewrite IH. f_equal.
  destruct (L =? 1) eqn:E; lia.
Qed.
Lemma bidx_same s js : in_shape s js -> bidx s js = js.
Proof. intros H. unfold bidx. rewrite (in_shape_len _ _ H), Nat.sub_diag. apply zero_ones_same. exact H. Qed.
Lemma bidx_flat s c js : in_shape s js -> bidx s (c :: js) = js.
Proof.
  intros H. unfold bidx. cbn [length]. rewrite (in_shape_len _ _ H). replace (S (length s) - length s)%nat with 1%nat by lia.
  cbn [skipn]. apply zero_ones_same. exact H.
Qed.
Lemma bidx_num js : bidx [] js = [].
Proof. reflexivity. Qed.

Lemma bshape_one_last s n : bshape (s ++ [n]) (s ++ [1]) = Some (s ++ [n]).
Proof.
  unfold bshape. rewrite !rev_unit. cbn [bshape_r]. rewrite bshape_r_same. destruct (Z.eqb_spec n 1) as [-> |Ne].
  - cbn [option_map rev]. rewrite rev_involutive. reflexivity.
  - change (1 =? 1) with true. cbn [option_map rev]. rewrite rev_involutive. reflexivity.
Qed.
Lemma bshape_r_first s n : bshape_r (s ++ [n]) (s ++ [1]) = Some (s ++ [n]).
Proof.
  induction s as [|x s IH]; cbn [app bshape_r]; [|rewrite Z.eqb_refl, IH; reflexivity]. destruct (Z.eqb_spec n 1) as [-> |Ne]; [reflexivity|]. change (1 =? 1) with true. reflexivity.
Qed.
Lemma bshape_one_first s n : bshape (n :: s) (1 :: s) = Some (n :: s).
Proof. unfold bshape. cbn [rev]. rewrite bshape_r_first. cbn [option_map]. rewrite rev_unit, rev_involutive. reflexivity. Qed.
Lemma bidx_one_last s js c : in_shape s js -> bidx (s ++ [1]) (js ++ [c]) = js ++ [0].
Proof.
  intros H. unfold bidx. rewrite !app_length, (in_shape_len _ _ H). cbn [length]. rewrite Nat.sub_diag. cbn [skipn].
  induction H as [|L j s js Hj _ IH]; [reflexivity|]. cbn [app zero_ones]. rewrite IH. f_equal. destruct (L =? 1) eqn:E; lia.
Qed.
Lemma bidx_one_first s js c : in_shape s js -> bidx (1 :: s) (c :: js) = 0 :: js.
Proof. intros H. unfold bidx. cbn [length]. rewrite (in_shape_len _ _ H), Nat.sub_diag. cbn [skipn zero_ones]. rewrite zero_ones_same by exact H. reflexivity. Qed.

(** ** reading and wrapping *)
Section P.
Context {C : Type}.

(** the array of a readable field: its shape, and the place of each value in it *)
Definition idx_of (vec : bool) (l : layout) (c : Z) (js : list Z) : list Z :=
  if vec then match l with LInter => js ++ [c] | _ => c :: js end else js.
Definition shape_of (vec : bool) (l : layout) (n : Z) (sh : list Z) : list Z := if vec then lay_shape l sh n else sh.

Lemma readable_load {V} (f : fld C V) n : readable f n -> exists d, load f = Some d /\
  shape d = shape_of (f_vec f) (layout_of f) n (sshape f) /\ (f_vec f = true -> 1 < n /\ vector_layout (layout_of f)) /\
  forall c js v, val f c js v <-> v = get d (idx_of (f_vec f) (layout_of f) c js).
Proof.
  intros [H|H].
  - destruct (load_scalar f H) as (a & d & _ & E & S & _). exists d. assert (Hv : f_vec f = false) by apply H. rewrite Hv.
    split; [exact E|]. split; [exact S|]. split; [discriminate|]. intros c js v. unfold val. rewrite Hv. split.
    + intros (e & Ee & ->). assert (e = d) by congruence. subst e. reflexivity.
    + intros ->. eauto.
  - destruct (load_vector f n H) as (d & E & S). exists d. destruct H as (Hn & Lv & sl & Hh & _). assert (Hv : f_vec f = true) by apply Hh. rewrite Hv.
    split; [exact E|]. split; [exact S|]. split; [auto|]. intros c js v. unfold val. rewrite Hv. split.
    + intros (e & Ee & ->). assert (e = d) by congruence. subst e. destruct Lv as [-> | ->]; reflexivity.
    + intros ->. exists d. split; [exact E|]. destruct Lv as [-> | ->]; reflexivity.
Qed.
Lemma idx_in_shape vec l n sh c js : (vec = true -> vector_layout l) -> in_shape sh js -> 0 <= c < n -> in_shape (shape_of vec l n sh) (idx_of vec l c js).
Proof.
  intros L Hj Hc. destruct vec; [|exact Hj]. destruct (L eq_refl) as [-> | ->]; cbn [shape_of idx_of lay_shape].
  - constructor; auto.
  - apply in_shape_snoc; auto.
Qed.
Lemma wrap_any {X} (vec' vec : bool) (cs : list (crd C)) (r : nd X) l n :
  shape r = shape_of vec l n (sshape_of cs) ->
  (vec = true -> vector_layout l /\ 1 < n /\ (l = LInter -> ~ ambiguous (sshape_of cs) n)) ->
  (vec = false -> prod (sshape_of cs) <> 1) ->
  exists h : fld C X, wrap vec' cs r None = WFld h /\ f_crds h = cs /\ f_vec h = vec /\ readable h n /\
    forall js c, in_shape (sshape_of cs) js -> 0 <= c < n -> val h c js (get r (idx_of vec l c js)).
Proof.
  intros S Hv Hs. destruct vec.
  - destruct (Hv eq_refl) as (L & N & A). destruct (wrap_vector vec' cs r l n L N S A) as (h & d & E1 & E2 & E3 & E4 & E5 & E6 & E7).
    exists h. split; [exact E1|]. split; [exact E2|]. split; [exact E3|]. split; [right; exact E4|]. intros js c Hj Hc.
    exists d. split; [exact E6|]. rewrite E3, E5. destruct E7 as [Sd G].
    assert (I : in_shape (shape d) (idx_of true l c js)). { rewrite Sd, S. apply idx_in_shape; auto. }
    rewrite <- G by exact I. destruct L as [-> | ->]; reflexivity.
  - destruct (wrap_scalar vec' cs r S ltac:(rewrite S; apply Hs; reflexivity)) as (h & d & E1 & E2 & E3 & E4 & E5 & E6).
    exists h. split; [exact E1|]. split; [exact E2|]. split; [exact E3|]. split; [left; exact E4|]. intros js c Hj Hc.
    exists d. split; [exact E5|]. rewrite E3. destruct E6 as [Sd G]. symmetry. apply G. rewrite Sd, S. exact Hj.
Qed.
End P.

(** ** theorems *)
(** The operands: both scalars, both vectors in the same layout, a vector and a scalar, or a scalar and a flat vector. *)
Definition operands {C D V W} (cs : list (crd C)) (n : Z) (f : fld C V) (g : fld D W) : Prop :=
  (holds_scalar f /\ holds_scalar g /\ prod (sshape_of cs) <> 1) \/
  (holds_vector f n /\ holds_vector g n /\ layout_of f = layout_of g /\ (layout_of f = LInter -> ~ ambiguous (sshape_of cs) n)) \/
  (holds_vector f n /\ holds_scalar g /\ (layout_of f = LInter -> ~ ambiguous (sshape_of cs) n)) \/
  (holds_scalar f /\ holds_vector g n /\ layout_of g = LFlat).

Theorem C65_fields : forall C D V W X (op : V -> W -> X) cs n (f : fld C V) (g : fld D W),
  sshape f = sshape_of cs -> sshape g = sshape_of cs -> operands cs n f g ->
  exists h, arith op cs f (OFld g) = WFld h /\ pointwise op cs n f g h.
Proof.
  intros C D V W X op cs n f g Sf Sg H. unfold operands in H.
  assert (Rf : readable f n) by (unfold readable; tauto). assert (Rg : readable g n) by (unfold readable; tauto).
  destruct (readable_load f n Rf) as (a & La & Sa & Va & Ga). destruct (readable_load g n Rg) as (b & Lb & Sb & Vb & Gb).
  rewrite Sf in Sa. rewrite Sg in Sb. set (sh := sshape_of cs) in *.
  assert (FV : (holds_scalar f -> f_vec f = false) /\ (holds_scalar g -> f_vec g = false) /\ (holds_vector f n -> f_vec f = true) /\ (holds_vector g n -> f_vec g = true)).
  { split; [intros Q; apply Q|]. split; [intros Q; apply Q|]. split; intros (_ & _ & sl & Q & _); apply Q. }
  destruct FV as (F1 & F2 & F3 & F4).
  (* the layout of the result *)
  set (l := if f_vec f then layout_of f else layout_of g).
  assert (B : exists b', operand_data f (OFld g) = Some b' /\ bshape (shape a) (shape b') = Some (shape_of (f_vec f || f_vec g) l n sh) /\
    (f_vec f || f_vec g = true -> vector_layout l /\ 1 < n /\ (l = LInter -> ~ ambiguous sh n)) /\
    (f_vec f || f_vec g = false -> prod sh <> 1) /\
    forall js c, in_shape sh js -> 0 <= c < n ->
      bidx (shape a) (idx_of (f_vec f || f_vec g) l c js) = idx_of (f_vec f) (layout_of f) c js /\
      get b' (bidx (shape b') (idx_of (f_vec f || f_vec g) l c js)) = get b (idx_of (f_vec g) (layout_of g) c js)).
  { unfold operand_data. rewrite Lb, Sa. unfold l. destruct H as [(Hf & Hg & Hp)|[(Hf & Hg & El & Am)|[(Hf & Hg & Am)|(Hf & Hg & El)]]].
    - rewrite (F1 Hf), (F2 Hg) in *. cbn [orb andb shape_of idx_of] in *. exists b. rewrite Sb. split; [reflexivity|]. split; [apply bshape_same|]. split; [discriminate|]. split; [auto|].
      intros js c Hj Hc. rewrite bidx_same by exact Hj. auto.
    - rewrite (F3 Hf), (F4 Hg), <- El in *. cbn [orb andb negb] in *. exists b. rewrite Sb. split; [reflexivity|]. split; [apply bshape_same|]. destruct (Va eq_refl) as (N & Lv). split; [auto|]. split; [discriminate|].
      intros js c Hj Hc. rewrite bidx_same by (apply idx_in_shape; auto). auto.
    - rewrite (F3 Hf), (F2 Hg) in *. cbn [orb andb negb] in *. destruct (Va eq_refl) as (N & Lv). cbn [shape_of] in Sb. eexists. split; [reflexivity|].
      destruct Lv as [L|L]; rewrite L; cbn [unit_last unit_first shape get shape_of idx_of lay_shape]; rewrite Sb.
      + split; [apply bshape_one_first|]. split; [intros _; split; [left; reflexivity|split; [exact N|discriminate]]|]. split; [discriminate|]. intros js c Hj Hc.
        split; [apply bidx_same; constructor; auto|]. rewrite bidx_one_first by exact Hj. reflexivity.
      + split; [apply bshape_one_last|]. split; [intros _; split; [right; reflexivity|split; [exact N|auto]]|]. split; [discriminate|]. intros js c Hj Hc.
        split; [apply bidx_same; apply in_shape_snoc; auto|]. rewrite bidx_one_last by exact Hj. rewrite removelast_last. reflexivity.
    - rewrite (F1 Hf), (F4 Hg), El in *. cbn [orb andb negb shape_of idx_of lay_shape] in *. exists b. rewrite Sb. split; [reflexivity|]. split; [apply bshape_flat_r|]. destruct (Vb eq_refl) as (N & Lv).
      split; [intros _; split; [left; reflexivity|split; [exact N|discriminate]]|]. split; [discriminate|]. intros js c Hj Hc. split; [apply bidx_flat; exact Hj|]. rewrite bidx_same by (constructor; auto). reflexivity. }
  destruct B as (b' & B0 & B1 & B2 & B3 & B4).
  unfold arith. rewrite La, B0. unfold nd_map2. rewrite B1.
  destruct (wrap_any (f_vec f) (f_vec f || f_vec g) cs (ND (shape_of (f_vec f || f_vec g) l n sh) (fun js => op (get a (bidx (shape a) js)) (get b' (bidx (shape b') js)))) l n eq_refl B2 B3)
    as (h & E1 & E2 & E3 & E4 & E5).
  exists h. split; [exact E1|]. split; [exact E2|]. split; [exact E4|]. split; [exact E3|]. intros js c Hj Hc. destruct (B4 js c Hj Hc) as (I1 & I2).
  exists (get a (idx_of (f_vec f) (layout_of f) c js)), (get b (idx_of (f_vec g) (layout_of g) c js)). split; [apply Ga; reflexivity|]. split; [apply Gb; reflexivity|].
  specialize (E5 js c Hj Hc). cbn [get] in E5. rewrite I1, I2 in E5. exact E5.
Qed.
Print Assumptions C65_fields.

Lemma array_op {C V D W X} (op : V -> W -> X) cs n (f : fld C V) (o : operand D W) b :
  sshape f = sshape_of cs -> readable f n -> (f_vec f = false -> prod (sshape_of cs) <> 1) ->
  (f_vec f = true -> layout_of f = LInter -> ~ ambiguous (sshape_of cs) n) ->
  operand_data f o = Some b -> shape b = [] \/ (exists d, load f = Some d /\ shape b = shape d) ->
  exists h d, load f = Some d /\ arith op cs f o = WFld h /\ f_crds h = cs /\ readable h n /\ f_vec h = f_vec f /\
    forall js c, in_shape (sshape_of cs) js -> 0 <= c < n -> let i := idx_of (f_vec f) (layout_of f) c js in
      val f c js (get d i) /\ val h c js (op (get d i) (get b (if leqb (shape b) [] then [] else i))).
Proof.
  intros Sf Rf Hs Am Eb Sb. destruct (readable_load f n Rf) as (a & La & Sa & Va & Ga). rewrite Sf in Sa. unfold arith. rewrite La, Eb. unfold nd_map2.
  assert (B : bshape (shape a) (shape b) = Some (shape a) /\ forall js, in_shape (shape a) js -> bidx (shape b) js = if leqb (shape b) [] then [] else js).
  { destruct Sb as [-> | (d & Ed & ->)]; [split; [apply bshape_num|intros; apply bidx_num]|]. assert (d = a) by congruence. subst d. split; [apply bshape_same|].
    intros js Hj. rewrite bidx_same by exact Hj. destruct (leqb (shape a) []) eqn:E; [|reflexivity]. apply leqb_eq in E. rewrite E in Hj. inversion Hj. reflexivity. }
  destruct B as (B1 & B2). rewrite B1.
  destruct (wrap_any (f_vec f) (f_vec f) cs (ND (shape a) (fun js => op (get a (bidx (shape a) js)) (get b (bidx (shape b) js)))) (layout_of f) n Sa) as (h & E1 & E2 & E3 & E4 & E5).
  { intros Q. destruct (Va Q). auto. }
  { exact Hs. }
  exists h, a. split; [reflexivity|]. split; [exact E1|]. split; [exact E2|]. split; [exact E4|]. split; [exact E3|]. intros js c Hj Hc. set (i := idx_of (f_vec f) (layout_of f) c js). split; [apply Ga; reflexivity|].
  assert (I : in_shape (shape a) i) by (rewrite Sa; apply idx_in_shape; [intros Q; apply (Va Q)|exact Hj|exact Hc]). specialize (E5 js c Hj Hc). cbn [get] in E5. fold i in E5. rewrite B2, bidx_same in E5 by exact I. exact E5.
Qed.

(** A field and a number, on either side of the operator. *)
Theorem C65_number : forall C V W X (op : V -> W -> X) (op' : W -> V -> X) cs n (f : fld C V) (w : W),
  sshape f = sshape_of cs -> readable f n -> (f_vec f = false -> prod (sshape_of cs) <> 1) ->
  (f_vec f = true -> layout_of f = LInter -> ~ ambiguous (sshape_of cs) n) ->
  (exists h, arith op cs f (@ONum C W w) = WFld h /\ pointwise1 (fun v => op v w) cs n f h) /\
  (exists h, rarith op' cs f (@ONum C W w) = WFld h /\ pointwise1 (op' w) cs n f h).
Proof.
  intros C V W X op op' cs n f w Sf Rf Hs Am.
  assert (K : forall o : V -> W -> X, exists h, arith o cs f (@ONum C W w) = WFld h /\ pointwise1 (fun v => o v w) cs n f h).
  { intros o. destruct (array_op o cs n f (@ONum C W w) (ND [] (fun _ => w)) Sf Rf Hs Am eq_refl (or_introl eq_refl)) as (h & d & _ & E1 & E2 & E3 & E4 & E5).
    exists h. split; [exact E1|]. split; [exact E2|]. split; [exact E3|]. split; [exact E4|]. intros js c Hj Hc. destruct (E5 js c Hj Hc) as (Q1 & Q2). eauto. }
  split; [apply K|]. apply (K (fun x y => op' y x)).
Qed.
Print Assumptions C65_number.

(** A field and an array of the shape of its data. *)
Theorem C65_array : forall C V W X (op : V -> W -> X) cs n (f : fld C V) (b : nd W) d,
  sshape f = sshape_of cs -> readable f n -> (f_vec f = false -> prod (sshape_of cs) <> 1) ->
  (f_vec f = true -> layout_of f = LInter -> ~ ambiguous (sshape_of cs) n) -> load f = Some d -> shape b = shape d ->
  exists h, arith op cs f (@OArr C W b) = WFld h /\ f_crds h = cs /\ readable h n /\ f_vec h = f_vec f /\
    forall js c, in_shape (sshape_of cs) js -> 0 <= c < n ->
      exists v, val f c js v /\ val h c js (op v (if f_vec f then comp_at (layout_of f) b c js else get b js)).
Proof.
  intros C V W X op cs n f b d Sf Rf Hs Am Ld Sb. destruct (array_op op cs n f (@OArr C W b) b Sf Rf Hs Am eq_refl) as (h & d' & Ld' & E1 & E2 & E3 & E4 & E5).
  { right. eauto. }
  exists h. split; [exact E1|]. split; [exact E2|]. split; [exact E3|]. split; [exact E4|]. intros js c Hj Hc. destruct (E5 js c Hj Hc) as (Q1 & Q2).
  eexists. split; [exact Q1|]. destruct (readable_load f n Rf) as (a & La & Sa & Va & _). assert (a = d) by congruence. subst a. rewrite Sf in Sa.
  assert (I : in_shape (shape b) (idx_of (f_vec f) (layout_of f) c js)) by (rewrite Sb, Sa; apply idx_in_shape; [intros Q; apply (Va Q)|exact Hj|exact Hc]).
  replace (if leqb (shape b) [] then [] else idx_of (f_vec f) (layout_of f) c js) with (idx_of (f_vec f) (layout_of f) c js) in Q2.
  - destruct (f_vec f) eqn:Ev; [|exact Q2]. destruct (Va eq_refl) as (_ & [L|L]); rewrite L in *; exact Q2.
  - destruct (leqb (shape b) []) eqn:E; [|reflexivity]. apply leqb_eq in E. rewrite E in I. inversion I. reflexivity.
Qed.
Print Assumptions C65_array.

(** Operators with one operand. *)
Theorem C65_unary : forall C V X (op : V -> X) cs n (f : fld C V),
  sshape f = sshape_of cs -> readable f n -> (f_vec f = false -> prod (sshape_of cs) <> 1) ->
  (f_vec f = true -> layout_of f = LInter -> ~ ambiguous (sshape_of cs) n) ->
  exists h, unary op cs f = WFld h /\ pointwise1 op cs n f h.
Proof.
  intros C V X op cs n f Sf Rf Hs Am. destruct (readable_load f n Rf) as (a & La & Sa & Va & Ga). rewrite Sf in Sa. unfold unary. rewrite La.
  destruct (wrap_any (f_vec f) (f_vec f) cs (nd_map op a) (layout_of f) n Sa) as (h & E1 & E2 & E3 & E4 & E5).
  { intros Q. destruct (Va Q). auto. }
  { exact Hs. }
  exists h. split; [exact E1|]. split; [exact E2|]. split; [exact E4|]. split; [exact E3|]. intros js c Hj Hc. eexists. split; [apply Ga; reflexivity|].
  apply (E5 js c Hj Hc).
Qed.
Print Assumptions C65_unary.

(** Fields with one grid point give a number. *)
Theorem C65_one_point : forall C D V W X (op : V -> W -> X) cs (f : fld C V) (g : fld D W),
  sshape f = sshape_of cs -> sshape g = sshape_of cs -> holds_scalar f -> holds_scalar g -> prod (sshape_of cs) = 1 ->
  exists v w js, in_shape (sshape_of cs) js /\ val f 0 js v /\ val g 0 js w /\ arith op cs f (OFld g) = WNum (op v w).
Proof.
  intros C D V W X op cs f g Sf Sg Hf Hg Hp. destruct (readable_load f 0 (or_introl Hf)) as (a & La & Sa & _ & Ga). destruct (readable_load g 0 (or_introl Hg)) as (b & Lb & Sb & _ & Gb).
  assert (Vf : f_vec f = false) by apply Hf. assert (Vg : f_vec g = false) by apply Hg. rewrite Vf in *. rewrite Vg in *. cbn [shape_of idx_of] in *. rewrite Sf in Sa. rewrite Sg in Sb.
  assert (I : in_shape (sshape_of cs) (map (fun _ => 0) (sshape_of cs))).
  { clear - Hp. assert (N : Forall (fun x => 0 <= x) (sshape_of cs)) by (unfold sshape_of; apply Forall_forall; intros x H; apply in_map_iff in H as (c & <- & _); lia).
    induction (sshape_of cs) as [|x l IH]; [constructor|]. inversion N; subst. change (x * prod l = 1) in Hp. apply Z.eq_mul_1_nonneg in Hp as [-> Hp]; [|assumption]. constructor; [lia|apply IH; assumption]. }
  exists (get a (map (fun _ => 0) (sshape_of cs))), (get b (map (fun _ => 0) (sshape_of cs))), (map (fun _ => 0) (sshape_of cs)). split; [exact I|]. split; [apply Ga; reflexivity|]. split; [apply Gb; reflexivity|].
  unfold arith, operand_data. rewrite La, Lb, Vf. cbn [andb]. unfold nd_map2. rewrite Sa, Sb, bshape_same. unfold wrap. cbn [shape get]. rewrite Hp. change (1 =? 1) with true. cbn iota. rewrite bidx_same by exact I. reflexivity.
Qed.
Print Assumptions C65_one_point.

(** Refuted for a scalar field on the left of an interlaced vector field: numpy pairs the components with the
    last axis of the grid.  If all axes are longer than one and not all as long as there are components it raises ... *)
Lemma bshape_r_inter n s : Forall (fun L => 1 < L) s -> 1 < n -> ~ ambiguous s n -> bshape_r (n :: s) s = None /\ bshape_r s (n :: s) = None.
Proof.
  intros F N A. revert n N A. induction F as [|x s Hx F IH]; intros n N A; [exfalso; apply A; constructor|]. cbn [bshape_r].
  destruct (Z.eqb_spec n x) as [->|Ne].
  - destruct (IH x Hx) as (E1 & E2). { intros Q. apply A. constructor; auto. }
    cbn [bshape_r] in *. rewrite E1, E2, Z.eqb_refl. split; reflexivity.
  - replace (n =? 1) with false by lia. replace (x =? 1) with false by lia. replace (x =? n) with false by lia. split; reflexivity.
Qed.
Theorem C65_scalar_left_refuted : forall C D V W X (op : W -> V -> X) (cs : list (crd C)) (cs' : list (crd D)) n (f : fld C V) (g : fld D W),
  sshape f = sshape_of cs -> sshape g = sshape_of cs' -> sshape_of cs = sshape_of cs' ->
  holds_vector f n -> layout_of f = LInter -> holds_scalar g -> Forall (fun L => 1 < L) (sshape_of cs) -> ~ ambiguous (sshape_of cs) n ->
  arith op cs' g (OFld f) = WErr.
Proof.
  intros C D V W X op cs cs' n f g Sf Sg Ss Hf L Hg F A. destruct (readable_load f n (or_intror Hf)) as (a & La & Sa & Va & _). destruct (readable_load g n (or_introl Hg)) as (b & Lb & Sb & _ & _).
  assert (Vf : f_vec f = true) by (destruct Hf as (_ & _ & sl & Q & _); apply Q). assert (Vg : f_vec g = false) by apply Hg. rewrite Vf in *. rewrite Vg in *. rewrite L in *. cbn [shape_of lay_shape] in *. rewrite Sf in Sa. rewrite Sg, <- Ss in Sb.
  assert (B : bshape (shape b) (shape a) = None).
  { rewrite Sa, Sb. unfold bshape. rewrite rev_unit. destruct (bshape_r_inter n (rev (sshape_of cs))) as (E1 & E2).
    - apply Forall_rev. exact F.
    - apply Va. reflexivity.
    - rewrite ambiguous_rev. exact A.
    - rewrite E2. reflexivity. }
  unfold arith, operand_data. rewrite La, Lb, Vg. cbn [andb]. unfold nd_map2. rewrite B. reflexivity.
Qed.
Print Assumptions C65_scalar_left_refuted.

(** ... and otherwise it can return a field whose values are sums of values at different places. *)
Definition ax2 (n : nat) : crd nat := (n, [0; 1]%nat).
Definition slab : list (crd nat) := [(0, [0]); ax2 1]%nat.
Definition slab_vec : fld nat Z := F true slab [false; false] (SArr (ND [1; 2; 2] (fun js => match js with [_; y; c] => 10 * y + c | _ => 0 end))) false None.
Definition slab_scalar : fld nat Z := F false slab [false; false] (SArr (ND [1; 2] (fun js => match js with [_; y] => 100 * (y + 1) | _ => 0 end))) false None.
Theorem C65_slab_left_refuted : holds_vector slab_vec 2 /\ holds_scalar slab_scalar /\
  exists h, arith Z.add slab slab_scalar (OFld slab_vec) = WFld h /\
    val slab_vec 1 [0; 0] 1 /\ val slab_scalar 1 [0; 0] 100 /\ val h 1 [0; 0] 201.
Proof.
  split.
  { split; [lia|]. split; [right; reflexivity|]. exists LInter. split; [|left; reflexivity]. split; [reflexivity|]. split; [lia|]. split; [reflexivity|]. split; [right; reflexivity|]. split; [reflexivity|].
    intros _ Q. inversion Q; discriminate. }
  split.
  { split; [reflexivity|]. split; [reflexivity|]. split; [reflexivity|]. eexists. split; reflexivity. }
  eexists. split; [vm_compute; reflexivity|]. split; [|split]; (eexists; split; [vm_compute; reflexivity|reflexivity]).
Qed.
Print Assumptions C65_slab_left_refuted.

(** Refuted for vectors in different layouts: they are not brought to one layout. *)
Definition g23 : list (crd nat) := [(0, [0; 1]); (1, [0; 1; 2])]%nat.
Definition flat23 : fld nat Z := F true g23 [false; false] (SArr (ND [2; 2; 3] (fun _ => 0))) false None.
Definition inter23 : fld nat Z := F true g23 [false; false] (SArr (ND [2; 3; 2] (fun _ => 0))) false None.
Theorem C65_mixed_layouts_refuted : holds_vector flat23 2 /\ layout_of flat23 = LFlat /\ holds_vector inter23 2 /\ layout_of inter23 = LInter /\
  arith Z.add g23 flat23 (OFld inter23) = WErr /\ arith Z.add g23 inter23 (OFld flat23) = WErr.
Proof.
  split; [|split; [reflexivity|split; [|split; [reflexivity|split; vm_compute; reflexivity]]]].
  - split; [lia|]. split; [left; reflexivity|]. exists LFlat. split; [|left; reflexivity]. split; [reflexivity|]. split; [lia|]. split; [reflexivity|]. split; [left; reflexivity|]. split; [reflexivity|]. discriminate.
  - split; [lia|]. split; [right; reflexivity|]. exists LInter. split; [|left; reflexivity]. split; [reflexivity|]. split; [lia|]. split; [reflexivity|]. split; [right; reflexivity|]. split; [reflexivity|].
    intros _ Q. inversion Q as [|? ? _ Q']; inversion Q'; discriminate.
Qed.
Print Assumptions C65_mixed_layouts_refuted.

(** Refuted for fields on different grids of the same shape: the coordinates are not compared, and the values at
    different places are combined and put at the place of the first. *)
Definition near : fld nat Z := F false [(0, [0; 1])]%nat [false] (SArr (ND [2] (fun js => match js with [x] => x | _ => 0 end))) false None.
Definition far : fld nat Z := F false [(0, [10; 11])]%nat [false] (SArr (ND [2] (fun js => match js with [x] => 100 + x | _ => 0 end))) false None.
Theorem C65_other_grid_refuted : holds_scalar near /\ holds_scalar far /\
  exists h, arith Z.add (f_crds near) near (OFld far) = WFld h /\
    has_value (f_crds h) h (fun _ => 0%nat) 0 100 /\ (forall v, ~ has_value (f_crds far) far (fun _ => 0%nat) 0 v).
Proof.
  split; [split; [reflexivity|]; split; [reflexivity|]; split; [reflexivity|]; eexists; split; reflexivity|].
  split; [split; [reflexivity|]; split; [reflexivity|]; split; [reflexivity|]; eexists; split; reflexivity|].
  eexists. split; [vm_compute; reflexivity|]. split.
  - eexists. exists [0]. split; [vm_compute; reflexivity|]. split; [|reflexivity]. constructor; [|constructor]. split; [lia|reflexivity].
  - intros v (d & js & _ & P & _). inversion P as [|ax j cs' js' (H0 & Hj) P']; subst. cbn [snd fst near far f_crds] in Hj.
    destruct (Z.to_nat j) as [|[|k]]; [discriminate|discriminate|]. cbn in Hj. destruct k; discriminate.
Qed.
Print Assumptions C65_other_grid_refuted.

(** ** fields that meet the hypotheses *)
Definition ex_flat : fld nat Z := F true g23 [true; false] (SArr (ND [2; 3; 2] (fun js => match js with [c; y; x] => 100 * c + 10 * x + y | _ => 0 end))) true None.
Definition ex_scalar : fld nat Z := F false g23 [false; false] (SArr (ND [2; 3] (fun js => match js with [x; y] => 1000 * (x + y) | _ => 0 end))) false None.
Example C65_ex : operands g23 2 ex_flat ex_scalar /\ operands g23 2 inter23 ex_scalar /\ operands g23 2 ex_scalar ex_flat /\ operands g23 2 inter23 inter23 /\
  exists h, arith Z.add g23 ex_flat (OFld ex_scalar) = WFld h /\ val h 1 [0; 2] 2112.
Proof.
  destruct C65_mixed_layouts_refuted as (_ & _ & Hi & Li & _).
  assert (Hf : holds_vector ex_flat 2). { split; [lia|]. split; [left; reflexivity|]. exists LFlat. split; [|left; reflexivity]. split; [reflexivity|]. split; [lia|]. split; [reflexivity|]. split; [left; reflexivity|]. split; [reflexivity|]. discriminate. }
  assert (Hs : holds_scalar ex_scalar). { split; [reflexivity|]. split; [reflexivity|]. split; [reflexivity|]. eexists. split; reflexivity. }
  split; [right; right; left; split; [exact Hf|split; [exact Hs|discriminate]]|].
  split; [right; right; left; split; [exact Hi|split; [exact Hs|intros _ Q; inversion Q as [|? ? _ Q']; inversion Q'; discriminate]]|]. split; [right; right; right; split; [exact Hs|split; [exact Hf|reflexivity]]|].
  split.
  { right. left. split; [exact Hi|]. split; [exact Hi|]. split; [reflexivity|]. intros _ Q. inversion Q as [|? ? _ Q']; inversion Q'; discriminate. }
  eexists. split; [vm_compute; reflexivity|]. eexists. split; [vm_compute; reflexivity|reflexivity].
Qed.
