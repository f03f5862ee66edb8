(** C82: an OpenGGCM run is read in the coordinates asked for. *)
From Verif Require Import GgcmModel.
From Coq Require Import String List Bool Arith ZArith QArith Qabs Lia Lqa Permutation Sorted ZifyBool ZifyNat.
Import ListNotations.

(** ** whether the grid is turned *)
Local Open Scope Q_scope.
Lemma Qltb_spec a b : Qltb a b = true <-> a < b.
Proof. unfold Qltb. destruct (Qlt_le_dec a b) as [L|L]; split; intros H; auto; try discriminate. apply Qle_not_lt in L. contradiction. Qed.
Lemma Qltb_false a b : Qltb a b = false <-> b <= a.
Proof. unfold Qltb. destruct (Qlt_le_dec a b) as [L|L]; split; intros H; auto; try discriminate. apply Qlt_not_le in L. contradiction. Qed.
(** A box of the magnetosphere, of which nothing else is known, is turned if its sunward side, the short one, is towards negative x; it is not if that side is towards
    positive x; the default decides if neither side is twice as long as the other. *)
Theorem C82_auto : forall d g m xl xh up assume b n', up = None -> assume = false -> g || m = true -> xl < 0 -> 0 < xh ->
  do_turn (ReqAuto d) (ND None None up assume (LogRead (Some g) m (Some xl) (Some xh))) = Some (b, n') ->
  (2 * - xl < xh -> b = true) /\ (2 * xh < - xl -> b = false) /\ (xh <= 2 * - xl -> - xl <= 2 * xh -> b = d).
Proof.
  intros d g m xl xh up assume b n' -> -> Hg Hl Hh H. unfold do_turn in H. cbn [n_flag n_sys n_up n_assume n_log infer] in H. rewrite Hg in H.
  assert (E1 : Qltb xl 0 = true) by (apply Qltb_spec; exact Hl). assert (E2 : Qltb 0 xh = true) by (apply Qltb_spec; exact Hh). rewrite E1, E2 in H. cbn [andb] in H.
  destruct (Qltb (-2 * xl) xh) eqn:E3; [|destruct (Qltb xl (-2 * xh)) eqn:E4]; cbn in H; injection H as <- <-.
  - apply Qltb_spec in E3. split; [reflexivity|]. split; intros; exfalso; Lqa.lra.
  - apply Qltb_false in E3. apply Qltb_spec in E4. split; [intros; exfalso; Lqa.lra|]. split; [reflexivity|]. intros; exfalso; Lqa.lra.
  - apply Qltb_false in E3. apply Qltb_false in E4. split; [intros; exfalso; Lqa.lra|]. split; [intros; exfalso; Lqa.lra|]. reflexivity.
Qed.
Print Assumptions C82_auto.
(** Of a box and the same box in the other system exactly one is turned, unless its sides are alike. *)
Theorem C82_mirror : forall g m xl xh,
  infer (LogRead g m (Some xl) (Some xh)) = Mhd <-> infer (LogRead g m (Some (- xh)) (Some (- xl))) = Gse.
Proof.
  intros [g|] m xl xh; [|cbn; split; discriminate]. cbn [infer].
  destruct (g || m); cbn [andb]; [|split; discriminate].
  destruct (Qltb xl 0) eqn:A1, (Qltb 0 xh) eqn:A2, (Qltb (-2 * xl) xh) eqn:A3, (Qltb xl (-2 * xh)) eqn:A4,
    (Qltb (- xh) 0) eqn:B1, (Qltb 0 (- xl)) eqn:B2, (Qltb (-2 * - xh) (- xl)) eqn:B3, (Qltb (- xh) (-2 * - xl)) eqn:B4; cbn [andb]; split; intros H; try discriminate; try reflexivity; exfalso;
    rewrite ?Qltb_spec, ?Qltb_false in *; Lqa.lra.
Qed.
Print Assumptions C82_mirror.
(** It is decided once: all that is added to the grid later is treated alike, whatever the setting is then. *)
Theorem C82_decided_once : forall r n b n', do_turn r n = Some (b, n') ->
  (forall r', do_turn r' n' = Some (b, n')) /\
  forall r' vector name t s n'', add_field r' n' vector name = Some (t, s, n'') -> n'' = n' /\ (t = TNone <-> b = false) /\ (b = true -> s = Gse).
Proof.
  intros r n b n' H. assert (F : n_flag n' = Some b).
  { unfold do_turn in H. destruct (n_flag n) as [f|] eqn:E; [injection H as -> ->; exact E|]. destruct (match match n_sys n with Some s => Some s | None => n_up n end with Some s => Some s | None => _ end) as [s|]; [|discriminate].
    destruct (match r with ReqTrue | ReqForce => Some true | ReqFalse => Some false | ReqAuto d => _ | ReqBad => None end) as [b'|]; [|discriminate]. injection H as <- <-. reflexivity. }
  assert (D : forall r', do_turn r' n' = Some (b, n')) by (intros r'; unfold do_turn; rewrite F; reflexivity). split; [exact D|].
  intros r' vector name t s n'' Ha. unfold add_field in Ha. rewrite D in Ha. destruct b.
  - destruct vector; [injection Ha as <- <- <-|destruct (mem name flip_comps); [injection Ha as <- <- <-|destruct (mem name flip_vects); [discriminate|injection Ha as <- <- <-]]]; (split; [reflexivity|]); (split; [split; discriminate|reflexivity]).
  - destruct (n_sys n') as [s'|]; [|discriminate]. injection Ha as <- <- <-. split; [reflexivity|]. split; [tauto|discriminate].
Qed.
Print Assumptions C82_decided_once.
(** Refuted: no field can be added to a grid that is not turned when a node above it knows the system. *)
Theorem C82_system_of_parent_refuted : forall r assume l s vector name, (r = ReqFalse \/ exists d, r = ReqAuto d /\ s = Gse) ->
  add_field r (ND None None (Some s) assume l) vector name = None.
Proof. intros r assume l s vector name [->|(d & -> & ->)]; reflexivity. Qed.
Print Assumptions C82_system_of_parent_refuted.
(** Refuted: after turning, the grid still says that it is in the old system, while its fields say that they are in GSE. *)
Theorem C82_grid_system_refuted : forall r l vector name t s n', add_field r (ND None None None true l) vector name = Some (t, s, n') -> t <> TNone ->
  s = Gse /\ n_sys n' = Some Mhd.
Proof.
  intros r l vector name t s n' H Ht. unfold add_field in H.
  assert (D : do_turn r (ND None None None true l) = None \/ do_turn r (ND None None None true l) = Some (false, ND (Some false) (Some Mhd) None true l) \/ do_turn r (ND None None None true l) = Some (true, ND (Some true) (Some Mhd) None true l)).
  { destruct r; [right; right|right; right|right; left|right; right|left]; reflexivity. }
  destruct D as [D|[D|D]]; rewrite D in H; [discriminate|cbn [n_sys] in H; injection H as <- <- <-; contradiction|].
  destruct vector; [injection H as <- <- <-; split; reflexivity|]. destruct (mem name flip_comps); [injection H as <- <- <-; split; reflexivity|]. destruct (mem name flip_vects); [discriminate|]. injection H as <- <- <-. split; reflexivity.
Qed.
Print Assumptions C82_grid_system_refuted.

(** ** the data *)
(** half a turn around the z axis *)
Definition place (f : fld) (i j k : nat) : Q * Q * Q := (nth i (locs (f_cell f) (f_x f)) 0, nth j (locs (f_cell f) (f_y f)) 0, nth k (locs (f_cell f) (f_z f)) 0).
Definition half_turn (p q : Q * Q * Q) : Prop := let '(x, y, z) := p in let '(x', y', z') := q in x' == - x /\ y' == - y /\ z' == z.
Definition in_range (f : fld) (i j k : nat) : Prop :=
  (i < length (locs (f_cell f) (f_x f)))%nat /\ (j < length (locs (f_cell f) (f_y f)))%nat /\ (k < length (locs (f_cell f) (f_z f)))%nat.
(** a vector turns with the axes, a component along x or y changes its sign, other values stay *)
Definition turned_value (t : transform) (v v' : nat -> Q) : Prop :=
  match t with
  | TVec => v' 0%nat == - v 0%nat /\ v' 1%nat == - v 1%nat /\ v' 2%nat == v 2%nat
  | TNeg => v' 0%nat == - v 0%nat
  | _ => v' 0%nat == v 0%nat
  end.
Lemma centres_snoc x a b : centres (x ++ [a; b]) = centres (x ++ [a]) ++ [a + (1 # 2) * (b - a)].
Proof. induction x as [|c x IH]; [reflexivity|]. destruct x as [|d x]; [reflexivity|]. cbn [app centres] in *. rewrite IH. reflexivity. Qed.
Lemma centres_length x : length (centres x) = (length x - 1)%nat.
Proof. induction x as [|a x IH]; [reflexivity|]. destruct x as [|b x]; [reflexivity|]. cbn [centres length] in *. rewrite IH. lia. Qed.
Lemma nth_centres x i : (S i < length x)%nat -> nth i (centres x) 0 = nth i x 0 + (1 # 2) * (nth (S i) x 0 - nth i x 0).
Proof.
  revert i. induction x as [|a x IH]; intros i H; [cbn in H; lia|]. destruct x as [|b x]; [cbn in H; lia|]. destruct i as [|i]; [reflexivity|].
  change (nth i (centres (b :: x)) 0 = nth i (b :: x) 0 + (1 # 2) * (nth (S i) (b :: x) 0 - nth i (b :: x) 0)). apply IH. cbn [length] in *. lia.
Qed.
Lemma reflect_length x : length (reflected x) = length x.
Proof. unfold reflected. rewrite map_length. apply rev_length. Qed.
Lemma nth_reflect x i : (i < length x)%nat -> nth i (reflected x) 0 == - nth (length x - 1 - i) x 0.
Proof.
  intros H. unfold reflected. set (h := fun v => -1 * v). rewrite (nth_indep _ 0 (h 0)) by (rewrite map_length, rev_length; exact H). rewrite map_nth, rev_nth by exact H. unfold h.
  replace (length x - S i)%nat with (length x - 1 - i)%nat by lia. ring.
Qed.
Lemma locs_length cell x : length (locs cell (reflected x)) = length (locs cell x).
Proof.
  unfold locs. destruct cell; [|apply reflect_length].
  destruct x as [|a [|b x]]; [reflexivity|reflexivity|]. pose proof (reflect_length (a :: b :: x)) as L. destruct (reflected (a :: b :: x)) as [|c [|d r]]; cbn [length] in L; try lia. rewrite !centres_length. cbn [length] in *. lia.
Qed.
Lemma locs_reflect cell x i : (i < length (locs cell x))%nat -> nth i (locs cell (reflected x)) 0 == - nth (length (locs cell x) - 1 - i) (locs cell x) 0.
Proof.
  intros H. unfold locs in *. destruct cell; [|apply nth_reflect; exact H].
  destruct x as [|a [|b x]]; [cbn in H; lia| |].
  - cbn [length] in H. destruct i; [|lia]. cbn. ring.
  - set (l := a :: b :: x) in *. assert (L : length (reflected l) = length l) by apply reflect_length. rewrite centres_length in H.
    assert (E : match reflected l with [_] => reflected l | _ => centres (reflected l) end = centres (reflected l)) by (destruct (reflected l) as [|? [|? ?]]; [reflexivity| |reflexivity]; cbn in L; unfold l in L; cbn in L; lia).
    rewrite E. rewrite nth_centres by lia. rewrite centres_length. rewrite nth_centres by lia. rewrite (nth_reflect l i) by lia. rewrite (nth_reflect l (S i)) by lia.
    replace (length l - 1 - 1 - i)%nat with (length l - 1 - S i)%nat by lia. replace (S (length l - 1 - S i)) with (length l - 1 - i)%nat by lia. ring.
Qed.
(** At each place of the turned field is what was at the place half a turn around the z axis away, turned the same way; and no place is left out. *)
Theorem C82_turned : forall t f,
  (forall i j k, in_range (turned t f) i j k -> exists i' j', in_range f i' j' k /\ half_turn (place f i' j' k) (place (turned t f) i j k) /\
     turned_value t (fun c => f_val f c i' j' k) (fun c => f_val (turned t f) c i j k)) /\
  (forall i' j' k, in_range f i' j' k -> exists i j, in_range (turned t f) i j k /\ half_turn (place f i' j' k) (place (turned t f) i j k) /\
     turned_value t (fun c => f_val f c i' j' k) (fun c => f_val (turned t f) c i j k)).
Proof.
  intros t f. unfold in_range, turned. cbn [f_x f_y f_z f_cell f_val]. rewrite !locs_length.
  assert (A : forall i j k, (i < length (locs (f_cell f) (f_x f)))%nat -> (j < length (locs (f_cell f) (f_y f)))%nat ->
    half_turn (place f (length (locs (f_cell f) (f_x f)) - 1 - i) (length (locs (f_cell f) (f_y f)) - 1 - j) k) (nth i (locs (f_cell f) (reflected (f_x f))) 0, nth j (locs (f_cell f) (reflected (f_y f))) 0, nth k (locs (f_cell f) (f_z f)) 0)).
  { intros i j k Hi Hj. unfold half_turn, place. rewrite !locs_reflect by assumption. repeat split; reflexivity. }
  assert (B : forall v : nat -> Q, turned_value t v (fun c => v c * factor t c)) by (intros v; unfold turned_value, factor; destruct t; repeat split; ring).
  split.
  - intros i j k (Hi & Hj & Hk). exists (length (locs (f_cell f) (f_x f)) - 1 - i)%nat, (length (locs (f_cell f) (f_y f)) - 1 - j)%nat.
    split; [repeat split; lia|]. split; [apply A; assumption|]. apply (B (fun c => f_val f c _ _ k)).
  - intros i j k (Hi & Hj & Hk). set (nx := length (locs (f_cell f) (f_x f))) in *. set (ny := length (locs (f_cell f) (f_y f))) in *. exists (nx - 1 - i)%nat, (ny - 1 - j)%nat. split; [lia|].
    assert (Ei : (nx - 1 - (nx - 1 - i))%nat = i) by lia. assert (Ej : (ny - 1 - (ny - 1 - j))%nat = j) by lia. split.
    + specialize (A (nx - 1 - i)%nat (ny - 1 - j)%nat k ltac:(lia) ltac:(lia)). rewrite Ei, Ej in A. exact A.
    + rewrite Ei, Ej. apply (B (fun c => f_val f c i j k)).
Qed.
Print Assumptions C82_turned.
(** An explicit request decides; a grid that says it is in the system of the simulation is turned, one that says it is in GSE is not. *)
Theorem C82_requested : forall s up assume l d,
  (exists n', do_turn ReqTrue (ND None (Some s) up assume l) = Some (true, n')) /\ (exists n', do_turn ReqForce (ND None (Some s) up assume l) = Some (true, n')) /\
  (exists n', do_turn ReqFalse (ND None (Some s) up assume l) = Some (false, n')) /\ do_turn ReqBad (ND None (Some s) up assume l) = None /\
  (s = Mhd -> exists n', do_turn (ReqAuto d) (ND None (Some s) up assume l) = Some (true, n')) /\ (s = Gse -> exists n', do_turn (ReqAuto d) (ND None (Some s) up assume l) = Some (false, n')) /\
  (s = Other \/ s = Unknown -> l <> LogUnset -> exists n', do_turn (ReqAuto d) (ND None (Some s) up assume l) = Some (d, n')).
Proof.
  intros s up assume l d. repeat split; try (eexists; reflexivity); try reflexivity; try (intros ->; eexists; reflexivity).
  intros [->| ->] Hl; destruct l; try contradiction; eexists; reflexivity.
Qed.
Print Assumptions C82_requested.
Example C82_auto_case : exists n', do_turn (ReqAuto false) (ND None None None false (LogRead (Some true) false (Some (-30)) (Some 200))) = Some (true, n').
Proof. eexists. vm_compute. reflexivity. Qed.
Example C82_turned_case :
  let f := FLD [0; 1; 3] [2; 4] [5; 6] false (fun c i j k => inject_Z (Z.of_nat (c + 10 * i + 100 * j + 1000 * k))) in
  in_range (turned TVec f) 0 0 1 /\ place (turned TVec f) 0 0 1 = (-3, -4, 6) /\ f_val (turned TVec f) 0 0 0 1 = -1120 /\ f_val (turned TVec f) 2 0 0 1 = 1122.
Proof. vm_compute. repeat split; try reflexivity; repeat constructor. Qed.
(** The names whose sign changes are those of the components along x and y of the vectors of such files, in all their spellings; no component along z is among them. *)
Definition spellings : list (string * string) :=
  [("b", ""); ("e", ""); ("v", ""); ("rv1", ""); ("j", ""); ("xj", ""); ("b1", ""); ("b", "1"); ("b2", ""); ("b", "2"); ("e", "_cc"); ("e", "_ec"); ("efl", "")]%string.
Lemma mem_spec n l : mem n l = true <-> In n l.
Proof. unfold mem. rewrite existsb_exists. split; [intros (x & Hx & E); apply String.eqb_eq in E; subst; exact Hx|intros H; exists n; split; [exact H|apply String.eqb_refl]]. Qed.
Theorem C82_names : forall r n name b n', do_turn r n = Some (b, n') -> b = true ->
  (In name (flat_map (fun p => [fst p ++ "x" ++ snd p; fst p ++ "y" ++ snd p]%string) spellings) <-> exists s m, add_field r n false name = Some (TNeg, s, m)) /\
  (forall p, In p spellings -> exists s m, add_field r n false (fst p ++ "z" ++ snd p)%string = Some (TPlain, s, m)) /\
  exists s m, add_field r n true name = Some (TVec, s, m).
Proof.
  intros r n name b n' H ->. unfold add_field. rewrite H. split; [|split; [|eexists; eexists; reflexivity]].
  - assert (E : forall x, In x (flat_map (fun p => [fst p ++ "x" ++ snd p; fst p ++ "y" ++ snd p]%string) spellings) <-> mem x flip_comps = true).
    { intros x. rewrite mem_spec. cbn. tauto. }
    rewrite E. destruct (mem name flip_comps).
    + split; [intros _; eexists; eexists; reflexivity|reflexivity].
    + split; [discriminate|]. intros (s & m & Hs). destruct (mem name flip_vects); discriminate.
  - intros p Hp. cbn in Hp. repeat (destruct Hp as [<-|Hp]; [eexists; eexists; reflexivity|]). contradiction.
Qed.
Print Assumptions C82_names.
(** Reading again gives the same, if the data are in a file or are copied. *)
Theorem C82_reads : forall copy memory t n src v, memory = false \/ copy = true -> In v (reads copy memory t n src) -> v == src * factor t 0.
Proof.
  intros copy memory t n. induction n as [|n IH]; intros src v H Hv; [contradiction|]. cbn [reads] in Hv. unfold read_src in Hv.
  assert (E : memory && negb copy = false) by (destruct H as [->| ->]; [reflexivity|apply andb_false_r]). rewrite E in Hv. destruct Hv as [<-|Hv]; [reflexivity|]. apply IH; assumption.
Qed.
Print Assumptions C82_reads.
(** Refuted: a component that was put into the grid as an array in memory changes its sign with each reading. *)
Theorem C82_reads_refuted : forall n src i, (i < n)%nat -> nth i (reads false true TNeg n src) 0 == (if Nat.even i then - src else src).
Proof.
  induction n as [|n IH]; intros src i Hi; [lia|]. cbn [reads]. unfold read_src. cbn [andb negb factor]. destruct i as [|i]; [cbn; ring|]. cbn [nth]. rewrite IH by lia.
  rewrite Nat.even_succ, <- Nat.negb_even. destruct (Nat.even i); cbn [negb]; ring.
Qed.
Print Assumptions C82_reads_refuted.

(** ** derived quantities *)
Local Open Scope string_scope.
(** whether turning changes the sign: of a scalar, of component [c] of a vector *)
Fixpoint neg (e : expr) (c : option nat) : bool :=
  match e with
  | Stored n => match c with None => mem n (flat_map (fun p => [fst p ++ "x" ++ snd p; fst p ++ "y" ++ snd p]) spellings) | Some i => (i <? 2)%nat end
  | Comp i v => neg v (Some i)
  | Vec x y z => match c with Some 0%nat => neg x None | Some 1%nat => neg y None | _ => neg z None end
  | Ratio a b => xorb (neg a None) (neg b None)
  | Mag _ _ _ => false
  | Norm v => neg v c
  | Lead v => neg v c
  | ToCc v => neg v c
  end.
Definition vector_names : list string := ["v"; "b"; "b_cc"; "b_fc"; "b1"; "b2"; "e"; "e_cc"; "e_ec"; "efl"; "j"; "xj"].
Definition comp_names : list (string * bool) := flat_map (fun p => [(fst p ++ "x" ++ snd p, true); (fst p ++ "y" ++ snd p, true); (fst p ++ "z" ++ snd p, false)]) spellings.
Definition vgood (r : res) : Prop := forall e c, r = Ok e -> (c < 3)%nat -> neg e (Some c) = (c <? 2)%nat.
Definition sgood (r : res) (s : bool) : Prop := forall e, r = Ok e -> neg e None = s.
Lemma vgood_assemble get b s : sgood (get (b ++ "x" ++ s)) true -> sgood (get (b ++ "y" ++ s)) true -> sgood (get (b ++ "z" ++ s)) false -> vgood (assemble get b s).
Proof.
  unfold vgood, sgood, assemble. intros Hx Hy Hz e c. destruct (get (b ++ "x" ++ s)) as [x| |]; try discriminate. destruct (get (b ++ "y" ++ s)) as [y| |]; try discriminate. destruct (get (b ++ "z" ++ s)) as [z| |]; try discriminate.
  cbn [bind]. intros H. injection H as <-. intros Hc. destruct c as [|[|[|c]]]; [apply (Hx x); reflexivity|apply (Hy y); reflexivity|apply (Hz z); reflexivity|lia].
Qed.
Lemma vgood_map r (h : expr -> expr) : (forall e c, neg (h e) c = neg e c) -> vgood r -> vgood (bind r (fun e => Ok (h e))).
Proof. intros Hh Hr e c H Hc. destruct r as [x| |]; try discriminate. cbn in H. injection H as <-. rewrite Hh. apply Hr; [reflexivity|exact Hc]. Qed.
Lemma vgood_try r h : vgood r -> vgood h -> vgood (try_ r h).
Proof. intros Hr Hh. destruct r; [exact Hr|exact Hh|exact Hr]. Qed.
Lemma sgood_comp r i : (i < 3)%nat -> vgood r -> sgood (bind r (fun e => Ok (Comp i e))) (i <? 2)%nat.
Proof. intros Hi Hr e H. destruct r as [x| |]; try discriminate. cbn in H. injection H as <-. cbn [neg]. apply Hr; [reflexivity|exact Hi]. Qed.
(** Every vector a grid gives, stored or derived in any of the ways, from whatever is stored, turns with the axes; every component changes its sign if it is along x or y;
    the temperature and the magnitudes stay. *)
Theorem C82_derived_turn : forall stored fuel,
  (forall n e c, In n vector_names -> get_fld stored fuel n = Ok e -> (c < 3)%nat -> neg e (Some c) = (c <? 2)%nat) /\
  (forall n s e, In (n, s) comp_names -> get_fld stored fuel n = Ok e -> neg e None = s) /\
  (forall n e, In n ["T"; "bmag"; "jmag"; "speed"; "pp"; "rr"] -> get_fld stored fuel n = Ok e -> neg e None = false).
Proof.
  intros stored fuel. induction fuel as [|k (IHv & IHs & IHo)].
  - split; [|split].
    + intros n e c Hn H Hc. cbn in Hn. repeat (destruct Hn as [<-|Hn]; [cbn [get_fld] in H; match type of H with (if ?b then _ else _) = _ => destruct b; [|discriminate] end; injection H as <-; reflexivity|]). contradiction.
    + intros n s e Hn H. cbn in Hn. repeat (destruct Hn as [Hn|Hn]; [injection Hn as <- <-; cbn [get_fld] in H; match type of H with (if ?b then _ else _) = _ => destruct b; [|discriminate] end; injection H as <-; reflexivity|]). contradiction.
    + intros n e Hn H. cbn in Hn. repeat (destruct Hn as [<-|Hn]; [cbn [get_fld] in H; match type of H with (if ?b then _ else _) = _ => destruct b; [|discriminate] end; injection H as <-; reflexivity|]). contradiction.
  - set (g := get_fld stored k) in *.
    assert (A : forall b s, In (b, s) spellings -> vgood (assemble g b s)).
    { intros b s Hb. apply vgood_assemble; intros e He; (eapply IHs; [|exact He]); unfold comp_names; apply in_flat_map; exists (b, s); (split; [exact Hb|]); cbn [fst snd In]; tauto. }
    assert (V1 : vgood (get_b1 g)) by (unfold get_b1; apply vgood_map; [reflexivity|]; apply vgood_try; [apply vgood_map; [reflexivity|]|]; apply A; cbn; tauto).
    assert (V2 : vgood (get_b2 g)) by (unfold get_b2; apply vgood_map; [reflexivity|]; apply vgood_try; [apply vgood_map; [reflexivity|]|]; apply A; cbn; tauto).
    assert (Vf : vgood (get_b_fc g)) by (apply vgood_try; assumption).
    assert (Vb : vgood (get_b_cc g)) by (unfold get_b_cc; apply vgood_try; [apply A; cbn; tauto|apply vgood_map; [reflexivity|exact Vf]]).
    assert (Vl : vgood (get_efl g)) by (unfold get_efl; apply vgood_map; [reflexivity|apply A; cbn; tauto]).
    assert (Vc : vgood (get_e_ec g)) by (unfold get_e_ec; apply vgood_try; [apply vgood_map; [reflexivity|apply A; cbn; tauto]|exact Vl]).
    assert (Ve : vgood (get_e_cc g)) by (unfold get_e_cc; apply vgood_try; [apply A; cbn; tauto|]; apply vgood_try; [apply A; cbn; tauto|]; apply vgood_map; [reflexivity|exact Vc]).
    assert (Vv : vgood (assemble g "v" "")) by (apply A; cbn; tauto). assert (Vj : vgood (assemble g "j" "")) by (apply A; cbn; tauto).
    assert (Gb : vgood (g "b")) by (intros e c H Hc; apply (IHv "b" e c); [cbn; tauto|exact H|exact Hc]).
    assert (Gv : vgood (g "v")) by (intros e c H Hc; apply (IHv "v" e c); [cbn; tauto|exact H|exact Hc]).
    split; [|split].
    + intros n e c Hn H Hc. cbn in Hn.
      repeat (destruct Hn as [<-|Hn]; [cbn [get_fld] in H; match type of H with (if ?b then _ else _) = _ => destruct b; [injection H as <-; reflexivity|] end; fold g in H; first [exact (Vv e c H Hc)|exact (Vb e c H Hc)|exact (Vf e c H Hc)|exact (V1 e c H Hc)|exact (V2 e c H Hc)|exact (Ve e c H Hc)|exact (Vc e c H Hc)|exact (Vl e c H Hc)|exact (Vj e c H Hc)]|]). contradiction.
    + intros n s e Hn H. cbn in Hn.
      repeat (destruct Hn as [Hn|Hn]; [injection Hn as <- <-; cbn [get_fld] in H; match type of H with (if ?b then _ else _) = _ => destruct b; [injection H as <-; reflexivity|] end; fold g in H;
        first [discriminate H|exact (sgood_comp _ 0 ltac:(lia) Gb e H)|exact (sgood_comp _ 1 ltac:(lia) Gb e H)|exact (sgood_comp _ 2 ltac:(lia) Gb e H)|exact (sgood_comp _ 0 ltac:(lia) Gv e H)|exact (sgood_comp _ 1 ltac:(lia) Gv e H)|exact (sgood_comp _ 2 ltac:(lia) Gv e H)
              |exact (IHs "xjx" true e ltac:(cbn; tauto) H)|exact (IHs "xjy" true e ltac:(cbn; tauto) H)|exact (IHs "xjz" false e ltac:(cbn; tauto) H)]|]). contradiction.
    + intros n e Hn H. cbn in Hn.
      repeat (destruct Hn as [<-|Hn]; [cbn [get_fld] in H; match type of H with (if ?b then _ else _) = _ => destruct b; [injection H as <-; reflexivity|] end; fold g in H|]); try contradiction; try discriminate H.
      * change (bind (g "pp") (fun p => bind (g "rr") (fun r => Ok (Ratio p r))) = Ok e) in H. destruct (g "pp") as [p| |] eqn:Ep; try discriminate. destruct (g "rr") as [r| |] eqn:Er; try discriminate. cbn [bind] in H. injection H as <-. cbn [neg].
        rewrite (IHo "pp" p), (IHo "rr" r); try assumption; cbn; tauto.
      * change (mag3 g "bx" "by" "bz" = Ok e) in H. unfold mag3 in H. destruct (g "bx"), (g "by"), (g "bz"); try discriminate. injection H as <-. reflexivity.
      * change (mag3 g "jx" "jy" "jz" = Ok e) in H. unfold mag3 in H. destruct (g "jx"), (g "jy"), (g "jz"); try discriminate. injection H as <-. reflexivity.
      * change (mag3 g "vx" "vy" "vz" = Ok e) in H. unfold mag3 in H. destruct (g "vx"), (g "vy"), (g "vz"); try discriminate. injection H as <-. reflexivity.
Qed.
Print Assumptions C82_derived_turn.
(** What the electric field and the face centred magnetic field are made of: the first of the spellings of which all three components are stored. *)
Definition all3 (stored : string -> bool) (b s : string) : bool := stored (b ++ "x" ++ s) && stored (b ++ "y" ++ s) && stored (b ++ "z" ++ s).
Definition vec_of (b s : string) : expr := Vec (Stored (b ++ "x" ++ s)) (Stored (b ++ "y" ++ s)) (Stored (b ++ "z" ++ s)).
Definition plain_name (n : string) : Prop := (forall get, derive get n = KeyErr) /\ n <> "divB".
Lemma get_plain stored k n : plain_name n -> get_fld stored (S k) n = if stored n then Ok (Stored n) else KeyErr.
Proof. intros (H & Hd). cbn [get_fld]. destruct (stored n); [|apply H]. destruct (String.eqb_spec n "divB"); [contradiction|reflexivity]. Qed.
Lemma assemble_plain stored k b s : plain_name (b ++ "x" ++ s) -> plain_name (b ++ "y" ++ s) -> plain_name (b ++ "z" ++ s) ->
  assemble (get_fld stored (S k)) b s = if all3 stored b s then Ok (vec_of b s) else KeyErr.
Proof.
  intros Hx Hy Hz. unfold assemble, all3, vec_of. rewrite (get_plain stored k _ Hx), (get_plain stored k _ Hy), (get_plain stored k _ Hz).
  destruct (stored (b ++ "x" ++ s)), (stored (b ++ "y" ++ s)), (stored (b ++ "z" ++ s)); reflexivity.
Qed.
Ltac plain := repeat (apply assemble_plain || (split; [reflexivity|discriminate])).
Theorem C82_sources : forall stored k,
  (stored "e" = false -> get_fld stored (2 + k) "e" =
     if all3 stored "e" "_cc" then Ok (vec_of "e" "_cc") else if all3 stored "e" "" then Ok (vec_of "e" "")
     else if all3 stored "e" "_ec" then Ok (ToCc (Lead (vec_of "e" "_ec"))) else if all3 stored "efl" "" then Ok (ToCc (Lead (vec_of "efl" ""))) else KeyErr) /\
  (stored "b_fc" = false -> get_fld stored (2 + k) "b_fc" =
     if all3 stored "b1" "" then Ok (Lead (Norm (vec_of "b1" ""))) else if all3 stored "b" "1" then Ok (Lead (vec_of "b" "1"))
     else if all3 stored "b2" "" then Ok (Lead (Norm (vec_of "b2" ""))) else if all3 stored "b" "2" then Ok (Lead (vec_of "b" "2")) else KeyErr) /\
  (stored "T" = false -> get_fld stored (2 + k) "T" = if stored "pp" && stored "rr" then Ok (Ratio (Stored "pp") (Stored "rr")) else KeyErr) /\
  (all3 stored "b" "" = true -> stored "b" = false -> get_fld stored (2 + k) "b" = Ok (vec_of "b" "")) /\
  (all3 stored "v" "" = true -> stored "v" = false -> get_fld stored (2 + k) "v" = Ok (vec_of "v" "")) /\
  (stored "b" = true -> stored "bx" = false -> get_fld stored (2 + k) "bx" = Ok (Comp 0 (Stored "b"))) /\
  (stored "j" = false -> stored "jx" = false -> stored "jy" = false -> stored "jz" = false -> get_fld stored (3 + k) "j" = if all3 stored "xj" "" then Ok (vec_of "xj" "") else KeyErr).
Proof.
  intros stored k.
  assert (E1 : assemble (get_fld stored (S k)) "e" "_cc" = if all3 stored "e" "_cc" then Ok (vec_of "e" "_cc") else KeyErr) by plain.
  assert (E2 : assemble (get_fld stored (S k)) "e" "" = if all3 stored "e" "" then Ok (vec_of "e" "") else KeyErr) by plain.
  assert (E3 : assemble (get_fld stored (S k)) "e" "_ec" = if all3 stored "e" "_ec" then Ok (vec_of "e" "_ec") else KeyErr) by plain.
  assert (E4 : assemble (get_fld stored (S k)) "efl" "" = if all3 stored "efl" "" then Ok (vec_of "efl" "") else KeyErr) by plain.
  assert (B1 : assemble (get_fld stored (S k)) "b1" "" = if all3 stored "b1" "" then Ok (vec_of "b1" "") else KeyErr) by plain.
  assert (B2 : assemble (get_fld stored (S k)) "b" "1" = if all3 stored "b" "1" then Ok (vec_of "b" "1") else KeyErr) by plain.
  assert (B3 : assemble (get_fld stored (S k)) "b2" "" = if all3 stored "b2" "" then Ok (vec_of "b2" "") else KeyErr) by plain.
  assert (B4 : assemble (get_fld stored (S k)) "b" "2" = if all3 stored "b" "2" then Ok (vec_of "b" "2") else KeyErr) by plain.
  assert (P1 : get_fld stored (S k) "pp" = if stored "pp" then Ok (Stored "pp") else KeyErr) by (apply get_plain; split; [reflexivity|discriminate]).
  assert (P2 : get_fld stored (S k) "rr" = if stored "rr" then Ok (Stored "rr") else KeyErr) by (apply get_plain; split; [reflexivity|discriminate]).
  split; [|split; [|split; [|split; [|split; [|split]]]]].
  - intros H. change (2 + k)%nat with (S (S k)). change (get_fld stored (S (S k)) "e") with (if stored "e" then Ok (Stored "e") else get_e_cc (get_fld stored (S k))). rewrite H. unfold get_e_cc, get_e_ec, get_efl. rewrite E1, E2, E3, E4.
    destruct (all3 stored "e" "_cc"), (all3 stored "e" ""), (all3 stored "e" "_ec"), (all3 stored "efl" ""); reflexivity.
  - intros H. change (2 + k)%nat with (S (S k)). change (get_fld stored (S (S k)) "b_fc") with (if stored "b_fc" then Ok (Stored "b_fc") else get_b_fc (get_fld stored (S k))). rewrite H. unfold get_b_fc, get_b1, get_b2. rewrite B1, B2, B3, B4.
    destruct (all3 stored "b1" ""), (all3 stored "b" "1"), (all3 stored "b2" ""), (all3 stored "b" "2"); reflexivity.
  - intros H. change (2 + k)%nat with (S (S k)). change (get_fld stored (S (S k)) "T") with (if stored "T" then Ok (Stored "T") else bind (get_fld stored (S k) "pp") (fun p => bind (get_fld stored (S k) "rr") (fun r => Ok (Ratio p r)))).
    rewrite H, P1, P2. destruct (stored "pp"), (stored "rr"); reflexivity.
  - intros Ha H. unfold all3 in Ha. apply andb_prop in Ha as (Ha & Hz). apply andb_prop in Ha as (Hx & Hy). change (2 + k)%nat with (S (S k)).
    change (get_fld stored (S (S k)) "b") with (if stored "b" then Ok (Stored "b") else get_b_cc (get_fld stored (S k))). rewrite H. unfold get_b_cc, assemble. cbn [get_fld]. rewrite Hx, Hy, Hz. reflexivity.
  - intros Ha H. unfold all3 in Ha. apply andb_prop in Ha as (Ha & Hz). apply andb_prop in Ha as (Hx & Hy). change (2 + k)%nat with (S (S k)).
    change (get_fld stored (S (S k)) "v") with (if stored "v" then Ok (Stored "v") else assemble (get_fld stored (S k)) "v" ""). rewrite H. unfold assemble. cbn [get_fld]. rewrite Hx, Hy, Hz. reflexivity.
  - intros Hb H. change (2 + k)%nat with (S (S k)). change (get_fld stored (S (S k)) "bx") with (if stored "bx" then Ok (Stored "bx") else bind (get_fld stored (S k) "b") (fun e => Ok (Comp 0 e))). rewrite H. cbn [get_fld]. rewrite Hb. reflexivity.
  - intros H Hx Hy Hz. change (3 + k)%nat with (S (S (S k))). change (get_fld stored (S (S (S k))) "j") with (if stored "j" then Ok (Stored "j") else assemble (get_fld stored (S (S k))) "j" ""). rewrite H.
    unfold assemble. change ("j" ++ "x" ++ "") with "jx". change ("j" ++ "y" ++ "") with "jy". change ("j" ++ "z" ++ "") with "jz".
    change (get_fld stored (S (S k)) "jx") with (if stored "jx" then Ok (Stored "jx") else get_fld stored (S k) "xjx"). change (get_fld stored (S (S k)) "jy") with (if stored "jy" then Ok (Stored "jy") else get_fld stored (S k) "xjy").
    change (get_fld stored (S (S k)) "jz") with (if stored "jz" then Ok (Stored "jz") else get_fld stored (S k) "xjz"). rewrite Hx, Hy, Hz.
    rewrite (get_plain stored k "xjx"), (get_plain stored k "xjy"), (get_plain stored k "xjz") by (split; [reflexivity|discriminate]). unfold all3, vec_of. cbn [append].
    destruct (stored "xjx"), (stored "xjy"), (stored "xjz"); reflexivity.
Qed.
Print Assumptions C82_sources.
(** Refuted: without all three components at the cells the magnetic field is not made from the faces, although they are stored: the calls never end.  For the velocity
    there is no error that it is missing, but the same. *)
Theorem C82_never_ends_refuted : forall stored,
  (stored "b" = false -> all3 stored "b" "" = false -> forall fuel, get_fld stored fuel "b" = Loop) /\
  (stored "v" = false -> all3 stored "v" "" = false -> forall fuel, get_fld stored fuel "v" = Loop).
Proof.
  intros stored. split.
  - intros Hb Ha. assert (M : exists n, In n ["bx"; "by"; "bz"] /\ stored n = false).
    { unfold all3 in Ha. cbn [append] in Ha. destruct (stored "bx") eqn:Ex; [|exists "bx"; cbn; auto]. destruct (stored "by") eqn:Ey; [|exists "by"; cbn; auto]. destruct (stored "bz") eqn:Ez; [discriminate|exists "bz"; cbn; auto]. }
    assert (P : forall fuel, get_fld stored fuel "b" = Loop /\ (forall n, In n ["bx"; "by"; "bz"] -> stored n = false -> get_fld stored fuel n = Loop)).
    { induction fuel as [|k (IHb & IHc)].
      - split; [cbn [get_fld]; rewrite Hb; reflexivity|]. intros n _ Hn. cbn [get_fld]. rewrite Hn. reflexivity.
      - split.
        + change (get_fld stored (S k) "b") with (if stored "b" then Ok (Stored "b") else get_b_cc (get_fld stored k)). rewrite Hb. unfold get_b_cc.
          assert (E : assemble (get_fld stored k) "b" "" = Loop); [|rewrite E; reflexivity].
          unfold assemble. change ("b" ++ "x" ++ "") with "bx". change ("b" ++ "y" ++ "") with "by". change ("b" ++ "z" ++ "") with "bz".
          assert (C : forall n, In n ["bx"; "by"; "bz"] -> (stored n = true /\ get_fld stored k n = Ok (Stored n)) \/ (stored n = false /\ get_fld stored k n = Loop)).
          { intros n Hn. destruct (stored n) eqn:En; [left; split; [reflexivity|]|right; split; [reflexivity|apply IHc; assumption]]. destruct k; cbn [get_fld]; rewrite En; cbn in Hn; repeat (destruct Hn as [<-|Hn]; [reflexivity|]); contradiction. }
          destruct M as (n & Hn & En).
          destruct (C "bx" ltac:(cbn; auto)) as [(Sx & ->)|(Sx & ->)]; [|reflexivity]. cbn [bind]. destruct (C "by" ltac:(cbn; auto)) as [(Sy & ->)|(Sy & ->)]; [|reflexivity]. cbn [bind]. destruct (C "bz" ltac:(cbn; auto)) as [(Sz & ->)|(Sz & ->)]; [|reflexivity].
          cbn in Hn. destruct Hn as [<-|[<-|[<-|[]]]]; congruence.
        + intros n Hn En. cbn in Hn. destruct Hn as [<-|[<-|[<-|[]]]].
          * change (get_fld stored (S k) "bx") with (if stored "bx" then Ok (Stored "bx") else bind (get_fld stored k "b") (fun e => Ok (Comp 0 e))). rewrite En, IHb. reflexivity.
          * change (get_fld stored (S k) "by") with (if stored "by" then Ok (Stored "by") else bind (get_fld stored k "b") (fun e => Ok (Comp 1 e))). rewrite En, IHb. reflexivity.
          * change (get_fld stored (S k) "bz") with (if stored "bz" then Ok (Stored "bz") else bind (get_fld stored k "b") (fun e => Ok (Comp 2 e))). rewrite En, IHb. reflexivity. }
    intros fuel. exact (proj1 (P fuel)).
  - intros Hb Ha. assert (M : exists n, In n ["vx"; "vy"; "vz"] /\ stored n = false).
    { unfold all3 in Ha. cbn [append] in Ha. destruct (stored "vx") eqn:Ex; [|exists "vx"; cbn; auto]. destruct (stored "vy") eqn:Ey; [|exists "vy"; cbn; auto]. destruct (stored "vz") eqn:Ez; [discriminate|exists "vz"; cbn; auto]. }
    assert (P : forall fuel, get_fld stored fuel "v" = Loop /\ (forall n, In n ["vx"; "vy"; "vz"] -> stored n = false -> get_fld stored fuel n = Loop)).
    { induction fuel as [|k (IHb & IHc)].
      - split; [cbn [get_fld]; rewrite Hb; reflexivity|]. intros n _ Hn. cbn [get_fld]. rewrite Hn. reflexivity.
      - split.
        + change (get_fld stored (S k) "v") with (if stored "v" then Ok (Stored "v") else assemble (get_fld stored k) "v" ""). rewrite Hb.
          unfold assemble. change ("v" ++ "x" ++ "") with "vx". change ("v" ++ "y" ++ "") with "vy". change ("v" ++ "z" ++ "") with "vz".
          assert (C : forall n, In n ["vx"; "vy"; "vz"] -> (stored n = true /\ get_fld stored k n = Ok (Stored n)) \/ (stored n = false /\ get_fld stored k n = Loop)).
          { intros n Hn. destruct (stored n) eqn:En; [left; split; [reflexivity|]|right; split; [reflexivity|apply IHc; assumption]]. destruct k; cbn [get_fld]; rewrite En; cbn in Hn; repeat (destruct Hn as [<-|Hn]; [reflexivity|]); contradiction. }
          destruct M as (n & Hn & En).
          destruct (C "vx" ltac:(cbn; auto)) as [(Sx & ->)|(Sx & ->)]; [|reflexivity]. cbn [bind]. destruct (C "vy" ltac:(cbn; auto)) as [(Sy & ->)|(Sy & ->)]; [|reflexivity]. cbn [bind]. destruct (C "vz" ltac:(cbn; auto)) as [(Sz & ->)|(Sz & ->)]; [|reflexivity].
          cbn in Hn. destruct Hn as [<-|[<-|[<-|[]]]]; congruence.
        + intros n Hn En. cbn in Hn. destruct Hn as [<-|[<-|[<-|[]]]].
          * change (get_fld stored (S k) "vx") with (if stored "vx" then Ok (Stored "vx") else bind (get_fld stored k "v") (fun e => Ok (Comp 0 e))). rewrite En, IHb. reflexivity.
          * change (get_fld stored (S k) "vy") with (if stored "vy" then Ok (Stored "vy") else bind (get_fld stored k "v") (fun e => Ok (Comp 1 e))). rewrite En, IHb. reflexivity.
          * change (get_fld stored (S k) "vz") with (if stored "vz" then Ok (Stored "vz") else bind (get_fld stored k "v") (fun e => Ok (Comp 2 e))). rewrite En, IHb. reflexivity. }
    intros fuel. exact (proj1 (P fuel)).
Qed.
Print Assumptions C82_never_ends_refuted.
(** The magnitudes are of the three components of one field. *)
Theorem C82_magnitudes : forall stored k,
  (stored "bmag" = false -> all3 stored "b" "" = true -> get_fld stored (2 + k) "bmag" = Ok (Mag (Stored "bx") (Stored "by") (Stored "bz"))) /\
  (stored "speed" = false -> all3 stored "v" "" = true -> get_fld stored (2 + k) "speed" = Ok (Mag (Stored "vx") (Stored "vy") (Stored "vz"))) /\
  (stored "jmag" = false -> all3 stored "j" "" = true -> get_fld stored (2 + k) "jmag" = Ok (Mag (Stored "jx") (Stored "jy") (Stored "jz"))).
Proof.
  intros stored k. change (2 + k)%nat with (S (S k)).
  change (get_fld stored (S (S k)) "bmag") with (if stored "bmag" then Ok (Stored "bmag") else mag3 (get_fld stored (S k)) "bx" "by" "bz").
  change (get_fld stored (S (S k)) "speed") with (if stored "speed" then Ok (Stored "speed") else mag3 (get_fld stored (S k)) "vx" "vy" "vz").
  change (get_fld stored (S (S k)) "jmag") with (if stored "jmag" then Ok (Stored "jmag") else mag3 (get_fld stored (S k)) "jx" "jy" "jz").
  unfold all3, mag3. cbn [append]. repeat split; intros -> Ha; apply andb_prop in Ha as (Ha & Hz); apply andb_prop in Ha as (Hx & Hy); cbn [get_fld]; rewrite Hx, Hy, Hz; reflexivity.
Qed.
Print Assumptions C82_magnitudes.
Example C82_faces_only : let stored := fun n => mem n ["b1x"; "b1y"; "b1z"] in get_fld stored 100 "b" = Loop /\ get_fld stored 100 "b_fc" = Ok (Lead (Norm (vec_of "b1" ""))).
Proof. split; vm_compute; reflexivity. Qed.
Close Scope string_scope.

(** ** the grid2 file *)
(** The nodes are half way between the centres, and half a distance outside at the ends; each centre is in its cell, and in the middle of it if the cells are alike. *)
Definition at_ (l : list Q) (i : nat) : Q := nth i l 0.
Definition increasing (l : list Q) : Prop := forall i, (S i < length l)%nat -> at_ l i < at_ l (S i).
Lemma half_diffs_length cc : length (half_diffs cc) = (length cc - 1)%nat.
Proof. induction cc as [|a cc IH]; [reflexivity|]. destruct cc as [|b cc]; [reflexivity|]. cbn [half_diffs length] in *. rewrite IH. lia. Qed.
Lemma nth_half_diffs cc i : (S i < length cc)%nat -> nth i (half_diffs cc) 0 = (1 # 2) * (at_ cc (S i) - at_ cc i).
Proof.
  revert i. induction cc as [|a cc IH]; intros i H; [cbn in H; lia|]. destruct cc as [|b cc]; [cbn in H; lia|]. destruct i as [|i]; [reflexivity|].
  change (nth i (half_diffs (b :: cc)) 0 = (1 # 2) * (at_ (b :: cc) (S i) - at_ (b :: cc) i)). apply IH. cbn [length] in *. lia.
Qed.
Lemma add2_length a b : length (add2 a b) = Nat.min (length a) (length b).
Proof. revert b. induction a as [|x a IH]; intros [|y b]; try reflexivity. cbn [add2 length]. rewrite IH. reflexivity. Qed.
Lemma nth_add2 a b i : (i < length a)%nat -> (i < length b)%nat -> nth i (add2 a b) 0 = nth i a 0 + nth i b 0.
Proof. revert b i. induction a as [|x a IH]; intros [|y b] i Ha Hb; cbn [length] in *; try lia. destruct i as [|i]; [reflexivity|]. cbn [add2 nth]. apply IH; lia. Qed.
Lemma removelast_length {A} (l : list A) : length (removelast l) = (length l - 1)%nat.
Proof. induction l as [|a l IH]; [reflexivity|]. destruct l as [|b l]; [reflexivity|]. cbn [removelast length] in *. rewrite IH. lia. Qed.
Lemma nth_removelast (l : list Q) i : (S i < length l)%nat -> nth i (removelast l) 0 = nth i l 0.
Proof. revert i. induction l as [|a l IH]; intros i H; [cbn in H; lia|]. destruct l as [|b l]; [cbn in H; lia|]. destruct i as [|i]; [reflexivity|]. change (nth i (removelast (b :: l)) 0 = nth i (b :: l) 0). apply IH. cbn [length] in *. lia. Qed.
Lemma last_nth (l : list Q) : last l 0 = nth (length l - 1) l 0.
Proof. induction l as [|a l IH]; [reflexivity|]. destruct l as [|b l]; [reflexivity|]. change (last (b :: l) 0 = nth (length (b :: l)) (a :: b :: l) 0). rewrite IH. cbn [length]. replace (S (length l) - 1)%nat with (length l) by lia. reflexivity. Qed.
Lemma nth_cons_pos (h : Q) l n : (0 < n)%nat -> nth n (h :: l) 0 = nth (n - 1) l 0.
Proof. destruct n; [lia|]. intros _. cbn [nth]. rewrite Nat.sub_succ, Nat.sub_0_r. reflexivity. Qed.
Lemma nodes_of_eq cc : (2 <= length cc)%nat ->
  nodes_of cc = Some ((at_ cc 0 - (1 # 2) * (at_ cc 1 - at_ cc 0)) :: add2 (removelast cc) (half_diffs cc) ++ [last cc 0 + last (half_diffs cc) 0]).
Proof. destruct cc as [|c0 [|c1 r]]; intros H; [cbn in H; lia|cbn in H; lia|]. reflexivity. Qed.
Theorem C82_nodes : forall cc, (2 <= length cc)%nat -> exists nodes, nodes_of cc = Some nodes /\ length nodes = S (length cc) /\
  (forall i, (0 < i < length cc)%nat -> 2 * at_ nodes i == at_ cc (i - 1) + at_ cc i) /\
  2 * at_ nodes 0 == 3 * at_ cc 0 - at_ cc 1 /\ 2 * at_ nodes (length cc) == 3 * at_ cc (length cc - 1) - at_ cc (length cc - 2) /\
  (increasing cc -> increasing nodes /\ forall i, (i < length cc)%nat -> at_ nodes i < at_ cc i < at_ nodes (S i)) /\
  (forall d, (forall i, (S i < length cc)%nat -> at_ cc (S i) - at_ cc i == d) -> forall i, (i < length cc)%nat -> at_ nodes i + at_ nodes (S i) == 2 * at_ cc i).
Proof.
  intros cc L2. rewrite (nodes_of_eq cc L2). pose proof (half_diffs_length cc) as Lh. pose proof (nth_half_diffs cc) as Nh. set (n := length cc) in *.
  eexists. split; [reflexivity|]. set (nodes := _ :: _).
  assert (La : length (add2 (removelast cc) (half_diffs cc)) = (n - 1)%nat) by (rewrite add2_length, removelast_length, Lh; fold n; lia).
  assert (Ln : length nodes = S n) by (unfold nodes; cbn [length]; rewrite app_length, La; cbn [length]; lia).
  assert (M : forall i, (0 < i < n)%nat -> at_ nodes i == (1 # 2) * (at_ cc (i - 1) + at_ cc i)).
  { intros i Hi. destruct i as [|i]; [lia|]. unfold at_ at 1. unfold nodes. cbn [nth]. rewrite app_nth1 by lia. rewrite nth_add2; [|rewrite removelast_length; fold n; lia|rewrite Lh; lia]. rewrite nth_removelast by (fold n; lia). rewrite Nh by (fold n; lia).
    replace (S i - 1)%nat with i by lia. unfold at_. ring. }
  assert (M0 : at_ nodes 0 == at_ cc 0 - (1 # 2) * (at_ cc 1 - at_ cc 0)) by (unfold nodes; unfold at_ at 1; cbn [nth]; reflexivity).
  assert (Mn : at_ nodes n == at_ cc (n - 1) + (1 # 2) * (at_ cc (n - 1) - at_ cc (n - 2))).
  { unfold at_ at 1. unfold nodes. rewrite nth_cons_pos by lia. rewrite app_nth2 by lia. rewrite La, Nat.sub_diag. cbn [nth]. rewrite !last_nth. rewrite Lh. fold n.
    rewrite Nh by lia. replace (S (n - 1 - 1)) with (n - 1)%nat by lia. replace (n - 1 - 1)%nat with (n - 2)%nat by lia. unfold at_. reflexivity. }
  clearbody nodes. clear La. split; [exact Ln|]. split; [intros i Hi; rewrite M by exact Hi; ring|]. split; [rewrite M0; ring|]. split; [rewrite Mn; ring|]. split.
  - intros Inc. assert (B : forall i, (i < n)%nat -> at_ nodes i < at_ cc i < at_ nodes (S i)).
    { intros i Hi. split.
      - destruct i as [|i]; [rewrite M0; specialize (Inc 0%nat ltac:(fold n; lia)); Lqa.lra|]. rewrite M by lia. replace (S i - 1)%nat with i by lia. specialize (Inc i ltac:(fold n; lia)). Lqa.lra.
      - destruct (Nat.eq_dec (S i) n) as [E|E].
        + rewrite E, Mn. replace (n - 1)%nat with i by lia. specialize (Inc (n - 2)%nat ltac:(fold n; lia)). replace (S (n - 2)) with i in Inc by lia. Lqa.lra.
        + rewrite M by lia. replace (S i - 1)%nat with i by lia. specialize (Inc i ltac:(fold n; lia)). Lqa.lra. }
    split; [|exact B]. intros i Hi. rewrite Ln in Hi. eapply Qlt_trans; apply B; lia.
  - intros d Hd i Hi. destruct i as [|i].
    + rewrite M0, M by lia. replace (1 - 1)%nat with 0%nat by lia. ring.
    + rewrite (M (S i)) by lia. replace (S i - 1)%nat with i by lia. destruct (Nat.eq_dec (S (S i)) n) as [E|E].
      * rewrite E, Mn. replace (n - 1)%nat with (S i) by lia. replace (n - 2)%nat with i by lia. ring.
      * rewrite M by lia. replace (S (S i) - 1)%nat with (S i) by lia. pose proof (Hd i ltac:(fold n; lia)). pose proof (Hd (S i) ltac:(fold n; lia)). Lqa.lra.
Qed.
Print Assumptions C82_nodes.
(** Refuted: with cells of different sizes, the centres of the cells that are made are not those of the file; a file with one cell along an axis cannot be read. *)
Theorem C82_centres_refuted : (exists cc nodes, increasing cc /\ nodes_of cc = Some nodes /\ ~ at_ nodes 1 + at_ nodes 2 == 2 * at_ cc 1) /\ forall c, nodes_of [c] = None.
Proof.
  split; [|reflexivity]. exists [0; 1; 3], (match nodes_of [0; 1; 3] with Some n => n | None => [] end). split; [|split; [reflexivity|intros H; vm_compute in H; discriminate]].
  intros i Hi. cbn in Hi. destruct i as [|[|i]]; [unfold at_; cbn; Lqa.lra|unfold at_; cbn; Lqa.lra|lia].
Qed.
Print Assumptions C82_centres_refuted.
Lemma argmin_from_spec loc l : forall i best bd, (best < i)%nat ->
  let a := argmin_from loc l i best bd in
  (a = best /\ forall j, (j < length l)%nat -> bd <= Qabs (nth j l 0 - loc)) \/
  (exists k, a = (i + k)%nat /\ (k < length l)%nat /\ Qabs (nth k l 0 - loc) < bd /\ forall j, (j < length l)%nat -> Qabs (nth k l 0 - loc) <= Qabs (nth j l 0 - loc)).
Proof.
  induction l as [|c l IH]; intros i best bd Hb; cbn [argmin_from]; [left; split; [reflexivity|cbn; lia]|]. destruct (Qltb (Qabs (c - loc)) bd) eqn:E.
  - apply Qltb_spec in E. right. destruct (IH (S i) i (Qabs (c - loc)) ltac:(lia)) as [(Ea & Hall)|(k & Ea & Hk & Hlt & Hall)].
    + exists 0%nat. split; [rewrite Ea; lia|]. split; [cbn; lia|]. split; [exact E|]. intros [|j] Hj; [apply Qle_refl|]. cbn [nth]. apply Hall. cbn in Hj. lia.
    + exists (S k). split; [rewrite Ea; lia|]. split; [cbn; lia|]. cbn [nth]. split; [eapply Qlt_trans; eassumption|]. intros [|j] Hj; [apply Qlt_le_weak; exact Hlt|]. cbn [nth]. apply Hall. cbn in Hj. lia.
  - apply Qltb_false in E. destruct (IH (S i) best bd ltac:(lia)) as [(Ea & Hall)|(k & Ea & Hk & Hlt & Hall)].
    + left. split; [exact Ea|]. intros [|j] Hj; [exact E|]. cbn [nth]. apply Hall. cbn in Hj. lia.
    + right. exists (S k). split; [rewrite Ea; lia|]. split; [cbn; lia|]. cbn [nth]. split; [exact Hlt|]. intros [|j] Hj; [cbn [nth]; eapply Qle_trans; [apply Qlt_le_weak; exact Hlt|exact E]|]. cbn [nth]. apply Hall. cbn in Hj. lia.
Qed.
Lemma argmin_spec loc cc : cc <> [] -> (argmin loc cc < length cc)%nat /\ forall j, (j < length cc)%nat -> Qabs (at_ cc (argmin loc cc) - loc) <= Qabs (at_ cc j - loc).
Proof.
  destruct cc as [|c l]; [contradiction|intros _]. unfold argmin. destruct (argmin_from_spec loc l 1 0 (Qabs (c - loc)) ltac:(lia)) as [(Ea & Hall)|(k & Ea & Hk & Hlt & Hall)]; rewrite Ea.
  - split; [cbn; lia|]. intros [|j] Hj; [apply Qle_refl|]. unfold at_. cbn [nth]. apply Hall. cbn in Hj. lia.
  - split; [cbn; lia|]. unfold at_. cbn [nth Nat.add]. intros [|j] Hj; [apply Qlt_le_weak; exact Hlt|]. cbn [nth]. apply Hall. cbn in Hj. lia.
Qed.
(** The plane is put at the cell next to the place in the name of the file; with the setting on, for planes of constant x or y, next to it after turning. *)
Theorem C82_plane : forall truthy xy tenths cc, cc <> [] ->
  let i := plane_cell truthy xy tenths cc in
  (i < length cc)%nat /\ forall j, (j < length cc)%nat ->
  if truthy && xy then Qabs (- at_ cc i - tenths / 10) <= Qabs (- at_ cc j - tenths / 10) else Qabs (at_ cc i - tenths / 10) <= Qabs (at_ cc j - tenths / 10).
Proof.
  intros truthy xy tenths cc Hne i. unfold i, plane_cell. destruct (truthy && xy).
  - destruct (argmin_spec (-1 * (tenths / 10)) cc Hne) as (A & B). split; [exact A|]. intros j Hj. specialize (B j Hj). set (a := argmin (-1 * (tenths / 10)) cc) in *.
    rewrite <- (Qabs_opp (- at_ cc a - tenths / 10)), <- (Qabs_opp (- at_ cc j - tenths / 10)).
    setoid_replace (- (- at_ cc a - tenths / 10)) with (at_ cc a - -1 * (tenths / 10)) by (set (u := tenths / 10); ring). setoid_replace (- (- at_ cc j - tenths / 10)) with (at_ cc j - -1 * (tenths / 10)) by (set (u := tenths / 10); ring). exact B.
  - apply argmin_spec. exact Hne.
Qed.
Print Assumptions C82_plane.
(** Refuted: one and the same file is then at two places: turned to GSE it is at the place of its name in GSE, else it is at that place in the coordinates of the file,
    which is on the other side.  The setting 'auto' counts as on, so a file that is in GSE already is put on the other side too. *)
Theorem C82_plane_refuted : forall tenths cc, In (tenths / 10) cc -> In (- (tenths / 10)) cc ->
  - at_ cc (plane_cell true true tenths cc) == tenths / 10 /\ - at_ cc (plane_cell false true tenths cc) == - (tenths / 10).
Proof.
  intros tenths cc H1 H2. assert (Hne : cc <> []) by (intros ->; contradiction).
  assert (A : forall loc, In loc cc -> at_ cc (argmin loc cc) == loc).
  { intros loc Hl. apply In_nth with (d := 0) in Hl as (j & Hj & Ej). destruct (argmin_spec loc cc Hne) as (_ & B). specialize (B j Hj). unfold at_ in B at 2. rewrite Ej in B.
    assert (Z : Qabs (loc - loc) == 0) by (setoid_replace (loc - loc) with 0 by ring; reflexivity). rewrite Z in B. pose proof (Qabs_nonneg (at_ cc (argmin loc cc) - loc)) as N.
    assert (E : Qabs (at_ cc (argmin loc cc) - loc) == 0) by (apply Qle_antisym; assumption). revert E. apply Qabs_case; intros _ E; Lqa.lra. }
  unfold plane_cell. cbn [andb]. split; [|rewrite (A _ H1); reflexivity].
  assert (X : forall l p q, p == q -> argmin p l = argmin q l).
  { intros l p q E. destruct l as [|c l]; [reflexivity|]. unfold argmin. assert (G : forall l i best bd bd', bd == bd' -> argmin_from p l i best bd = argmin_from q l i best bd').
    { clear l. induction l as [|x l IH]; intros i best bd bd' Eb; [reflexivity|]. cbn [argmin_from]. assert (Ex : Qabs (x - p) == Qabs (x - q)) by (rewrite E; reflexivity).
      assert (Eq : Qltb (Qabs (x - p)) bd = Qltb (Qabs (x - q)) bd').
      { destruct (Qltb (Qabs (x - q)) bd') eqn:F; [apply Qltb_spec in F; apply Qltb_spec; rewrite Ex, Eb; exact F|apply Qltb_false in F; apply Qltb_false; rewrite Ex, Eb; exact F]. }
      rewrite Eq. destruct (Qltb (Qabs (x - q)) bd'); apply IH; assumption. }
    apply G. rewrite E. reflexivity. }
  rewrite (X cc (-1 * (tenths / 10)) (- (tenths / 10))) by (set (u := tenths / 10); ring). rewrite (A _ H2). set (u := tenths / 10). ring.
Qed.
Print Assumptions C82_plane_refuted.
Example C82_plane_case : plane_cell true true 10 [-2; -1; 0; 1; 2] = 1%nat /\ plane_cell false true 10 [-2; -1; 0; 1; 2] = 3%nat.
Proof. split; reflexivity. Qed.

(** ** groups of files *)
Local Open Scope nat_scope.
Section GROUPS_P.
Context {A : Type}.
Notation file := (info A).
Lemma ins_perm key (a : file) l : Permutation (a :: l) (ins key a l).
Proof. induction l as [|b l IH]; cbn [ins]; [reflexivity|]. destruct (key a <=? key b); [reflexivity|]. rewrite perm_swap. now constructor. Qed.
Lemma sort_perm key (l : list file) : Permutation l (sort_by key l).
Proof. induction l as [|a l IH]; [reflexivity|]. cbn [sort_by fold_right]. rewrite <- ins_perm. now constructor. Qed.
Lemma sort_stable key (R : file -> file -> Prop) (l : list file) : StronglySorted R l -> StronglySorted (fun a b => key a < key b \/ (key a = key b /\ R a b)) (sort_by key l).
Proof.
  induction 1 as [|a l Ss IH Fa]; [constructor|]. cbn [sort_by fold_right]. change (fold_right (ins key) [] l) with (sort_by key l).
  assert (Fa' : forall b, In b (sort_by key l) -> R a b). { rewrite Forall_forall in Fa. intros b Hb. apply Fa. exact (Permutation_in _ (Permutation_sym (sort_perm key l)) Hb). }
  clear Ss Fa. revert IH Fa'. generalize (sort_by key l). intros s. induction 1 as [|b s Ss IH Fb]; intros Fa; cbn [ins]; [repeat constructor|]. destruct (Nat.leb_spec (key a) (key b)) as [E|E].
  - constructor; [now constructor|]. rewrite Forall_forall in *. intros c Hc. pose proof (Fa c Hc) as Rc. destruct Hc as [<-|Hc]; [|specialize (Fb c Hc); cbn beta in Fb]; destruct (Nat.eq_dec (key a) (key b)); try (left; lia); try (right; split; [lia|exact Rc]).
    destruct Fb as [F|(F & _)]; [left; lia|right; split; [lia|exact Rc]].
  - constructor; [apply IH; intros c Hc; apply Fa; now right|]. rewrite Forall_forall in *. intros c Hc. apply (Permutation_in _ (Permutation_sym (ins_perm key a s))) in Hc. destruct Hc as [<-|Hc]; [left; exact E|auto].
Qed.
Definition in_order (a b : file) : Prop := i_run a < i_run b \/ (i_run a = i_run b /\ (i_type a < i_type b \/ (i_type a = i_type b /\ (time_key a < time_key b \/ (time_key a = time_key b /\ True))))).
Lemma all_true (l : list file) : StronglySorted (fun _ _ => True) l.
Proof. induction l; constructor; [assumption|]. apply Forall_forall. auto. Qed.
Lemma sorted_tail (P : file -> file -> Prop) a b : StronglySorted P (a ++ b) -> StronglySorted P b.
Proof. induction a as [|x a IH]; intros H; [exact H|]. cbn [app] in H. apply StronglySorted_inv in H. apply IH, H. Qed.
Lemma sorted_pair (P : file -> file -> Prop) a b x y : StronglySorted P (a ++ b) -> In x a -> In y b -> P x y.
Proof. induction a as [|c a IH]; intros H Hx Hy; [destruct Hx|]. cbn [app] in H. apply StronglySorted_inv in H as (H & F). destruct Hx as [<-|Hx]; [|now apply IH]. rewrite Forall_forall in F. apply F, in_or_app. now right. Qed.
Lemma sorted_concat (P : file -> file -> Prop) gs : StronglySorted P (concat gs) -> Forall (StronglySorted P) gs.
Proof.
  induction gs as [|g gs IH]; intros H; [constructor|]. cbn [concat] in H. constructor; [|apply IH; eapply sorted_tail; exact H].
  clear IH. induction g as [|a g IHg]; [constructor|]. cbn [app] in H. apply StronglySorted_inv in H. destruct H as (H & Fa). constructor; [auto|]. apply Forall_app in Fa. apply Fa.
Qed.
Definition one_run (a b : file) : Prop := i_run a = i_run b /\ i_type a = i_type b.
Lemma same_run_spec (a b : file) : same_run a b = true <-> one_run a b.
Proof. unfold same_run, one_run. rewrite andb_true_iff, !Nat.eqb_eq. reflexivity. Qed.
Lemma split_ok l : forall cur, cur <> [] -> (forall a b, In a cur -> In b cur -> one_run a b) -> StronglySorted in_order (rev cur ++ l) ->
  concat (split_groups cur l) = rev cur ++ l /\ Forall (fun g => g <> [] /\ forall a b, In a g -> In b g -> one_run a b) (split_groups cur l) /\
  ForallOrdPairs (fun g g' => forall a b, In a g -> In b g' -> ~ one_run a b) (split_groups cur l).
Proof.
  induction l as [|f l IH]; intros cur Hc Hr Ss; cbn [split_groups].
  - cbn [concat]. rewrite !app_nil_r. split; [reflexivity|]. split.
    + constructor; [|constructor]. split; [intros E; apply (f_equal (@rev _)) in E; rewrite rev_involutive in E; contradiction|]. intros a b Ha Hb. apply Hr; apply in_rev; assumption.
    + constructor; constructor.
  - destruct cur as [|last cur0] eqn:Ec; [contradiction|]. rewrite <- Ec in *. destruct (same_run f last) eqn:E.
    + apply same_run_spec in E. assert (Ss' : StronglySorted in_order (rev (f :: cur) ++ l)) by (cbn [rev]; rewrite <- app_assoc; exact Ss).
      destruct (IH (f :: cur)) as (C & G & D); [discriminate| |exact Ss'|].
      * assert (Hl : In last cur) by (rewrite Ec; now left). assert (Hf : forall b, In b cur -> one_run f b) by (intros b Hb; specialize (Hr last b Hl Hb); unfold one_run in *; intuition congruence).
        intros a b [<-|Ha] [<-|Hb]; [split; reflexivity|auto|specialize (Hf a Ha); unfold one_run in *; intuition congruence|auto].
      * split; [rewrite C; cbn [rev]; rewrite <- app_assoc; reflexivity|]. split; assumption.
    + assert (Ss' : StronglySorted in_order (rev [f] ++ l)) by (exact (sorted_tail _ _ _ Ss)).
      destruct (IH [f]) as (C & G & D); [discriminate|intros a b [<-|[]] [<-|[]]; split; reflexivity|exact Ss'|]. cbn [concat]. rewrite C. split; [reflexivity|]. split.
      * constructor; [|exact G]. split; [intros E'; apply (f_equal (@rev _)) in E'; rewrite rev_involutive in E'; contradiction|]. intros a b Ha Hb. apply Hr; apply in_rev; assumption.
      * constructor; [|exact D]. rewrite Forall_forall. intros g Hg x y Hx Hy Q.
        assert (Hy' : In y (f :: l)) by (change (f :: l) with (rev [f] ++ l); rewrite <- C; apply in_concat; eauto).
        apply in_rev in Hx. assert (Hl : In last cur) by (rewrite Ec; now left). assert (Nf : ~ one_run f last) by (rewrite <- same_run_spec, E; discriminate). pose proof (Hr x last Hx Hl) as Rx.
        apply in_rev in Hx. pose proof (sorted_pair _ _ _ x f Ss Hx (or_introl eq_refl)) as O1.
        assert (O2 : f = y \/ in_order f y). { destruct Hy' as [->|Hy']; [now left|right]. cbn [rev app] in Ss'. apply StronglySorted_inv in Ss' as (_ & F). rewrite Forall_forall in F. now apply F. }
        apply Nf. unfold one_run, in_order in *. destruct O2 as [<-|O2]; [intuition congruence|]. assert (i_run f = i_run x) by lia. assert (i_type f = i_type x) by lia. split; [lia|lia].
Qed.
Definition timed (f : file) : bool := match i_time f with Some _ => true | None => false end.
(** Which files are left: those of single times, and those for the whole run if there is none of a single time for that run and type. *)
Definition keeps (l : list file) (f : file) : Prop := timed f = true \/ forall g, In g l -> one_run g f -> timed g = false.
Lemma drop_spec (g : list file) : (forall a b, In a g -> In b g -> one_run a b) -> forall f, In f (drop_run_level g) <-> In f g /\ keeps g f.
Proof.
  intros Hr f. unfold drop_run_level, keeps. change (fun f0 : file => match i_time f0 with Some _ => true | None => false end) with timed. destruct (existsb timed g) eqn:E.
  - rewrite filter_In. apply existsb_exists in E as (h & Hh & Th). split; [intros (Hf & Tf); split; [exact Hf|now left]|]. intros (Hf & [Tf|Nf]); [split; assumption|]. specialize (Nf h Hh (Hr h f Hh Hf)). congruence.
  - split; [|intros (Hf & _); exact Hf]. intros Hf. split; [exact Hf|right]. intros h Hh _. destruct (timed h) eqn:T; [|reflexivity]. rewrite <- E. symmetry. apply existsb_exists. eauto.
Qed.
Lemma drop_sub (g : list file) : exists p, drop_run_level g = filter p g.
Proof. unfold drop_run_level. destruct (existsb _ g); [eexists; reflexivity|]. exists (fun _ => true). induction g as [|a g IH]; [reflexivity|]. cbn [filter]. now rewrite <- IH. Qed.
Lemma drop_nonempty (g : list file) : g <> [] -> drop_run_level g <> [].
Proof.
  intros H. unfold drop_run_level. destruct (existsb _ g) eqn:E; [|exact H]. apply existsb_exists in E as (f & Hf & Tf). intros N. assert (I : In f (filter (fun f0 : file => match i_time f0 with Some _ => true | None => false end) g)) by (apply filter_In; auto). rewrite N in I. destruct I.
Qed.
Lemma filter_sorted (P : file -> file -> Prop) p g : StronglySorted P g -> StronglySorted P (filter p g).
Proof. induction 1 as [|a g S IH F]; [constructor|]. cbn [filter]. destruct (p a); [|exact IH]. constructor; [exact IH|]. rewrite Forall_forall in *. intros b Hb. apply filter_In in Hb. now apply F. Qed.
Definition no_later (a b : file) : Prop := match i_time a, i_time b with Some s, Some t => s <= t | None, _ => True | Some _, None => False end.
Lemma no_later_spec a b : no_later a b <-> time_key a <= time_key b.
Proof. unfold no_later, time_key. destruct (i_time a), (i_time b); split; intros; try exact I; try lia; try contradiction. Qed.
Definition good_groups (gs : list (list file)) : Prop :=
  Forall (fun g => g <> [] /\ (forall a b, In a g -> In b g -> one_run a b) /\ StronglySorted no_later g) gs /\ ForallOrdPairs (fun g g' => forall a b, In a g -> In b g' -> ~ one_run a b) gs.
Lemma groups_main (l : list file) : l <> [] -> exists gs, group_files l = Some (map (map i_name) (map drop_run_level gs)) /\ Permutation l (concat gs) /\ good_groups gs.
Proof.
  intros Hl. unfold group_files. pose proof (sort_stable i_run _ _ (sort_stable i_type _ _ (sort_stable time_key _ _ (all_true l)))) as Ss. change (StronglySorted in_order (sort_by i_run (sort_by i_type (sort_by time_key l)))) in Ss.
  assert (P : Permutation l (sort_by i_run (sort_by i_type (sort_by time_key l)))) by (rewrite <- sort_perm, <- sort_perm; apply sort_perm).
  destruct (sort_by i_run (sort_by i_type (sort_by time_key l))) as [|a s]; [exfalso; apply Hl; now apply Permutation_nil, Permutation_sym|].
  destruct (split_ok s [a]) as (C & G & D); [discriminate|intros x y [<-|[]] [<-|[]]; split; reflexivity|exact Ss|]. exists (split_groups [a] s). split; [reflexivity|]. rewrite C. split; [exact P|]. split; [|exact D].
  pose proof (sorted_concat in_order (split_groups [a] s)) as Sg. rewrite C in Sg. specialize (Sg Ss). rewrite Forall_forall in *. intros g Hg. destruct (G g Hg) as (Ng & Er). split; [exact Ng|]. split; [exact Er|]. specialize (Sg g Hg). clear - Sg Er.
  induction Sg as [|b g Sg IH Fb]; [constructor|]. constructor; [apply IH; intros x y Hx Hy; apply Er; now right|]. rewrite Forall_forall in *. intros c Hc. specialize (Fb c Hc). apply no_later_spec. destruct (Er b c (or_introl eq_refl) (or_intror Hc)). unfold in_order in Fb. lia.
Qed.
Lemma nodup_right (a b : list file) : NoDup (a ++ b) -> NoDup b.
Proof. induction a as [|x a IH]; intros H; [exact H|]. cbn [app] in H. apply NoDup_cons_iff in H. apply IH, H. Qed.
Lemma nodup_left (a b : list file) : NoDup (a ++ b) -> NoDup a.
Proof. induction a as [|x a IH]; intros H; [constructor|]. cbn [app] in H. apply NoDup_cons_iff in H as (N & H). constructor; [intros I; apply N, in_or_app; now left|auto]. Qed.
(** The files of one run and type are one group, in the order of their times; no file is in two groups or twice in one, and what is left out are the files for
    the whole run where there are files of single times. *)
Theorem C82_groups : forall l : list file, l <> [] -> NoDup l -> exists gs, group_files l = Some (map (map i_name) gs) /\ good_groups gs /\ NoDup (concat gs) /\
  forall f, In f (concat gs) <-> In f l /\ keeps l f.
Proof.
  intros l Hl Nl. destruct (groups_main l Hl) as (gs & E & P & (G & D)). exists (map drop_run_level gs). split; [exact E|].
  assert (Sub : forall g f, In f (drop_run_level g) -> In f g) by (intros g f; destruct (drop_sub g) as (p & ->); rewrite filter_In; tauto).
  assert (Ng : NoDup (concat gs)) by (exact (Permutation_NoDup P Nl)).
  split; [split|split].
  - rewrite Forall_forall in *. intros g' Hg'. apply in_map_iff in Hg' as (g & <- & Hg). destruct (G g Hg) as (A1 & A2 & A3). split; [now apply drop_nonempty|]. split; [intros a b Ha Hb; apply A2; now apply Sub|]. destruct (drop_sub g) as (p & ->). now apply filter_sorted.
  - clear E P G Ng. induction D as [|g gs F D IH]; [constructor|]. cbn [map]. constructor; [|exact IH]. rewrite Forall_forall in *. intros g' Hg'. apply in_map_iff in Hg' as (h & <- & Hh). intros a b Ha Hb. apply (F h Hh); now apply Sub.
  - clear E P G D. induction gs as [|g gs IH]; [constructor|]. cbn [map concat] in *. pose proof (nodup_left _ _ Ng) as Ng1. pose proof (nodup_right _ _ Ng) as Ng2. specialize (IH Ng2).
    assert (Dj : forall f, In f g -> ~ In f (concat gs)). { clear - Ng. induction g as [|x g IHg]; [intros f []|]. cbn [app] in Ng. apply NoDup_cons_iff in Ng as (Nx & Ng). intros f [<-|Hf]; [intros H; apply Nx, in_or_app; now right|now apply IHg]. }
    assert (S2 : forall f, In f (concat (map drop_run_level gs)) -> In f (concat gs)). { intros f Hf. apply in_concat in Hf as (g' & Hg' & Hf). apply in_map_iff in Hg' as (h & <- & Hh). apply in_concat. exists h. split; [exact Hh|now apply Sub]. }
    destruct (drop_sub g) as (p & Ep). rewrite Ep. apply NoDup_filter with (f := p) in Ng1. assert (Dj' : forall f, In f (filter p g) -> ~ In f (concat (map drop_run_level gs))) by (intros f Hf H; rewrite <- Ep in Hf; exact (Dj f (Sub g f Hf) (S2 f H))).
    revert Ng1 Dj'. generalize (filter p g). intros q. induction q as [|x q IHq]; intros Nq Dq; [exact IH|]. cbn [app]. apply NoDup_cons_iff in Nq as (Nx & Nq). constructor; [|apply IHq; [exact Nq|intros f Hf; apply Dq; now right]].
    intros H. apply in_app_or in H as [H|H]; [contradiction|]. exact (Dq x (or_introl eq_refl) H).
  - assert (K : forall g f, In g gs -> In f g -> (keeps g f <-> keeps l f)).
    { intros g f Hg Hf. rewrite Forall_forall in G. destruct (G g Hg) as (_ & A2 & _). unfold keeps. split; intros [T|N]; [now left| |now left|].
      - right. intros h Hh Rh. apply N; [|exact Rh]. apply (Permutation_in _ P) in Hh. apply in_concat in Hh as (g' & Hg' & Hh). destruct (In_nth gs g [] Hg) as (i & Hi & Ei). destruct (In_nth gs g' [] Hg') as (j & Hj & Ej).
        assert (Q : forall gs, ForallOrdPairs (fun g g' : list file => forall a b, In a g -> In b g' -> ~ one_run a b) gs -> forall g g', In g gs -> In g' gs -> g = g' \/ (forall a b, In a g -> In b g' -> ~ one_run a b) \/ (forall a b, In a g' -> In b g -> ~ one_run a b)).
        { intros gs0 D0 x y Hx Hy. destruct (ForallOrdPairs_In D0 x y Hx Hy) as [H|[H|H]]; auto. }
        destruct (Q gs D g g' Hg Hg') as [->|[H|H]]; [exact Hh| |].
        + exfalso. apply (H f h Hf Hh). unfold one_run in *. intuition congruence.
        + exfalso. exact (H h f Hh Hf Rh).
      - right. intros h Hh Rh. apply N; [|exact Rh]. apply (Permutation_in _ (Permutation_sym P)). apply in_concat. eauto. }
    intros f. rewrite in_concat. split.
    + intros (g' & Hg' & Hf). apply in_map_iff in Hg' as (g & <- & Hg). rewrite Forall_forall in G. apply (drop_spec g (proj1 (proj2 (G g Hg)))) in Hf as (Hf & Kf). split; [apply (Permutation_in _ (Permutation_sym P)), in_concat; eauto|]. now apply (K g f Hg Hf).
    + intros (Hf & Kf). apply (Permutation_in _ P), in_concat in Hf as (g & Hg & Hf). exists (drop_run_level g). split; [now apply in_map|]. rewrite Forall_forall in G. apply (drop_spec g (proj1 (proj2 (G g Hg)))). split; [exact Hf|]. now apply (K g f Hg Hf).
Qed.
End GROUPS_P.
Print Assumptions C82_groups.
Example C82_groups_case : group_files [IF 1 0 (Some 20) 1; IF 0 1 (Some 7) 2; IF 1 0 None 3; IF 0 0 None 4; IF 1 0 (Some 10) 5] = Some [[4]; [2]; [5; 1]].
Proof. reflexivity. Qed.
