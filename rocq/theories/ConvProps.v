(** C83: the derivative of a field along another. *)
From Verif Require Import ConvModel DerivProps.
From Coq Require Import List ZArith QArith Lia Lqa ZifyBool ZifyNat.
Import ListNotations.
Open Scope Z_scope.

(** The fields are on one grid. *)
Definition one_grid (a b : fld) : Prop := forall k, (k < 3)%nat -> ax a k = ax b k.
Definition comp_fld (f : fld) (c : nat) : fld := match nth_error (comps f) c with Some v => comp_of f v | None => f end.

Lemma val_comp f c v i j l : nth_error (comps f) c = Some v -> val (comp_of f v) 0 i j l = val f c i j l.
Proof. intros H. unfold val. rewrite H. reflexivity. Qed.
Lemma wf_comp f n m v : wf f n m -> In v (comps f) -> wf (comp_of f v) n 1.
Proof. intros (A & _ & F) Hv. split; [exact A|]. split; [reflexivity|]. constructor; [|constructor]. rewrite Forall_forall in F. apply F, Hv. Qed.
Lemma all_ext_nth l l' : all_ext l = Some l' -> length l' = length l /\ forall c v', nth_error l' c = Some v' -> exists v, nth_error l c = Some v /\ all_ext [v] = Some [v'].
Proof.
  revert l'. induction l as [|x l IH]; intros l' H; cbn [all_ext] in H; [injection H as <-; split; [reflexivity|intros [|c] v' Hc; discriminate]|].
  destruct (extend_boundaries_ndarr 1 1 0 x (AxList [0; 1; 2]%nat) None 0) as [x'|] eqn:Ex; [|discriminate]. destruct (all_ext l) as [r'|] eqn:Er; [|discriminate]. injection H as <-.
  destruct (IH r' eq_refl) as (L & N). split; [cbn [length]; congruence|]. intros [|c] v' Hc; cbn [nth_error] in Hc; [|apply N; exact Hc]. injection Hc as <-. exists x. split; [reflexivity|]. cbn [all_ext]. rewrite Ex. reflexivity.
Qed.
Lemma grad_prep b f f1 c v : prep b f = Some f1 -> nth_error (comps f1) c = Some v -> exists v0, nth_error (comps f) c = Some v0 /\ grad false (comp_of f1 v) = grad b (comp_of f v0).
Proof.
  intros Hp Hc. destruct b; cbn [prep] in Hp; [|injection Hp as <-; exists v; split; [exact Hc|reflexivity]].
  destruct (all_ext (comps f)) as [cs|] eqn:Ea; [|discriminate]. destruct (ext_axis (ax f 0)) as [a0|] eqn:E0; [|discriminate]. destruct (ext_axis (ax f 1)) as [a1|] eqn:E1; [|discriminate]. destruct (ext_axis (ax f 2)) as [a2|] eqn:E2; [|discriminate].
  injection Hp as <-. cbn [comps] in Hc. destruct (all_ext_nth _ _ Ea) as (_ & N). destruct (N c v Hc) as (v0 & Hv0 & Hx). exists v0. split; [exact Hv0|].
  unfold grad. cbn [prep comp_of comps ax cell]. rewrite Hx, E0, E1, E2. reflexivity.
Qed.
Lemma same_shape_refl s : same_shape s s = true.
Proof. induction s as [|x s IH]; [reflexivity|]. cbn [same_shape]. rewrite Z.eqb_refl, IH. reflexivity. Qed.
Lemma along_spec a g s : length a = 3%nat -> length g = 3%nat -> Forall (fun v => shape v = s) a -> Forall (fun v => shape v = s) g ->
  exists d, along a g = Some d /\ shape d = s /\ forall js, (get d js == get (nth 0 a (ND [] (fun _ => 0))) js * get (nth 0 g (ND [] (fun _ => 0))) js + get (nth 1 a (ND [] (fun _ => 0))) js * get (nth 1 g (ND [] (fun _ => 0))) js + get (nth 2 a (ND [] (fun _ => 0))) js * get (nth 2 g (ND [] (fun _ => 0))) js)%Q.
Proof.
  intros La Lg Fa Fg. destruct a as [|x [|y [|z [|? ?]]]]; cbn in La; try lia. destruct g as [|gx [|gy [|gz [|? ?]]]]; cbn in Lg; try lia. unfold along.
  apply Forall_cons_iff in Fa as (Sx & _). apply Forall_cons_iff in Fg as (Sg & _). rewrite Sx, Sg, same_shape_refl. eexists. split; [reflexivity|]. split; [reflexivity|]. intros js. cbn [get nth]. ring.
Qed.
Lemma val_nth f c i j l : (c < length (comps f))%nat -> val f c i j l = get (nth c (comps f) (ND [] (fun _ => 0%Q))) [i; j; l].
Proof. intros H. unfold val. rewrite (nth_error_nth' (comps f) (ND [] (fun _ => 0%Q)) H). reflexivity. Qed.

(** The sum over the axes of the component of a times the difference quotient of b: at the places of a, the inner ones without the boundaries. *)
Definition along_value (bnd : bool) (a b : fld) (n : nat -> Z) (c : nat) (i j l : Z) : Q :=
  (val a 0 (ce bnd i) (ce bnd j) (ce bnd l) * deriv bnd 0 (val b c) (pos b) n i j l + val a 1 (ce bnd i) (ce bnd j) (ce bnd l) * deriv bnd 1 (val b c) (pos b) n i j l +
   val a 2 (ce bnd i) (ce bnd j) (ce bnd l) * deriv bnd 2 (val b c) (pos b) n i j l)%Q.
Definition a_used (bnd : bool) (a : fld) : fld := if bnd then a else inner a.
Lemma a_used_wf bnd a n : wf a n 3 -> big bnd n -> wf (a_used bnd a) (size bnd n) 3 /\ cell (a_used bnd a) = cell a /\ same_places bnd a (a_used bnd a) n /\
  forall c i j l, (c < 3)%nat -> val (a_used bnd a) c i j l = val a c (ce bnd i) (ce bnd j) (ce bnd l).
Proof.
  intros W Hb. destruct bnd; cbn [a_used].
  - split; [exact W|]. split; [reflexivity|]. split; [intros k i _ _; reflexivity|]. intros. reflexivity.
  - specialize (Hb eq_refl). assert (Hp : prep false a = Some a) by reflexivity. assert (Hbig : big false n) by (intros _; exact Hb). pose proof W as (Wa & Wl & Wf).
    destruct (result_wf false a n 3 a (inner a) 3 W Hbig Hp) as (W' & SP); [reflexivity|reflexivity|cbn [inner comps]; rewrite map_length; exact Wl| |].
    + cbn [inner comps]. rewrite Forall_forall in *. intros v Hv. apply in_map_iff in Hv as (u & <- & Hu). unfold cut. cbn [shape]. rewrite (Wf u Hu). cbn [map]. unfold size. pose proof (Hb 0%nat ltac:(lia)). pose proof (Hb 1%nat ltac:(lia)). pose proof (Hb 2%nat ltac:(lia)). rewrite !Z.max_r by lia. reflexivity.
    + split; [exact W'|]. split; [reflexivity|]. split; [exact SP|]. intros c i j l Hc. unfold val. cbn [inner comps]. rewrite nth_error_map. destruct (nth_error (comps a) c) as [v|]; cbn [option_map]; [|reflexivity].
      unfold cut. cbn [get add_ix]. unfold ce. rewrite !(Z.add_comm 1). reflexivity.
Qed.
Lemma each_comp_spec bnd a b b1 n m vs : wf a n 3 -> wf b n m -> big bnd n -> cell b = true -> prep bnd b = Some b1 -> (forall v, In v vs -> exists c, nth_error (comps b1) c = Some v) ->
  exists ds, each_comp b1 (comps (a_used bnd a)) vs = Some ds /\ length ds = length vs /\ Forall (fun d => shape d = [size bnd n 0; size bnd n 1; size bnd n 2]) ds /\
    forall q v d c, nth_error vs q = Some v -> nth_error ds q = Some d -> nth_error (comps b1) c = Some v -> (c < m)%nat ->
      forall i j l, inside (size bnd n) i j l -> (get d [i; j; l] == along_value bnd a b n c i j l)%Q.
Proof.
  intros Wa Wb Hb Hc Hp. destruct (a_used_wf bnd a n Wa Hb) as (Wu & _ & _ & Vu). induction vs as [|v vs IH]; intros Hin.
  - exists []. split; [reflexivity|]. split; [reflexivity|]. split; [constructor|]. intros [|q] v d c Hq; discriminate.
  - destruct IH as (ds & Ed & Ld & Sd & Vd); [intros u Hu; apply Hin; now right|]. destruct (Hin v (or_introl eq_refl)) as (c0 & Hc0).
    destruct (grad_prep bnd b b1 c0 v Hp Hc0) as (v0 & Hv0 & Eg). assert (Wv : wf (comp_of b v0) n 1) by (apply (wf_comp b n m); [exact Wb|]; apply nth_error_In with c0; exact Hv0).
    destruct (grad_formula bnd (comp_of b v0) n Wv Hb Hc) as (g & Hg & _ & Wg & _ & Fg). cbn [each_comp]. rewrite Eg, Hg, Ed.
    destruct Wu as (_ & Lu & Su). destruct Wg as (_ & Lg & Sg). destruct (along_spec _ _ _ Lu Lg Su Sg) as (d & Ea & Sh & Va). rewrite Ea. exists (d :: ds). split; [reflexivity|]. split; [cbn [length]; congruence|]. split; [constructor; assumption|].
    intros [|q] u e c Hu He Hcu Hm i j l Hin'; cbn [nth_error] in Hu, He; [|eapply Vd; eassumption]. injection Hu as <-. injection He as <-.
    rewrite Va. rewrite <- !val_nth by lia. rewrite !Vu by lia. rewrite !Fg by (lia || exact Hin'). unfold along_value.
    destruct (grad_prep bnd b b1 c v Hp Hcu) as (w0 & Hw0 & Ew). 
    assert (Q : forall k, (k < 3)%nat -> (deriv bnd k (val (comp_of b v0) 0) (pos (comp_of b v0)) n i j l == deriv bnd k (val b c) (pos b) n i j l)%Q).
    { intros k Hk. assert (Ww : wf (comp_of b w0) n 1) by (apply (wf_comp b n m); [exact Wb|]; apply nth_error_In with c; exact Hw0). destruct (grad_formula bnd (comp_of b w0) n Ww Hb Hc) as (g' & Hg' & _ & _ & _ & Fg').
      rewrite <- Ew, Eg, Hg in Hg'. injection Hg' as <-. rewrite <- (Fg k i j l Hk Hin'), (Fg' k i j l Hk Hin'). unfold pos. cbn [comp_of]. apply deriv_ext; [exact Hin'|exact Hk| |reflexivity]. intros x y z _. rewrite (val_comp b c w0 x y z Hw0). reflexivity. }
    rewrite !Q by lia. reflexivity.
Qed.
Definition the_b (a : fld) (b : option fld) : fld := match b with Some b => b | None => a end.
(** With b left out it is the derivative of a along itself.  Each component, or the scalar, at each place of a (the inner ones if the boundaries are left out):
    the sum of a_i times the derivative of b along i. *)
Theorem C83_values : forall a b bnd n m, wf a n 3 -> wf (the_b a b) n m -> m = 1%nat \/ m = 3%nat -> big bnd n -> cell a = true -> cell (the_b a b) = true ->
  exists r, convective_deriv a b bnd = Some r /\ cell r = true /\ wf r (size bnd n) m /\ same_places bnd a r n /\
    forall c i j l, (c < m)%nat -> inside (size bnd n) i j l -> (val r c i j l == along_value bnd a (the_b a b) n c i j l)%Q.
Proof.
  intros a b bnd n m Wa Wb Hm Hb Ca Cb. unfold convective_deriv. fold (the_b a b). destruct (prep_some bnd (the_b a b) n m Wb Hb) as (b1 & Hp & _). rewrite Hp. pose proof (comps_prep bnd _ n m b1 Wb Hb Hp) as Lb.
  destruct (a_used_wf bnd a n Wa Hb) as (Wu & Cu & Pu & _). fold (a_used bnd a). rewrite Ca in Cu.
  assert (Hin : forall v, In v (comps b1) -> exists c, nth_error (comps b1) c = Some v) by (intros v Hv; apply In_nth_error; exact Hv).
  destruct (each_comp_spec bnd a (the_b a b) b1 n m (comps b1) Wa Wb Hb Cb Hp Hin) as (ds & Ed & Ld & Sd & Vd).
  assert (Fin : forall r, r = FLD true (ax (a_used bnd a)) ds -> cell r = true /\ wf r (size bnd n) m /\ same_places bnd a r n /\ forall c i j l, (c < m)%nat -> inside (size bnd n) i j l -> (val r c i j l == along_value bnd a (the_b a b) n c i j l)%Q).
  { intros r ->. split; [reflexivity|]. destruct Wu as (Ax & _ & _). split; [split; [cbn [cell ax]; rewrite <- Cu; exact Ax|split; [cbn [comps]; congruence|exact Sd]]|]. split; [intros k i Hk Hi; rewrite <- (Pu k i Hk Hi); unfold pos, crd; cbn [cell ax]; rewrite Cu; reflexivity|].
    intros c i j l Hc Hi. unfold val. cbn [comps]. destruct (nth_error ds c) as [d|] eqn:E; [|apply nth_error_None in E; lia]. destruct (nth_error (comps b1) c) as [v|] eqn:Ev; [|apply nth_error_None in Ev; lia]. eapply Vd; eassumption. }
  destruct Hm as [-> | ->].
  - destruct (comps b1) as [|v [|? ?]] eqn:Ec; cbn in Lb; try lia. rewrite Ed. eexists. split; [reflexivity|]. rewrite Cu. apply Fin. reflexivity.
  - destruct (comps b1) as [|v0 [|v1 [|v2 [|? ?]]]] eqn:Ec; cbn in Lb; try lia. rewrite Ed. destruct ds as [|d ds]; [cbn in Ld; lia|]. apply Forall_cons_iff in Sd as (Sd0 & Sd'). rewrite Sd0.
    assert (L : forall k, (k < 3)%nat -> len (centres (ax (a_used bnd a) k)) = size bnd n k). { intros k Hk. destruct Wu as (Ax & _ & _). specialize (Ax k Hk). rewrite Cu in Ax. apply wf_len in Ax. unfold len. rewrite Ax. reflexivity. }
    rewrite !L by lia. rewrite same_shape_refl. eexists. split; [reflexivity|]. apply Fin. reflexivity.
Qed.
Print Assumptions C83_values.
(** For fields b that are linear functions of the place it is the derivative along a, exactly, for any a, on any grid, up to the boundaries. *)
Theorem C83_linear : forall a b bnd n m (t : nat -> lin), wf a n 3 -> wf (the_b a b) n m -> m = 1%nat \/ m = 3%nat -> enough bnd n -> cell a = true -> cell (the_b a b) = true -> distinct (the_b a b) n ->
  (forall c, (c < m)%nat -> DerivProps.linear (the_b a b) n c (t c)) ->
  exists r, convective_deriv a b bnd = Some r /\ wf r (size bnd n) m /\ same_places bnd a r n /\
    forall c i j l, (c < m)%nat -> inside (size bnd n) i j l ->
      (val r c i j l == val a 0 (ce bnd i) (ce bnd j) (ce bnd l) * la (t c) + val a 1 (ce bnd i) (ce bnd j) (ce bnd l) * lb (t c) + val a 2 (ce bnd i) (ce bnd j) (ce bnd l) * lc (t c))%Q.
Proof.
  intros a b bnd n m t Wa Wb Hm En Ca Cb Hd Hl. destruct (C83_values a b bnd n m Wa Wb Hm (enough_big _ _ En) Ca Cb) as (r & E & _ & Wr & Sp & V). exists r. split; [exact E|]. split; [exact Wr|]. split; [exact Sp|].
  intros c i j l Hc Hi. rewrite (V c i j l Hc Hi). unfold along_value. rewrite !(deriv_lin bnd (the_b a b) n c (t c)) by (lia || auto). reflexivity.
Qed.
Print Assumptions C83_linear.
(** It is linear in a, and multiples of b give multiples. *)
Theorem C83_bilinear : forall a a' s b b' bnd n m r r', wf a n 3 -> wf a' n 3 -> wf b n m -> wf b' n m -> m = 1%nat \/ m = 3%nat -> big bnd n -> cell a = true -> cell a' = true -> cell b = true -> cell b' = true ->
  (forall k, (k < 3)%nat -> ax b' k = ax b k) -> convective_deriv a (Some b) bnd = Some r ->
  (convective_deriv a' (Some b) bnd = Some r' -> (forall c i j l, (c < 3)%nat -> inside n i j l -> (val a' c i j l == s * val a c i j l)%Q) ->
    forall c i j l, (c < m)%nat -> inside (size bnd n) i j l -> (val r' c i j l == s * val r c i j l)%Q) /\
  (convective_deriv a (Some b') bnd = Some r' -> (forall c i j l, (c < m)%nat -> inside n i j l -> (val b' c i j l == s * val b c i j l)%Q) ->
    forall c i j l, (c < m)%nat -> inside (size bnd n) i j l -> (val r' c i j l == s * val r c i j l)%Q).
Proof.
  intros a a' s b b' bnd n m r r' Wa Wa' Wb Wb' Hm Hb Ca Ca' Cb Cb' Hax H.
  destruct (C83_values a (Some b) bnd n m Wa Wb Hm Hb Ca Cb) as (q & E & _ & _ & _ & V). rewrite H in E. injection E as <-. cbn [the_b] in V.
  assert (I : forall i j l, inside (size bnd n) i j l -> inside n (ce bnd i) (ce bnd j) (ce bnd l)) by (intros i j l (A & B & C); split; [|split]; apply (ce_range bnd n); assumption).
  split; intros H' Hs c i j l Hc Hi.
  - destruct (C83_values a' (Some b) bnd n m Wa' Wb Hm Hb Ca' Cb) as (q & E & _ & _ & _ & V'). rewrite H' in E. injection E as <-. rewrite (V' c i j l Hc Hi), (V c i j l Hc Hi). unfold along_value. cbn [the_b].
    rewrite !Hs by (lia || apply I; exact Hi). ring.
  - destruct (C83_values a (Some b') bnd n m Wa Wb' Hm Hb Ca Cb') as (q & E & _ & _ & _ & V'). rewrite H' in E. injection E as <-. rewrite (V' c i j l Hc Hi), (V c i j l Hc Hi). unfold along_value. cbn [the_b].
    assert (D : forall k, (k < 3)%nat -> (deriv bnd k (val b' c) (pos b') n i j l == s * deriv bnd k (val b c) (pos b) n i j l)%Q).
    { intros k Hk. rewrite (deriv_ext bnd k (val b' c) (fun i j l => s * val b c i j l)%Q (pos b') (pos b) n i j l Hi Hk); [destruct k as [|[|k]]; cbn [deriv]; unfold Qdiv; ring| |].
      - intros x y z Hx. apply Hs; assumption.
      - intros k' x Hk' _. unfold pos, crd. rewrite Cb, Cb', (Hax k' Hk'). reflexivity. }
    rewrite !D by lia. ring.
Qed.
Print Assumptions C83_bilinear.
(** Refuted: fields on the nodes have no such derivative, since their gradient cannot be put into its (cell centred) result. *)
Theorem C83_nodes_refuted : forall a b bnd n m k, wf (the_b a b) n m -> (0 < m)%nat -> big bnd n -> cell (the_b a b) = false -> (k < 3)%nat -> 2 <= size bnd n k -> convective_deriv a b bnd = None.
Proof.
  intros a b bnd n m k Wb Hm Hb Cb Hk Hs. unfold convective_deriv. fold (the_b a b). destruct (prep_some bnd (the_b a b) n m Wb Hb) as (b1 & Hp & _). rewrite Hp. pose proof (comps_prep bnd _ n m b1 Wb Hb Hp) as Lb.
  assert (G : forall v c, nth_error (comps b1) c = Some v -> grad false (comp_of b1 v) = None).
  { intros v c Hc. destruct (grad_prep bnd _ b1 c v Hp Hc) as (v0 & Hv0 & ->). apply (C24_grad_of_nodes_refuted bnd _ n k); try assumption. apply (wf_comp (the_b a b) n m); [exact Wb|]. apply nth_error_In with c. exact Hv0. }
  destruct (comps b1) as [|v0 [|v1 [|v2 [|? ?]]]] eqn:Ec; try reflexivity; cbn [each_comp]; rewrite (G v0 0%nat eq_refl); reflexivity.
Qed.
Print Assumptions C83_nodes_refuted.
Example C83_case : let a := FLD true (fun _ => stretched) (repeat (ND [3; 3; 3] (fun js => match js with [i; j; l] => inject_Z (i + 2 * j) | _ => 0%Q end)) 3) in
  wf a (fun _ => 3) 3 /\ match convective_deriv a (Some linear_field) true with Some r => (val r 0 2 1 0 == - (4))%Q | None => False end.
Proof.
  split.
  - split; [|split; [reflexivity|repeat constructor]]. intros k Hk. split; [lia|]. split; [reflexivity|]. split; [reflexivity|]. intros. reflexivity.
  - vm_compute. reflexivity.
Qed.
