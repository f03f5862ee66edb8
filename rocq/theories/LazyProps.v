(** C39: slicing a field that is not in memory (a hyperslab read) gives what slicing the
    loaded array gives. *)
From Verif Require Import FldModel FwdSliceProofs FwdSliceNd FldProofs LayoutProps TransProps.
From Coq Require Import ZifyBool ZifyNat Arith.
Open Scope Z_scope.

(** ** indexing axis by axis *)
Inductive RA : list entry -> list Z -> list axis -> Prop :=
| RA_nil : RA [] [] []
| RA_cons e L x es sh axs : is_new e = false -> resolve [e] [L] = Some [x] -> RA es sh axs -> RA (e :: es) (L :: sh) (x :: axs).

Lemma RA_resolve es sh axs : RA es sh axs -> resolve es sh = Some axs.
Proof.
  intros H. induction H as [|e L x es sh axs Hn He _ IH]; [reflexivity|]. destruct e as [s|i|]; [| |discriminate]; cbn [resolve] in *.
  - destruct (sel L s); [|discriminate]. injection He as <-. rewrite IH. reflexivity.
  - destruct (_ && _); [|discriminate]. injection He as <-. rewrite IH. reflexivity.
Qed.
Lemma resolve_RA es : forall sh axs, Forall (fun e => is_new e = false) es -> length es = length sh ->
  resolve es sh = Some axs -> RA es sh axs.
Proof.
  induction es as [|e es IH]; intros [|L sh] axs Hn Hl H; try discriminate.
  - injection H as <-. constructor.
  - inversion Hn as [|? ? He Hn']; subst. cbn [length] in Hl. injection Hl as Hl.
    destruct e as [s|i|]; [| |discriminate]; cbn [resolve] in H.
    + destruct (sel L s) as [is|] eqn:E; [|discriminate]. destruct (resolve es sh) as [r|] eqn:Er; [|discriminate]. injection H as <-.
      constructor; [reflexivity| |apply IH; auto]. cbn [resolve]. rewrite E. reflexivity.
    + destruct (_ && _) eqn:E; [|discriminate]. destruct (resolve es sh) as [r|] eqn:Er; [|discriminate]. injection H as <-.
      constructor; [reflexivity| |apply IH; auto]. cbn [resolve]. rewrite E. reflexivity.
Qed.
Lemma RA_app a sa xa b sb xb : RA a sa xa -> RA b sb xb -> RA (a ++ b) (sa ++ sb) (xa ++ xb).
Proof. intros H K. induction H; [exact K|]. cbn [app]. constructor; auto. Qed.
Lemma RA_rev es sh axs : RA es sh axs -> RA (rev es) (rev sh) (rev axs).
Proof. intros H. induction H; [constructor|]. cbn [rev]. apply RA_app; auto. constructor; auto. constructor. Qed.
Lemma out_shape_app a b : out_shape (a ++ b) = out_shape a ++ out_shape b.
Proof. induction a as [|[] a IH]; cbn; rewrite ?IH; reflexivity. Qed.
Lemma out_shape_rev a : out_shape (rev a) = rev (out_shape a).
Proof.
  induction a as [|x a IH]; [reflexivity|]. cbn [rev]. rewrite out_shape_app, IH. destruct x; cbn; rewrite ?app_nil_r; reflexivity.
Qed.
Lemma src_idx_app a b : forall js ks, length js = length (out_shape a) -> src_idx (a ++ b) (js ++ ks) = src_idx a js ++ src_idx b ks.
Proof.
  induction a as [|x a IH]; intros js ks H.
  - destruct js; [reflexivity|discriminate].
  - destruct x as [is|i|]; cbn [out_shape length] in H.
    + destruct js as [|j js]; [discriminate|]. cbn [app src_idx]. rewrite IH by (cbn in H; congruence). reflexivity.
    + cbn [app src_idx]. rewrite IH by exact H. reflexivity.
    + destruct js as [|j js]; [discriminate|]. cbn [app src_idx]. apply IH. cbn in H. congruence.
Qed.
Lemma src_idx_rev a : Forall (fun x => x <> ANew) a -> forall js, length js = length (out_shape a) ->
  src_idx (rev a) (rev js) = rev (src_idx a js).
Proof.
  intros H. induction H as [|x a Hx _ IH]; intros js Hl.
  - destruct js; [reflexivity|discriminate].
  - destruct x as [is|i|]; [| |congruence]; cbn [out_shape length] in Hl.
    + destruct js as [|j js]; [discriminate|]. cbn [length] in Hl. injection Hl as Hl. cbn [rev src_idx].
      rewrite src_idx_app by (rewrite out_shape_rev, !rev_length; exact Hl). rewrite IH by exact Hl. reflexivity.
    + cbn [rev src_idx]. rewrite <- (app_nil_r (rev js)).
      rewrite src_idx_app by (rewrite out_shape_rev, !rev_length; exact Hl). rewrite IH by exact Hl. reflexivity.
Qed.
Lemma RA_no_new es sh axs : RA es sh axs -> Forall (fun x => x <> ANew) axs.
Proof.
  intros H. induction H as [|e L x es sh axs Hn He _ IH]; constructor; auto. destruct e as [s|i|]; [| |discriminate]; cbn [resolve] in He.
  - destruct (sel L s); [|discriminate]. injection He as <-. discriminate.
  - destruct (_ && _); [|discriminate]. injection He as <-. discriminate.
Qed.
Lemma RA_in_shape es sh axs : RA es sh axs -> Forall (fun L => 0 <= L) sh -> forall js, in_shape (out_shape axs) js ->
  in_shape sh (src_idx axs js).
Proof.
  intros H. induction H as [|e L x es sh axs Hn He _ IH]; intros Hp js Hj; [constructor|]. inversion Hp as [|? ? HL Hp']; subst.
  destruct e as [s|i|]; [| |discriminate]; cbn [resolve] in He.
  - destruct (sel L s) as [is|] eqn:E; [|discriminate]. injection He as <-. cbn [out_shape] in Hj.
    inversion Hj as [|? j ? r Hj1 Hj2]; subst. cbn [src_idx]. constructor; [|apply IH; auto].
    apply (sel_in_range L s is HL E). apply nth_In. lia.
  - destruct (_ && _) eqn:E; [|discriminate]. injection He as <-. cbn [out_shape src_idx] in *. constructor; [|apply IH; auto].
    destruct (i <? 0) eqn:E0; lia.
Qed.
Lemma RA_len es sh axs : RA es sh axs -> length es = length sh /\ length axs = length sh.
Proof. intros H. induction H; cbn; [auto|]. lia. Qed.
Lemma RA_src_len es sh axs : RA es sh axs -> forall js, length js = length (out_shape axs) -> length (src_idx axs js) = length sh.
Proof.
  intros H. induction H as [|e L x es sh axs Hn He _ IH]; intros js Hj; [reflexivity|].
  destruct e as [s|i|]; [| |discriminate]; cbn [resolve] in He.
  - destruct (sel L s) as [is|]; [|discriminate]. injection He as <-. destruct js as [|j js]; [discriminate|]. cbn [src_idx length] in *. rewrite IH; cbn in Hj; congruence.
  - destruct (_ && _); [|discriminate]. injection He as <-. cbn [src_idx length out_shape] in *. rewrite IH; auto.
Qed.

(** ** the two slices of the hyperslab read *)
Lemma insert_newaxes_plain sh es : Forall (fun e => is_new e = false) es -> insert_newaxes sh es = sh.
Proof.
  intros H. unfold insert_newaxes. generalize O. induction H as [|e es He _ IH]; intros k; [reflexivity|]. cbn [newax_inds_from]. rewrite He. apply IH.
Qed.
Lemma n_axes_plain es : Forall (fun e => is_new e = false) es -> n_axes es = length es.
Proof. intros H. unfold n_axes. induction H as [|e es He _ IH]; [reflexivity|]. cbn [filter]. rewrite He. cbn [negb length]. congruence. Qed.
Lemma ins_plain es : Forall (fun e => is_new e = false) es -> forall sh, length es = length sh -> ins es sh = sh.
Proof.
  intros H. induction H as [|e es He _ IH]; intros sh Hl; [reflexivity|]. destruct sh as [|L sh]; [discriminate|].
  destruct e; [| |discriminate]; cbn [ins]; rewrite IH by (cbn in Hl; congruence); reflexivity.
Qed.
Lemma axis_flags_plain es : Forall (fun e => is_new e = false) es -> forall rv, length rv = length es -> axis_flags es rv = rv.
Proof.
  intros H. induction H as [|e es He _ IH]; intros rv Hl; [destruct rv; reflexivity|]. destruct rv as [|r rv]; [discriminate|].
  destruct e; [| |discriminate]; cbn [axis_flags]; rewrite IH by (cbn in Hl; congruence); reflexivity.
Qed.
Lemma cull_keep ds : cull (keep_second ds) = final_second ds.
Proof. unfold cull, keep_second. induction ds as [|[] ds IH]; cbn [map flat_map final_second app]; rewrite ?IH; reflexivity. Qed.
Lemma cull_app a b : cull (a ++ b) = cull a ++ cull b.
Proof. unfold cull. apply flat_map_app. Qed.
Lemma cull_rev a : cull (rev a) = rev (cull a).
Proof. induction a as [|[e|] a IH]; [reflexivity| |]; cbn [rev]; rewrite cull_app, IH; cbn; rewrite ?app_nil_r; reflexivity. Qed.

Lemma fwd_loop_plain es : forall sh rv fs ds, Forall (fun e => is_new e = false) es -> length es = length sh -> length rv = length es ->
  fwd_loop es sh rv = Ok (fs, ds) ->
  Forall (fun e => is_new e = false) fs /\ length fs = length es /\ length ds = length es /\
  Forall (fun e => is_new e = false) (final_second ds).
Proof.
  induction es as [|e es IH]; intros [|L sh] [|r rv] fs ds Hn Hl Hr H; try discriminate.
  - injection H as <- <-. repeat split; constructor.
  - inversion Hn as [|? ? He Hn']; subst. cbn [fwd_loop] in H. destruct (fwd1 L e r) as [[f d]|] eqn:E1; [|discriminate].
    destruct (fwd_loop es sh rv) as [[fs' ds']|] eqn:E2; [|discriminate]. injection H as <- <-.
    destruct (IH sh rv fs' ds' Hn' ltac:(cbn in Hl; congruence) ltac:(cbn in Hr; congruence) E2) as (H1 & H2 & H3 & H4).
    assert (Hf : is_new f = false /\ d <> SNew).
    { destruct e as [s|i|]; [| |discriminate]; cbn [fwd1] in E1.
      - destruct (fwd_slice L s r) as [[f0 d0]|] eqn:Ef; [|discriminate]. injection E1 as <- <-. split; [reflexivity|].
        intros ->. revert Ef. unfold fwd_slice. clear. cbv zeta.
        repeat match goal with |- context [if ?c then _ else _] => match c with context [if _ then _ else _] => fail 1 | _ => destruct c end
               | |- context [match ?o with Some _ => _ | None => _ end] => match o with context [match _ with Some _ => _ | None => _ end] => fail 1 | _ => destruct o end end; discriminate.
      - injection E1 as <- <-. split; [reflexivity|discriminate]. }
    destruct Hf as [Hf Hd]. split; [constructor; auto|]. split; [cbn; congruence|]. split; [cbn; congruence|].
    destruct d; cbn [final_second]; try (constructor; [reflexivity|]; exact H4); [exact H4|contradiction].
Qed.

(** what the hyperslab read of the spatial axes does *)
Lemma keep_correct sh es rv first second : Forall (fun L => 0 <= L) sh -> Forall (fun e => is_new e = false) es ->
  length es = length sh -> length rv = length sh -> entries_ok sh es rv ->
  make_fwd_slice_keep sh es rv = Some (first, second) ->
  exists ax1 ax2 axw, RA first sh ax1 /\ RA (cull second) (out_shape ax1) ax2 /\ RA es sh axw /\ length second = length sh /\
    out_shape ax2 = out_shape axw /\
    forall js, in_shape (out_shape axw) js -> src_idx ax1 (src_idx ax2 js) = flip_idx sh rv (src_idx axw js).
Proof.
  intros Hp Hn Hl Hr Hok H. unfold make_fwd_slice_keep in H. rewrite insert_newaxes_plain in H by exact Hn.
  rewrite Hl, Nat.sub_diag in H. cbn [repeat] in H. rewrite app_nil_r in H.
  rewrite Hl, Hr, Nat.sub_diag in H. cbn [repeat] in H. rewrite app_nil_r in H.
  destruct (fwd_loop es sh rv) as [[fs ds]|] eqn:E; [|discriminate]. injection H as <- <-.
  destruct (fwd_loop_plain es sh rv fs ds Hn Hl ltac:(congruence) E) as (H1 & H2 & H3 & H4).
  rewrite <- (ins_plain es Hn sh Hl) in E.
  destruct (fwd_loop_correct es sh rv fs ds Hp ltac:(rewrite n_axes_plain; auto) ltac:(congruence) Hok E)
    as (ax1 & ax2 & axw & K1 & K2 & K3 & K4 & K5 & K6).
  assert (Eff : final_first fs = fs).
  { unfold final_first. clear -H1. induction H1 as [|e fs He _ IH]; [reflexivity|]. cbn [filter]. rewrite He. cbn [negb]. rewrite IH. reflexivity. }
  rewrite Eff in *. exists ax1, ax2, axw.
  assert (R1 : RA fs sh ax1) by (apply resolve_RA; auto; congruence).
  split; [exact R1|]. split.
  - rewrite cull_keep. apply resolve_RA; auto.
    (* as many entries as axes left *)
    clear -E R1 Hn Hl Hr. rewrite (ins_plain es Hn sh Hl) in E. assert (Hr' : length rv = length es) by congruence. clear Hr.
    revert sh rv fs ds ax1 Hl Hr' E R1. induction Hn as [|e es He _ IH]; intros [|L sh] [|r rv] fs ds ax1 Hl Hr E R1; try discriminate.
    + injection E as <- <-. inversion R1; subst. reflexivity.
    + cbn [fwd_loop] in E. destruct (fwd1 L e r) as [[f d]|] eqn:E1; [|discriminate].
      destruct (fwd_loop es sh rv) as [[fs' ds']|] eqn:E2; [|discriminate]. injection E as <- <-.
      inversion R1 as [|? ? x ? ? axs Hf Ef R1' ]; subst.
      specialize (IH sh rv fs' ds' axs ltac:(cbn in Hl; congruence) ltac:(cbn in Hr; congruence) E2 R1').
      destruct e as [s|i|]; [| |discriminate]; cbn [fwd1] in E1.
      * destruct (fwd_slice L s r) as [[f0 d0]|] eqn:Efs; [|discriminate]. injection E1 as <- <-.
        cbn [resolve] in Ef. destruct (sel L f0); [|discriminate]. injection Ef as <-.
        assert (Hd : d0 = SFwd \/ d0 = SRev).
        { revert Efs. unfold fwd_slice. clear. cbv zeta.
          repeat match goal with |- context [if ?c then _ else _] => match c with context [if _ then _ else _] => fail 1 | _ => destruct c end
               | |- context [match ?o with Some _ => _ | None => _ end] => match o with context [match _ with Some _ => _ | None => _ end] => fail 1 | _ => destruct o end end;
          intros H; try discriminate; injection H as _ <-; auto. }
        destruct Hd as [-> | ->]; cbn [final_second out_shape length]; congruence.
      * injection E1 as <- <-. cbn [resolve] in Ef. destruct (_ && _); [|discriminate]. injection Ef as <-. exact IH.
  - split; [apply resolve_RA; auto|]. split; [unfold keep_second; rewrite map_length; congruence|]. split; [exact K4|].
    rewrite axis_flags_plain in K6 by (auto; congruence). exact K6.
Qed.

Section P.
Context {C V : Type}.
Implicit Types (f : fld C V) (a d : nd V).

(** ** scalar fields *)
Lemma lazy_scalar f es comp got : holds_scalar f -> Forall (fun e => is_new e = false) es -> length es = length (f_crds f) ->
  entries_ok (sshape f) es (f_refl f) -> slice_hyper f es comp = Some got ->
  exists want, slice_loaded f es comp = Some want /\ nd_eq got want.
Proof.
  intros Hh Hn Hl Hok H. destruct (load_scalar f Hh) as (a & d & Es & Ed & Sd & Gd).
  assert (Nk : nr_comp f = None) by (unfold nr_comp; destruct Hh as (-> & _); reflexivity).
  assert (Nc : nr_comps f = Some 0) by (unfold nr_comps; destruct Hh as (-> & _); reflexivity).
  assert (Sa : shape a = native_sshape f) by (destruct Hh as (_ & _ & _ & a' & E & S); congruence).
  assert (Hr : length (f_refl f) = length (sshape f)) by (rewrite sshape_len; apply Hh).
  unfold slice_hyper in H. rewrite Es in H. destruct (make_fwd_slice_keep _ _ _) as [[first second]|] eqn:Ek; [|discriminate].
  destruct (keep_correct _ _ _ _ _ (sshape_nonneg f) Hn ltac:(rewrite sshape_len; exact Hl) Hr Hok Ek)
    as (ax1 & ax2 & axw & R1 & R2 & R3 & L2 & So & G).
  rewrite Nk, Nc in H.
  unfold slice_loaded. rewrite Ed, Nk. unfold nd_index. rewrite Sd, (RA_resolve _ _ _ R3). eexists. split; [reflexivity|].
  assert (Hin : forall js, in_shape (out_shape axw) js -> in_shape (sshape f) (src_idx axw js)).
  { intros js Hj. apply (RA_in_shape _ _ _ R3); auto. apply sshape_nonneg. }
  destruct (f_zyx f) eqn:Ez.
  - destruct (negb _) in H; [discriminate|]. unfold nd_index in H. rewrite Sa in H. unfold native_sshape in H. rewrite Ez in H.
    rewrite (RA_resolve _ _ _ (RA_rev _ _ _ R1)) in H. cbn [shape get] in H. rewrite cull_rev, out_shape_rev in H.
    rewrite (RA_resolve _ _ _ (RA_rev _ _ _ R2)) in H. cbn [shape get] in H.
    change (negb (0 =? 0)) with false in H. cbn [andb] in H. injection H as <-.
    split; cbn [shape get nd_T]; [rewrite out_shape_rev, rev_involutive; exact So|].
    rewrite out_shape_rev, rev_involutive, So. intros js Hj. pose proof (in_shape_len _ _ Hj) as Lj.
    rewrite src_idx_rev; [|apply (RA_no_new _ _ _ R2)|congruence].
    rewrite src_idx_rev; [|apply (RA_no_new _ _ _ R1)|apply (RA_src_len _ _ _ R2); congruence].
    rewrite G by exact Hj. rewrite Gd by (apply Hin; exact Hj). reflexivity.
  - destruct (negb _) in H; [discriminate|]. unfold nd_index in H. rewrite Sa in H. unfold native_sshape in H. rewrite Ez in H.
    rewrite (RA_resolve _ _ _ R1) in H. cbn [shape get] in H. rewrite (RA_resolve _ _ _ R2) in H. cbn [shape get] in H. injection H as <-.
    split; cbn [shape get]; [exact So|]. rewrite So. intros js Hj. rewrite G by exact Hj. rewrite Gd by (apply Hin; exact Hj).
    reflexivity.
Qed.

(** ** the component slice *)
Lemma comp_entry n comp x : 0 <= n -> resolve [centry comp] [n] = Some [x] ->
  exists x2, RA [centry comp] [n] [x] /\ RA (if single comp then [] else [efull]) (out_shape [x]) x2 /\
    out_shape x2 = out_shape [x] /\ (length (out_shape [x]) = if single comp then O else 1%nat) /\
    (forall cs, in_shape (out_shape [x]) cs -> src_idx x2 cs = cs) /\
    forall cs, in_shape (out_shape [x]) cs -> exists c, src_idx [x] cs = [c] /\ 0 <= c < n.
Proof.
  intros Hn H.
  assert (R : RA [centry comp] [n] [x]) by (constructor; [destruct comp; reflexivity|exact H|constructor]).
  assert (Hc : forall cs, in_shape (out_shape [x]) cs -> exists c, src_idx [x] cs = [c] /\ 0 <= c < n).
  { intros cs Hcs. pose proof (RA_in_shape _ _ _ R ltac:(repeat constructor; exact Hn) cs Hcs) as K.
    remember (src_idx [x] cs) as q. inversion K as [|? c ? r Hc Kr E1 E2]; subst. inversion Kr; subst. exists c. split; [reflexivity|exact Hc]. }
  destruct comp as [s|i]; cbn [centry single resolve] in *.
  - destruct (sel n s) as [is|] eqn:E; [|discriminate]. injection H as <-. cbn [out_shape] in *.
    exists [ASel (prog 0 1 (Z.to_nat (Z.of_nat (length is))))]. split; [exact R|]. split.
    + constructor; [reflexivity| |constructor]. cbn [resolve efull]. rewrite sel_none by lia. reflexivity.
    + split; [cbn; rewrite prog_length; f_equal; lia|]. split; [reflexivity|]. split; [|exact Hc].
      intros cs Hcs. apply (src_idx_full [Z.of_nat (length is)]). exact Hcs.
  - destruct (_ && _) eqn:E; [|discriminate]. injection H as <-. cbn [out_shape] in *.
    exists []. split; [exact R|]. split; [constructor|]. split; [reflexivity|]. split; [reflexivity|]. split; [|exact Hc].
    intros cs Hcs. inversion Hcs. reflexivity.
Qed.
Lemma resolve_comp_inv e es n sh axs : is_new e = false -> resolve (e :: es) (n :: sh) = Some axs -> exists x, resolve [e] [n] = Some [x].
Proof.
  intros Hn H. destruct e as [s|i|]; [| |discriminate]; cbn [resolve] in *.
  - destruct (sel n s); [|discriminate]. eexists. reflexivity.
  - destruct (_ && _); [|discriminate]. eexists. reflexivity.
Qed.
Lemma resolve_last_inv es e : is_new e = false -> forall sh n axs, Forall (fun e => is_new e = false) es -> length es = length sh ->
  resolve (es ++ [e]) (sh ++ [n]) = Some axs -> exists x, resolve [e] [n] = Some [x].
Proof.
  intros He. induction es as [|e0 es IH]; intros [|L sh] n axs Hn Hl H; try discriminate.
  - cbn [app] in H. apply (resolve_comp_inv e [] n []  axs He H).
  - inversion Hn as [|? ? He0 Hn']; subst. cbn [app resolve] in H. destruct e0 as [s|i|]; [| |discriminate].
    + destruct (sel L s); [|discriminate]. destruct (resolve (es ++ [e]) (sh ++ [n])) eqn:E; [|discriminate].
      apply (IH sh n l0); auto.
    + destruct (_ && _); [|discriminate]. destruct (resolve (es ++ [e]) (sh ++ [n])) eqn:E; [|discriminate].
      apply (IH sh n l); auto.
Qed.

(** ** vector fields stored with reversed space axes *)
Lemma lazy_vector f sl n es comp got a : holds f sl n -> layout_of f = sl -> f_src f = SArr a -> f_zyx f = true -> f_crds f <> [] ->
  Forall (fun e => is_new e = false) es -> length es = length (f_crds f) ->
  entries_ok (sshape f) es (f_refl f) -> slice_hyper f es comp = Some got ->
  exists want, slice_loaded f es comp = Some want /\ nd_eq got want.
Proof.
  intros Hh Hlay Es Ez Hne Hn Hl Hok H.
  assert (Lv : vector_layout sl) by (destruct Hh as (_ & _ & _ & K); rewrite Es in K; apply K).
  assert (Lv' : vector_layout (layout_of f)) by (rewrite Hlay; exact Lv).
  destruct (C37_load C V f sl n Hh Lv' (or_introl Hlay)) as (d & Ed & Sd & Gd).
  pose proof (holds_nr_comp f sl n Hh Lv') as Nk. pose proof (holds_nr_comps f sl n Hh) as Nc.
  pose proof Hh as (Hv & Hpos & Hr & Ksrc). rewrite Es in Ksrc. destruct Ksrc as (_ & Sa & Am).
  rewrite Hlay in *.
  unfold stored in Gd. rewrite Es, Ez in Gd. unfold mirrored in Gd.
  set (m := length (f_crds f)) in *. assert (Hm : (0 < m)%nat) by (subst m; destruct (f_crds f); [congruence|cbn; lia]).
  assert (Hr' : length (f_refl f) = length (sshape f)) by (rewrite sshape_len; exact Hr).
  unfold native_sshape in Sa. rewrite Ez in Sa.
  unfold slice_hyper in H. rewrite Es in H. destruct (make_fwd_slice_keep _ _ _) as [[first second]|] eqn:Ek; [|discriminate].
  destruct (keep_correct _ _ _ _ _ (sshape_nonneg f) Hn ltac:(rewrite sshape_len; exact Hl) Hr' Hok Ek)
    as (ax1 & ax2 & axw & R1 & R2 & R3 & L2 & So & G).
  destruct (RA_len _ _ _ R1) as [L1 _]. rewrite sshape_len in L1, L2. fold m in L1, L2.
  rewrite Nk, Nc, Ez in H. replace (n =? 0) with false in H by lia. cbn [negb andb] in H.
  assert (Hin : forall js, in_shape (out_shape axw) js -> in_shape (sshape f) (src_idx axw js)).
  { intros js Hj. apply (RA_in_shape _ _ _ R3); auto. apply sshape_nonneg. }
  (* entries in the order of the array *)
  set (E1 := match sl with LInter => rev first ++ [centry comp] | _ => centry comp :: rev first end).
  set (E2 := match sl with LInter => rev (cull second) ++ (if single comp then [] else [efull])
             | _ => (if single comp then [] else [efull]) ++ rev (cull second) end).
  assert (Hs : (if negb (length (shape a) =? length E1)%nat then None else
     match nd_index a E1 with None => None | Some b => match nd_index b E2 with None => None | Some d =>
       if negb (single comp) then
         let m := length (shape d) in
         match sl with
         | LInter => Some (nd_transpose (rev (seq 0 (m - 1)) ++ [(m - 1)%nat]) d)
         | _ => Some (nd_transpose (O :: rev (seq 1 (m - 1))) d) end
       else Some (nd_T d) end end) = Some got).
  { rewrite <- H. clear H. subst E1 E2. destruct Lv as [-> | ->].
    - cbn [insert_at]. destruct (single comp); cbn [insert_at app]; fold efull; rewrite ?cull_rev; [reflexivity|].
      change (cull (Some efull :: rev second)) with (efull :: cull (rev second)). rewrite cull_rev. reflexivity.
    - replace (match m with O => O | S _ => length first end) with m by (destruct m; lia).
      rewrite !insert_at_len' by (rewrite rev_length; lia). destruct m as [|m']; [lia|].
      destruct (single comp); fold efull; rewrite ?cull_app, ?cull_rev, ?app_nil_r; [reflexivity|]. reflexivity. }
  clear H. destruct (negb (length (shape a) =? length E1)%nat); [discriminate|].
  unfold nd_index at 1 in Hs. destruct (resolve E1 (shape a)) as [A1|] eqn:EA1; [|discriminate].
  assert (Hx : exists x, resolve [centry comp] [n] = Some [x]).
  { rewrite Sa in EA1. subst E1. destruct Lv as [-> | ->]; cbn [lay_shape] in EA1.
    - apply resolve_comp_inv in EA1; [exact EA1|]. destruct comp; reflexivity.
    - apply resolve_last_inv in EA1; [exact EA1| | |]; [destruct comp; reflexivity| |rewrite !rev_length, sshape_len; exact L1].
      apply Forall_rev. clear -R1. induction R1; constructor; auto. }
  destruct Hx as [x Hx]. destruct (comp_entry n comp x ltac:(lia) Hx) as (x2 & C1 & C2 & C3 & C4 & C5 & C6).
  set (X1 := match sl with LInter => rev ax1 ++ [x] | _ => x :: rev ax1 end).
  set (X2 := match sl with LInter => rev ax2 ++ x2 | _ => x2 ++ rev ax2 end).
  assert (RX1 : RA E1 (shape a) X1).
  { rewrite Sa. subst E1 X1. destruct Lv as [-> | ->]; cbn [lay_shape].
    - apply (RA_app _ _ _ _ _ _ C1 (RA_rev _ _ _ R1)).
    - apply RA_app; [apply RA_rev; exact R1|exact C1]. }
  rewrite (RA_resolve _ _ _ RX1) in EA1. injection EA1 as <-.
  assert (RX2 : RA E2 (out_shape X1) X2).
  { subst E2 X1 X2. destruct Lv as [-> | ->].
    - change (x :: rev ax1) with ([x] ++ rev ax1). rewrite out_shape_app, out_shape_rev. apply RA_app; [exact C2|apply RA_rev; exact R2].
    - rewrite out_shape_app, out_shape_rev. apply RA_app; [apply RA_rev; exact R2|exact C2]. }
  unfold nd_index in Hs. cbn [shape get] in Hs. rewrite (RA_resolve _ _ _ RX2) in Hs. cbn [shape get] in Hs.
  (* the loaded array *)
  set (EW := match sl with LInter => es ++ [centry comp] | _ => centry comp :: es end).
  set (XW := match sl with LInter => axw ++ [x] | _ => x :: axw end).
  assert (RW : RA EW (shape d) XW).
  { rewrite Sd. subst EW XW. destruct Lv as [-> | ->]; cbn [lay_shape]; [apply (RA_app _ _ _ _ _ _ C1 R3)|apply RA_app; assumption]. }
  exists (ND (out_shape XW) (fun js => get d (src_idx XW js))). split.
  { unfold slice_loaded. rewrite Ed, Nk.
    assert (EE : insert_at (match match sl with LInter => m | _ => O end with O => O | S _ => length es end) (centry comp) es = EW).
    { subst EW. destruct Lv as [-> | ->]; [reflexivity|]. destruct m as [|m']; [lia|]. apply insert_at_len. }
    rewrite EE. unfold nd_index. rewrite (RA_resolve _ _ _ RW). reflexivity. }
  (* the common value *)
  assert (Key : forall cs js, in_shape (out_shape [x]) cs -> in_shape (out_shape axw) js ->
    get a (src_idx X1 (src_idx X2 (match sl with LInter => rev js ++ cs | _ => cs ++ rev js end))) =
    get d (src_idx XW (match sl with LInter => js ++ cs | _ => cs ++ js end))).
  { intros cs js Hcs Hjs. pose proof (in_shape_len _ _ Hjs) as Lj. destruct (C6 cs Hcs) as (c & Ec & Hc).
    pose proof (in_shape_len _ _ Hcs) as Lcs.
    assert (P2 : src_idx (rev ax2) (rev js) = rev (src_idx ax2 js)).
    { apply src_idx_rev; [apply (RA_no_new _ _ _ R2)|congruence]. }
    assert (L2' : length (src_idx ax2 js) = length (out_shape ax1)) by (apply (RA_src_len _ _ _ R2); congruence).
    assert (P1 : src_idx (rev ax1) (rev (src_idx ax2 js)) = rev (src_idx ax1 (src_idx ax2 js))).
    { apply src_idx_rev; [apply (RA_no_new _ _ _ R1)|exact L2']. }
    pose proof (Gd c (src_idx axw js) Hc (Hin js Hjs)) as Gv. subst X1 X2 XW. destruct Lv as [-> | ->]; cbn [comp_at] in Gv.
    - rewrite src_idx_app by (rewrite C3; exact Lcs). rewrite (C5 cs Hcs), P2.
      change (x :: rev ax1) with ([x] ++ rev ax1). rewrite src_idx_app by exact Lcs. rewrite Ec, P1, G by exact Hjs.
      change (x :: axw) with ([x] ++ axw). rewrite src_idx_app by exact Lcs. rewrite Ec. exact Gv.
    - rewrite src_idx_app by (rewrite out_shape_rev, !rev_length; congruence). rewrite (C5 cs Hcs), P2.
      rewrite src_idx_app by (rewrite out_shape_rev, !rev_length; exact L2'). rewrite Ec, P1, G by exact Hjs.
      rewrite src_idx_app by exact Lj. rewrite Ec. exact Gv. }
  assert (OW : out_shape XW = match sl with LInter => out_shape axw ++ out_shape [x] | _ => out_shape [x] ++ out_shape axw end).
  { subst XW. destruct Lv as [-> | ->]; [change (x :: axw) with ([x] ++ axw)|]; apply out_shape_app. }
  assert (O2 : out_shape X2 = match sl with LInter => rev (out_shape axw) ++ out_shape [x] | _ => out_shape [x] ++ rev (out_shape axw) end).
  { subst X2. destruct Lv as [-> | ->]; rewrite out_shape_app, out_shape_rev, So, C3; reflexivity. }
  rewrite O2 in Hs. destruct (single comp) eqn:Esg.
  - (* one component: no component axis left *)
    destruct (out_shape [x]) as [|k ks] eqn:Ox; [|discriminate C4]. cbn [negb] in Hs. injection Hs as <-.
    assert (O2' : out_shape X2 = rev (out_shape axw)) by (rewrite O2; destruct Lv as [-> | ->]; cbn; rewrite ?app_nil_r; reflexivity).
    assert (OW' : out_shape XW = out_shape axw) by (rewrite OW; destruct Lv as [-> | ->]; cbn; rewrite ?app_nil_r; reflexivity).
    split; cbn [shape get nd_T].
    + rewrite OW'. destruct Lv as [-> | ->]; cbn [app]; rewrite ?app_nil_r; apply rev_involutive.
    + intros js Hj. assert (Hj' : in_shape (out_shape axw) js).
      { destruct Lv as [-> | ->]; cbn [app] in Hj; rewrite ?app_nil_r, rev_involutive in Hj; exact Hj. }
      specialize (Key [] js ltac:(constructor) Hj'). destruct Lv as [-> | ->]; cbn [app] in Key; rewrite ?app_nil_r in Key; exact Key.
  - destruct (out_shape [x]) as [|k [|k' ks]] eqn:Ox; cbn in C4; try discriminate. cbn [negb] in Hs.
    set (r := length (out_shape axw)).
    assert (Lr : (length (match sl with LInter => rev (out_shape axw) ++ [k] | _ => [k] ++ rev (out_shape axw) end) - 1)%nat = r).
    { subst r. destruct sl; rewrite ?app_length, ?rev_length; cbn [length]; rewrite ?rev_length; lia. }
    cbn [shape] in Hs. rewrite Lr in Hs.
    destruct Lv as [-> | ->].
    + injection Hs as <-. split; cbn [shape get nd_transpose].
      * rewrite OW. cbn [app]. rewrite shape_flat by (rewrite rev_length; reflexivity). rewrite rev_involutive. reflexivity.
      * cbn [app] in *. rewrite shape_flat by (rewrite rev_length; reflexivity). rewrite rev_involutive. intros js Hj.
        inversion Hj as [|? c ? js' Hc Hj']; subst. rewrite unperm_flat by (apply in_shape_len; exact Hj').
        apply (Key [c] js'); [repeat constructor; apply Hc|exact Hj'].
    + injection Hs as <-. split; cbn [shape get nd_transpose].
      * rewrite OW. rewrite shape_inter by (rewrite rev_length; reflexivity). rewrite rev_involutive. reflexivity.
      * rewrite shape_inter by (rewrite rev_length; reflexivity). rewrite rev_involutive. intros js Hj.
        apply in_shape_snoc_inv in Hj as (js' & c & -> & Hj' & Hc). rewrite unperm_inter by (apply in_shape_len; exact Hj').
        apply (Key [c] js'); [repeat constructor; apply Hc|exact Hj'].
Qed.
End P.

(** ** requests that are served *)
(** one axis of [L] places: a slice with bounds in range that selects something, or an
    index in range *)
Definition request_ok (L : Z) (e : entry) : Prop :=
  match e with
  | ESlice s => bound_ok L (p_start s) /\ bound_ok L (p_stop s) /\ ~ (step_of s < 0 /\ p_start s = Some L) /\
                exists i is, sel L s = Some (i :: is)
  | EInt i => 0 <= i < L
  | ENew => False
  end.
(** the component selection of a vector field of [n] components *)
Definition comp_ok (n : Z) (c : cslice) : Prop :=
  match c with CSlice s => step_of s <> 0 | CIdx i => - n <= i < n end.

Lemma requests_plain sh es : Forall2 request_ok sh es -> Forall (fun e => is_new e = false) es /\ length es = length sh.
Proof. intros H. induction H as [|L e sh es Hr _ [IH1 IH2]]; [split; constructor|]. split; [constructor; [destruct e; [reflexivity..|destruct Hr]|exact IH1]|cbn; congruence]. Qed.
Lemma requests_entries sh es : Forall2 request_ok sh es -> forall rv, entries_ok sh es rv.
Proof.
  intros H. induction H as [|L e sh es Hr _ IH]; intros rv; [exact I|]. destruct e as [s|i|]; [| |destruct Hr]; cbn [entries_ok]; (split; [|apply IH]).
  - cbn [entry_ok]. intros (_ & H1 & H2). destruct Hr as (_ & _ & Hb & _). apply Hb. auto.
  - cbn [entry_ok request_ok] in *. destruct (hd false rv); lia.
Qed.
Lemma requests_keep sh es : Forall (fun L => 0 <= L) sh -> Forall2 request_ok sh es -> forall rv, length rv = length sh ->
  exists first second, make_fwd_slice_keep sh es rv = Some (first, second).
Proof.
  intros Hp H rv Hr. destruct (requests_plain sh es H) as [Hn Hl]. unfold make_fwd_slice_keep.
  rewrite insert_newaxes_plain by exact Hn. rewrite Hl, Nat.sub_diag. cbn [repeat]. rewrite app_nil_r.
  rewrite Hl, Hr, Nat.sub_diag. cbn [repeat]. rewrite app_nil_r.
  assert (E : exists fs ds, fwd_loop es sh rv = Ok (fs, ds)).
  { clear Hn Hl. revert rv Hr. induction H as [|L e sh es Hq _ IH]; intros [|r rv] Hr; try discriminate; [exists [], []; reflexivity|].
    inversion Hp as [|? ? HL Hp']; subst. destruct (IH Hp' rv ltac:(cbn in Hr; congruence)) as (fs & ds & E).
    destruct e as [s|i|]; [| |destruct Hq]; cbn [fwd_loop fwd1].
    - destruct Hq as (B1 & B2 & B3 & i & is & Es). destruct (fwd_slice_returns L s r (i :: is) HL B1 B2 B3 Es ltac:(discriminate)) as (f & d & ->).
      rewrite E. eexists. eexists. reflexivity.
    - rewrite E. eexists. eexists. reflexivity. }
  destruct E as (fs & ds & ->). eexists. eexists. reflexivity.
Qed.

Lemma hyper_scalar_some {C V} (f : fld C V) es comp : holds_scalar f -> Forall2 request_ok (sshape f) es ->
  exists got, slice_hyper f es comp = Some got.
Proof.
  intros Hh H. destruct (requests_plain _ _ H) as [Hn Hl].
  destruct Hh as (Hv & Hr & Hf & a & Es & Sa). assert (Hr' : length (f_refl f) = length (sshape f)) by (rewrite sshape_len; exact Hr).
  destruct (requests_keep _ _ (sshape_nonneg f) H _ Hr') as (first & second & Ek).
  destruct (keep_correct _ _ _ _ _ (sshape_nonneg f) Hn Hl Hr' (requests_entries _ _ H _) Ek) as (ax1 & ax2 & axw & R1 & R2 & R3 & L2 & So & G).
  assert (Nk : nr_comp f = None) by (unfold nr_comp; rewrite Hv; reflexivity).
  assert (Nc : nr_comps f = Some 0) by (unfold nr_comps; rewrite Hv; reflexivity).
  destruct (RA_len _ _ _ R1) as [L1 _].
  unfold slice_hyper. rewrite Es, Ek, Nk, Nc, Sa. unfold nd_index, native_sshape. rewrite Sa. unfold native_sshape.
  destruct (f_zyx f).
  - rewrite !rev_length, L1, Nat.eqb_refl. cbn [negb]. rewrite (RA_resolve _ _ _ (RA_rev _ _ _ R1)). cbn [shape get].
    rewrite cull_rev, out_shape_rev, (RA_resolve _ _ _ (RA_rev _ _ _ R2)). cbn [andb negb Z.eqb]. eexists. reflexivity.
  - rewrite L1, Nat.eqb_refl. cbn [negb]. rewrite (RA_resolve _ _ _ R1). cbn [shape get]. rewrite (RA_resolve _ _ _ R2). eexists. reflexivity.
Qed.

Lemma hyper_vector_some {C V} (f : fld C V) sl n es comp a : holds f sl n -> layout_of f = sl -> f_src f = SArr a -> f_zyx f = true ->
  f_crds f <> [] -> Forall2 request_ok (sshape f) es -> comp_ok n comp -> exists got, slice_hyper f es comp = Some got.
Proof.
  intros Hh Hlay Es Ez Hne H Hco. destruct (requests_plain _ _ H) as [Hn Hl].
  assert (Lv : vector_layout sl) by (destruct Hh as (_ & _ & _ & K); rewrite Es in K; apply K).
  assert (Lv' : vector_layout (layout_of f)) by (rewrite Hlay; exact Lv).
  pose proof (holds_nr_comp f sl n Hh Lv') as Nk. pose proof (holds_nr_comps f sl n Hh) as Nc.
  pose proof Hh as (Hv & Hpos & Hr & Ksrc). rewrite Es in Ksrc. destruct Ksrc as (_ & Sa & Am). rewrite Hlay in *.
  assert (Hr' : length (f_refl f) = length (sshape f)) by (rewrite sshape_len; exact Hr).
  unfold native_sshape in Sa. rewrite Ez in Sa.
  destruct (requests_keep _ _ (sshape_nonneg f) H _ Hr') as (first & second & Ek).
  destruct (keep_correct _ _ _ _ _ (sshape_nonneg f) Hn Hl Hr' (requests_entries _ _ H _) Ek) as (ax1 & ax2 & axw & R1 & R2 & R3 & L2 & So & G).
  destruct (RA_len _ _ _ R1) as [L1 _]. rewrite sshape_len in L1, L2.
  set (m := length (f_crds f)) in *. assert (Hm : (0 < m)%nat) by (subst m; destruct (f_crds f); [congruence|cbn; lia]).
  assert (Hx : exists x, resolve [centry comp] [n] = Some [x]).
  { destruct comp as [s|i]; cbn [centry resolve comp_ok] in *.
    - unfold sel. replace (step_of s =? 0) with false by lia. eexists. reflexivity.
    - replace ((- n <=? i) && (i <? n)) with true by lia. eexists. reflexivity. }
  destruct Hx as [x Hx]. destruct (comp_entry n comp x ltac:(lia) Hx) as (x2 & C1 & C2 & _).
  unfold slice_hyper. rewrite Es, Ek, Nk, Nc, Ez. replace (n =? 0) with false by lia. cbn [negb andb].
  destruct Lv as [-> | ->]; cbn [lay_shape] in Sa.
  - cbn [insert_at]. rewrite Sa. cbn [length]. rewrite !rev_length, sshape_len, L1. fold m. rewrite Nat.eqb_refl. cbn [negb].
    unfold nd_index. rewrite Sa. pose proof (RA_resolve _ _ _ (RA_app _ _ _ _ _ _ C1 (RA_rev _ _ _ R1))) as Q. cbn [app] in Q. rewrite Q. clear Q. cbn [shape get].
    assert (RX2 : RA ((if single comp then [] else [efull]) ++ rev (cull second)) (out_shape ([x] ++ rev ax1)) (x2 ++ rev ax2)).
    { rewrite out_shape_app, out_shape_rev. apply RA_app; [exact C2|apply RA_rev; exact R2]. }
    assert (Ec : cull (if single comp then rev second else Some (ESlice (PS None None None)) :: rev second) =
      (if single comp then [] else [efull]) ++ rev (cull second)).
    { destruct (single comp); [apply cull_rev|]. change (efull :: cull (rev second) = efull :: rev (cull second)). rewrite cull_rev. reflexivity. }
    rewrite Ec. cbn [app] in RX2. apply RA_resolve in RX2. cbn [app] in RX2 |- *. rewrite RX2. destruct (single comp); eexists; reflexivity.
  - replace (match m with O => O | S _ => length first end) with m by (destruct m; lia).
    rewrite !insert_at_len' by (rewrite rev_length; lia). rewrite Sa, !app_length, !rev_length, sshape_len, L1. fold m. rewrite Nat.eqb_refl. cbn [negb].
    unfold nd_index. rewrite Sa. rewrite (RA_resolve _ _ _ (RA_app _ _ _ _ _ _ (RA_rev _ _ _ R1) C1)). cbn [shape get].
    assert (RX2 : RA (rev (cull second) ++ (if single comp then [] else [efull])) (out_shape (rev ax1 ++ [x])) (rev ax2 ++ x2)).
    { rewrite out_shape_app, out_shape_rev. apply RA_app; [apply RA_rev; exact R2|exact C2]. }
    assert (Ec : cull (if single comp then rev second else rev second ++ [Some (ESlice (PS None None None))]) =
      rev (cull second) ++ (if single comp then [] else [efull])).
    { destruct (single comp); rewrite ?cull_app, cull_rev, ?app_nil_r; reflexivity. }
    rewrite Ec, (RA_resolve _ _ _ RX2). destruct m; [lia|]. destruct (single comp); eexists; reflexivity.
Qed.

(** ** theorems *)

(** Scalar fields: every rank, shape, set of reflected axes, storage order and every
    selection that selects something. *)
Theorem C39_scalar : forall (C V : Type) (f : fld C V) (es : list entry) (comp : cslice),
  holds_scalar f -> Forall2 request_ok (sshape f) es ->
  exists got want, slice_hyper f es comp = Some got /\ slice_loaded f es comp = Some want /\ nd_eq got want.
Proof.
  intros C V f es comp Hh H. destruct (hyper_scalar_some f es comp Hh H) as (got & E). destruct (requests_plain _ _ H) as [Hn Hl].
  destruct (lazy_scalar f es comp got Hh Hn ltac:(rewrite Hl; apply sshape_len) (requests_entries _ _ H _) E) as (want & E' & K). eauto.
Qed.
Print Assumptions C39_scalar.

(** Vector fields of both layouts stored in reversed axis order: every component
    selection. *)
Theorem C39_vector_reversed_order : forall (C V : Type) (f : fld C V) sl n (a : nd V) (es : list entry) (comp : cslice),
  holds f sl n -> layout_of f = sl -> f_src f = SArr a -> f_zyx f = true -> f_crds f <> [] ->
  Forall2 request_ok (sshape f) es -> comp_ok n comp ->
  exists got want, slice_hyper f es comp = Some got /\ slice_loaded f es comp = Some want /\ nd_eq got want.
Proof.
  intros C V f sl n a es comp Hh Hlay Es Ez Hne H Hc. destruct (hyper_vector_some f sl n es comp a Hh Hlay Es Ez Hne H Hc) as (got & E).
  destruct (requests_plain _ _ H) as [Hn Hl].
  destruct (lazy_vector f sl n es comp got a Hh Hlay Es Ez Hne Hn ltac:(rewrite Hl; apply sshape_len) (requests_entries _ _ H _) E) as (want & E' & K). eauto.
Qed.
Print Assumptions C39_vector_reversed_order.

(** Whatever else is asked (empty selections, bounds out of range): the hyperslab read
    either raises or agrees, except for a slice that starts at the length of a forward axis
    with a negative step and negative indices on reflected axes ([entries_ok], C01). *)
Theorem C39_never_wrong : forall (C V : Type) (f : fld C V) (es : list entry) (comp : cslice) got,
  (holds_scalar f \/ exists sl n a, holds f sl n /\ layout_of f = sl /\ f_src f = SArr a /\ f_zyx f = true /\ f_crds f <> []) ->
  Forall (fun e => is_new e = false) es -> length es = length (f_crds f) -> entries_ok (sshape f) es (f_refl f) ->
  slice_hyper f es comp = Some got ->
  exists want, slice_loaded f es comp = Some want /\ nd_eq got want.
Proof.
  intros C V f es comp got [Hh | (sl & n & a & Hh & H1 & H2 & H3 & H4)] Hn Hl Hok H.
  - apply (lazy_scalar f es comp got); auto.
  - apply (lazy_vector f sl n es comp got a); auto.
Qed.
Print Assumptions C39_never_wrong.

(** Refuted for vector fields stored in the order of the coordinates: the component slice
    is inserted twice into one list, so every hyperslab read raises. *)
Theorem C39_vector_same_order_refuted : forall (C V : Type) (f : fld C V) sl n (es : list entry) (comp : cslice),
  holds f sl n -> layout_of f = sl -> f_zyx f = false -> Forall (fun e => is_new e = false) es -> length es = length (f_crds f) ->
  entries_ok (sshape f) es (f_refl f) -> slice_hyper f es comp = None.
Proof.
  intros C V f sl n es comp Hh Hlay Ez Hn Hl Hok. unfold slice_hyper. destruct (f_src f) as [a|l] eqn:Es; [|reflexivity].
  destruct (make_fwd_slice_keep _ _ _) as [[first second]|] eqn:Ek; [|reflexivity].
  assert (Lv : vector_layout sl) by (destruct Hh as (_ & _ & _ & K); rewrite Es in K; apply K).
  assert (Lv' : vector_layout (layout_of f)) by (rewrite Hlay; exact Lv).
  rewrite (holds_nr_comp f sl n Hh Lv'), Ez. destruct Hh as (Hv & Hpos & Hr & Ksrc). rewrite Es in Ksrc. destruct Ksrc as (_ & Sa & _).
  assert (Hr' : length (f_refl f) = length (sshape f)) by (rewrite sshape_len; exact Hr).
  destruct (keep_correct _ _ _ _ _ (sshape_nonneg f) Hn ltac:(rewrite sshape_len; exact Hl) Hr' Hok Ek) as (ax1 & ax2 & axw & R1 & _).
  destruct (RA_len _ _ _ R1) as [L1 _]. unfold native_sshape in Sa. rewrite Ez in Sa.
  assert (LI : forall {X} k (y : X) l, length (insert_at k y l) = S (length l)).
  { intros X k y. induction k as [|k IH]; intros [|z l]; cbn [insert_at length]; try reflexivity. rewrite IH. reflexivity. }
  rewrite Sa, !LI, L1.
  replace (length (lay_shape sl (sshape f) n)) with (S (length (sshape f))) by (destruct Lv as [-> | ->]; cbn [lay_shape]; rewrite ?app_length; cbn [length]; lia).
  replace (S (length (sshape f)) =? S (S (length (sshape f))))%nat with false by lia. reflexivity.
Qed.
Print Assumptions C39_vector_same_order_refuted.

(** Refuted with a new axis: the flags of the reflected axes are lined up with the
    selection, so a new axis takes the flag of the axis after it. *)
Theorem C39_new_axis_refuted :
  let f := F false [(0%nat, [0; 1; 2])] [true] (SArr (ND [3] (fun js => hd 0 js))) false None in
  holds_scalar f /\ exists got want, slice_hyper f [ENew; ESlice (PS None None None)] (CIdx 0) = Some got /\
    slice_loaded f [ENew; ESlice (PS None None None)] (CIdx 0) = Some want /\
    shape got = shape want /\ get got [0; 0] = 0 /\ get want [0; 0] = 2.
Proof.
  intros f. split. { repeat split. eexists. split; reflexivity. }
  eexists. eexists. split; [vm_compute; reflexivity|]. split; [vm_compute; reflexivity|]. repeat split; vm_compute; reflexivity.
Qed.
Print Assumptions C39_new_axis_refuted.

(** ** a non-trivial case *)
(** components first, z y x, y reflected: components 0 and 1, x from 1, y backwards by 2, z = 1 *)
Definition stored_zyx : fld Z Z :=
  F true [(0%nat, [0; 1; 2]); (1%nat, [0; 1; 2; 3]); (2%nat, [0; 1])] [false; true; false]
    (SArr (ND [3; 2; 4; 3] (fun js => match js with [c; z; y; x] => 1000 * c + 100 * x + 10 * y + z | _ => 0 end))) true None.
Definition request : list entry := [ESlice (PS (Some 1) None None); ESlice (PS None None (Some (-2))); EInt 1].
Example C39_ex : holds stored_zyx LFlat 3 /\ Forall2 request_ok (sshape stored_zyx) request /\ comp_ok 3 (CSlice (PS None (Some 2) None)) /\
  exists got, slice_hyper stored_zyx request (CSlice (PS None (Some 2) None)) = Some got /\ shape got = [2; 2; 2] /\
    get got [1; 0; 0] = 1101 /\ get got [1; 1; 1] = 1221.
Proof.
  split. { repeat split; [left; reflexivity|discriminate]. }
  split.
  { constructor; [|constructor; [|constructor; [|constructor]]].
    - cbn [request_ok p_start p_stop]. split; [cbn; lia|]. split; [exact I|]. split; [intros [H _]; cbn in H; lia|]. eexists. eexists. vm_compute. reflexivity.
    - cbn [request_ok p_start p_stop]. split; [exact I|]. split; [exact I|]. split; [intros [_ H]; discriminate|]. eexists. eexists. vm_compute. reflexivity.
    - cbn. lia. }
  split; [cbn; lia|].
  eexists. split; [vm_compute; reflexivity|]. repeat split; vm_compute; reflexivity.
Qed.
