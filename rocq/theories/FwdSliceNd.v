From Verif Require Import NdIndex FwdSliceProofs.
From Coq Require Import ZifyBool ZifyNat.
Open Scope Z_scope.

(** the number of array axes a selection addresses *)
Definition n_axes (es : list entry) : nat := length (filter (fun e => negb (is_new e)) es).

(** [reverse] flags sit next to the selection entries; those next to a
    newaxis entry address no axis of the array *)
Fixpoint axis_flags (es : list entry) (revs : list bool) : list bool :=
  match es, revs with
  | ENew :: es', _ :: revs' => axis_flags es' revs'
  | ENew :: es', [] => axis_flags es' []
  | _ :: es', r :: revs' => r :: axis_flags es' revs'
  | _ :: es', [] => []
  | [], _ => revs
  end.

(** requests in the function's documented domain; the sub-case [start = L]
    with a negative step is excluded (see the refutation) *)
Definition entry_ok (L : Z) (e : entry) (r : bool) : Prop :=
  match e with
  | ESlice s => ~ bad_start L s r
  | EInt i => if r then 0 <= i < L else - L <= i < L
  | ENew => True
  end.
Fixpoint entries_ok (sh : list Z) (es : list entry) (revs : list bool) : Prop :=
  match es with
  | [] => True
  | ENew :: es' => entries_ok sh es' (tl revs)
  | e :: es' => match sh with
                | [] => True
                | L :: sh' => entry_ok L e (hd false revs) /\ entries_ok sh' es' (tl revs)
                end
  end.

(* ---- alignment of the shape with the selection ---- *)
Fixpoint ins (es : list entry) (sh : list Z) : list Z :=
  match es with
  | [] => sh
  | ENew :: es' => 1 :: ins es' sh
  | _ :: es' => match sh with [] => [] | L :: sh' => L :: ins es' sh' end
  end.

Lemma list_insert_app {A} (p : list A) x l : list_insert (length p) x (p ++ l) = p ++ x :: l.
Proof.
  induction p as [|y p IH]; [destruct l; reflexivity|].
  cbn [length app list_insert]. now rewrite IH.
Qed.

Lemma insert_newaxes_gen es : forall pre sh, (n_axes es <= length sh)%nat ->
  fold_left (fun sh i => list_insert i 1 sh) (newax_inds_from (length pre) es) (pre ++ sh) = pre ++ ins es sh.
Proof.
  induction es as [|e es IH]; intros pre sh Hn; [reflexivity|].
  unfold n_axes in Hn.
  destruct e as [s|i|]; cbn [newax_inds_from is_new ins filter negb length] in *.
  - destruct sh as [|L sh]; [cbn in Hn; lia|].
    specialize (IH (pre ++ [L]) sh). rewrite app_length in IH. cbn [length] in IH.
    rewrite <- !app_assoc in IH. cbn [app] in IH. rewrite Nat.add_1_r in IH. apply IH.
    cbn in Hn. unfold n_axes. lia.
  - destruct sh as [|L sh]; [cbn in Hn; lia|].
    specialize (IH (pre ++ [L]) sh). rewrite app_length in IH. cbn [length] in IH.
    rewrite <- !app_assoc in IH. cbn [app] in IH. rewrite Nat.add_1_r in IH. apply IH.
    cbn in Hn. unfold n_axes. lia.
  - cbn [fold_left]. rewrite list_insert_app.
    specialize (IH (pre ++ [1]) sh). rewrite app_length in IH. cbn [length] in IH.
    rewrite <- !app_assoc in IH. cbn [app] in IH. rewrite Nat.add_1_r in IH. apply IH. exact Hn.
Qed.

Lemma insert_newaxes_ins sh es : (n_axes es <= length sh)%nat -> insert_newaxes sh es = ins es sh.
Proof. intros H. apply (insert_newaxes_gen es [] sh H). Qed.

Lemma ins_length es : forall sh, (n_axes es <= length sh)%nat ->
  length (ins es sh) = (length es - n_axes es + length sh)%nat /\ (n_axes es <= length es)%nat.
Proof.
  unfold n_axes. induction es as [|e es IH]; intros sh Hn; [cbn; lia|].
  destruct e as [s|i|]; cbn [filter is_new negb ins length] in *.
  1,2: destruct sh as [|L sh]; [cbn in Hn; lia|];
    specialize (IH sh ltac:(cbn in Hn; lia)); cbn [length]; lia.
  specialize (IH sh Hn). cbn [length]. lia.
Qed.

Definition efull : entry := ESlice (PS None None None).

Lemma sel_none L : 0 <= L -> sel L (PS None None None) = Some (prog 0 1 (Z.to_nat L)).
Proof. exact (sel_full_fwd L). Qed.

Lemma ins_app_full es : forall n sh, ins (es ++ repeat efull n) sh = ins es sh \/ (length sh < n_axes es + n)%nat.
Proof.
  unfold n_axes. induction es as [|e es IH]; intros n sh.
  - cbn [app ins filter length]. revert sh. induction n as [|n IHn]; intros sh; [now left|].
    cbn [repeat ins efull]. destruct sh as [|L sh]; [right; cbn; lia|].
    destruct (IHn sh) as [->|]; [now left|]. right. cbn [length]. lia.
  - destruct e as [s|i|]; cbn [app ins filter is_new negb length].
    1,2: destruct sh as [|L sh]; [now left|]; destruct (IH n sh) as [->|]; [now left|]; right; cbn [length]; lia.
    destruct (IH n sh) as [->|]; [now left|]. right. lia.
Qed.

Lemma resolve_pad es : forall sh n, Forall (fun L => 0 <= L) sh -> (n_axes es + n <= length sh)%nat ->
  resolve (es ++ repeat efull n) sh = resolve es sh.
Proof.
  unfold n_axes. induction es as [|e es IH]; intros sh n Hp Hn.
  - cbn [app resolve]. revert sh Hp Hn. induction n as [|n IHn]; intros sh Hp Hn; [reflexivity|].
    destruct sh as [|L sh]; [cbn in Hn; lia|]. inversion Hp; subst.
    cbn [repeat resolve]. unfold efull at 1. rewrite sel_none by assumption.
    rewrite IHn; [reflexivity|assumption|cbn in *; lia].
  - destruct e as [s|i|]; cbn [app resolve filter is_new negb length] in *.
    1,2: destruct sh as [|L sh]; [reflexivity|]; inversion Hp; subst;
      rewrite IH; [reflexivity|assumption|cbn in *; lia].
    rewrite IH; [reflexivity|assumption|lia].
Qed.

Lemma n_axes_app_full es n : n_axes (es ++ repeat efull n) = (n_axes es + n)%nat.
Proof.
  unfold n_axes. rewrite filter_app, app_length. f_equal.
  induction n as [|n IH]; [reflexivity|]. cbn. now rewrite IH.
Qed.

Lemma entries_ok_pad es : forall sh revs n, entries_ok sh es revs ->
  entries_ok sh (es ++ repeat efull n) (revs ++ repeat false (length es + n - length revs)).
Proof.
  induction es as [|e es IH]; intros sh revs n H.
  - cbn [app]. clear H. revert sh revs. induction n as [|n IHn]; intros sh revs; [exact I|].
    cbn [repeat entries_ok efull]. destruct sh as [|L sh]; [exact I|]. split.
    + intros (_ & Hs & _). cbn in Hs. lia.
    + destruct revs as [|r revs].
      * cbn [length app Nat.add Nat.sub repeat tl]. specialize (IHn sh []). cbn [app length] in IHn.
        rewrite Nat.sub_0_r in IHn. exact IHn.
      * cbn [length app Nat.add Nat.sub tl]. apply IHn.
  - cbn [app]. destruct revs as [|r revs].
    + cbn [length app Nat.add Nat.sub repeat]. specialize (IH (match e with ENew => sh | _ => tl sh end) [] n).
      cbn [app length] in IH. rewrite Nat.sub_0_r in IH.
      destruct e; cbn [entries_ok hd tl] in *; [destruct sh; [exact I|]..|]; cbn [tl] in *; intuition.
    + cbn [length app Nat.add Nat.sub]. specialize (IH (match e with ENew => sh | _ => tl sh end) revs n).
      destruct e; cbn [entries_ok hd tl] in *; [destruct sh; [exact I|]..|]; cbn [tl] in *; intuition.
Qed.

Lemma flip_idx_pad sh : forall revs n is, flip_idx sh (revs ++ repeat false n) is = flip_idx sh revs is.
Proof.
  induction sh as [|L sh IH]; intros revs n is; [reflexivity|].
  destruct revs as [|r revs].
  - cbn [app]. destruct n as [|n]; [reflexivity|]. cbn [repeat flip_idx].
    destruct is as [|i is]; [reflexivity|]. f_equal.
    specialize (IH [] n is). cbn [app] in IH. rewrite IH. now destruct sh.
  - cbn [app flip_idx]. destruct is as [|i is]; [reflexivity|]. now rewrite IH.
Qed.

Lemma axis_flags_pad es : forall revs n m, exists k,
  axis_flags (es ++ repeat efull n) (revs ++ repeat false (length es + m - length revs)) = axis_flags es revs ++ repeat false k.
Proof.
  induction es as [|e es IH]; intros revs n m.
  - cbn [app length Nat.add]. destruct revs as [|r revs].
    + cbn [axis_flags app]. rewrite Nat.sub_0_r. revert m. induction n as [|n IHn]; intros m; [exists m; reflexivity|].
      cbn [repeat]. destruct m as [|m]; [exists 0%nat; reflexivity|].
      cbn [repeat axis_flags efull]. destruct (IHn m) as [k ->]. exists (S k). reflexivity.
    + cbn [axis_flags]. 
      assert (forall l, axis_flags (repeat efull n) l = l) as Hg.
      { induction n as [|n IHn]; intros l; [reflexivity|]. destruct l as [|b l]; cbn; [reflexivity|]. now rewrite IHn. }
      rewrite Hg. eexists. reflexivity.
  - destruct revs as [|r revs].
    + cbn [app length Nat.add Nat.sub repeat].
      specialize (IH [] n m). cbn [app length] in IH. rewrite Nat.sub_0_r in IH.
      destruct IH as [k Hk].
      destruct e; cbn [axis_flags] in *.
      3: exists k; exact Hk.
      all: rewrite Hk.
      all: assert (axis_flags es [] = []) as -> by (clear; induction es as [|[]]; cbn; auto).
      all: exists (S k); reflexivity.
    + cbn [app length Nat.add Nat.sub]. destruct (IH revs n m) as [k Hk].
      destruct e; cbn [axis_flags app]; rewrite Hk; exists k; reflexivity.
Qed.

(* ---- the loop, for a fully specified selection ---- *)
Lemma nth_rev' (l : list Z) j : (j < length l)%nat -> nth (length l - 1 - j) l 0 = nth j (rev l) 0.
Proof. intros H. rewrite rev_nth by lia. f_equal. lia. Qed.

Lemma out_shape_nonneg axs : Forall (fun L => 0 <= L) (out_shape axs).
Proof. induction axs as [|[is|i|] axs IH]; cbn; try constructor; auto; lia. Qed.

Lemma fwd_loop_correct es : forall sh revs fs ds,
  Forall (fun L => 0 <= L) sh -> n_axes es = length sh -> length revs = length es ->
  entries_ok sh es revs ->
  fwd_loop es (ins es sh) revs = Ok (fs, ds) ->
  exists ax1 ax2 axw,
    resolve (final_first fs) sh = Some ax1 /\ resolve (final_second ds) (out_shape ax1) = Some ax2 /\
    resolve es sh = Some axw /\ out_shape ax2 = out_shape axw /\
    (forall s, In (ESlice s) (final_first fs) -> 0 < step_of s) /\
    forall js, in_shape (out_shape axw) js ->
      src_idx ax1 (src_idx ax2 js) = flip_idx sh (axis_flags es revs) (src_idx axw js).
Proof.
  unfold n_axes.
  induction es as [|e es IH]; intros sh revs fs ds Hp Hn Hlen Hok H.
  - destruct sh; [|cbn in Hn; lia]. destruct revs; [|cbn in Hlen; lia].
    cbn in H. injection H as <- <-. exists [], [], []. cbn. repeat split; auto. intros s [].
  - destruct revs as [|r revs]; [cbn in Hlen; lia|]. cbn [length] in Hlen. injection Hlen as Hlen.
    destruct e as [s|i|]; cbn [filter is_new negb length] in Hn.
    + destruct sh as [|L sh]; [cbn in Hn; lia|]. inversion Hp as [|L' sh' HL Hp']; subst L' sh'.
      cbn [ins fwd_loop] in H. destruct (fwd1 L (ESlice s) r) as [[f d]|x] eqn:Ef; [|discriminate].
      destruct (fwd_loop es (ins es sh) revs) as [[fs' ds']|x] eqn:El; [|discriminate].
      injection H as <- <-.
      cbn [entries_ok hd tl] in Hok. destruct Hok as [Hok1 Hok].
      destruct (IH sh revs fs' ds' Hp' ltac:(cbn in Hn; lia) Hlen Hok El)
        as (ax1 & ax2 & axw & H1 & H2 & H3 & H4 & H5 & H6).
      cbn [fwd1] in Ef. destruct (fwd_slice L s r) as [[f0 d0]|x] eqn:Efs; [|discriminate].
      injection Ef as <- <-.
      destruct (fwd_slice_correct L s r f0 d0 HL Efs Hok1) as (fi & si & F1 & F2 & F3 & F4 & F5).
      assert (Hlen2 : length fi = length si).
      { assert (length (apply_dir d0 fi) = length fi) as <- by (destruct d0; cbn; rewrite ?rev_length; reflexivity).
        rewrite F5. apply map_length. }
      exists (ASel fi :: ax1),
        (ASel (match d0 with SRev => prog (Z.of_nat (length fi) - 1) (-1) (length fi) | _ => prog 0 1 (length fi) end) :: ax2),
        (ASel si :: axw).
      change (final_first (ESlice f0 :: fs')) with (ESlice f0 :: final_first fs').
      cbn [resolve]. rewrite F1, F2, H1, H3. split; [reflexivity|]. split.
      { destruct F4 as [-> | ->]; cbn [final_second out_shape resolve].
        - rewrite sel_full_fwd by lia. rewrite H2, Nat2Z.id. reflexivity.
        - rewrite sel_full_rev by lia. rewrite H2, Nat2Z.id. reflexivity. }
      split; [reflexivity|]. split.
      { cbn [out_shape]. rewrite H4. f_equal. destruct d0; rewrite prog_length; lia. }
      split. { intros s' [[= <-]|Hin]; [exact F3|]. apply H5. exact Hin. }
      intros js Hjs. cbn [out_shape] in Hjs. inversion Hjs as [|L' j sh' js' Hj Hjs' E1 E2]; subst.
      cbn [src_idx axis_flags flip_idx]. rewrite H6 by assumption. f_equal.
      assert (Hj' : (Z.to_nat j < length fi)%nat) by lia.
      assert (Hgoal : nth (Z.to_nat j) (apply_dir d0 fi) 0 = if r then L - 1 - nth (Z.to_nat j) si 0 else nth (Z.to_nat j) si 0).
      { rewrite F5. rewrite (nth_indep _ 0 (flip_ix r L 0)) by (rewrite map_length; lia).
        rewrite map_nth. unfold flip_ix. reflexivity. }
      rewrite <- Hgoal. destruct F4 as [-> | ->]; cbn [apply_dir].
      * rewrite (nth_error_nth (prog 0 1 (length fi)) (Z.to_nat j) 0 (prog_nth 0 1 (length fi) (Z.to_nat j) Hj')).
        f_equal. lia.
      * rewrite (nth_error_nth (prog (Z.of_nat (length fi) - 1) (-1) (length fi)) (Z.to_nat j) 0 (prog_nth (Z.of_nat (length fi) - 1) (-1) (length fi) (Z.to_nat j) Hj')).
        rewrite <- (nth_rev' fi (Z.to_nat j) Hj'). f_equal. lia.
    + destruct sh as [|L sh]; [cbn in Hn; lia|]. inversion Hp as [|L' sh' HL Hp']; subst L' sh'.
      cbn [ins fwd_loop fwd1] in H.
      destruct (fwd_loop es (ins es sh) revs) as [[fs' ds']|x] eqn:El; [|discriminate].
      injection H as <- <-.
      cbn [entries_ok hd tl] in Hok. destruct Hok as [Hok1 Hok]. cbn [entry_ok] in Hok1.
      destruct (IH sh revs fs' ds' Hp' ltac:(cbn in Hn; lia) Hlen Hok El)
        as (ax1 & ax2 & axw & H1 & H2 & H3 & H4 & H5 & H6).
      set (i' := if r then L - 1 - i else i).
      exists (AFix (if i' <? 0 then i' + L else i') :: ax1), ax2, (AFix (if i <? 0 then i + L else i) :: axw).
      change (final_first (EInt i' :: fs')) with (EInt i' :: final_first fs').
      cbn [resolve final_second out_shape]. rewrite H1, H2, H3.
      replace ((- L <=? i') && (i' <? L)) with true by (subst i'; destruct r; lia).
      replace ((- L <=? i) && (i <? L)) with true by (destruct r; lia).
      split; [reflexivity|]. split; [reflexivity|]. split; [reflexivity|]. split; [exact H4|].
      split. { intros s' [Hd|Hin]; [discriminate|]. apply H5. exact Hin. }
      intros js Hjs. cbn [src_idx axis_flags flip_idx]. rewrite H6 by exact Hjs. f_equal.
      subst i'. destruct r.
      * destruct (i <? 0) eqn:?; destruct (L - 1 - i <? 0) eqn:?; lia.
      * reflexivity.
    + cbn [ins fwd_loop fwd1] in H.
      destruct (fwd_loop es (ins es sh) revs) as [[fs' ds']|x] eqn:El; [|discriminate].
      injection H as <- <-. cbn [entries_ok tl] in Hok.
      destruct (IH sh revs fs' ds' Hp Hn Hlen Hok El)
        as (ax1 & ax2 & axw & H1 & H2 & H3 & H4 & H5 & H6).
      exists ax1, (ANew :: ax2), (ANew :: axw).
      change (final_first (ENew :: fs')) with (final_first fs').
      cbn [resolve final_second out_shape]. rewrite H1, H2, H3, H4.
      split; [reflexivity|]. split; [reflexivity|]. split; [reflexivity|]. split; [reflexivity|].
      split; [exact H5|].
      intros js Hjs. inversion Hjs as [|L' j sh' js' Hj Hjs' E1 E2]; subst.
      cbn [src_idx axis_flags]. apply H6. exact Hjs'.
Qed.

Lemma make_fwd_slice_nd_lemma {A} (a : nd A) es revs first second :
  Forall (fun L => 0 <= L) (shape a) ->
  (n_axes es <= length (shape a))%nat -> (length revs <= length es)%nat ->
  entries_ok (shape a) es revs ->
  make_fwd_slice (shape a) es revs = Ok (first, second) ->
  (forall s, In (ESlice s) first -> 0 < step_of s) /\
  exists b got want,
    nd_index a first = Some b /\ nd_index b second = Some got /\
    nd_index (nd_flip (axis_flags es revs) a) es = Some want /\ nd_eq got want.
Proof.
  intros Hp Hn Hrl Hok H. unfold make_fwd_slice in H.
  rewrite insert_newaxes_ins in H by exact Hn.
  destruct (ins_length es (shape a) Hn) as [Hl1 Hl2].
  set (n := (length (ins es (shape a)) - length es)%nat) in *.
  assert (Hn' : (n_axes es + n = length (shape a))%nat) by lia.
  fold efull in H. 
  rewrite app_length, repeat_length in H.
  destruct (fwd_loop _ _ _) as [[fs ds]|x] eqn:El in H; [|discriminate]. injection H as <- <-.
  assert (Hins : ins (es ++ repeat efull n) (shape a) = ins es (shape a)).
  { destruct (ins_app_full es n (shape a)) as [E|E]; [exact E|lia]. }
  rewrite <- Hins in El.
  destruct (fwd_loop_correct (es ++ repeat efull n) (shape a)
              (revs ++ repeat false (length es + n - length revs)) fs ds Hp)
    as (ax1 & ax2 & axw & H1 & H2 & H3 & H4 & H5 & H6).
  - rewrite n_axes_app_full. lia.
  - rewrite !app_length, !repeat_length. lia.
  - apply entries_ok_pad. exact Hok.
  - exact El.
  - split; [exact H5|].
    rewrite resolve_pad in H3 by (assumption || lia).
    exists (ND (out_shape ax1) (fun js => get a (src_idx ax1 js))).
    exists (ND (out_shape ax2) (fun js => get a (src_idx ax1 (src_idx ax2 js)))).
    exists (ND (out_shape axw) (fun js => get a (flip_idx (shape a) (axis_flags es revs) (src_idx axw js)))).
    unfold nd_index. rewrite H1. split; [reflexivity|]. cbn [shape get]. rewrite H2. split; [reflexivity|].
    cbn [nd_flip shape get]. rewrite H3. split; [reflexivity|].
    split; cbn [shape get]; [exact H4|].
    intros js Hjs. rewrite H4 in Hjs. rewrite H6 by exact Hjs.
    destruct (axis_flags_pad es revs n n) as [k Hk]. rewrite Hk, flip_idx_pad. reflexivity.
Qed.
