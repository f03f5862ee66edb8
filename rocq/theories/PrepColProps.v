(** C100: the colours in which lines are drawn. *)
From Coq Require Import List ZArith QArith Qround Bool Arith Lia Lqa ZifyBool ZifyNat.
From Verif Require LinesModel LinesSpec LinesProofs ResampleModel ResampleProps.
From Verif Require Import PrepModel PrepProps PrepColModel.
Import ListNotations.
Local Open Scope nat_scope.

(** ** Specification *)
(** colours are [w] bytes *)
Definition is_colour (w : nat) (c : list Q) : Prop := length c = w /\ Forall (fun b => (0 <= b <= 255)%Q) c.
(** [new] are the bytes nearest to the values on the line [l] at the finer points *)
Definition near_finer (sub : Q) (l new : list Q) : Prop :=
  exists exact, finer sub l exact /\ Forall2 (fun x b => exists z, b = inject_Z z /\ LinesSpec.nearest_byte x z) exact new.
(** each piece of each line has the colour of the point it begins at, from 0 to 1 *)
Definition coloured (out : list (list cell)) (new : list (list (list Q))) : Prop :=
  out = map (map (fun b => Some (b / 255)%Q)) (concat (map (@removelast (list Q)) new)).

(** ** Lemmas *)
Lemma pieces_first {A} (l : list A) : map fst (pieces l) = removelast l.
Proof. unfold pieces. induction l as [|a [|b l] IH]; try reflexivity. change (removelast (a :: b :: l)) with (a :: removelast (b :: l)). cbn [tl combine map fst] in *. f_equal. exact IH. Qed.
Lemma coloured_by w (new : list (list (list Q))) : Forall (Forall (fun p => length p = w)) new ->
  coloured (map (fun ab => map (fun row => option_map (fun b => b / 255)%Q (nth (fst ab) row None)) (map (fun j => map Some (coord j (concat new))) (seq 0 w))) (conn 0 (map (@length (list Q)) new))) new.
Proof.
  intros P. pose proof (finish_shows w new None P I) as (_ & S & _). cbn [option_map] in S. unfold finish in S. cbn [segments] in S. unfold coloured.
  apply (f_equal (map (fun ab : list cell * list cell => map (option_map (fun b => b / 255)%Q) (fst ab)))) in S. rewrite !map_map in S.
  transitivity (map (fun x : nat * nat => map (option_map (fun b => b / 255)%Q) (fst (map (fun row => nth (fst x) row None) (map (fun j => map Some (coord j (concat new))) (seq 0 w)), map (fun row : list cell => nth (snd x) row None) (map (fun j => map Some (coord j (concat new))) (seq 0 w))))) (conn 0 (map (@length (list Q)) new))).
  - apply map_ext. intros ab. cbn [fst]. rewrite !map_map. reflexivity.
  - etransitivity; [exact S|]. transitivity (map (map (fun b => Some (b / 255)%Q)) (map fst (concat (map pieces new)))).
    + rewrite map_map. apply map_ext. intros ab. cbn [fst]. rewrite map_map. reflexivity.
    + f_equal. rewrite concat_map, map_map. f_equal. apply map_ext. intros l. apply pieces_first.
Qed.
Lemma coord_round j w (l : list (list Q)) : j < w -> Forall (fun p => length p = w) l -> coord j (map (map byte) l) = map byte (coord j l).
Proof.
  intros Hj F. unfold coord. rewrite !map_map. apply map_ext_in. intros p Hp. rewrite Forall_forall in F. rewrite (nth_indep _ 0%Q (byte 0)) by (rewrite map_length, (F p Hp); exact Hj). apply map_nth.
Qed.
Lemma nth_rows w (pts : list (list Q)) j : j < w -> nth j (map (fun j => map (fun c => nth j c 0%Q) pts) (seq 0 w)) [] = coord j pts.
Proof.
  intros Hj. change (map (fun j0 => map (fun c => nth j0 c 0%Q) pts) (seq 0 w)) with (map (fun j0 => coord j0 pts) (seq 0 w)). rewrite (nth_indep _ [] (coord 0 pts)) by (rewrite map_length, seq_length; exact Hj). rewrite (map_nth (fun j0 => coord j0 pts)), seq_nth by exact Hj. reflexivity.
Qed.
Lemma newline_points sub w l : Forall (fun p => length p = w) (newline sub w l).
Proof. unfold newline. apply Forall_map. apply Forall_forall. intros k _. rewrite map_length. apply seq_length. Qed.
Lemma newline_len sub w l : length (newline sub w l) = n_fine sub (length l).
Proof. unfold newline. rewrite map_length. apply seq_length. Qed.
(** values between bytes are in the range of bytes *)
Lemma finer_range sub l new : finer sub l new -> 1 <= length l -> Forall (fun b => (0 <= b <= 255)%Q) l -> Forall (fun b => (0 <= b <= 255)%Q) new.
Proof.
  intros (F1 & F2) L R. destruct (Nat.eq_dec (length l) 1) as [E|N]; [rewrite (F1 E); exact R|]. destruct (F2 ltac:(lia)) as (_ & _ & On & _). apply Forall_forall. intros x Hx. apply (In_nth _ _ 0%Q) in Hx as (k & Hk & <-).
  destruct (On k Hk) as (i & w & Hi & Hw & _ & Hv). rewrite Forall_forall in R. pose proof (R _ (nth_In l 0%Q (ltac:(lia) : i < length l))) as A. pose proof (R _ (nth_In l 0%Q Hi)) as B. unfold ResampleProps.at_ in Hv. set (u := nth i l 0%Q) in *. set (v := nth (S i) l 0%Q) in *. rewrite Hv. split; nra.
Qed.
Lemma nearest_all (l : list Q) : Forall (fun b => (0 <= b <= 255)%Q) l -> Forall2 (fun x b => exists z, b = inject_Z z /\ LinesSpec.nearest_byte x z) l (map byte l).
Proof. intros F. induction F as [|x l [H1 H2] F IH]; cbn [map]; constructor; [|exact IH]. exists (LinesModel.u1 (LinesModel.round_even x)). split; [reflexivity|]. apply LinesProofs.u1_round; assumption. Qed.
Lemma coord_range w j (l : list (list Q)) : j < w -> Forall (is_colour w) l -> Forall (fun b => (0 <= b <= 255)%Q) (coord j l).
Proof. intros Hj F. unfold coord. apply Forall_map. eapply Forall_impl; [|exact F]. intros c (L & R). rewrite Forall_forall in R. apply R. apply nth_In. lia. Qed.

(** ** Theorems *)
(** Without subsampling each piece has the colour of the point it begins at. *)
Theorem C100_colours : forall scipy sub w cls, (sub <= 0)%Q -> Forall (Forall (fun c => length c = w)) cls ->
  coloured (seg_colours scipy sub w (concat cls) (LinesModel.connect (LinesModel.offsets 0 (map (@length (list Q)) cls)) (map (@length (list Q)) cls))) cls.
Proof.
  intros scipy sub w cls H D. unfold seg_colours. replace (Qle_bool sub 0) with true by (symmetry; apply Qle_bool_iff; exact H). rewrite map_map. exact (coloured_by w cls D).
Qed.
Print Assumptions C100_colours.
(** With subsampling finer lines have the bytes nearest to the values between the colours of their points. *)
Theorem C100_finer : forall scipy sub w cls, (0 < sub)%Q -> cls <> [] -> Forall (fun l => 1 <= length l) cls -> Forall (Forall (is_colour w)) cls ->
  scipy = false \/ Forall (fun l => 2 <= length l) cls ->
  exists new, coloured (seg_colours scipy sub w (concat cls) (LinesModel.connect (LinesModel.offsets 0 (map (@length (list Q)) cls)) (map (@length (list Q)) cls))) new /\
    Forall2 (fun l l' => Forall (fun c => length c = w) l' /\ forall j, j < w -> near_finer sub (coord j l) (coord j l')) cls new.
Proof.
  intros scipy sub w cls H NE P C S. fold (conn 0 (map (@length (list Q)) cls)). set (new := map (fun l => map (map byte) (newline sub w l)) cls). exists new. split.
  - unfold seg_colours. replace (Qle_bool sub 0) with false by (symmetry; apply not_true_iff_false; rewrite Qle_bool_iff; apply Qlt_not_le; exact H).
    assert (St : starts (length (concat cls)) (conn 0 (map (@length (list Q)) cls)) = LinesModel.offsets 0 (map (@length (list Q)) cls)).
    { unfold starts. rewrite LinesProofs.concat_length. apply starts_from. apply Forall_map. exact P. }
    assert (Rg : combine (LinesModel.offsets 0 (map (@length (list Q)) cls)) (stops (length (concat cls)) (LinesModel.offsets 0 (map (@length (list Q)) cls))) = ranges 0 (map (@length (list Q)) cls)).
    { unfold stops. rewrite LinesProofs.concat_length. apply (lines_ranges (map (@length (list Q)) cls) 0). destruct cls; [contradiction|discriminate]. }
    rewrite St, Rg, ranges_len, ranges_count, fine_conns_all.
    assert (Nl : map (n_fine sub) (map (@length (list Q)) cls) = map (@length (list Q)) new). { unfold new. rewrite !map_map. apply map_ext. intros l. rewrite map_length. symmetry. apply newline_len. }
    rewrite Nl. assert (Rw : map (fun j => map (option_map byte) (flat_map (fun ss => fine_row scipy sub j (slice (nth j (map (fun j => map (fun c => nth j c 0%Q) (concat cls)) (seq 0 w)) []) ss)) (ranges 0 (map (@length (list Q)) cls)))) (seq 0 w) = map (fun j => map Some (coord j (concat new))) (seq 0 w)).
    { apply map_ext_in. intros j Hj. apply in_seq in Hj. rewrite nth_rows by lia. rewrite (coord_concat j cls). rewrite (fine_rows scipy sub cls j (map (coord j) cls) S) by (rewrite map_map; apply map_ext; intros l; unfold coord; apply map_length).
      rewrite coord_concat. rewrite map_map. change (fun x => option_map byte (Some x)) with (fun x => Some (byte x)). rewrite <- (map_map byte Some). f_equal. rewrite concat_map. f_equal. unfold new. rewrite !map_map. apply map_ext. intros l. rewrite (coord_round j w) by (lia || apply newline_points). rewrite newline_coord by lia. reflexivity. }
    rewrite Rw. apply coloured_by. unfold new. apply Forall_map. apply Forall_forall. intros l _. apply Forall_map. eapply Forall_impl; [|apply newline_points]. intros p Hp. rewrite map_length. exact Hp.
  - clear NE S. unfold new. clear new. induction cls as [|l cls IH]; cbn [map]; constructor.
    + inversion P as [|a b Pl Pr E1]; subst. inversion C as [|a b Cl Cr E2]; subst. split; [apply Forall_map; eapply Forall_impl; [|apply newline_points]; intros p Hp; rewrite map_length; exact Hp|].
      intros j Hj. rewrite (coord_round j w) by (lia || apply newline_points). rewrite newline_coord by exact Hj. exists (ResampleModel.resample_row sub (coord j l)). split; [apply resample_finer; exact H|]. apply nearest_all. apply (finer_range sub (coord j l)); [apply resample_finer; exact H|unfold coord; rewrite map_length; exact Pl|apply (coord_range w); assumption].
    + inversion P; inversion C; subst. apply IH; assumption.
Qed.
Print Assumptions C100_finer.

(** ** the hypotheses are met *)
Example colours_ok : Forall (Forall (is_colour 3)) [[[0;10;255]; [1;20;0]]; [[5;5;5]; [6;6;6]; [7;7;7]]]%Q.
Proof. unfold is_colour. repeat (constructor; try lia; try (split; vm_compute; discriminate)). Qed.
Example colours_fine : Forall2 (Forall2 (fun a b => match a with Some x => x == b | None => False end)) (seg_colours true 2 3 [[0;10;255]; [1;20;0]]%Q [(0, 1)]) [[0; 10 / 255; 1]; [0; 15 / 255; 128 / 255]]%Q.
Proof. vm_compute. repeat constructor. Qed.
