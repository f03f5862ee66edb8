(** C102: a series of plots. *)
From Coq Require Import Ascii List Bool Arith Lia.
From Verif Require Import MultiModel.
Import ListNotations.

(** ** specification *)
(** what is asked for: on the axes before or on new ones; a field with selections, or an equation *)
Inductive what := Fld (name : text) (slices : list text) | Eqn (equation : text).
Record var := Var { v_same : bool; v_what : what; v_opts : option text }.
Definition without (c : ascii) (s : text) : Prop := ~ In c s.
(** names of fields have no comma, = or ^; an equation has an = before its first comma and does not begin with ^ *)
Definition proper (v : var) : Prop :=
  match v_what v with
  | Fld name slices => without ","%char name /\ without "="%char name /\ without "^"%char name /\ (slices = [] \/ exists c, In c (concat slices) /\ c <> " "%char)
  | Eqn e => exists a b, e = a ++ "="%char :: b /\ without ","%char a /\ without "^"%char a
  end.
Definition commas (name : text) (slices : list text) : text := name ++ flat_map (fun s => ","%char :: s) slices.
Definition written (v : var) : text := (if v_same v then ["^"%char] else []) ++ match v_what v with Fld name slices => commas name slices | Eqn e => e end.
Definition text_of (w : what) : text := match w with Fld name _ => name | Eqn e => e end.
(** the selections of the variable, then the one for all *)
Definition slices_of (w : what) (sel : option text) : list text := match w with Fld _ s => s | Eqn _ => [] end ++ match sel with Some s => [s] | None => [] end.
Definition selected (slc : option text) (l : list text) : Prop :=
  match l with [] => slc = None | s :: r => slc = Some (commas s r) end.
(** the number of axes begun by the first variables *)
Definition axes (vs : list var) : nat := length (filter (fun v => negb (v_same v)) vs).
(** place of an axis among [n] below each other, or side by side *)
Definition at_axis (transpose : bool) (n i : nat) (d : draw) : Prop :=
  if transpose then d_shape d = (1, n) /\ d_place d = (0, i) else d_shape d = (n, 1) /\ d_place d = (i, 0).
(** the variables as they are drawn, with the options [opts] of each *)
Definition drawn (transpose : bool) (sel : option text) (opts : var -> option text) (vs : list var) (ds : list draw) : Prop :=
  length ds = length vs /\ forall i v d, nth_error vs i = Some v -> nth_error ds i = Some d ->
    at_axis transpose (axes vs) (axes (firstn (S i) vs) - 1) d /\ d_name d = text_of (v_what v) /\ selected (d_slice d) (slices_of (v_what v) sel) /\ d_opts d = opts v.
Definition given (vs : list var) : list (text * option text) := map (fun v => (written v, v_opts v)) vs.
Definition proper_selection (sel : option text) : Prop := match sel with None => True | Some s => exists c, In c s /\ c <> " "%char end.
(** own options, then the global ones [n] times *)
Fixpoint again (g : text) (n : nat) (own : option text) : option text :=
  match n with O => own | S n => match again g n own with None => Some g | Some o => Some (o ++ ","%char :: g) end end.

(** ** texts *)
Lemma is_iff c d : is c d = true <-> c = d.
Proof. unfold is. destruct (ascii_dec c d); split; congruence. Qed.
Lemma is_refl c : is c c = true.
Proof. apply is_iff. reflexivity. Qed.
Lemma is_not c d : c <> d -> is c d = false.
Proof. unfold is. destruct (ascii_dec c d); congruence. Qed.
Lemma split_word a : without ","%char a -> split a = [a].
Proof. induction a as [|c a IH]; intros H; [reflexivity|]. cbn [split]. rewrite is_not by (intros ->; apply H; left; reflexivity). rewrite IH by (intros X; apply H; right; exact X). reflexivity. Qed.
Lemma split_comma a b : without ","%char a -> split (a ++ ","%char :: b) = a :: split b.
Proof. induction a as [|c a IH]; intros H; cbn [app split]. { rewrite is_refl. reflexivity. } rewrite is_not by (intros ->; apply H; left; reflexivity). rewrite IH by (intros X; apply H; right; exact X). reflexivity. Qed.
Lemma split_some s : split s <> [].
Proof. destruct s as [|c s]; cbn [split]; [discriminate|]. destruct (is c _); [discriminate|]. destruct (split s); discriminate. Qed.
Lemma join_cons w ws : ws <> [] -> join (w :: ws) = w ++ ","%char :: join ws.
Proof. destruct ws; [congruence|reflexivity]. Qed.
Lemma join_split s : join (split s) = s.
Proof.
  induction s as [|c s IH]; [reflexivity|]. cbn [split]. destruct (is c _) eqn:E.
  - apply is_iff in E. subst c. rewrite join_cons by apply split_some. rewrite IH. reflexivity.
  - pose proof (split_some s) as N. destruct (split s) as [|w ws]; [congruence|]. destruct ws as [|w' ws]; cbn [join] in *; cbn [app]; rewrite <- IH; reflexivity.
Qed.
Lemma lstrip_not s : same_axis s = false -> lstrip s = s.
Proof. destruct s as [|c s]; [reflexivity|]. cbn [same_axis lstrip]. intros ->. reflexivity. Qed.
Lemma split_hd_eq a b : without ","%char a -> exists w ws, split (a ++ "="%char :: b) = (a ++ "="%char :: w) :: ws.
Proof.
  induction a as [|c a IH]; intros H; cbn [app split].
  - rewrite is_not by discriminate. pose proof (split_some b). destruct (split b) as [|w ws]; [congruence|]. exists w, ws. reflexivity.
  - rewrite is_not by (intros ->; apply H; left; reflexivity). destruct IH as (w & ws & ->); [intros X; apply H; right; exact X|]. exists w, ws. reflexivity.
Qed.
Lemma no_eq a : without "="%char a -> existsb (fun c => is c "="%char) a = false.
Proof. intros H. destruct (existsb _ a) eqn:E; [|reflexivity]. apply existsb_exists in E as (c & I & Ec). apply is_iff in Ec. subst c. contradiction. Qed.
Lemma not_blank c s : In c s -> c <> " "%char -> forallb (fun c => is c " "%char) s = false.
Proof. intros I N. destruct (forallb _ s) eqn:E; [|reflexivity]. rewrite forallb_forall in E. apply E, is_iff in I. contradiction. Qed.

(** ** a variable *)
Definition body (w : what) : text := match w with Fld name slices => commas name slices | Eqn e => e end.
Lemma body_not_same v : proper v -> same_axis (body (v_what v)) = false.
Proof.
  unfold proper. destruct (v_what v) as [name slices|e]; cbn [body].
  - intros (_ & _ & N & _). unfold commas. destruct name as [|c name]; [destruct slices; reflexivity|]. cbn. apply is_not. intros ->. apply N. left. reflexivity.
  - intros (a & b & -> & _ & N). destruct a as [|c a]; [reflexivity|]. cbn. apply is_not. intros ->. apply N. left. reflexivity.
Qed.
Lemma written_same v : proper v -> same_axis (written v) = v_same v.
Proof. intros P. unfold written. fold (body (v_what v)). destruct (v_same v); [reflexivity|exact (body_not_same v P)]. Qed.
Lemma written_strip v : proper v -> lstrip (written v) = body (v_what v).
Proof. intros P. unfold written. fold (body (v_what v)). destruct (v_same v); cbn [app lstrip]; [rewrite is_refl|]; apply lstrip_not, body_not_same, P. Qed.
Lemma flat_cons s r : flat_map (fun s => ","%char :: s) (s :: r) = ","%char :: commas s r.
Proof. reflexivity. Qed.
Lemma in_commas c s r : In c (concat (s :: r)) -> In c (commas s r).
Proof.
  unfold commas. cbn [concat]. rewrite !in_app_iff. intros [H|H]; [left; exact H|right]. apply in_concat in H as (x & X & C). apply in_flat_map. exists x. split; [exact X|right; exact C].
Qed.
Lemma commas_app s r sel : commas s (r ++ [sel]) = commas s r ++ ","%char :: sel.
Proof. unfold commas. rewrite flat_map_app, app_assoc. cbn. rewrite app_nil_r. reflexivity. Qed.
Lemma split_commas name s r : without ","%char name -> split (commas name (s :: r)) = name :: split (commas s r).
Proof. intros H. exact (split_comma name (commas s r) H). Qed.
Lemma parse_ok v sel : proper v -> proper_selection sel ->
  let p := name_and_slice sel (written v) in fst p = text_of (v_what v) /\ selected (snd p) (slices_of (v_what v) sel).
Proof.
  intros P S. cbv zeta. unfold name_and_slice. cbv zeta. rewrite written_strip by exact P. unfold proper in P. destruct (v_what v) as [name slices|e]; cbn [body text_of slices_of].
  - destruct P as (C & E & _ & N). destruct slices as [|s r].
    + unfold commas. cbn [flat_map]. rewrite app_nil_r, split_word by exact C. cbn [hd tl join]. rewrite no_eq by exact E. destruct sel as [sel|]; cbn [app fst snd selected].
      * destruct S as (c & I & Nc). rewrite (not_blank c sel I Nc). split; [reflexivity|]. symmetry; f_equal; exact (app_nil_r sel).
      * split; reflexivity.
    + rewrite split_commas by exact C. cbn [hd tl]. rewrite no_eq by exact E. rewrite join_split. destruct N as [N|(c & I & Nc)]; [discriminate|]. apply in_commas in I.
      destruct sel as [sel|]; cbn [app fst snd selected].
      * cbn [slices_of app selected]. rewrite commas_app. destruct (commas s r) as [|c0 w] eqn:Ew; [destruct I|]. cbn [join]. rewrite (not_blank c) by (try exact Nc; apply in_or_app; left; exact I). split; reflexivity.
      * rewrite (not_blank c) by assumption. split; [reflexivity|]. cbn. rewrite app_nil_r. reflexivity.
  - destruct P as (a & b & -> & C & _). rewrite join_split. destruct (split_hd_eq a b C) as (w & ws & ->). cbn [hd]. rewrite existsb_app. cbn [existsb]. rewrite is_refl, orb_true_r. cbn [orb]. destruct sel as [sel|]; cbn [app fst snd selected].
    + destruct S as (c & I & Nc). rewrite (not_blank c sel I Nc). split; [reflexivity|]. symmetry; f_equal; exact (app_nil_r sel).
    + split; reflexivity.
Qed.
(** ** a picture *)
Lemma rows_axes vs : (forall v, In v vs -> proper v) -> forall o, rows (map (fun v => (written v, o v)) vs) = axes vs.
Proof.
  unfold rows, axes. intros P o. induction vs as [|v vs IH]; [reflexivity|]. cbn [map filter fst]. rewrite written_same by (apply P; left; reflexivity).
  destruct (v_same v); cbn [negb length]; rewrite IH by (intros x X; apply P; right; exact X); reflexivity.
Qed.
Lemma plot_vars_ok tr n g sel o vs : proper_selection sel -> forall next, (forall v, In v vs -> proper v) -> (next = O -> exists v r, vs = v :: r /\ v_same v = false) \/ vs = [] ->
  exists ds, plot_vars tr n g sel next (map (fun v => (written v, o v)) vs) = Some (ds, map (fun v => (written v, options g (o v))) vs) /\
  length ds = length vs /\ forall i v d, nth_error vs i = Some v -> nth_error ds i = Some d ->
    at_axis tr n (next + axes (firstn (S i) vs) - 1) d /\ d_name d = text_of (v_what v) /\ selected (d_slice d) (slices_of (v_what v) sel) /\ d_opts d = options g (o v).
Proof.
  intros S. induction vs as [|v vs IH]; intros next P H.
  { exists []. split; [reflexivity|]. split; [reflexivity|]. intros [|i] v d; discriminate. }
  cbn [map plot_vars]. rewrite written_same by (apply P; left; reflexivity). set (nx := if v_same v then next else Datatypes.S next).
  assert (X : nx = Datatypes.S (nx - 1)).
  { unfold nx. destruct (v_same v) eqn:E; [|lia]. destruct next; [|lia]. destruct H as [H|H]; [|discriminate]. destruct (H eq_refl) as (v' & r & Ev & F). injection Ev as <- <-. congruence. }
  destruct (IH nx (fun x I => P x (or_intror I))) as (ds & E & L & D). { left. intros Z. lia. }
  pose proof (parse_ok v sel (P v (or_introl eq_refl)) S) as Q. cbv zeta in Q. destruct (name_and_slice sel (written v)) as (name, slc). cbn [fst snd] in Q. destruct Q as (Q1 & Q2).
  rewrite X. rewrite <- X, E. eexists. split; [reflexivity|]. split; [cbn [length]; rewrite L; reflexivity|].
  intros [|i] w d Ew Ed; cbn [nth_error] in Ew, Ed.
  - injection Ew as <-. injection Ed as <-. cbn [firstn d_name d_slice d_opts]. split; [|auto]. unfold at_axis, turn. cbn [d_shape d_place].
    replace (next + axes [v] - 1) with (nx - 1) by (unfold nx, axes; cbn; destruct (v_same v); cbn; lia). destruct tr; cbn; auto.
  - specialize (D i w d Ew Ed). destruct D as (D1 & D2). split; [|exact D2]. replace (next + axes (firstn (Datatypes.S (Datatypes.S i)) (v :: vs)) - 1) with (nx + axes (firstn (Datatypes.S i) vs) - 1); [exact D1|].
    change (firstn (Datatypes.S (Datatypes.S i)) (v :: vs)) with (v :: firstn (Datatypes.S i) vs). unfold nx, axes. cbn [filter]. destruct (v_same v); cbn [negb length]; lia.
Qed.
Definition steps (g : option text) (n : nat) (own : option text) : option text := Nat.iter n (options g) own.
Lemma series_ok {T} tr g sel v0 r : proper_selection sel -> (forall v, In v (v0 :: r) -> proper v) -> v_same v0 = false -> forall (times : list T) tind k,
  exists ps, series tr g sel tind times (map (fun v => (written v, steps g k (v_opts v))) (v0 :: r)) = Some ps /\ length ps = length times /\
  forall i t p, nth_error times i = Some t -> nth_error ps i = Some p -> p_number p = tind + i + 1 /\ p_time p = t /\ drawn tr sel (fun v => steps g (k + i + 1) (v_opts v)) (v0 :: r) (p_draws p).
Proof.
  intros S P F. induction times as [|t times IH]; intros tind k.
  { exists []. split; [reflexivity|]. split; [reflexivity|]. intros [|i] t p; discriminate. }
  cbn [series]. unfold do_multiplot. rewrite (rows_axes (v0 :: r) P). assert (A : axes (v0 :: r) <> 0) by (unfold axes; cbn [filter]; rewrite F; discriminate). rewrite (proj2 (Nat.eqb_neq _ _) A).
  destruct (plot_vars_ok tr (axes (v0 :: r)) g sel (fun v => steps g k (v_opts v)) (v0 :: r) S 0 P) as (ds & E & L & D). { left. intros _. exists v0, r. auto. }
  rewrite E. destruct (IH (Datatypes.S tind) (Datatypes.S k)) as (ps & Es & Ls & Ds). unfold steps in Es |- *. cbn [Nat.iter] in Es. change (Nat.iter (Datatypes.S k) (options g)) with (fun o => options g (Nat.iter k (options g) o)) in Es. cbv beta in Es. rewrite Es.
  eexists. split; [reflexivity|]. split; [cbn [length]; rewrite Ls; reflexivity|]. intros [|i] t' p Et Ep; cbn [nth_error] in Et, Ep.
  - injection Et as <-. injection Ep as <-. cbn [p_number p_time p_draws]. split; [lia|]. split; [reflexivity|]. split; [exact L|]. intros i v d Ev Ed. specialize (D i v d Ev Ed). replace (k + 0 + 1) with (Datatypes.S k) by lia. exact D.
  - destruct (Ds i t' p Et Ep) as (D1 & D2 & D3). split; [lia|]. split; [exact D2|]. replace (k + Datatypes.S i + 1) with (Datatypes.S k + i + 1) by lia. exact D3.
Qed.
Lemma steps_none n own : steps None n own = own.
Proof. unfold steps. induction n as [|n IH]; [reflexivity|]. cbn [Nat.iter]. change (options None (steps None n own) = own). unfold steps. rewrite IH. destruct own; reflexivity. Qed.
Lemma steps_again g n own : steps (Some g) n own = again g n own.
Proof. unfold steps. induction n as [|n IH]; [reflexivity|]. cbn [again]. rewrite <- IH. change (options (Some g) (Nat.iter n (options (Some g)) own) = match Nat.iter n (options (Some g)) own with None => Some g | Some o => Some (o ++ ","%char :: g) end). destruct (Nat.iter n _ own); reflexivity. Qed.
Lemma drawn_ext tr sel o o' vs ds : (forall v, o v = o' v) -> drawn tr sel o vs ds -> drawn tr sel o' vs ds.
Proof. intros E (L & D). split; [exact L|]. intros i v d Ev Ed. rewrite <- E. exact (D i v d Ev Ed). Qed.
(** ** Without global options: one picture for each time, in order, numbered from 1, with each variable as it is written *)
Theorem C102_series {T} tr sel v0 r (times : list T) : times <> [] -> proper_selection sel -> (forall v, In v (v0 :: r) -> proper v) -> v_same v0 = false ->
  exists ps, make_multiplot false tr None sel times (given (v0 :: r)) = Some ps /\ length ps = length times /\
  forall i t p, nth_error times i = Some t -> nth_error ps i = Some p -> p_number p = i + 1 /\ p_time p = t /\ drawn tr sel v_opts (v0 :: r) (p_draws p).
Proof.
  intros N S P F. destruct (series_ok tr None sel v0 r S P F times 0 0) as (ps & E & L & D). exists ps. split; [|split; [exact L|]].
  - unfold make_multiplot. destruct times as [|t times]; [congruence|]. exact E.
  - intros i t p Et Ep. destruct (D i t p Et Ep) as (D1 & D2 & D3). split; [exact D1|]. split; [exact D2|]. revert D3. apply drawn_ext. intros v. apply steps_none.
Qed.
Print Assumptions C102_series.
(** ** Refuted with global options: all else is as above, but they are added once more for each picture *)
Theorem C102_options_refuted {T} tr g sel v0 r (times : list T) : times <> [] -> proper_selection sel -> (forall v, In v (v0 :: r) -> proper v) -> v_same v0 = false ->
  exists ps, make_multiplot false tr (Some g) sel times (given (v0 :: r)) = Some ps /\ length ps = length times /\
  forall i t p, nth_error times i = Some t -> nth_error ps i = Some p -> p_number p = i + 1 /\ p_time p = t /\ drawn tr sel (fun v => again g (i + 1) (v_opts v)) (v0 :: r) (p_draws p).
Proof.
  intros N S P F. destruct (series_ok tr (Some g) sel v0 r S P F times 0 0) as (ps & E & L & D). exists ps. split; [|split; [exact L|]].
  - unfold make_multiplot. destruct times as [|t times]; [congruence|]. exact E.
  - intros i t p Et Ep. destruct (D i t p Et Ep) as (D1 & D2 & D3). split; [exact D1|]. split; [exact D2|]. revert D3. apply drawn_ext. intros v. apply steps_again.
Qed.
Print Assumptions C102_options_refuted.
(** ** Refuted: with subplot_params among the options nothing is ever drawn *)
Theorem C102_params_refuted {T} tr g sel (times : list T) vars : make_multiplot true tr g sel times vars = None.
Proof. destruct times; reflexivity. Qed.
Print Assumptions C102_params_refuted.
(** ** No times, or a first variable that asks for the axes of another, are refused *)
Theorem C102_refused {T} tr g sel (times : list T) v r : times = [] \/ (v_same v = true /\ exists w, In w r /\ v_same w = false) -> (forall w, In w (v :: r) -> proper w) ->
  make_multiplot false tr g sel times (given (v :: r)) = None.
Proof.
  intros [->|(F & w & W & Fw)] P; [reflexivity|]. destruct times as [|t times]; [reflexivity|]. unfold make_multiplot. cbn [series]. unfold do_multiplot, given. rewrite (rows_axes (v :: r) P).
  assert (A : axes (v :: r) <> 0). { unfold axes. intros Z. apply length_zero_iff_nil in Z. assert (I : In w (filter (fun v => negb (v_same v)) (v :: r))) by (apply filter_In; rewrite Fw; split; [right; exact W|reflexivity]). rewrite Z in I. exact I. }
  rewrite (proj2 (Nat.eqb_neq _ _) A). cbn [map plot_vars]. rewrite written_same by (apply P; left; reflexivity). rewrite F. reflexivity.
Qed.
Print Assumptions C102_refused.

(** ** the hypotheses can be met *)
Definition chars (l : list nat) : text := map ascii_of_nat l.
Definition v1 : var := Var false (Fld (chars [118; 122]) [chars [121; 61; 48; 102]]) None.                                  (* vz,y=0f *)
Definition v2 : var := Var true (Eqn (chars [97; 61; 98; 44; 99])) (Some (chars [108])).                                   (* ^a=b,c *)
Definition v3 : var := Var false (Fld (chars [112]) []) None.                                                               (* p *)
Example proper1 : forall v, In v [v1; v2; v3] -> proper v.
Proof.
  intros v [<-|[<-|[<-|[]]]]; cbn.
  - unfold without. cbn. repeat split; try (intros [H|[H|[]]]; discriminate). { right. exists "y"%char. cbn. split; [auto|discriminate]. }
  - exists ["a"%char], (chars [98; 44; 99]). unfold without. cbn. repeat split; intros [H|[]]; discriminate.
  - unfold without. cbn. repeat split; try (intros [H|[]]; discriminate); left; reflexivity.
Qed.
Example two_pictures : option_map (map (fun p => (p_number p, map (fun d => (d_shape d, d_place d, d_opts d)) (p_draws p)))) (make_multiplot false false (Some (chars [103])) None [true; false] (given [v1; v2; v3])) =
  Some [(1, [((2, 1), (0, 0), Some (chars [103])); ((2, 1), (0, 0), Some (chars [108; 44; 103])); ((2, 1), (1, 0), Some (chars [103]))]);
        (2, [((2, 1), (0, 0), Some (chars [103; 44; 103])); ((2, 1), (0, 0), Some (chars [108; 44; 103; 44; 103])); ((2, 1), (1, 0), Some (chars [103; 44; 103]))])].
Proof. vm_compute. reflexivity. Qed.
