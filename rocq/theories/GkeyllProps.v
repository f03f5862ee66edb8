(** C85: a Gkeyll run is read as what the simulation wrote. *)
From Verif Require Import GgcmModel GgcmProps GkeyllModel.
From Coq Require Import String Ascii List Bool Arith ZArith QArith Lia Lqa Permutation Sorted ZifyBool ZifyNat.
Import ListNotations.
Local Open Scope nat_scope.

(** ** names *)
(** The names of the fields of a file with n fields: those of the three kinds, with the two potentials if there are two fields more, else numbers. *)
Definition potentials : list string := ["phi_E"; "phi_B"]%string.
(** One fluid: density, momentum, and energy, or the pressure tensor without its lower half; then the two fields. *)
Definition xyz : list string := ["x"; "y"; "z"]%string.
Definition vector (s : string) : list string := map (append s) xyz.
Definition momenta : list string := "rho"%string :: vector "rhou".
Definition tensor (s : string) : list string := (map (append (s ++ "x")) xyz ++ map (append (s ++ "y")) (tl xyz) ++ map (append (s ++ "z")) (tl (tl xyz)))%list.
Definition of_species (l : list string) (s : string) : list string := map (fun q => append q (append "_" s)) l.
Definition both (l : list string) : list string := (of_species l "e" ++ of_species l "i" ++ vector "E" ++ vector "B")%list.
Definition energy_fluid : list string := (momenta ++ ["e"%string])%list.
Definition names_for (n : nat) : list string :=
  match n with
  | 5 => energy_fluid | 16 => both energy_fluid | 26 => both (momenta ++ tensor "p")%list
  | 7 => (energy_fluid ++ potentials)%list | 18 => (both energy_fluid ++ potentials)%list | 28 => (both (momenta ++ tensor "p")%list ++ potentials)%list
  | _ => numbered n
  end.
Fixpoint times (k : nat) : list string := match k with O => [] | S k' => (potentials ++ times k')%list end.
Definition state (a b c : nat) : table := [(5, (hydro ++ times a)%list); (16, (five ++ times b)%list); (26, (ten ++ times c)%list)].
Lemma times_end k : (times k ++ potentials)%list = times (S k).
Proof. induction k as [|k IH]; [reflexivity|]. cbn [times]. rewrite <- app_assoc, IH. reflexivity. Qed.
Lemma numbered_length n : length (numbered n) = n.
Proof. unfold numbered. rewrite map_length, seq_length. reflexivity. Qed.
Lemma first_part (l x : list string) n : n = length l -> firstn n (l ++ x) = l.
Proof. intros ->. rewrite firstn_app, Nat.sub_diag, firstn_all, firstn_O, app_nil_r. reflexivity. Qed.
Lemma template_step a b c nr : exists a' b' c', make_template (state a b c) nr = (state a' b' c', names_for nr).
Proof.
  unfold make_template.
  assert (L : forall n, look (state a b c) n = if (5 =? n) then Some (hydro ++ times a)%list else if (16 =? n) then Some (five ++ times b)%list else if (26 =? n) then Some (ten ++ times c)%list else None) by reflexivity.
  rewrite (L nr). destruct (Nat.eqb_spec 5 nr) as [<-|N5]; [exists a, b, c; f_equal; apply first_part; reflexivity|]. destruct (Nat.eqb_spec 16 nr) as [<-|N16]; [exists a, b, c; f_equal; apply first_part; reflexivity|].
  destruct (Nat.eqb_spec 26 nr) as [<-|N26]; [exists a, b, c; f_equal; apply first_part; reflexivity|].
  assert (Other : nr <> 7 -> nr <> 18 -> nr <> 28 -> names_for nr = numbered nr).
  { intros H7 H18 H28. unfold names_for. do 29 (destruct nr as [|nr]; [first [reflexivity|lia]|]). reflexivity. }
  destruct (Nat.ltb_spec nr 2) as [H2|H2]; [exists a, b, c; rewrite Other by lia; rewrite firstn_all2 by (rewrite numbered_length; lia); reflexivity|].
  rewrite (L (nr - 2)). destruct (Nat.eqb_spec 5 (nr - 2)) as [E|M5].
  - assert (nr = 7) as -> by lia. exists (S a), b, c. change (append_to (state a b c) (7 - 2) ["phi_E"; "phi_B"]%string) with [(5, ((hydro ++ times a) ++ potentials)%list); (16, (five ++ times b)%list); (26, (ten ++ times c)%list)].
    change ["phi_E"; "phi_B"]%string with potentials. rewrite <- !app_assoc, times_end. unfold state. f_equal; try (cbn [times]; rewrite app_assoc; apply first_part; reflexivity).
  - destruct (Nat.eqb_spec 16 (nr - 2)) as [E|M16].
    + assert (nr = 18) as -> by lia. exists a, (S b), c. change (append_to (state a b c) (18 - 2) ["phi_E"; "phi_B"]%string) with [(5, (hydro ++ times a)%list); (16, ((five ++ times b) ++ potentials)%list); (26, (ten ++ times c)%list)].
      change ["phi_E"; "phi_B"]%string with potentials. rewrite <- !app_assoc, times_end. unfold state. f_equal; try (cbn [times]; rewrite app_assoc; apply first_part; reflexivity).
    + destruct (Nat.eqb_spec 26 (nr - 2)) as [E|M26].
      * assert (nr = 28) as -> by lia. exists a, b, (S c). change (append_to (state a b c) (28 - 2) ["phi_E"; "phi_B"]%string) with [(5, (hydro ++ times a)%list); (16, (five ++ times b)%list); (26, ((ten ++ times c) ++ potentials)%list)].
        change ["phi_E"; "phi_B"]%string with potentials. rewrite <- !app_assoc, times_end. unfold state. f_equal; try (cbn [times]; rewrite app_assoc; apply first_part; reflexivity).
      * exists a, b, c. rewrite Other by lia. rewrite firstn_all2 by (rewrite numbered_length; lia). reflexivity.
Qed.
(** Whatever files were read before, in whatever order, although the lists of names are changed by each file with the potentials. *)
Theorem C85_names : forall nrs, templates type_info nrs = map names_for nrs.
Proof.
  intros nrs. change type_info with (state 0 0 0). generalize 0 at 1. intros a. generalize 0 at 1. intros b. generalize 0. intros c. revert a b c. induction nrs as [|n nrs IH]; intros a b c; [reflexivity|].
  cbn [templates map]. destruct (template_step a b c n) as (a' & b' & c' & ->). rewrite IH. reflexivity.
Qed.
Print Assumptions C85_names.
Fixpoint undec (s : string) (acc : nat) : nat := match s with EmptyString => acc | String c r => undec r (10 * acc + (nat_of_ascii c - 48)) end.
Lemma undec_app s c : forall acc, undec (s ++ String c "") acc = 10 * undec s acc + (nat_of_ascii c - 48).
Proof. induction s as [|d s IH]; intros acc; [reflexivity|]. cbn [append undec]. apply IH. Qed.
Lemma undec_digit d acc : d < 10 -> undec (digit d) acc = 10 * acc + d.
Proof. intros H. unfold digit. cbn [undec]. rewrite nat_ascii_embedding by lia. lia. Qed.
Lemma undec_dec fuel : forall n, n < fuel -> undec (dec fuel n) 0 = n.
Proof.
  induction fuel as [|k IH]; intros n H; [lia|]. cbn [dec]. destruct (Nat.ltb_spec n 10) as [L|L]; [rewrite undec_digit by exact L; lia|].
  assert (D : n / 10 < k) by (apply Nat.lt_le_trans with n; [apply Nat.div_lt; lia|lia]). unfold digit. rewrite undec_app, IH by exact D. pose proof (Nat.mod_upper_bound n 10 ltac:(lia)). rewrite nat_ascii_embedding by lia. pose proof (Nat.div_mod n 10 ltac:(lia)). lia.
Qed.
Lemma digit_zero d : d < 10 -> ascii_of_nat (48 + d) = "0"%char -> d = 0.
Proof. intros H E. apply (f_equal nat_of_ascii) in E. rewrite nat_ascii_embedding in E by lia. change (nat_of_ascii "0"%char) with 48 in E. lia. Qed.
Lemma dec_lead fuel : forall n, n < fuel -> forall c r, dec fuel n = String c r -> c = "0"%char -> n = 0 /\ r = ""%string.
Proof.
  induction fuel as [|k IH]; intros n H c r; [lia|]. cbn [dec]. destruct (Nat.ltb_spec n 10) as [L|L].
  - unfold digit. generalize (digit_zero n L). generalize (ascii_of_nat (48 + n)). intros a Ha E C. inversion E; subst a r. split; [apply Ha; exact C|reflexivity].
  - assert (D : n / 10 < k) by (apply Nat.lt_le_trans with n; [apply Nat.div_lt; lia|lia]). intros E C. destruct (dec k (n / 10)) as [|c' r'] eqn:Ed.
    + pose proof (undec_dec k (n / 10) D) as U. rewrite Ed in U. cbn [undec] in U. pose proof (Nat.div_mod n 10 ltac:(lia)). pose proof (Nat.mod_upper_bound n 10 ltac:(lia)). lia.
    + cbn [append] in E. assert (E1 : c' = c) by (revert E; clear; intros E; inversion E; reflexivity). destruct (IH (n / 10) D c' r' Ed ltac:(congruence)) as (Z & _). pose proof (Nat.div_mod n 10 ltac:(lia)). pose proof (Nat.mod_upper_bound n 10 ltac:(lia)). lia.
Qed.
Lemma map_nodup {A B} (f : A -> B) (g : B -> A) l : (forall x, In x l -> g (f x) = x) -> NoDup l -> NoDup (map f l).
Proof.
  intros H. induction 1 as [|x l Nx Nl IH]; [constructor|]. cbn [map]. constructor; [|apply IH; intros y Hy; apply H; now right].
  intros I. apply in_map_iff in I as (y & Ey & Hy). assert (x = y). { rewrite <- (H x (or_introl eq_refl)), <- Ey. apply H. now right. } subst. contradiction.
Qed.
(** There is one name for each field, no name twice. *)
Theorem C85_names_distinct : forall n, length (names_for n) = n /\ NoDup (names_for n).
Proof.
  assert (Num : forall n, length (numbered n) = n /\ NoDup (numbered n)).
  { intros n. split; [apply numbered_length|]. unfold numbered. apply (map_nodup _ (fun s => match s with String _ r => undec r 0 | EmptyString => 0 end)); [|apply seq_NoDup]. intros x _. cbn [append]. apply undec_dec. lia. }
  assert (Fix : forall l : list string, (if in_dec string_dec ""%string l then false else true) = true -> (fix nd (l : list string) : bool := match l with [] => true | x :: r => (if in_dec string_dec x r then false else true) && nd r end) l = true -> NoDup l).
  { intros l _. induction l as [|x l IH]; intros H; [constructor|]. apply andb_prop in H as (H1 & H2). constructor; [destruct (in_dec string_dec x l); [discriminate|assumption]|apply IH; exact H2]. }
  intros n. unfold names_for. do 29 (destruct n as [|n]; [first [apply Num|split; [reflexivity|apply Fix; vm_compute; reflexivity]]|]). apply Num.
Qed.
Print Assumptions C85_names_distinct.
(** The names by numbers: Q and the number, without leading zeros. *)
Theorem C85_numbered : forall n i, i < n -> ~ In n [5; 7; 16; 18; 26; 28] -> exists s, nth i (names_for n) ""%string = append "Q" s /\ undec s 0 = i /\ (forall c r, s = String c r -> c = "0"%char -> i = 0 /\ r = ""%string).
Proof.
  intros n i Hi Hn. assert (E : names_for n = numbered n) by (unfold names_for; do 29 (destruct n as [|n]; [first [reflexivity|exfalso; apply Hn; cbn; tauto]|]); reflexivity). rewrite E.
  exists (dec (S i) i). split; [unfold numbered; set (f := fun i => append "Q" (dec (S i) i)); rewrite (nth_indep _ ""%string (f 0)) by (rewrite map_length, seq_length; exact Hi); rewrite (map_nth f), seq_nth by exact Hi; reflexivity|].
  split; [apply undec_dec; lia|]. apply dec_lead. lia.
Qed.
Print Assumptions C85_numbered.
Example C85_names_case : templates type_info [18; 16; 18; 3; 7] = [(five ++ potentials)%list; five; (five ++ potentials)%list; ["Q0"; "Q1"; "Q2"]%string; (hydro ++ potentials)%list].
Proof. rewrite C85_names. vm_compute. reflexivity. Qed.
(** Refuted: the kind of the grid is the one of its fields only if one file is read, in a series it is a part of the file name. *)
Theorem C85_kind_refuted : forall nr r, r <> [] -> grid_kinds [nr] = [kind_of nr] /\ Forall (fun k => k = "q"%string) (grid_kinds (nr :: r)).
Proof. intros nr [|x r] H; [contradiction|]. split; [reflexivity|]. cbn [grid_kinds map]. repeat constructor. apply Forall_forall. intros k Hk. apply in_map_iff in Hk as (y & <- & _). reflexivity. Qed.
Print Assumptions C85_kind_refuted.

(** ** values *)
Definition axes_left (l : list sel) : nat := length (filter (fun s => match s with SAt _ => false | _ => true end) l).
Lemma insert_end {A} (x : A) l : insert_at (length l) x l = (l ++ [x])%list.
Proof. induction l as [|y l IH]; [reflexivity|]. cbn [length insert_at app]. rewrite IH. reflexivity. Qed.
Lemma source_end l c : forall js, length js = axes_left l -> source (l ++ [SAt c])%list js = (source l js ++ [c])%list.
Proof.
  induction l as [|s l IH]; intros js H; [reflexivity|]. unfold axes_left in H. cbn [filter] in H. destruct s; cbn [length] in H; cbn [app source]; (destruct js as [|j js]; cbn [length] in H; try lia; rewrite IH by (unfold axes_left; cbn [length]; lia); reflexivity).
Qed.
Lemma no_ell_app l k : existsb is_ell (l ++ repeat SAll k)%list = existsb is_ell l.
Proof. rewrite existsb_app. replace (existsb is_ell (repeat SAll k)) with false; [apply orb_false_r|]. induction k; [reflexivity|]. cbn. assumption. Qed.
Lemma axes_left_app a b : axes_left (a ++ b) = axes_left a + axes_left b.
Proof. unfold axes_left. rewrite filter_app, app_length. reflexivity. Qed.
(** What is read with a selection of one field is that selection of the values of that field: component number [comp] of each cell. *)
Theorem C85_component : forall nd comp dset item js, existsb is_ell item = false -> length item <= nd -> length js = axes_left (full nd item) ->
  read_comp nd comp dset item js = read nd (fun ix => dset (ix ++ [comp])%list) item js.
Proof.
  intros nd comp dset item js He Hl Hj. unfold read_comp, read, inject. set (new := (item ++ repeat SAll (nd - length item))%list).
  assert (Ln : length new = nd) by (unfold new; rewrite app_length, repeat_length; lia). replace (nd + 1 - 1) with (length new) by lia. rewrite insert_end.
  assert (F : full nd item = new) by (unfold full; rewrite He; reflexivity). rewrite F in *.
  assert (F' : full (S nd) (new ++ [SAt comp]) = (new ++ [SAt comp])%list).
  { unfold full. replace (existsb is_ell (new ++ [SAt comp])) with false by (rewrite existsb_app; unfold new; rewrite no_ell_app, He; reflexivity). rewrite app_length, Ln. cbn [length]. replace (S nd - (nd + 1)) with 0 by lia. apply app_nil_r. }
  rewrite F'. rewrite source_end by exact Hj. reflexivity.
Qed.
Print Assumptions C85_component.
(** The whole field: at each cell the component of that number. *)
Theorem C85_whole : forall nd comp dset js, length js = nd -> read_whole nd comp dset js = dset (js ++ [comp])%list.
Proof.
  intros nd comp dset js Hj. unfold read_whole, read, inject. replace (nd + 1 - 1) with (length (repeat SAll nd)) by (rewrite repeat_length; lia). rewrite insert_end.
  assert (F' : full (S nd) (repeat SAll nd ++ [SAt comp]) = (repeat SAll nd ++ [SAt comp])%list).
  { unfold full. replace (existsb is_ell (repeat SAll nd ++ [SAt comp])) with false by (change (repeat SAll nd) with ([] ++ repeat SAll nd)%list; rewrite existsb_app, no_ell_app; reflexivity). rewrite app_length, repeat_length. cbn [length]. replace (S nd - (nd + 1)) with 0 by lia. apply app_nil_r. }
  rewrite F'. assert (A : axes_left (repeat SAll nd) = nd) by (clear; induction nd as [|nd IH]; [reflexivity|]; unfold axes_left in *; cbn; rewrite IH; reflexivity).
  rewrite source_end by lia. f_equal. f_equal. clear - Hj. revert nd Hj. induction js as [|j js IH]; intros nd Hj; cbn in Hj; subst nd; [reflexivity|]. cbn [repeat source]. rewrite (IH (length js) eq_refl). reflexivity.
Qed.
Print Assumptions C85_whole.
(** Refuted: with an Ellipsis the selected axes are others, [..., k] of three axes is [:, k, :]; and of one axis the index of the place and the number of the field are exchanged. *)
Theorem C85_ellipsis_refuted : forall comp k a b dset,
  read 3 (fun ix => dset (ix ++ [comp])%list) [SEll; SAt k] [a; b] = dset [a; b; k; comp] /\ read_comp 3 comp dset [SEll; SAt k] [a; b] = dset [a; k; b; comp] /\
  read 1 (fun ix => dset (ix ++ [comp])%list) [SEll; SAt k] [] = dset [k; comp] /\ read_comp 1 comp dset [SEll; SAt k] [] = dset [comp; k].
Proof. intros. repeat split; reflexivity. Qed.
Print Assumptions C85_ellipsis_refuted.
Example C85_component_case : read_comp 3 7 (fun ix => inject_Z (Z.of_nat (fold_left (fun a i => 10 * a + i) ix 0))) [SRange 2 5; SAt 4] [1; 6] = inject_Z 3467.
Proof. reflexivity. Qed.

(** ** derived fields *)
Local Open Scope Q_scope.
(** Particles with weights and velocities; the moments a code stores, and the mean velocity and the pressure, the moment about the mean. *)
Definition particle := (Q * (nat -> Q))%type.
Fixpoint total (f : particle -> Q) (ps : list particle) : Q := match ps with [] => 0 | p :: r => f p + total f r end.
Definition weight (p : particle) : Q := fst p.
Definition vel (a : nat) (p : particle) : Q := snd p a.
Definition moments_of (ps : list particle) : moments :=
  MOM (total weight ps) (fun a => total (fun p => weight p * vel a p) ps) (fun a b => total (fun p => weight p * vel a p * vel b p) ps).
Definition mean (ps : list particle) (a : nat) : Q := total (fun p => weight p * vel a p) ps / total weight ps.
Definition pressure (ps : list particle) (a b : nat) : Q := total (fun p => weight p * (vel a p - mean ps a) * (vel b p - mean ps b)) ps.
Lemma total_shift (ps : list particle) a b x y :
  total (fun p => weight p * (vel a p - x) * (vel b p - y)) ps == total (fun p => weight p * vel a p * vel b p) ps - x * total (fun p => weight p * vel b p) ps - y * total (fun p => weight p * vel a p) ps + x * y * total weight ps.
Proof. induction ps as [|p ps IH]; cbn [total]; [ring|]. rewrite IH. ring. Qed.
Lemma pressure_moments ps a b : ~ total weight ps == 0 -> pressure ps a b == m_p (moments_of ps) a b - m_rhou (moments_of ps) a * m_rhou (moments_of ps) b / m_rho (moments_of ps).
Proof. intros H. unfold pressure. rewrite total_shift. cbn [moments_of m_p m_rhou m_rho]. unfold mean. field. exact H. Qed.
(** The velocity is the mean velocity of all particles; the xx, xy, xz and yz pressures are the moments about it. *)
Theorem C85_derived : forall ps, ~ total weight ps == 0 -> (forall a, get_u (moments_of ps) a == mean ps a) /\
  get_P (moments_of ps) 0 0 == pressure ps 0 0 /\ get_P (moments_of ps) 0 1 == pressure ps 0 1 /\ get_P (moments_of ps) 0 2 == pressure ps 0 2 /\ get_P (moments_of ps) 1 2 == pressure ps 1 2.
Proof. intros ps H. split; [intros a; reflexivity|]. repeat split; rewrite pressure_moments by exact H; reflexivity. Qed.
Print Assumptions C85_derived.
(** Refuted: the yy and zz pressures are wrong by the density times the difference of the squares of the velocities along that axis and along x, so right only where these are equal. *)
Theorem C85_pressure_refuted : forall ps a, ~ total weight ps == 0 -> (a = 1 \/ a = 2)%nat ->
  get_P (moments_of ps) a a - pressure ps a a == total weight ps * (mean ps a * mean ps a - mean ps 0 * mean ps 0) /\
  (get_P (moments_of ps) a a == pressure ps a a <-> mean ps a * mean ps a == mean ps 0 * mean ps 0).
Proof.
  intros ps a H Ha. assert (E : get_P (moments_of ps) a a - pressure ps a a == total weight ps * (mean ps a * mean ps a - mean ps 0 * mean ps 0)).
  { rewrite pressure_moments by exact H. unfold mean. destruct Ha as [-> | ->]; cbn [get_P moments_of m_p m_rhou m_rho]; field; exact H. }
  split; [exact E|]. split; intros Q.
  - assert (Z : total weight ps * (mean ps a * mean ps a - mean ps 0 * mean ps 0) == 0) by (rewrite <- E, Q; ring). apply Qmult_integral in Z as [Z|Z]; [contradiction|Lqa.lra].
  - assert (Z : get_P (moments_of ps) a a - pressure ps a a == 0) by (rewrite E, Q; ring). Lqa.lra.
Qed.
Print Assumptions C85_pressure_refuted.
Example C85_pressure_case : let ps := [(1, fun a => match a with 0%nat => 3 | 1%nat => 1 | _ => 0 end); (1, fun a => match a with 0%nat => 3 | 1%nat => -1 | _ => 0 end)] in
  ~ total weight ps == 0 /\ pressure ps 1 1 == 2 /\ get_P (moments_of ps) 1 1 == -16 /\ get_P (moments_of ps) 0 0 == 0.
Proof. vm_compute. repeat split; congruence. Qed.

(** ** coordinates *)
(** The nodes of a uniform grid: from the lower to the upper bound in as many equal cells as there are. *)
Theorem C85_uniform : forall lower upper num, (0 < num)%nat -> let x := uniform_nodes lower upper num in
  length x = S num /\ nth 0 x 0 == lower /\ nth num x 0 == upper /\ (forall i, (i < num)%nat -> nth (S i) x 0 - nth i x 0 == (upper - lower) / inject_Z (Z.of_nat num)) /\
  (lower < upper -> forall i, (i < num)%nat -> nth i x 0 < nth (S i) x 0).
Proof.
  intros lower upper num Hn x. set (g := fun i : nat => lower + inject_Z (Z.of_nat i) * ((upper - lower) / inject_Z (Z.of_nat num))).
  assert (V : forall i, (i <= num)%nat -> nth i x 0 = g i). { intros i Hi. unfold x, uniform_nodes. fold g. rewrite (nth_indep _ 0 (g 0%nat)) by (rewrite map_length, seq_length; lia). rewrite (map_nth g), seq_nth by lia. reflexivity. }
  assert (Np : 0 < inject_Z (Z.of_nat num)) by (replace 0 with (inject_Z 0) by reflexivity; rewrite <- Zlt_Qlt; lia).
  assert (D : forall i, (i < num)%nat -> nth (S i) x 0 - nth i x 0 == (upper - lower) / inject_Z (Z.of_nat num)). { intros i Hi. rewrite !V by lia. unfold g. rewrite Nat2Z.inj_succ. unfold Z.succ. rewrite inject_Z_plus. ring. }
  split; [unfold x, uniform_nodes; rewrite map_length, seq_length; reflexivity|]. split; [rewrite V by lia; unfold g; change (inject_Z (Z.of_nat 0)) with 0; ring|]. split; [rewrite V by lia; unfold g; field; Lqa.lra|]. split; [exact D|].
  intros Hlu i Hi. specialize (D i Hi). assert (0 < (upper - lower) / inject_Z (Z.of_nat num)) by (apply Qlt_shift_div_l; [exact Np|]; Lqa.lra). Lqa.lra.
Qed.
Print Assumptions C85_uniform.
(** The axes of a structured grid of three axes whose cells are boxes are found. *)
Theorem C85_structured : forall X n dset, (forall i j k, dset [i; j; k; 0]%nat == nth i (X 0%nat) 0 /\ dset [i; j; k; 1]%nat == nth j (X 1%nat) 0 /\ dset [i; j; k; 2]%nat == nth k (X 2%nat) 0) ->
  forall idx, (idx < 3)%nat -> n = length (X idx) -> exists x, structured_axis 3 idx n dset = Some x /\ length x = n /\ forall i, (i < n)%nat -> nth i x 0 == nth i (X idx) 0.
Proof.
  intros X n dset H idx Hx Hn. eexists. split; [reflexivity|]. split; [rewrite map_length, seq_length; reflexivity|]. intros i Hi.
  match goal with |- nth i (map ?f ?l) 0 == _ => rewrite (nth_indep _ 0 (f 0%nat)) by (rewrite map_length, seq_length; exact Hi); rewrite (map_nth f), seq_nth by exact Hi end. cbn [Nat.add].
  destruct idx as [|[|[|idx]]]; [| | |lia].
  - exact (proj1 (H i 0%nat 0%nat)).
  - exact (proj1 (proj2 (H 0%nat i 0%nat))).
  - exact (proj2 (proj2 (H 0%nat 0%nat i))).
Qed.
Print Assumptions C85_structured.
(** Refuted: a structured grid of one or two axes cannot be read. *)
Theorem C85_structured_2d_refuted : forall nd idx n dset, nd <> 3%nat -> structured_axis nd idx n dset = None.
Proof. intros nd idx n dset H. unfold structured_axis. destruct (Nat.eqb_spec nd 3); [contradiction|reflexivity]. Qed.
Print Assumptions C85_structured_2d_refuted.

(** ** groups of files *)
(** The files of one run are one group in the order of their frames; every file is in one. *)
Theorem C85_groups : forall {A} (l : list (info A)), l <> [] -> Forall (fun f => timed f = true) l -> NoDup l -> exists gs, group_frames l = Some (map (map i_name) gs) /\ good_groups gs /\ NoDup (concat gs) /\
  forall f, In f (concat gs) <-> In f l.
Proof.
  intros A l Hl Ht Nl. destruct (groups_main l Hl) as (gs0 & _ & P0 & _).
  assert (E : exists gs, group_frames l = Some (map (map i_name) gs) /\ Permutation l (concat gs) /\ good_groups gs).
  { clear gs0 P0. unfold group_frames. pose proof (sort_stable i_run _ _ (sort_stable i_type _ _ (sort_stable time_key _ _ (all_true l)))) as Ss. change (StronglySorted in_order (sort_by i_run (sort_by i_type (sort_by time_key l)))) in Ss.
    assert (P : Permutation l (sort_by i_run (sort_by i_type (sort_by time_key l)))) by (rewrite <- sort_perm, <- sort_perm; apply sort_perm).
    destruct (sort_by i_run (sort_by i_type (sort_by time_key l))) as [|a s]; [exfalso; apply Hl; now apply Permutation_nil, Permutation_sym|].
    destruct (split_ok s [a]) as (C & G & D); [discriminate|intros x y [<-|[]] [<-|[]]; split; reflexivity|exact Ss|]. exists (split_groups [a] s). split; [reflexivity|]. rewrite C. split; [exact P|]. split; [|exact D].
    pose proof (sorted_concat in_order (split_groups [a] s)) as Sg. rewrite C in Sg. specialize (Sg Ss). rewrite Forall_forall in *. intros g Hg. destruct (G g Hg) as (Ng & Er). split; [exact Ng|]. split; [exact Er|]. specialize (Sg g Hg). clear - Sg Er.
    induction Sg as [|b g Sg IH Fb]; [constructor|]. constructor; [apply IH; intros x y Hx Hy; apply Er; now right|]. rewrite Forall_forall in *. intros c Hc. specialize (Fb c Hc). apply no_later_spec. destruct (Er b c (or_introl eq_refl) (or_intror Hc)). unfold in_order in Fb. lia. }
  destruct E as (gs & E & P & G). exists gs. split; [exact E|]. split; [exact G|]. split; [exact (Permutation_NoDup P Nl)|]. intros f. split; apply Permutation_in; [apply Permutation_sym|]; exact P.
Qed.
Print Assumptions C85_groups.
Example C85_groups_case : group_frames [IF 1 0 (Some 20%nat) 1%nat; IF 0 0 (Some 7%nat) 2%nat; IF 1 0 (Some 3%nat) 3%nat] = Some [[2%nat]; [3%nat; 1%nat]].
Proof. reflexivity. Qed.
