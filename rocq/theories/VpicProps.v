(** C73: a VPIC run reads as what the simulation wrote. *)
From Coq Require Import String.
From Verif Require Import VpicModel.
From Coq Require Import List ZArith QArith Qround Lia Lqa ZifyBool ZifyNat Qfield.
Import ListNotations.
Open Scope Z_scope.

(** ** a simulation *)
(** a variable has components, each a 32 bit word for each cell of the whole grid *)
Record svar := SVar { v_name : string; v_kind : kind; v_comps : list (Z -> Z -> Z -> Z) }.
(** the fields, or a species: directory, basename, variables *)
Record sset := SSet { ss_dir : string; ss_base : string; ss_vars : list svar }.
(** blocks along each axis, cells of a block along each axis, size of a cell, lower corner of the grid, upper corner of the first
    block as written in the global file, variables, and three numbers nobody needs *)
Record sim := Sim { tx : Z; ty : Z; tz : Z; lx : Z; ly : Z; lz : Z; dx : Q; dy : Q; dz : Q; xl : Q; yl : Q; zl : Q;
                    xh : Q; yh : Q; zh : Q; sfields : sset; sspecies : list sset; dt : Q; cvac : Q; eps0 : Q }.
Definition sets (s : sim) : list sset := sfields s :: sspecies s.
Definition fits (lo hi d : Q) (n : Z) : Prop := (0 < d)%Q /\ 0 < n /\ (- (1 # 2) * d <= hi - (lo + inject_Z n * d) < (1 # 2) * d)%Q.
Definition well_formed (s : sim) : Prop :=
  0 < tx s /\ 0 < ty s /\ 0 < tz s /\ fits (xl s) (xh s) (dx s) (lx s) /\ fits (yl s) (yh s) (dy s) (ly s) /\ fits (zl s) (zh s) (dz s) (lz s) /\
  forall ss v, In ss (sets s) -> In v (ss_vars ss) -> v_kind v <> OTHER /\ (length (v_comps v) <= 14)%nat.

(** *** its global file *)
Definition descr_line (v : svar) : line := LDescr (v_name v) (length (v_comps v)) (v_kind v).
Definition count (l : list svar) : word := WInt (Z.of_nat (length l)).
Definition species_lines (ss : sset) : list line :=
  [LKw "SPECIES_DATA_DIRECTORY" [WStr (ss_dir ss)]; LKw "SPECIES_DATA_BASE_FILENAME" [WStr (ss_base ss)];
   LKw "HYDRO_DATA_VARIABLES" [count (ss_vars ss)]]%string ++ map descr_line (ss_vars ss).
Definition grid_lines (s : sim) : list line :=
  [LKw "GRID_EXTENTS_X" [WNum (xl s); WNum (xh s)]; LKw "GRID_EXTENTS_Y" [WNum (yl s); WNum (yh s)]; LKw "GRID_EXTENTS_Z" [WNum (zl s); WNum (zh s)];
   LKw "GRID_DELTA_X" [WNum (dx s)]; LKw "GRID_DELTA_Y" [WNum (dy s)]; LKw "GRID_DELTA_Z" [WNum (dz s)];
   LKw "GRID_TOPOLOGY_X" [WInt (tx s)]; LKw "GRID_TOPOLOGY_Y" [WInt (ty s)]; LKw "GRID_TOPOLOGY_Z" [WInt (tz s)]]%string.
(** the lines about the grid may come before or after the variables *)
Definition global_file (late : bool) (s : sim) : list line :=
  [LKw "VPIC_HEADER_VERSION" [WStr "1.0.0"]; LKw "DATA_HEADER_SIZE" [WInt 123];
   LKw "GRID_DELTA_T" [WNum (dt s)]; LKw "GRID_CVAC" [WNum (cvac s)]; LKw "GRID_EPS0" [WNum (eps0 s)]]%string ++ (if late then [] else grid_lines s) ++
  [LKw "FIELD_DATA_DIRECTORY" [WStr (ss_dir (sfields s))]; LKw "FIELD_DATA_BASE_FILENAME" [WStr (ss_base (sfields s))];
   LKw "FIELD_DATA_VARIABLES" [count (ss_vars (sfields s))]]%string ++ map descr_line (ss_vars (sfields s)) ++
  [LKw "NUM_OUTPUT_SPECIES"%string [WInt (Z.of_nat (length (sspecies s)))]] ++ flat_map species_lines (sspecies s) ++ (if late then grid_lines s else []).
(** comments and empty lines anywhere but before the description of a variable *)
Inductive commented : list line -> list line -> Prop :=
| c_nil : commented [] []
| c_keep x a b : commented a b -> commented (x :: a) (x :: b)
| c_skip a b : commented a b -> match b with LDescr _ _ _ :: _ => False | _ => True end -> commented a (LSkip :: b).

(** *** its dump files *)
(** an array with an outer layer, in Fortran order *)
Definition upto (n : Z) : list Z := map Z.of_nat (seq 0 (Z.to_nat n)).
Definition fortran (nx ny nz : Z) (a : Z -> Z -> Z -> Z) : list Z :=
  flat_map (fun k => flat_map (fun j => map (fun i => a i j k) (upto nx)) (upto ny)) (upto nz).
(** the file of the block at (bx, by, bz) has the components of all variables one after the other, each with an outer layer of
    whatever values *)
Definition dumped (s : sim) (ss : sset) (bx by_ bz : Z) (f : dump) : Prop :=
  f_dim f = (lx s + 2, ly s + 2, lz s + 2) /\
  exists arrs, f_words f = flat_map (fortran (lx s + 2) (ly s + 2) (lz s + 2)) arrs /\
    Forall2 (fun a g => forall i j k, 0 <= i < lx s -> 0 <= j < ly s -> 0 <= k < lz s ->
                          a (i + 1) (j + 1) (k + 1) = g (bx * lx s + i) (by_ * ly s + j) (bz * lz s + k))
            arrs (flat_map v_comps (ss_vars ss)).
Definition written (s : sim) (fs : string -> string -> Z -> option dump) : Prop :=
  forall ss bx by_ bz, In ss (sets s) -> 0 <= bx < tx s -> 0 <= by_ < ty s -> 0 <= bz < tz s ->
    exists f, fs (ss_dir ss) (ss_base ss) (bx + tx s * (by_ + ty s * bz)) = Some f /\ dumped s ss bx by_ bz f.

(** *** the names of its variables *)
Definition suffixes (n : nat) : list string :=
  match n with
  | 1%nat => [""]
  | 3%nat => [" X"; " Y"; " Z"]
  | 6%nat => [" XX"; " YY"; " ZZ"; " YZ"; " ZX"; " XY"]
  | n => firstn n [" A"; " B"; " C"; " D"; " E"; " F"; " G"; " H"; " I"; " J"; " K"; " L"; " M"; " N"]
  end%string.
Definition label (ss : sset) (v : svar) : string :=
  (v_name v ++ (if String.eqb (ss_base ss) "fields" then "" else " (" ++ ss_base ss ++ ")"))%string.
Definition names (s : sim) : list string :=
  flat_map (fun ss => flat_map (fun v => map (fun x => label ss v ++ x)%string (suffixes (length (v_comps v)))) (ss_vars ss)) (sets s).

(** ** lists *)
Lemma upto_length n : length (upto n) = Z.to_nat n.
Proof. unfold upto. now rewrite map_length, seq_length. Qed.
Lemma upto_nth n k : 0 <= k < n -> nth_error (upto n) (Z.to_nat k) = Some k.
Proof.
  intros H. unfold upto. rewrite nth_error_map, nth_error_nth' with (d := 0%nat) by (rewrite seq_length; lia). rewrite seq_nth by lia. cbn. f_equal. lia.
Qed.
Lemma nth_error_flat_map {A B} (f : A -> list B) (m : nat) : forall l k x i, (forall y, In y l -> length (f y) = m) ->
  nth_error l k = Some x -> (i < m)%nat -> nth_error (flat_map f l) (i + m * k) = nth_error (f x) i.
Proof.
  induction l as [|a l IH]; intros k x i Hm E Hi; [destruct k; discriminate|]. cbn [flat_map].
  assert (La : length (f a) = m) by (apply Hm; now left). destruct k as [|k]; cbn [nth_error] in E.
  - injection E as ->. rewrite nth_error_app1 by nia. f_equal. lia.
  - rewrite nth_error_app2 by nia. rewrite La. replace (i + m * S k - m)%nat with (i + m * k)%nat by nia. apply IH; auto. intros y Hy. apply Hm. now right.
Qed.
Lemma flat_map_length_const {A B} (f : A -> list B) m l : (forall y, In y l -> length (f y) = m) -> length (flat_map f l) = (m * length l)%nat.
Proof.
  induction l as [|a l IH]; intros H; cbn [flat_map]; [cbn; lia|]. rewrite app_length, (H a) by now left. rewrite IH by (intros y Hy; apply H; now right). cbn. lia.
Qed.
Lemma three_level {B} (g : Z -> Z -> Z -> B) nx ny nz i j k : 0 <= i < nx -> 0 <= j < ny -> 0 <= k < nz ->
  nth_error (flat_map (fun k => flat_map (fun j => map (fun i => g i j k) (upto nx)) (upto ny)) (upto nz)) (Z.to_nat (i + nx * (j + ny * k))) = Some (g i j k).
Proof.
  intros Hi Hj Hk.
  assert (L1 : forall k j, length (map (fun i => g i j k) (upto nx)) = Z.to_nat nx) by (intros; now rewrite map_length, upto_length).
  assert (L2 : forall k, length (flat_map (fun j => map (fun i => g i j k) (upto nx)) (upto ny)) = (Z.to_nat nx * Z.to_nat ny)%nat).
  { intros k0. rewrite (flat_map_length_const _ (Z.to_nat nx)) by auto. now rewrite upto_length. }
  replace (Z.to_nat (i + nx * (j + ny * k))) with ((Z.to_nat i + Z.to_nat nx * Z.to_nat j) + (Z.to_nat nx * Z.to_nat ny) * Z.to_nat k)%nat by nia.
  rewrite (nth_error_flat_map _ (Z.to_nat nx * Z.to_nat ny) (upto nz) (Z.to_nat k) k) by (auto using upto_nth || nia).
  rewrite (nth_error_flat_map _ (Z.to_nat nx) (upto ny) (Z.to_nat j) j) by (auto using upto_nth || nia).
  rewrite nth_error_map, upto_nth by lia. reflexivity.
Qed.
Lemma three_length {B} (g : Z -> Z -> Z -> B) nx ny nz :
  length (flat_map (fun k => flat_map (fun j => map (fun i => g i j k) (upto nx)) (upto ny)) (upto nz)) = (Z.to_nat nx * Z.to_nat ny * Z.to_nat nz)%nat.
Proof.
  rewrite (flat_map_length_const _ (Z.to_nat nx * Z.to_nat ny)); [now rewrite upto_length|]. intros k _.
  rewrite (flat_map_length_const _ (Z.to_nat nx)); [now rewrite upto_length|]. intros j _. now rewrite map_length, upto_length.
Qed.

(** ** the global file *)
Lemma commented_kw k args a ls : commented (LKw k args :: a) ls -> exists m ls', ls = repeat LSkip m ++ LKw k args :: ls' /\ commented a ls'.
Proof.
  intros C. remember (LKw k args :: a) as x eqn:Ex. induction C as [|y a' b C IH|a' b C IH N]; [discriminate| |].
  - injection Ex as -> ->. exists 0%nat, b. auto.
  - destruct (IH Ex) as (m & ls' & -> & C'). exists (S m), ls'. auto.
Qed.
Lemma commented_descrs vs : forall a ls, commented (map descr_line vs ++ a) ls -> vs <> [] -> exists ls', ls = map descr_line vs ++ ls' /\ commented a ls'.
Proof.
  induction vs as [|v vs IH]; intros a ls C H; [congruence|]. cbn [map app] in C.
  assert (X : exists ls1, ls = descr_line v :: ls1 /\ commented (map descr_line vs ++ a) ls1).
  { remember (descr_line v :: map descr_line vs ++ a) as x eqn:Ex. clear IH H. induction C as [|y a' b C IH|a' b C IH N]; [discriminate| |].
    - injection Ex as -> ->. eauto.
    - destruct (IH Ex) as (ls1 & -> & _). unfold descr_line in N. destruct N. }
  destruct X as (ls1 & -> & C1). destruct vs as [|v' vs].
  - exists ls1. auto.
  - destruct (IH a ls1 C1 ltac:(discriminate)) as (ls' & -> & C'). exists ls'. auto.
Qed.
(** the descriptions with their offsets *)
Fixpoint descrs (off : Z) (vs : list svar) : list descr :=
  match vs with [] => [] | v :: vs => Descr (v_name v) (length (v_comps v)) (v_kind v) off :: descrs (off + Z.of_nat (length (v_comps v))) vs end.
Lemma take_descrs_ok vs : forall off ls, (forall v, In v vs -> v_kind v <> OTHER) ->
  take_descrs (length vs) off (map descr_line vs ++ ls) = Some (descrs off vs, ls).
Proof.
  induction vs as [|v vs IH]; intros off ls H; [reflexivity|]. cbn [length take_descrs map app descr_line descrs].
  rewrite IH by (intros w Hw; apply H; now right). assert (v_kind v <> OTHER) by (apply H; now left). destruct (v_kind v); [reflexivity|reflexivity|congruence].
Qed.
Lemma take_commented vs off a ls : (forall v, In v vs -> v_kind v <> OTHER) -> commented (map descr_line vs ++ a) ls ->
  exists ls', take_descrs (length vs) off ls = Some (descrs off vs, ls') /\ commented a ls' /\ (length ls' <= length ls)%nat.
Proof.
  intros H C. destruct vs as [|v vs].
  - exists ls. cbn in *. auto.
  - destruct (commented_descrs (v :: vs) a ls C ltac:(discriminate)) as (ls' & -> & C'). exists ls'. rewrite take_descrs_ok by exact H.
    split; [reflexivity|]. split; [exact C'|]. rewrite app_length. lia.
Qed.
Definition fset_of (ss : sset) : fset := FSet (ss_dir ss) (ss_base ss) (descrs 0 (ss_vars ss)).
Lemma skip_species m ls kw : take_species (repeat LSkip m ++ ls) kw = take_species ls kw.
Proof. induction m; cbn; auto. Qed.
Lemma take_species_ok ss a ls : (forall v, In v (ss_vars ss) -> v_kind v <> OTHER) -> commented (species_lines ss ++ a) ls ->
  exists ls', take_species ls [] = Some (fset_of ss, ls') /\ commented a ls' /\ (length ls' <= length ls)%nat.
Proof.
  intros H C. unfold species_lines in C. cbn [app] in C.
  destruct (commented_kw _ _ _ _ C) as (m1 & ls1 & -> & C1). destruct (commented_kw _ _ _ _ C1) as (m2 & ls2 & -> & C2).
  destruct (commented_kw _ _ _ _ C2) as (m3 & ls3 & -> & C3). destruct (take_commented (ss_vars ss) 0 a ls3 H C3) as (ls' & T & C' & L).
  exists ls'. split; [|split; [exact C'|rewrite !app_length; cbn [length]; rewrite !app_length; cbn [length]; rewrite !app_length; cbn [length]; lia]].
  rewrite skip_species. cbn [take_species]. change (String.eqb "SPECIES_DATA_DIRECTORY" "HYDRO_DATA_VARIABLES") with false. cbv iota.
  rewrite skip_species. cbn [take_species]. change (String.eqb "SPECIES_DATA_BASE_FILENAME" "HYDRO_DATA_VARIABLES") with false. cbv iota.
  rewrite skip_species. cbn [take_species]. change (String.eqb "HYDRO_DATA_VARIABLES" "HYDRO_DATA_VARIABLES") with true. cbv iota.
  unfold count. rewrite Nat2Z.id, T. reflexivity.
Qed.
Lemma take_all_species_ok sps : forall a ls, (forall ss v, In ss sps -> In v (ss_vars ss) -> v_kind v <> OTHER) -> commented (flat_map species_lines sps ++ a) ls ->
  exists ls', take_all_species (length sps) ls = Some (map fset_of sps, ls') /\ commented a ls' /\ (length ls' <= length ls)%nat.
Proof.
  induction sps as [|ss sps IH]; intros a ls H C; [exists ls; cbn in *; auto|]. cbn [flat_map] in C. rewrite <- app_assoc in C.
  destruct (take_species_ok ss _ ls (fun v => H ss v (or_introl eq_refl)) C) as (ls1 & T1 & C1 & L1).
  destruct (IH a ls1 (fun s v Hs => H s v (or_intror Hs)) C1) as (ls' & T' & C' & L'). exists ls'. cbn [length take_all_species map]. rewrite T1, T'.
  split; [reflexivity|]. split; [exact C'|lia].
Qed.
Lemma parse_skips m ls : forall fuel g, (m <= fuel)%nat -> parse fuel (repeat LSkip m ++ ls) g = parse (fuel - m) ls g.
Proof.
  induction m as [|m IH]; intros fuel g H; cbn [repeat app]; [f_equal; lia|]. destruct fuel as [|fuel]; [lia|]. cbn [parse]. rewrite IH by lia. f_equal.
Qed.
Lemma parse_kw k args a ls fuel g : commented (LKw k args :: a) ls -> (length ls <= fuel)%nat ->
  exists fuel' ls', commented a ls' /\ (length ls' <= fuel')%nat /\ parse fuel ls g = parse (S fuel') (LKw k args :: ls') g.
Proof.
  intros C L. destruct (commented_kw _ _ _ _ C) as (m & ls' & -> & C'). rewrite app_length, repeat_length in L. cbn [length] in L.
  exists (fuel - m - 1)%nat, ls'. split; [exact C'|]. split; [lia|]. rewrite parse_skips by lia. f_equal. lia.
Qed.
Lemma parse_end ls fuel g : commented [] ls -> parse fuel ls g = Some g.
Proof.
  revert ls. induction fuel as [|fuel IH]; intros ls C; [reflexivity|]. destruct ls as [|x ls]; [reflexivity|].
  inversion C as [| |a b C' N]; subst. cbn [parse]. apply IH, C'.
Qed.
Lemma ldim_ok lo hi d n : fits lo hi d n -> ldim lo hi d = n.
Proof.
  intros (Hd & Hn & H1 & H2). unfold ldim.
  assert (E : (inject_Z n <= (hi - lo) / d + (1 # 2) /\ (hi - lo) / d + (1 # 2) < inject_Z (n + 1))%Q).
  { assert (X : ((hi - lo) / d * d == hi - lo)%Q) by (field; lra).
    set (q := ((hi - lo) / d)%Q) in *. rewrite inject_Z_plus. change (inject_Z 1) with 1%Q. split.
    - apply Qmult_lt_0_le_reg_r with d; [exact Hd|]. lra.
    - apply Qmult_lt_r with d; [exact Hd|]. lra. }
  destruct E as [E1 E2]. pose proof (Qfloor_le ((hi - lo) / d + (1 # 2))) as F1. pose proof (Qlt_floor ((hi - lo) / d + (1 # 2))) as F2.
  set (f := Qfloor ((hi - lo) / d + (1 # 2))) in *.
  assert (inject_Z f < inject_Z (n + 1))%Q by lra. assert (inject_Z n < inject_Z (f + 1))%Q by lra. rewrite <- Zlt_Qlt in *. lia.
Qed.

(** the global file gives the blocks, their size, and for each variable its place in the dump files *)
Definition setup_of (s : sim) : setup :=
  Setup (tx s, ty s, tz s) (dx s, dy s, dz s) (xl s, yl s, zl s) (lx s, ly s, lz s) (map fset_of (sets s)).
Lemma load_ok late s ls : well_formed s -> commented (global_file late s) ls -> load_global ls = Some (setup_of s).
Proof.
  intros (_ & _ & _ & Fx & Fy & Fz & Hv) C. unfold load_global.
  assert (P : exists kw, parse (length ls) ls (GFile [] None None) = Some (GFile kw (Some (fset_of (sfields s))) (Some (map fset_of (sspecies s)))) /\
    dget kw "GRID_TOPOLOGY_X"%string = Some (VInt (tx s)) /\ dget kw "GRID_TOPOLOGY_Y"%string = Some (VInt (ty s)) /\ dget kw "GRID_TOPOLOGY_Z"%string = Some (VInt (tz s)) /\
    dget kw "GRID_DELTA_X"%string = Some (VNum (dx s)) /\ dget kw "GRID_DELTA_Y"%string = Some (VNum (dy s)) /\ dget kw "GRID_DELTA_Z"%string = Some (VNum (dz s)) /\
    dget kw "GRID_EXTENTS_X"%string = Some (VNum2 (xl s) (xh s)) /\ dget kw "GRID_EXTENTS_Y"%string = Some (VNum2 (yl s) (yh s)) /\
    dget kw "GRID_EXTENTS_Z"%string = Some (VNum2 (zl s) (zh s))).
  { assert (L : (length ls <= length ls)%nat) by lia. revert L C. generalize (length ls) at 2 3. intros fuel L C. unfold global_file in C.
    assert (K : forall k args a ls fuel g (P : Prop), commented (LKw k args :: a) ls -> (length ls <= fuel)%nat ->
      (forall ls' fuel', commented a ls' -> (length ls' <= fuel')%nat -> parse fuel ls g = parse (S fuel') (LKw k args :: ls') g -> P) -> P).
    { intros k args a ls0 fuel0 g P C0 L0 HP. destruct (parse_kw k args a ls0 fuel0 g C0 L0) as (f' & l' & C' & L' & E'). eauto. }
    destruct late; cbn [app grid_lines] in C.
    - do 7 (eapply K; [exact C|exact L|]; clear C L; intros ? ? C L ->; cbn [parse String.eqb Ascii.eqb Bool.eqb dget keywords read_kw wnum option_map g_kw g_fields g_species]).
      eapply K; [exact C|exact L|]; clear C L; intros ls1 fuel1 C L ->. cbn [parse String.eqb Ascii.eqb Bool.eqb dget dput g_kw g_fields g_species]. unfold count. rewrite Nat2Z.id.
      destruct (take_commented (ss_vars (sfields s)) 0 _ ls1 (fun v Hv' => proj1 (Hv (sfields s) v (or_introl eq_refl) Hv')) C) as (ls2 & -> & C2 & L2).
      eapply K; [exact C2|apply (Nat.le_trans _ _ _ L2 L)|]; clear C L; intros ls3 fuel3 C L ->. cbn [parse String.eqb Ascii.eqb Bool.eqb dget dput g_kw g_fields g_species]. rewrite Nat2Z.id.
      destruct (take_all_species_ok (sspecies s) _ ls3 (fun ss v Hs Hv' => proj1 (Hv ss v (or_intror Hs) Hv')) C) as (ls4 & -> & C4 & L4).
      clear C. rename C4 into C. assert (L5 : (length ls4 <= fuel3)%nat) by lia. clear L. rename L5 into L.
      do 9 (eapply K; [exact C|exact L|]; clear C L; intros ? ? C L ->; cbn [parse String.eqb Ascii.eqb Bool.eqb dget keywords read_kw wnum option_map g_kw g_fields g_species]).
      rewrite parse_end by exact C. eexists. split; [reflexivity|]. repeat split.
    - do 16 (eapply K; [exact C|exact L|]; clear C L; intros ? ? C L ->; cbn [parse String.eqb Ascii.eqb Bool.eqb dget keywords read_kw wnum option_map g_kw g_fields g_species]).
      eapply K; [exact C|exact L|]; clear C L; intros ls1 fuel1 C L ->. cbn [parse String.eqb Ascii.eqb Bool.eqb dget dput g_kw g_fields g_species]. unfold count. rewrite Nat2Z.id.
      destruct (take_commented (ss_vars (sfields s)) 0 _ ls1 (fun v Hv' => proj1 (Hv (sfields s) v (or_introl eq_refl) Hv')) C) as (ls2 & -> & C2 & L2).
      eapply K; [exact C2|apply (Nat.le_trans _ _ _ L2 L)|]; clear C L; intros ls3 fuel3 C L ->. cbn [parse String.eqb Ascii.eqb Bool.eqb dget dput g_kw g_fields g_species]. rewrite Nat2Z.id.
      destruct (take_all_species_ok (sspecies s) [] ls3 (fun ss v Hs Hv' => proj1 (Hv ss v (or_intror Hs) Hv')) C) as (ls4 & -> & C4 & L4).
      rewrite parse_end by exact C4. eexists. split; [reflexivity|]. repeat split. }
  destruct P as (kw & -> & -> & -> & -> & -> & -> & -> & -> & -> & ->). rewrite (ldim_ok _ _ _ _ Fx), (ldim_ok _ _ _ _ Fy), (ldim_ok _ _ _ _ Fz). reflexivity.
Qed.

(** ** the variables *)
Lemma append_nil s : (s ++ "")%string = s.
Proof. induction s; cbn; congruence. Qed.
Lemma one_var_names ss v off : (length (v_comps v) <= 14)%nat ->
  map (option_map fst) (map (one_var (fset_of ss) (Descr (v_name v) (length (v_comps v)) (v_kind v) off)) (seq 0 (length (v_comps v)))) =
  map Some (map (fun x => label ss v ++ x)%string (suffixes (length (v_comps v)))).
Proof.
  intros H. unfold one_var, var_name, label, fset_of. cbn [fs_base fs_dir d_name d_n d_kind d_off].
  set (b := if String.eqb (ss_base ss) "fields" then v_name v else (v_name v ++ " (" ++ ss_base ss ++ ")")%string).
  assert (Eb : (v_name v ++ (if String.eqb (ss_base ss) "fields" then "" else " (" ++ ss_base ss ++ ")"))%string = b).
  { unfold b. destruct (String.eqb _ _); [apply append_nil|reflexivity]. }
  rewrite Eb. clearbody b. generalize dependent (length (v_comps v)). intros n Hn.
  do 15 (destruct n as [|n]; [cbn [seq map suffixes firstn Nat.eqb comp_name nth_error option_map fst]; rewrite ?append_nil; reflexivity|]). lia.
Qed.
Definition listed (ss : sset) (off : Z) (vs : list svar) : list (option (string * where_)) :=
  flat_map (fun d => map (one_var (fset_of ss) d) (seq 0 (d_n d))) (descrs off vs).
Lemma listed_names ss vs : forall off, (forall v, In v vs -> (length (v_comps v) <= 14)%nat) ->
  map (option_map fst) (listed ss off vs) = map Some (flat_map (fun v => map (fun x => label ss v ++ x)%string (suffixes (length (v_comps v)))) vs).
Proof.
  unfold listed. induction vs as [|v vs IH]; intros off H; [reflexivity|]. cbn [descrs flat_map]. rewrite !map_app. f_equal.
  - cbn [d_n]. apply one_var_names, H. now left.
  - apply IH. intros w Hw. apply H. now right.
Qed.
Lemma descrs_In pre v post : forall off, In (Descr (v_name v) (length (v_comps v)) (v_kind v) (off + Z.of_nat (length (flat_map v_comps pre)))) (descrs off (pre ++ v :: post)).
Proof.
  induction pre as [|p pre IH]; intros off; cbn [app descrs flat_map length].
  - left. f_equal. lia.
  - right. rewrite app_length. replace (off + Z.of_nat (length (v_comps p) + length (flat_map v_comps pre)))
      with (off + Z.of_nat (length (v_comps p)) + Z.of_nat (length (flat_map v_comps pre))) by lia. apply IH.
Qed.
Lemma sequence_all {B} (l : list (option B)) : (forall x, In x l -> x <> None) -> exists l', sequence l = Some l' /\ l = map Some l'.
Proof.
  induction l as [|x l IH]; intros H; [exists []; auto|]. destruct x as [b|]; [|exfalso; apply (H None); [now left|reflexivity]].
  destruct IH as (l' & E & ->); [intros y Hy; apply H; now right|]. exists (b :: l'). cbn [sequence]. rewrite E. auto.
Qed.
Lemma dget_In {V} (l : list (string * V)) k v : NoDup (map fst l) -> In (k, v) l -> dget l k = Some v.
Proof.
  induction l as [|[k' v'] l IH]; intros N H; [destruct H|]. cbn [map fst] in N. apply NoDup_cons_iff in N. destruct N as [N1 N2]. cbn [dget].
  destruct H as [H|H].
  - injection H as -> ->. now rewrite String.eqb_refl.
  - destruct (String.eqb k k') eqn:E; [|now apply IH]. apply String.eqb_eq in E. subst k'. exfalso. apply N1. apply in_map_iff. exists (k, v). auto.
Qed.
Lemma find_ok s ss pre v post c x : well_formed s -> NoDup (names s) -> In ss (sets s) -> ss_vars ss = pre ++ v :: post ->
  nth_error (suffixes (length (v_comps v))) c = Some x ->
  find_var (s_sets (setup_of s)) (label ss v ++ x) = Some (Where (ss_dir ss) (ss_base ss) (Z.of_nat (c + length (flat_map v_comps pre))) (v_kind v)).
Proof.
  intros (_ & _ & _ & _ & _ & _ & Hv) Nd Hss Ev Hx. unfold find_var, variables. cbn [s_sets setup_of].
  set (all := flat_map _ (map fset_of (sets s))).
  assert (Eall : all = flat_map (fun ss => listed ss 0 (ss_vars ss)) (sets s)).
  { unfold all. clear. induction (sets s) as [|ss l IH]; [reflexivity|]. cbn [map flat_map]. rewrite IH. reflexivity. }
  assert (En : map (option_map fst) all = map Some (names s)).
  { rewrite Eall. unfold names. assert (H : forall ss, In ss (sets s) -> forall v, In v (ss_vars ss) -> (length (v_comps v) <= 14)%nat) by (intros ss' Hs v' Hv'; apply (Hv ss' v' Hs Hv')).
    clear - H. induction (sets s) as [|ss l IH]; [reflexivity|]. cbn [flat_map]. rewrite !map_app. f_equal.
    - apply listed_names, H. now left.
    - apply IH. intros ss' Hs. apply H. now right. }
  destruct (sequence_all all) as (l & E & El).
  { intros o Ho ->. apply (in_map (option_map fst)) in Ho. rewrite En in Ho. apply in_map_iff in Ho. destruct Ho as (? & ? & _). discriminate. }
  rewrite E. assert (Nl : map fst l = names s).
  { rewrite El, map_map in En. cbn [option_map] in En. rewrite <- (map_map fst Some) in En. clear - En. revert En. generalize (map fst l) (names s). intros a.
    induction a as [|y a IH]; intros [|z b]; cbn; intros H; try discriminate; [reflexivity|]. injection H as -> H. f_equal. auto. }
  apply dget_In.
  - rewrite map_rev, Nl. apply NoDup_rev, Nd.
  - apply in_rev. rewrite rev_involutive.
    assert (In (Some (label ss v ++ x, Where (ss_dir ss) (ss_base ss) (Z.of_nat (c + length (flat_map v_comps pre))) (v_kind v))%string) all).
    { rewrite Eall. apply in_flat_map. exists ss. split; [exact Hss|]. unfold listed. apply in_flat_map.
      exists (Descr (v_name v) (length (v_comps v)) (v_kind v) (0 + Z.of_nat (length (flat_map v_comps pre)))). split; [rewrite Ev; apply descrs_In|].
      cbn [d_n]. apply in_map_iff. exists c. assert (L14 : (length (v_comps v) <= 14)%nat) by (apply (Hv ss v Hss); rewrite Ev; apply in_elt).
      pose proof (one_var_names ss v (0 + Z.of_nat (length (flat_map v_comps pre))) L14) as O.
      apply (f_equal (fun l => nth_error l c)) in O. rewrite !nth_error_map, Hx in O. cbn [option_map] in O.
      destruct (nth_error (seq 0 (length (v_comps v))) c) as [c'|] eqn:Ec; [|discriminate]. cbn [option_map] in O.
      assert (c' = c) by (assert (c < length (seq 0 (length (v_comps v))))%nat by (apply nth_error_Some; congruence); rewrite seq_length in *;
        apply (nth_error_nth _ _ 0%nat) in Ec; rewrite seq_nth in Ec by lia; lia). subst c'.
      split; [|apply (nth_error_In _ _ Ec)]. unfold one_var in O |- *. destruct (var_name _ _ c) as [nm|]; [|discriminate]. cbn [option_map fst] in O |- *.
      assert (nm = label ss v ++ x)%string by congruence. subst nm. repeat f_equal. cbn [d_off]. lia. }
    rewrite El in H. apply in_map_iff in H. destruct H as (y & Ey & Hy). injection Ey as ->. exact Hy.
Qed.

(** ** the words *)
Lemma fortran_length nx ny nz a : 0 <= nx -> 0 <= ny -> 0 <= nz -> length (fortran nx ny nz a) = Z.to_nat (nx * ny * nz).
Proof. intros. unfold fortran. rewrite three_length. nia. Qed.
Lemma chunk {A B} (f : A -> list B) (m : nat) : forall l k x, (forall y, length (f y) = m) -> nth_error l k = Some x ->
  firstn m (skipn (k * m) (flat_map f l)) = f x.
Proof.
  induction l as [|a l IH]; intros k x H E; [destruct k; discriminate|]. cbn [flat_map]. destruct k as [|k]; cbn [nth_error] in E.
  - injection E as ->. cbn [Nat.mul skipn]. rewrite <- (H x), firstn_app, Nat.sub_diag. cbn [firstn]. rewrite app_nil_r. apply firstn_all.
  - rewrite skipn_app, (H a). replace (S k * m - m)%nat with (k * m)%nat by lia. rewrite skipn_all2 by (rewrite H; lia). cbn [app]. auto.
Qed.
Lemma Forall2_nth_r {A B} (P : A -> B -> Prop) l r d b : Forall2 P l r -> nth_error r d = Some b -> exists a, nth_error l d = Some a /\ P a b.
Proof.
  intros F. revert d. induction F as [|x y l r H F IH]; intros d E; [destruct d; discriminate|]. destruct d; cbn in *; [injection E as <-; eauto|]. apply IH, E.
Qed.
Lemma flat_nth (vs pre post : list svar) v c g : vs = pre ++ v :: post -> nth_error (v_comps v) c = Some g -> nth_error (flat_map v_comps vs) (c + length (flat_map v_comps pre)) = Some g.
Proof.
  intros -> E. assert (c < length (v_comps v))%nat by (apply nth_error_Some; congruence). rewrite flat_map_app. cbn [flat_map].
  rewrite nth_error_app2 by lia. replace (c + length (flat_map v_comps pre) - length (flat_map v_comps pre))%nat with c by lia. now rewrite nth_error_app1 by lia.
Qed.
Lemma read_ok s ss bx by_ bz f m k g : 0 < lx s -> 0 < ly s -> 0 < lz s -> dumped s ss bx by_ bz f -> nth_error (flat_map v_comps (ss_vars ss)) m = Some g ->
  exists a, read_var (setup_of s) f (Where (ss_dir ss) (ss_base ss) (Z.of_nat m) k) = Some a /\
    forall i j k, 0 <= i < lx s -> 0 <= j < ly s -> 0 <= k < lz s -> a i j k = g (bx * lx s + i) (by_ * ly s + j) (bz * lz s + k).
Proof.
  intros Hx Hy Hz (Ed & arrs & Ew & Fa) Em. unfold read_var, read_field. cbn [w_num]. rewrite Ed, Ew.
  destruct (Forall2_nth_r _ _ _ _ _ Fa Em) as (a & Ea & Pa).
  set (n := (lx s + 2) * (ly s + 2) * (lz s + 2)).
  assert (Hn : 0 <= n) by (unfold n; nia).
  replace (Z.to_nat (Z.of_nat m * n)) with (m * Z.to_nat n)%nat by nia.
  rewrite (chunk _ (Z.to_nat n) arrs m a (fun y => fortran_length (lx s + 2) (ly s + 2) (lz s + 2) y ltac:(lia) ltac:(lia) ltac:(lia)) Ea).
  rewrite fortran_length by lia. fold n. assert (E : Z.of_nat (Z.to_nat n) =? n = true) by lia. rewrite E. cbn [s_ldims setup_of].
  replace (Z.max 0 (lx s + 2 - 2)) with (lx s) by lia. replace (Z.max 0 (ly s + 2 - 2)) with (ly s) by lia. replace (Z.max 0 (lz s + 2 - 2)) with (lz s) by lia.
  rewrite !Z.eqb_refl. cbn [andb]. eexists. split; [reflexivity|]. intros i j k' Hi Hj Hk. cbv beta.
  rewrite <- (Pa i j k' Hi Hj Hk). apply nth_error_nth. unfold fortran. apply (three_level (fun i j k => a i j k)); lia.
Qed.

(** ** the blocks *)
Lemma blocks_nth s bx by_ bz : 0 <= bx < tx s -> 0 <= by_ < ty s -> 0 <= bz < tz s ->
  nth_error (blocks (setup_of s)) (Z.to_nat (bx + tx s * (by_ + ty s * bz))) =
  Some (Block (block_nodes (xl s) (dx s) (lx s) bx) (block_nodes (yl s) (dy s) (ly s) by_) (block_nodes (zl s) (dz s) (lz s) bz)).
Proof. intros. exact (three_level _ (tx s) (ty s) (tz s) bx by_ bz H H0 H1). Qed.
Lemma block_nodes_nth x d l b m : 0 < l -> 0 <= m <= l -> exists q, nth_error (block_nodes x d l b) (Z.to_nat m) = Some q /\ (q == x + inject_Z (b * l + m) * d)%Q.
Proof.
  intros Hl Hm. unfold block_nodes, linspace. eexists. split.
  - rewrite nth_error_map. change (zseq (l + 1)) with (upto (l + 1)). rewrite upto_nth by lia. reflexivity.
  - assert (E : l + 1 =? 1 = false) by lia. rewrite E. replace (l + 1 - 1) with l by lia.
    assert (N : ~ (inject_Z l == 0)%Q) by (intros A; change 0%Q with (inject_Z 0) in A; apply (proj1 (inject_Z_injective _ _)) in A; lia).
    rewrite !inject_Z_mult, !inject_Z_plus, !inject_Z_mult. change (inject_Z 1) with 1%Q. field. exact N.
Qed.

(** ** a run reads as what was written: for every variable, under its name, and every cell of the whole grid there is the block that has the
    cell, with the edges of the cell among its coordinates, and with the value written for it *)
Definition edges (nodes : list Q) (a : Z) (x d : Q) (i : Z) : Prop :=
  exists lo hi, nth_error nodes (Z.to_nat a) = Some lo /\ nth_error nodes (Z.to_nat (a + 1)) = Some hi /\ (lo == x + inject_Z i * d)%Q /\ (hi == x + inject_Z (i + 1) * d)%Q.
Theorem C73_run late s ls fs : well_formed s -> NoDup (names s) -> commented (global_file late s) ls -> written s fs ->
  exists st, load_global ls = Some st /\ Z.of_nat (length (blocks st)) = tx s * ty s * tz s /\
  forall ss v c g x I J K, In ss (sets s) -> In v (ss_vars ss) -> nth_error (v_comps v) c = Some g -> nth_error (suffixes (length (v_comps v))) c = Some x ->
    0 <= I < tx s * lx s -> 0 <= J < ty s * ly s -> 0 <= K < tz s * lz s ->
    exists r b i j k, nth_error (blocks st) (Z.to_nat r) = Some b /\ 0 <= r /\ 0 <= i < lx s /\ 0 <= j < ly s /\ 0 <= k < lz s /\
      edges (b_x b) i (xl s) (dx s) I /\ edges (b_y b) j (yl s) (dy s) J /\ edges (b_z b) k (zl s) (dz s) K /\
      value st fs (label ss v ++ x) r i j k = f32 (g I J K).
Proof.
  intros W Nd C Hf. exists (setup_of s). split; [now apply (load_ok late)|].
  pose proof W as (Tx & Ty & Tz & (Dx & Lx & _) & (Dy & Ly & _) & (Dz & Lz & _) & _). split.
  { unfold blocks. cbn [s_topo s_dx s_xl s_ldims setup_of]. change zseq with upto. rewrite (three_length (fun i j k => Block _ _ _)). nia. }
  intros ss v c g x I J K Hss Hv Eg Ex HI HJ HK.
  destruct (in_split _ _ Hv) as (pre & post & Ev).
  set (bx := I / lx s). set (by_ := J / ly s). set (bz := K / lz s).
  assert (Bx : 0 <= bx < tx s /\ I = bx * lx s + I mod lx s /\ 0 <= I mod lx s < lx s).
  { unfold bx. pose proof (Z.div_mod I (lx s)). pose proof (Z.mod_pos_bound I (lx s)). split; [split; [apply Z.div_pos; lia|apply Z.div_lt_upper_bound; lia]|lia]. }
  assert (By : 0 <= by_ < ty s /\ J = by_ * ly s + J mod ly s /\ 0 <= J mod ly s < ly s).
  { unfold by_. pose proof (Z.div_mod J (ly s)). pose proof (Z.mod_pos_bound J (ly s)). split; [split; [apply Z.div_pos; lia|apply Z.div_lt_upper_bound; lia]|lia]. }
  assert (Bz : 0 <= bz < tz s /\ K = bz * lz s + K mod lz s /\ 0 <= K mod lz s < lz s).
  { unfold bz. pose proof (Z.div_mod K (lz s)). pose proof (Z.mod_pos_bound K (lz s)). split; [split; [apply Z.div_pos; lia|apply Z.div_lt_upper_bound; lia]|lia]. }
  clearbody bx by_ bz. destruct Bx as (Bx & EI & Hi), By as (By & EJ & Hj), Bz as (Bz & EK & Hk).
  exists (bx + tx s * (by_ + ty s * bz)). eexists. exists (I mod lx s), (J mod ly s), (K mod lz s).
  split; [apply blocks_nth; assumption|]. split; [nia|]. split; [exact Hi|]. split; [exact Hj|]. split; [exact Hk|]. cbn [b_x b_y b_z].
  assert (Ed : forall x d l b m i, 0 < l -> 0 <= m < l -> i = b * l + m -> edges (block_nodes x d l b) m x d i).
  { intros x0 d l b m i Hl Hm ->. destruct (block_nodes_nth x0 d l b m Hl ltac:(lia)) as (q1 & E1 & V1). destruct (block_nodes_nth x0 d l b (m + 1) Hl ltac:(lia)) as (q2 & E2 & V2).
    exists q1, q2. split; [exact E1|]. split; [exact E2|]. split; [exact V1|]. rewrite <- Z.add_assoc. exact V2. }
  split; [apply Ed; assumption|]. split; [apply Ed; assumption|]. split; [apply Ed; assumption|].
  unfold value. rewrite (find_ok s ss pre v post c x W Nd Hss Ev Ex). cbn [w_dir w_base].
  destruct (Hf ss bx by_ bz Hss Bx By Bz) as (f & -> & Df).
  destruct (read_ok s ss bx by_ bz f (c + length (flat_map v_comps pre)) (v_kind v) g Lx Ly Lz Df (flat_nth _ _ _ _ _ _ Ev Eg)) as (a & -> & Va).
  rewrite Va by assumption. now rewrite <- EI, <- EJ, <- EK.
Qed.
Print Assumptions C73_run.

(** and no cell is in two blocks, or twice in one *)
Theorem C73_once late s ls st : well_formed s -> commented (global_file late s) ls -> load_global ls = Some st ->
  forall r r' b b' i i' j j' k k' I J K, 0 <= r -> 0 <= r' -> nth_error (blocks st) (Z.to_nat r) = Some b -> nth_error (blocks st) (Z.to_nat r') = Some b' ->
  0 <= i -> 0 <= i' -> 0 <= j -> 0 <= j' -> 0 <= k -> 0 <= k' ->
  edges (b_x b) i (xl s) (dx s) I -> edges (b_y b) j (yl s) (dy s) J -> edges (b_z b) k (zl s) (dz s) K ->
  edges (b_x b') i' (xl s) (dx s) I -> edges (b_y b') j' (yl s) (dy s) J -> edges (b_z b') k' (zl s) (dz s) K ->
  r = r' /\ i = i' /\ j = j' /\ k = k'.
Proof.
  intros W C E. pose proof (load_ok late s ls W C) as E'. assert (st = setup_of s) by congruence. subst st. clear E E' C ls.
  pose proof W as (Tx & Ty & Tz & (Dx & Lx & _) & (Dy & Ly & _) & (Dz & Lz & _) & _).
  assert (Nb : forall r b, 0 <= r -> nth_error (blocks (setup_of s)) (Z.to_nat r) = Some b ->
    exists bx by_ bz, 0 <= bx < tx s /\ 0 <= by_ < ty s /\ 0 <= bz < tz s /\ r = bx + tx s * (by_ + ty s * bz) /\
      b = Block (block_nodes (xl s) (dx s) (lx s) bx) (block_nodes (yl s) (dy s) (ly s) by_) (block_nodes (zl s) (dz s) (lz s) bz)).
  { intros r b Hr Er. assert (L : (Z.to_nat r < length (blocks (setup_of s)))%nat) by (apply nth_error_Some; congruence).
    unfold blocks in L. cbn [s_topo s_dx s_xl s_ldims setup_of] in L. change zseq with upto in L. rewrite (three_length (fun i j k => Block _ _ _)) in L.
    assert (Lr : r < tx s * ty s * tz s) by nia.
    pose proof (Z.div_mod r (tx s) ltac:(lia)) as M1. pose proof (Z.mod_pos_bound r (tx s) Tx) as M2.
    pose proof (Z.div_mod (r / tx s) (ty s) ltac:(lia)) as M3. pose proof (Z.mod_pos_bound (r / tx s) (ty s) Ty) as M4.
    assert (Q1 : 0 <= r / tx s / ty s < tz s).
    { split; [apply Z.div_pos; [apply Z.div_pos; lia|lia]|]. apply Z.div_lt_upper_bound; [lia|]. apply Z.div_lt_upper_bound; [lia|]. nia. }
    exists (r mod tx s), ((r / tx s) mod ty s), (r / tx s / ty s).
    assert (Er' : r = r mod tx s + tx s * ((r / tx s) mod ty s + ty s * (r / tx s / ty s))) by nia.
    split; [exact M2|]. split; [exact M4|]. split; [exact Q1|]. split; [exact Er'|].
    rewrite Er' in Er. rewrite blocks_nth in Er by assumption. congruence. }
  assert (Ax : forall x d l b m i, (0 < d)%Q -> 0 < l -> 0 <= m -> edges (block_nodes x d l b) m x d i -> m < l /\ i = b * l + m).
  { intros x d l b m i Hd Hl Hm (lo & hi & E1 & E2 & V1 & V2).
    assert (Lm : m < l).
    { assert (L : (Z.to_nat (m + 1) < length (block_nodes x d l b))%nat) by (apply nth_error_Some; congruence).
      unfold block_nodes, linspace, zseq in L. rewrite !map_length, seq_length in L. lia. }
    split; [exact Lm|]. destruct (block_nodes_nth x d l b m Hl ltac:(lia)) as (q & Eq & Vq). assert (q = lo) by congruence. subst q. rewrite V1 in Vq.
    assert (X : (inject_Z i * d == inject_Z (b * l + m) * d)%Q) by lra. apply Qmult_inj_r in X; [|lra]. apply (proj1 (inject_Z_injective _ _)) in X. exact X. }
  intros r r' b b' i i' j j' k k' I J K Hr Hr' Er Er' Hi Hi' Hj Hj' Hk Hk' X Y Z X' Y' Z'.
  destruct (Nb r b Hr Er) as (bx & by_ & bz & Bx & By & Bz & -> & ->). destruct (Nb r' b' Hr' Er') as (bx' & by' & bz' & Bx' & By' & Bz' & -> & ->).
  cbn [b_x b_y b_z] in *.
  apply Ax in X; [|assumption..]. apply Ax in Y; [|assumption..]. apply Ax in Z; [|assumption..].
  apply Ax in X'; [|assumption..]. apply Ax in Y'; [|assumption..]. apply Ax in Z'; [|assumption..].
  assert (Un : forall l b b' m m', 0 < l -> 0 <= m < l -> 0 <= m' < l -> b * l + m = b' * l + m' -> b = b' /\ m = m').
  { intros l c c' m m' Hl Hm Hm' H. assert (c = c') by nia. subst c'. lia. }
  destruct (Un (lx s) bx bx' i i') as [-> ->]; [lia..|]. destruct (Un (ly s) by_ by' j j') as [-> ->]; [lia..|]. destruct (Un (lz s) bz bz' k k') as [-> ->]; [lia..|]. auto.
Qed.
Print Assumptions C73_once.

(** ** a comment between the descriptions of variables is an error *)
Theorem C73_comment_refuted : exists a b, load_global (a ++ b) <> None /\ load_global (a ++ LSkip :: b) = None.
Proof.
  set (s := Sim 1 1 1 1 1 1 1 1 1 0 0 0 1 1 1 (SSet "f" "fields" [SVar "a" FLOATING_POINT_4 [fun _ _ _ => 0]; SVar "b" FLOATING_POINT_4 [fun _ _ _ => 0]]) [] 1 1 1).
  exists (firstn 18 (global_file false s)), (skipn 18 (global_file false s)). split; [vm_compute; discriminate|vm_compute; reflexivity].
Qed.
Print Assumptions C73_comment_refuted.
(** ** a variable of integers reads as other numbers: no small integer but 0 is the 32 bit float with its bits *)
Theorem C73_integer_refuted n q : 0 < n < 2 ^ 15 -> f32 n = Some q -> ~ (q == inject_Z n)%Q.
Proof.
  intros Hn E. unfold f32 in E. rewrite (Z.div_small n (2 ^ 23)) in E by lia. rewrite (Z.mod_small n (2 ^ 23)) in E by lia. change (0 mod 256 =? 0) with true in E. cbv iota zeta in E.
  assert (T : Z.testbit n 31 = false). { rewrite Z.testbit_false by lia. rewrite Z.div_small by lia. reflexivity. }
  rewrite T in E. assert (Eq : q = (1 * inject_Z n * 2 ^ (-149))%Q) by congruence. subst q. intros A.
  assert (N : ~ (inject_Z n == 0)%Q) by (intros B; change 0%Q with (inject_Z 0) in B; apply (proj1 (inject_Z_injective _ _)) in B; lia).
  assert (B : (2 ^ (-149) == 1)%Q).
  { apply (proj1 (Qmult_inj_l _ _ (inject_Z n) N)). clear E; generalize dependent (2 ^ (-149))%Q. intros e A. transitivity (1 * inject_Z n * e)%Q; [ring|]. rewrite A. ring. }
  vm_compute in B. discriminate.
Qed.
Print Assumptions C73_integer_refuted.
(** ** two species with one basename: the first cannot be read *)
Theorem C73_same_name_refuted :
  let s := Sim 1 1 1 1 1 1 1 1 1 0 0 0 1 1 1 (SSet "f" "fields" []) [SSet "a" "h" [SVar "n" FLOATING_POINT_4 [fun _ _ _ => 0]]; SSet "b" "h" [SVar "n" FLOATING_POINT_4 [fun _ _ _ => 0]]] 1 1 1 in
  option_map (fun st => option_map w_dir (find_var (s_sets st) "n (h)")) (load_global (global_file false s)) = Some (Some "b"%string).
Proof. vm_compute. reflexivity. Qed.
Print Assumptions C73_same_name_refuted.

(** ** the hypotheses can be met *)
Definition sim1 : sim :=
  Sim 2 1 3 4 2 1 (1#2) 1 2 (-4) 0 0 (-2) 2 2
    (SSet "fields" "fields" [SVar "Electric Field" FLOATING_POINT_4 [fun i _ _ => i; fun _ j _ => j; fun _ _ k => k]; SVar "Charge Density" FLOATING_POINT_4 [fun i j k => i + 2 * j + 4 * k]])
    [SSet "hydro" "Hhydro" [SVar "Stress Tensor" FLOATING_POINT_4 (repeat (fun i j k => i * j * k) 6)]] 1 1 1.
Definition files1 (dir base : string) (r : Z) : option dump :=
  let bx := r mod 2 in let bz := r / 2 in
  let ghost (g : Z -> Z -> Z -> Z) := fun i j k => if (i =? 0) || (j =? 0) || (k =? 0) then 77 else g (bx * 4 + (i - 1)) (j - 1) (bz + (k - 1)) in
  let vars := if String.eqb base "fields" then ss_vars (sfields sim1) else flat_map ss_vars (sspecies sim1) in
  Some (Dump (6, 4, 3) (flat_map (fortran 6 4 3) (map ghost (flat_map v_comps vars)))).
Example C73_run_nonvacuous : well_formed sim1 /\ NoDup (names sim1) /\ commented (global_file true sim1) (LSkip :: global_file true sim1) /\ written sim1 files1.
Proof.
  split; [|split; [|split]].
  - unfold well_formed, fits; cbn. repeat match goal with |- _ /\ _ => split end; try lia; try (vm_compute; congruence).
    intros ss v [<-|[<-|[]]]; cbn; (intros [<-|[<-|[]]] || intros [<-|[]]); cbn; split; try discriminate; lia.
  - vm_compute. repeat (constructor; [cbn; intuition discriminate|]). constructor.
  - apply c_skip; [|exact I]. induction (global_file true sim1); constructor; auto.
  - assert (G : forall bx by_ bz l, 0 <= bx < 2 -> 0 <= by_ < 1 -> 0 <= bz < 3 ->
      Forall2 (fun a g => forall i j k, 0 <= i < 4 -> 0 <= j < 2 -> 0 <= k < 1 -> a (i + 1) (j + 1) (k + 1) = g (bx * 4 + i) (by_ * 2 + j) (bz * 1 + k))
        (map (fun (g : Z -> Z -> Z -> Z) i j k => if (i =? 0) || (j =? 0) || (k =? 0) then 77 else g ((bx + 2 * (by_ + 1 * bz)) mod 2 * 4 + (i - 1)) (j - 1) ((bx + 2 * (by_ + 1 * bz)) / 2 + (k - 1))) l) l).
    { intros bx by_ bz l Hx Hy Hz. induction l as [|g l IH]; cbn [map]; constructor; [|exact IH]. intros i j k Hi Hj Hk.
      assert (E : (i + 1 =? 0) || (j + 1 =? 0) || (k + 1 =? 0) = false) by lia. rewrite E.
      assert (by_ = 0) by lia. subst by_. replace ((bx + 2 * (0 + 1 * bz)) mod 2) with bx by (replace (bx + 2 * (0 + 1 * bz)) with (bx + bz * 2) by lia; rewrite Z.mod_add by lia; symmetry; apply Z.mod_small; lia).
      replace ((bx + 2 * (0 + 1 * bz)) / 2) with bz by (replace (bx + 2 * (0 + 1 * bz)) with (bx + bz * 2) by lia; rewrite Z.div_add by lia; rewrite Z.div_small by lia; lia).
      f_equal; lia. }
    intros ss bx by_ bz [<-|[<-|[]]] Hx Hy Hz; cbn [tx ty tz sim1] in *; eexists; (split; [reflexivity|]); (split; [reflexivity|]); eexists; (split; [reflexivity|]).
    + exact (G bx by_ bz (flat_map v_comps (ss_vars (sfields sim1))) Hx Hy Hz).
    + exact (G bx by_ bz (flat_map v_comps (flat_map ss_vars (sspecies sim1))) Hx Hy Hz).
Qed.
