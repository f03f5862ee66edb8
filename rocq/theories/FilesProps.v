(** C71: the cache of loaded files. *)
From Coq Require Import Lia ZifyBool ZifyNat.
From Verif Require Export FilesProofs.
Open Scope Z_scope.

(** ** what a user expects: the files that are open, each with the files it refers to *)
Section SPEC.
(** the names of files that others refer to; the user does not load these *)
Variable kid : nat -> bool.
Inductive expect : list (nat * list nat) -> cmd -> list (nat * list nat) -> Prop :=
| e_load op d n ks : kid n = false -> ~ In n (map fst op) -> d n = Some ks -> Forall (fun k => kid k = true /\ d k <> None) ks ->
    expect op (Load d n) ((n, ks) :: op)
| e_again op d n : In n (map fst op) -> expect op (Load d n) op
| e_unload op1 op2 n ks : expect (op1 ++ (n, ks) :: op2) (Unload n) (op1 ++ op2)
| e_reload op1 op2 d n ks ks' : d n = Some ks' -> Forall (fun k => kid k = true /\ d k <> None) ks' -> Forall (fun k => d k <> None) ks ->
    expect (op1 ++ (n, ks) :: op2) (Reload d n) (op1 ++ (n, ks ++ ks') :: op2)
| e_all op : expect op UnloadAll [].
Inductive expects : list (nat * list nat) -> list cmd -> list (nat * list nat) -> Prop :=
| e_nil op : expects op [] op
| e_cons op c op' cs op'' : expect op c op' -> expects op' cs op'' -> expects op (c :: cs) op''.
End SPEC.

Lemma RR_empty kid : RR kid empty_world [].
Proof.
  constructor; cbn; try discriminate; try congruence.
  - apply Inv_empty.
  - intros n ks [].
  - intros k _. split; [lia|]. split; [reflexivity|lia].
  - constructor.
Qed.

Lemma expect_R kid w op c op' : RR kid w op -> expect kid op c op' ->
  exists w', exec w c = (w', FOk) /\ RR kid w' op' /\ (forall m it it', named w m = Some it -> named w' m = Some it' -> it' = it).
Proof.
  intros H E. destruct E as [op d n ks A1 A2 A3 A4|op d n A|op1 op2 n ks|op1 op2 d n ks ks' A1 A2 A3|op]; cbn [exec].
  - destruct (load_new_R kid d w op n ks H A1 A2 A3 A4) as (w' & id & -> & B1 & B2 & B3). exists w'. split; [reflexivity|]. split; [exact B1|].
    intros m it it' C D. rewrite (B3 m it C) in D. congruence.
  - destruct (load_again_R kid d w op n H A) as (w' & id & -> & B1 & B2 & B3). exists w'. split; [reflexivity|]. split; [exact B1|].
    intros m it it' C D. rewrite B3 in D. congruence.
  - destruct (unload_R kid w op1 n ks op2 H) as (w' & E & B1 & B2 & _). exists w'. split; [exact E|]. split; [exact B1|].
    intros m it it' C D. apply B2 in D. congruence.
  - destruct (reload_R kid d w op1 n ks op2 ks' H A1 A2 A3) as (w' & E & B1 & B2). exists w'. split; [exact E|]. split; [exact B1|].
    intros m it it' C D. rewrite (B2 m it C) in D. congruence.
  - destruct (unload_all_R kid w op H) as (w' & E & B1 & B2). exists w'. split; [exact E|]. split; [exact B1|].
    intros m it it' C D. rewrite B2 in D. discriminate.
Qed.

Lemma expects_R kid cs : forall w op op', RR kid w op -> expects kid op cs op' -> exists w', exec_all w cs = (w', FOk) /\ RR kid w' op'.
Proof.
  induction cs as [|c cs IH]; intros w op op' H E; inversion E; subst.
  - exists w. auto.
  - destruct (expect_R kid w op c op'0 H) as (w1 & E1 & H1 & _); [assumption|]. cbn [exec_all]. rewrite E1. eapply IH; eassumption.
Qed.

(** as long as the user loads only files that no other file refers to, and unloads or reloads only files that are open: every command succeeds;
    a name is known to the cache exactly if the user has it open, or a file that is open refers to it; what is known under a
    name is the file with that name, and an open file has its contents *)
Theorem C71_open_files kid cs op : expects kid [] cs op -> exists w, exec_all empty_world cs = (w, FOk) /\
  (forall n, kid n = false -> (get_file w n <> None <-> In n (map fst op))) /\
  (forall k, kid k = true -> (get_file w k <> None <-> exists n ks, In (n, ks) op /\ In k ks)) /\
  (forall n it, get_file w n = Some it -> exists id o, it = item_of id /\ obj w id = Some o /\ o_handle o = n /\ (kid n = false -> o_full o = true)).
Proof.
  intros E. destruct (expects_R kid cs empty_world [] op (RR_empty kid) E) as (w & Q & H). exists w. split; [exact Q|].
  unfold get_file.
  split; [|split].
  - intros n Kn. change (lookup (w_bucket w) (HObj n)) with (named w n). split.
    + intros A. destruct (r_top _ _ _ _ _ H n Kn A) as [B|[]]. exact B.
    + intros A. apply in_map_iff in A. destruct A as ([n' ks] & B & C). cbn [fst] in B. subst n'.
      destruct (r_open _ _ _ _ _ H n ks C) as (_ & _ & _ & id & o & D & _). congruence.
  - intros k Kk. change (lookup (w_bucket w) (HObj k)) with (named w k). destruct (r_kid _ _ _ _ _ H k Kk) as (A & B & C).
    assert (U : (0 < uses op k)%nat <-> exists n ks, In (n, ks) op /\ In k ks).
    { clear. induction op as [|[m js] op IH]; cbn [uses].
      - split; [lia|intros (n & ks & [] & _)].
      - split.
        + intros L. destruct (Nat.eq_dec (count_occ n_eq js k) 0) as [Z0|Z0].
          * destruct IH as [IH _]. destruct IH as (n & ks & A & B); [lia|]. exists n, ks. cbn. auto.
          * exists m, js. split; [now left|]. apply (count_occ_In n_eq). lia.
        + intros (n & ks & [[= -> ->]|A] & B).
          * apply (count_occ_In n_eq) in B. lia.
          * destruct IH as [_ IH]. assert (0 < uses op k)%nat by (apply IH; eauto). lia. }
    rewrite <- U. split.
    + intros D. destruct (Nat.eq_dec (uses op k) 0) as [Z0|]; [|lia]. exfalso. apply D, B. lia.
    + intros D. destruct C as (id & o & F & _); [lia|congruence].
  - intros n it A. change (named w n = Some it) in A. destruct (r_own _ _ _ _ _ H n it A) as (id & o & -> & B1 & B2). exists id, o.
    split; [reflexivity|]. split; [exact B1|]. split; [exact B2|]. intros Kn.
    destruct (r_top _ _ _ _ _ H n Kn) as [C|[]]; [congruence|]. apply in_map_iff in C. destruct C as ([n' ks] & C1 & C2). cbn [fst] in C1. subst n'.
    destruct (r_open _ _ _ _ _ H n ks C2) as (_ & _ & _ & j & p & D1 & _ & D3 & D4 & _). rewrite A in D1. injection D1 as D1 _. subst j. congruence.
Qed.
Print Assumptions C71_open_files.

(** and the file that is known under a name stays the same object through each command after which the name is still known *)
Theorem C71_same_object kid cs op c op' : expects kid [] cs op -> expect kid op c op' ->
  exists w w', exec_all empty_world cs = (w, FOk) /\ exec w c = (w', FOk) /\
    forall n it it', get_file w n = Some it -> get_file w' n = Some it' -> it' = it.
Proof.
  intros E1 E2. destruct (expects_R kid cs empty_world [] op (RR_empty kid) E1) as (w & Q & H).
  destruct (expect_R kid w op c op' H E2) as (w' & Q' & _ & S'). exists w, w'. auto.
Qed.
Print Assumptions C71_same_object.

(** unloading an open file empties it *)
Theorem C71_unload_empties kid cs op n ks : expects kid [] cs op -> In (n, ks) op ->
  exists w w' id, exec_all empty_world cs = (w, FOk) /\ get_file w n = Some (item_of id) /\ unload_file w n = (w', FOk) /\
    option_map o_full (obj w id) = Some true /\ option_map o_full (obj w' id) = Some false.
Proof.
  intros E Hin. destruct (expects_R kid cs empty_world [] op (RR_empty kid) E) as (w & Q & H). apply in_split in Hin. destruct Hin as (op1 & op2 & ->).
  destruct (unload_R kid w op1 n ks op2 H) as (w' & E' & _ & _ & id & A & B). exists w, w', id. split; [exact Q|]. split; [exact A|]. split; [exact E'|].
  split; [|exact B]. destruct (r_open _ _ _ _ _ H n ks) as (_ & _ & _ & j & o & D1 & _ & D3 & D4 & _); [apply in_elt|].
  rewrite A in D1. injection D1 as D1 _. subst j. rewrite D3. cbn. now rewrite D4.
Qed.
Print Assumptions C71_unload_empties.

(** ** without conditions: after any commands, whether they succeed or not *)
Lemma store_Inv w n it ix ar : Inv (w_bucket w) -> Inv (w_bucket (fst (store w n it ix ar))).
Proof.
  intros I. unfold store. pose proof (step_Inv (w_bucket w) (SetItem [HObj n] it ix ar) I) as H. cbn [step] in H.
  destruct (set_item _ _ _ _ _) as ((b & l) & e). exact H.
Qed.
Lemma set_full_bucket w id b : w_bucket (set_full w id b) = w_bucket w.
Proof. unfold set_full. destruct (obj w id); reflexivity. Qed.
Lemma unload_self_Inv w id n : Inv (w_bucket w) -> Inv (w_bucket (fst (unload_self w id n))).
Proof.
  intros I. unfold unload_self. cbv zeta. rewrite set_full_bucket. destruct (Nat.eqb _ 0); [cbn [fst]; now rewrite set_full_bucket|].
  pose proof (step_Inv (w_bucket w) (RemoveRef (AItem (item_of id)) n) I) as H. cbn [step] in H.
  destruct (remove_reference _ _ _) as (b & e). exact H.
Qed.
Lemma load_leaf_Inv d w n ix ar : Inv (w_bucket w) -> Inv (w_bucket (fst (fst (load_leaf d w n ix ar)))).
Proof.
  intros I. unfold load_leaf. destruct (get_file w n) as [it|].
  - pose proof (store_Inv w n it ix ar I) as H. destruct (store w n it ix ar). exact H.
  - destruct (d n).
    + unfold new_obj. cbv beta iota. set (w1 := World _ _ _). pose proof (store_Inv w1 n (item_of (w_next w)) ix ar I) as H. destruct (store w1 _ _ ix ar). exact H.
    + pose proof (store_Inv w n none_item ix ar I) as H. destruct (store w n _ ix ar). exact H.
Qed.
Lemma load_kids_Inv d id ks : forall w, Inv (w_bucket w) -> Inv (w_bucket (fst (load_kids d w id ks))).
Proof.
  induction ks as [|k ks IH]; intros w I; cbn [load_kids]; [exact I|].
  pose proof (load_leaf_Inv d w k false true I) as H. destruct (load_leaf d w k false true) as ((w1 & [i|]) & []); cbn [fst] in H |- *; try exact H.
  destruct (obj w1 id); [|exact H]. destruct (obj w1 i); [|exact H]. apply IH, H.
Qed.
Lemma load_file_Inv d w n : Inv (w_bucket w) -> Inv (w_bucket (fst (fst (load_file d w n)))).
Proof.
  intros I. unfold load_file. destruct (get_file w n) as [it|].
  - pose proof (store_Inv w n it true false I) as H. destruct (store w n it true false). exact H.
  - destruct (d n) as [ks|].
    + unfold new_obj. cbv beta iota. set (w1 := World _ _ _). pose proof (load_kids_Inv d (w_next w) ks w1 I) as H.
      destruct (load_kids d w1 (w_next w) ks) as (w2 & []); try exact H. pose proof (store_Inv w2 n (item_of (w_next w)) true false H) as H'.
      destruct (store w2 _ _ true false). exact H'.
    + pose proof (store_Inv w n none_item true false I) as H. destruct (store w n _ true false). exact H.
Qed.
Lemma unload_kids_Inv kd : forall w, Inv (w_bucket w) -> Inv (w_bucket (fst (unload_kids w kd))).
Proof.
  induction kd as [|[k c] kd IH]; intros w I; cbn [unload_kids]; [exact I|]. destruct (get_file w k) as [it|]; [|exact I]. destruct (id_of it) as [i|]; [|exact I].
  assert (A : Inv (w_bucket (fst (match unload_self w i c with (w0, FOk) => unload_kids w0 kd | (w0, e) => (w0, e) end)))).
  { pose proof (unload_self_Inv w i c I) as H. destruct (unload_self w i c) as (w1 & []); try exact H. apply IH, H. }
  destruct (obj w i) as [[oh ofu [|x l]]|]; [exact A|exact I|exact A].
Qed.
Lemma unload_Inv w id : Inv (w_bucket w) -> Inv (w_bucket (fst (unload w id))).
Proof.
  intros I. unfold unload. match goal with |- context [unload_kids w ?k] => pose proof (unload_kids_Inv k w I) as H; destruct (unload_kids w k) as (w1 & []) end; try exact H.
  apply unload_self_Inv, H.
Qed.
Lemma unload_each_Inv its : forall w, Inv (w_bucket w) -> Inv (w_bucket (fst (unload_each w its))).
Proof.
  induction its as [|it its IH]; intros w I; cbn [unload_each]; [exact I|]. destruct (id_of it) as [i|]; [|exact I].
  pose proof (unload_Inv w i I) as H. destruct (unload w i) as (w1 & []); try exact H; apply IH, H.
Qed.
Lemma reload_kids_Inv d kd : forall w, Inv (w_bucket w) -> Inv (w_bucket (fst (reload_kids d w kd))).
Proof.
  induction kd as [|[k c] kd IH]; intros w I; cbn [reload_kids]; [exact I|]. destruct (get_file w k) as [it|]; [|exact I]. destruct (id_of it) as [i|]; [|exact I].
  unfold reload_leaf. destruct (obj w i) as [o|]; [|exact I]. destruct (d (o_handle o)).
  - apply IH. now rewrite set_full_bucket.
  - cbn [fst]. now rewrite set_full_bucket.
Qed.
Lemma exec_Inv w c : Inv (w_bucket w) -> Inv (w_bucket (fst (exec w c))).
Proof.
  intros I. destruct c as [d n|n|d n|]; cbn [exec].
  - pose proof (load_file_Inv d w n I) as H. destruct (load_file d w n) as ((w1 & r) & e). exact H.
  - unfold unload_file. destruct (get_file w n) as [it|]; [|exact I]. destruct (id_of it); [|exact I]. apply unload_Inv, I.
  - unfold reload_file. destruct (get_file w n) as [it|]; [|exact I]. destruct (id_of it) as [i|]; [|exact I]. unfold reload.
    destruct (obj w i) as [o|]; [|exact I]. pose proof (reload_kids_Inv d (o_kids o) w I) as H.
    destruct (reload_kids d w (o_kids o)) as (w1 & []); try exact H. destruct (d (o_handle o)).
    + apply load_kids_Inv. cbn [fst] in H. now rewrite set_full_bucket.
    + cbn [fst] in *. now rewrite set_full_bucket.
  - unfold unload_all_files. pose proof (unload_each_Inv (dvals (b_lookup (w_bucket w))) w I) as H.
    destruct (unload_each w _) as (w1 & []); try exact H. apply Inv_empty.
Qed.
Lemma go_on_Inv cs : forall w, Inv (w_bucket w) -> Inv (w_bucket (go_on w cs)).
Proof. induction cs as [|c cs IH]; intros w I; [exact I|]. apply IH, exec_Inv, I. Qed.

(** a name that is known is not opened again, whatever is on the disk by now: the load gives what is known under the name,
    and changes no file and no name *)
Theorem C71_cached cs d n it : let w := go_on empty_world cs in get_file w n = Some it ->
  exists w', load_file d w n = (w', id_of it, FOk) /\ w_objs w' = w_objs w /\ forall m, get_file w' m = get_file w m.
Proof.
  intros w E. destruct (load_known d w n it (go_on_Inv cs empty_world (Inv_empty 0)) E) as (w' & A & B & _ & C).
  exists w'. split; [exact A|]. split; [exact B|]. intros m. apply (C (HObj m)).
Qed.
Print Assumptions C71_cached.

(** the code does not satisfy the property for files that cannot be opened: the name is known from then on, for no file, and
    the file is not opened when it could be *)
Theorem C71_open_error_refuted cs d n : let w := go_on empty_world cs in get_file w n = None -> d n = None ->
  exists w', load_file d w n = (w', None, FOk) /\ get_file w' n <> None /\
    forall d', exists w'', load_file d' w' n = (w'', None, FOk).
Proof.
  intros w E D. unfold load_file at 1. rewrite E, D.
  assert (I : Inv (w_bucket w)) by (apply go_on_Inv, Inv_empty).
  assert (S1 : exists w', store w n none_item true false = (w', FOk) /\ Inv (w_bucket w') /\ named w' n = Some none_item).
  { unfold store. destruct (set_item_spec (w_bucket w) [HObj n] none_item true false I) as (b' & Q & I' & _ & G & _). rewrite Q.
    eexists. split; [reflexivity|]. split; [exact I'|]. cbn [w_bucket]. rewrite G. destruct (in_dec _ _ _) as [|N]; [reflexivity|].
    exfalso. apply N. destruct (hget (w_bucket w) (ikey none_item)); cbn; auto. }
  destruct S1 as (w' & -> & I' & Q). exists w'. split; [reflexivity|]. split; [change (named w' n <> None); congruence|].
  intros d'. destruct (load_known d' w' n none_item I' Q) as (w'' & A & _). exists w''. exact A.
Qed.
Print Assumptions C71_open_error_refuted.

(** ** examples and further refutations *)
(* 10 and 11 refer to 1 and 2; 12 refers to nothing *)
Definition disk0 : disk := fun n => match n with
  | 10 => Some [1; 2; 1] | 11 => Some [2] | 12 | 1 | 2 => Some [] | _ => None end%nat.
Definition is_kid (n : nat) : bool := (n <? 10)%nat.
Definition known (w : world) (ns : list nat) : list bool := map (fun n => match get_file w n with Some _ => true | None => false end) ns.
Definition full (w : world) (id : nat) : option bool := option_map o_full (obj w id).

Example C71_open_nonvacuous :
  let cs := [Load disk0 10; Load disk0 11; Load disk0 12; Load disk0 11; Reload disk0 11; Unload 10]%nat in
  expects is_kid [] cs [(12, []); (11, [2; 2])]%nat /\
  known (fst (exec_all empty_world cs)) [10; 11; 12; 1; 2]%nat = [false; true; true; false; true].
Proof.
  split; [|vm_compute; reflexivity]. Ltac kids := repeat constructor; discriminate.
  eapply e_cons; [apply (e_load is_kid [] disk0 10%nat [1; 2; 1]%nat); [reflexivity|intros []|reflexivity|kids]|].
  eapply e_cons; [apply (e_load is_kid _ disk0 11%nat [2]%nat); [reflexivity|cbn; lia|reflexivity|kids]|].
  eapply e_cons; [apply (e_load is_kid _ disk0 12%nat []); [reflexivity|cbn; lia|reflexivity|kids]|].
  eapply e_cons; [apply e_again; cbn; auto|].
  eapply e_cons; [apply (e_reload is_kid [(12, [])]%nat [(10, [1; 2; 1])]%nat disk0 11%nat [2]%nat [2]%nat); [reflexivity|kids|kids]|].
  eapply e_cons; [apply (e_unload is_kid [(12, []); (11, [2; 2])]%nat [] 10%nat [1; 2; 1]%nat)|]. apply e_nil.
Qed.

(** a file that could not be opened also makes unload_all_files raise, and nothing after it is unloaded *)
Theorem C71_unload_all_error_refuted :
  let w := go_on empty_world [Load disk0 99; Load disk0 12]%nat in
  snd (unload_all_files w) = FAttributeError /\ known (fst (unload_all_files w)) [99; 12]%nat = [true; true] /\ full (fst (unload_all_files w)) 0 = Some true.
Proof. vm_compute. auto. Qed.
Print Assumptions C71_unload_all_error_refuted.
(** unload_all_files forgets a file that refers to another, and leaves its contents *)
Theorem C71_unload_all_contents_refuted :
  let w := fst (exec_all empty_world [Load disk0 11; UnloadAll]%nat) in
  snd (exec_all empty_world [Load disk0 11; UnloadAll]%nat) = FOk /\ known w [11; 2]%nat = [false; false] /\ full w 0 = Some true.
Proof. vm_compute. auto. Qed.
Print Assumptions C71_unload_all_contents_refuted.
(** a file that is open refers to 2; the user loads and unloads 2: the file can be neither unloaded nor reloaded *)
Theorem C71_shared_refuted :
  let w := fst (exec_all empty_world [Load disk0 11; Load disk0 2; Unload 2]%nat) in
  snd (exec_all empty_world [Load disk0 11; Load disk0 2; Unload 2]%nat) = FOk /\
  snd (unload_file w 11) = FKeyError /\ known (fst (unload_file w 11)) [11]%nat = [true] /\ snd (reload_file disk0 w 11) = FKeyError.
Proof. vm_compute. auto. Qed.
Print Assumptions C71_shared_refuted.
(** the user loads 2 first, then a file that refers to it, then unloads 2: it stays known without its contents, and so it is
    when it is loaded again *)
Theorem C71_emptied_refuted :
  let w := fst (exec_all empty_world [Load disk0 2; Load disk0 11; Unload 2]%nat) in
  snd (exec_all empty_world [Load disk0 2; Load disk0 11; Unload 2]%nat) = FOk /\
  exists w', load_file disk0 w 2 = (w', Some 0%nat, FOk) /\ full w' 0 = Some false.
Proof. vm_compute. split; [reflexivity|]. eexists. split; reflexivity. Qed.
Print Assumptions C71_emptied_refuted.
(** a file that is unloaded twice gives up the reference of another: 11 and 10 refer to 2, 11 is unloaded twice *)
Theorem C71_twice_refuted :
  let w := go_on empty_world [Load disk0 11; Load disk0 10]%nat in
  let w1 := fst (unload w 0) in let w2 := fst (unload w1 0) in
  known w1 [10; 2]%nat = [true; true] /\ known w2 [10; 2]%nat = [true; false] /\ snd (unload_file w2 10) = FKeyError.
Proof. vm_compute. auto. Qed.
Print Assumptions C71_twice_refuted.
(** two parts of a program load the same file: when one unloads it, the other has an empty one *)
Theorem C71_two_users_refuted : exists w1 w2 w3 id,
  load_file disk0 empty_world 12 = (w1, Some id, FOk) /\ load_file disk0 w1 12 = (w2, Some id, FOk) /\ unload w2 id = (w3, FOk) /\
  full w2 id = Some true /\ full w3 id = Some false /\ get_file w3 12 = None.
Proof. vm_compute. eexists _, _, _, _. repeat split; reflexivity. Qed.
Print Assumptions C71_two_users_refuted.
Example C71_cached_nonvacuous : get_file (go_on empty_world [Load disk0 12; Unload 99]%nat) 12 = Some (item_of 0).
Proof. reflexivity. Qed.
Example C71_open_error_nonvacuous : get_file (go_on empty_world [Load disk0 12]%nat) 99%nat = None /\ disk0 99%nat = None.
Proof. split; reflexivity. Qed.
