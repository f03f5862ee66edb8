(** Model of the methods of fields that give the field in another form: viscid/field.py [atleast_3d] (1690-1713), [atmost_nd] (1715-1737),
    [as_node_centered] (1633-1666; the coordinates of [as_cell_centered] are in CrdModel.v), the views both make, [adjust_crds] (1739-1785), the shared cache of a view and
    its parent (767-776, 812-826), and coordinate.py [atleast_3d] (1139-1160).

    The fields, their loading and [wrap] are those of FldModel.v; [None] and [WErr] are exceptions.  SIMPLIFICATIONS: axes are numbers: 0, 1, 2 are x, y, z,
    and 3, 4, 5 the names fill_a, fill_b, fill_c that [atleast_3d] makes up.  Coordinates are exact numbers.  Centres given with the coordinates, units and
    face or edge centring are left out. *)
From Verif Require Import FldModel CrdModel.
From Coq Require Import ZArith QArith List Bool Arith Lia.
Import ListNotations.
Open Scope Z_scope.

(** ** at least three axes *)
(* coordinate.py 1143-1157: where the new axes go and what they are called *)
Definition at3_new (names : list nat) : list (nat * nat) :=
  let cand := if existsb (fun a => (a <? 3)%nat) names
              then map (fun a => (a, a)) (filter (fun a => negb (existsb (Nat.eqb a) names)) [0; 1; 2]%nat)
              else [(3, 3); (3, 4); (3, 5)]%nat in
  firstn (3 - length names) cand.
(* 1158-1159 *)
Definition at3 {X : Type} (news : list (nat * nat)) (mk : nat -> X) (l : list X) : list X :=
  fold_left (fun acc p => insert_at (fst p) (mk (snd p)) acc) news l.

Section AT3.
Context {C V : Type}.
Implicit Types (f : fld C V).
(* c0: the middle of the new axes, coordinate.py 1371-1376, 1419-1423; in both centrings the new axis has one place *)
Definition at3_crds (c0 : C) (cs : list (crd C)) : list (crd C) := at3 (at3_new (map fst cs)) (fun a => (a, [c0])) cs.
(* field.py 1690-1713; [cs]: the coordinates with reflections applied; [loaded]: the data are in the cache *)
Definition atleast_3d (c0 : C) (cs : list (crd C)) (loaded : bool) f : wrapped :=
  if (3 <=? length cs)%nat then WFld f
  else
    let ncs := at3_crds c0 cs in
    if loaded then
      match load f, nr_comps f with
      | Some d, Some n =>
          let sh := sshape_of ncs in
          let sh' := if n =? 0 then sh else match nr_comp f with Some k => insert_at k n sh | None => sh end in   (* 1706-1708 *)
          match nd_reshape sh' d with Some e => wrap (f_vec f) ncs e None | None => WErr end
      | _, _ => WErr
      end
    else
      match f_src f with                                                                                        (* 1713 *)
      | SArr a => wrap (f_vec f) ncs a None
      | SList l => let g := F (f_vec f) ncs (map (fun _ => false) ncs) (SList l) false None in
                   match nr_comps g with None => WErr | Some n => if n =? 1 then WComp0 g else WFld g end
      end.

(** ** a view with other coordinates *)
(* field.py 1600-1618, 1640-1664: the coordinates are made from the reflected arrays and do not reflect; the source is that of the field *)
Definition view_of (ncs : list (crd C)) f : fld C V := F (f_vec f) ncs (map (fun _ => false) ncs) (f_src f) (f_zyx f) (f_force f).
End AT3.

(** the caches of a field and of its view, which has the field as its parent *)
Inductive op := DataF | DataG | ClearF | ClearG.
Record caches (D : Type) := CA { ca_f : option D; ca_g : option D }.
Arguments CA {D} _ _. Arguments ca_f {D} _. Arguments ca_g {D} _.
Section CACHE.
Context {D : Type}.
Variables load_f load_g : option D.           (* what loading gives; None: an exception *)
(* 767-776, 812-826; the result of reading the data *)
Definition cache_step (o : op) (c : caches D) : caches D * option (option D) :=
  match o with
  | DataF => match ca_f c with
             | Some d => (c, Some (Some d))
             | None => (CA load_f (ca_g c), Some load_f)
             end
  | DataG => match ca_g c with
             | Some d => (c, Some (Some d))
             | None => match load_g with
                       | Some d => (CA (Some d) (Some d), Some load_g)
                       | None => (c, Some None)
                       end
             end
  | ClearF => (CA None (ca_g c), None)
  | ClearG => (CA None None, None)
  end.
Fixpoint cache_run (os : list op) (c : caches D) : list (op * option D) :=
  match os with
  | [] => []
  | o :: r => let '(c', out) := cache_step o c in
              match out with Some d => (o, d) :: cache_run r c' | None => cache_run r c' end
  end.
(* 1617-1618, 1661-1664: the view starts with the cache of the field *)
Definition cache_start (c : option D) : caches D := CA c c.
End CACHE.

(** ** centring, along one axis: the places of the values before and after *)
Inductive axis_crds := Uni (a : args) | Non (x : list Q).
Definition nodes_of (c : axis_crds) : list Q := match c with Uni a => uni_nodes a | Non x => x end.
Definition centres_of (c : axis_crds) : list Q := cells (nodes_of c).
(* 1633-1666 with coordinate.py 1390-1401, 990-1012 *)
Definition to_node (c : axis_crds) : axis_crds :=
  match c with
  | Uni a => Uni (cc_args a)
  | Non x => Non (cells x)
  end.

(** ** adjust_crds *)
(* 1761-1769 *)
Definition adjust (adj : Q -> Q) (x : list Q) : list Q := map adj x.
(* a coordinates object: the list of its axes, and the arrays by name, made when they are first asked for (coordinate.py 378-382, 461-487) *)
Record cobj := CO { co_axes : list nat; co_tab : list (nat * list Q) }.
Fixpoint lookup (k : nat) (t : list (nat * list Q)) : option (list Q) :=
  match t with [] => None | (a, x) :: r => if (a =? k)%nat then Some x else lookup k r end.
(* coordinate.py 931-953; None: KeyError *)
Fixpoint all_some {X : Type} (l : list (option X)) : option (list X) :=
  match l with
  | [] => Some []
  | Some x :: r => option_map (cons x) (all_some r)
  | None :: _ => None
  end.
Definition get_crds (o : cobj) : option (list (list Q)) := all_some (map (fun a => lookup a (co_tab o)) (co_axes o)).
(* 1773-1776: axes[axes.index(a)] = b, for the entries of the dict in turn *)
Fixpoint rename1 (a b : nat) (l : list nat) : list nat :=
  match l with [] => [] | x :: r => if (x =? a)%nat then b :: r else x :: rename1 a b r end.
Definition rename (m : list (nat * nat)) (axes : list nat) : list nat := fold_left (fun l p => rename1 (fst p) (snd p) l) m axes.
(* 1739-1785: the coordinates of the result and what the coordinates of the field have become: self.crds.axes is their own list *)
Definition adjust_crds (adj : nat -> Q -> Q) (m : list (nat * nat)) (o : cobj) : option (cobj * cobj) :=
  match get_crds o with
  | None => None
  | Some arrs =>
      let axes' := rename m (co_axes o) in
      let arrs' := map (fun p => adjust (adj (fst p)) (snd p)) (combine (co_axes o) arrs) in
      Some (CO axes' (combine axes' arrs'), CO axes' (co_tab o))
  end.

(** ** at most n axes: the axes that are taken out *)
(* 1722-1729 *)
Fixpoint ones (n total i : nat) (sh : list nat) (slc : list nat) : list nat :=
  match sh with
  | [] => slc
  | ni :: r => let slc' := if (ni =? 1)%nat then slc ++ [i] else slc in
               if (total - length slc' <=? n)%nat then slc' else ones n total (S i) r slc'
  end.
(* 1730-1733: the last of the remaining axes *)
Fixpoint pops (k : nat) (rest : list nat) : list nat * list nat :=
  match k with
  | O => ([], rest)
  | S k' => let '(out, r) := pops k' (removelast rest) in (last rest O :: out, r)
  end.
(* the axes taken out by index 0, those taken out at the place nearest 0, and the axes that are left *)
Definition atmost_nd (n : nat) (sh : list nat) : list nat * list nat * list nat :=
  let total := length sh in
  let slc := ones n total 0 sh [] in
  let rest := filter (fun i => negb (existsb (Nat.eqb i) slc)) (seq 0 total) in
  let '(out, kept) := pops (total - length slc - n) rest in (slc, out, kept).
