(** Model of the XDMF reader's way through the grids of a file: viscid/readers/xdmf.py 95-120, 134-254 and 470-497, with
    Dataset.add (viscid/dataset.py 216-220), DatasetTemporal.add (470-484) and the truth value of datasets and grids
    (dataset.py 427, grid.py 309: the number of children or fields).

    SIMPLIFICATIONS: the XML is given as a tree of grids after xinclude; geometries and attributes are opaque and well formed (a
    geometry raises only if there is no topology, 270); a spatial collection that is turned into an AMR grid (dataset_to_amr_grid)
    counts as the collection (an AMR grid inside such a collection is not modelled); Information elements, names of grids and the active child are not modelled.  At the time a grid is parsed
    no grid above has its time set, so [parent_node.time] (164) is None. *)
From Coq Require Import String.
From Coq Require Import List QArith.
Import ListNotations.

(* 470-497; Range: NotImplementedError *)
Inductive xtime := XSingle (t : Q) | XList (l : list Q) | XHyper (t0 dt : Q) (n : nat) | XRange.
Inductive gtype := Uniform | Temporal | Spatial | OtherCollection | OtherGrid.                    (* Tree, Subset, unknown *)

Section XDMF.
Context {T G A : Type}.                                                                           (* topologies, geometries, attributes *)
Inductive xgrid := XGrid (gt : gtype) (tm : option xtime) (topo : option T) (geo : option G) (attrs : list A) (subs : list xgrid).

(** what is loaded: the time a node was given, the children *)
Inductive node :=
| NGrid (t : option Q) (g : option G) (flds : list A)
| NTemporal (t : option Q) (steps : list (Q * node))
| NSpatial (t : option Q) (l : list node).
Definition own_time (n : node) : option Q := match n with NGrid t _ _ | NTemporal t _ | NSpatial t _ => t end.
Definition set_time (t : Q) (n : node) : node :=
  match n with NGrid _ g f => NGrid (Some t) g f | NTemporal _ l => NTemporal (Some t) l | NSpatial _ l => NSpatial (Some t) l end.

(** an exception; None; something with truth value False, which is not filled in or added to its parent; a node *)
Inductive parsed := PErr | PNone | PEmpty (n : node) | PNode (n : node).

(* dataset.py 470-484: list.sort is stable *)
Fixpoint insert (t : Q) (n : node) (l : list (Q * node)) : list (Q * node) :=
  match l with
  | [] => [(t, n)]
  | (t', n') :: r => if Qle_bool t' t then (t', n') :: insert t n r else (t, n) :: l
  end.
Definition add_step (n : node) (l : list (Q * node)) : list (Q * node) :=
  match own_time n with Some t => insert t n l | None => insert 0 (set_time 0 n) l end.

(* amr_grid.py 18-45, 178-190: a dataset of at least two grids becomes an AMR grid, which has the time of its first grid *)
Definition is_grid (n : node) : bool := match n with NGrid _ _ _ => true | _ => false end.
Definition amr_time (time : option Q) (l : list node) : option Q :=
  match time, l with
  | None, n :: _ :: _ => if forallb is_grid l then own_time n else None
  | _, _ => time
  end.

(* 203-209: the children in their order; [t = times[i]] is computed, but [time] is passed on; None: exception *)
Definition add_all (parse : xgrid -> parsed) (subs : list xgrid) : option (list node) :=
  fold_right (fun x acc => match parse x with
                           | PErr => None
                           | PNode n => option_map (cons n) acc
                           | _ => acc
                           end) (Some []) subs.
Fixpoint parse_grid (x : xgrid) (time : option Q) : parsed :=
  match x with
  | XGrid gt tm topo geo attrs subs =>
      match geo, topo with
      | Some _, None => PErr                                                                      (* 270: None["TopologyType"] *)
      | _, _ =>
          let bad := match time, tm with None, Some XRange => true | _, _ => false end in         (* 156-161 *)
          let time := match time, tm with None, Some (XSingle t) => Some t | _, _ => time end in
          if bad then PErr else
          match gt with
          | Temporal =>
              match tm, subs with
              | Some XRange, _ => PErr
              | Some (XSingle _), _ :: _ => PErr                                                  (* 192: len of a float *)
              | _, _ => match add_all (fun x => parse_grid x time) subs with
                     | None => PErr
                     | Some [] => PEmpty (NTemporal None [])
                     | Some l => match geo with
                                 | Some _ => PErr                                                 (* 238: datasets have no set_crds *)
                                 | None => PNode (NTemporal time (fold_left (fun s n => add_step n s) l []))
                                 end
                     end
              end
          | Spatial =>
              match add_all (fun x => parse_grid x time) subs with
              | None => PErr
              | Some [] => PEmpty (NSpatial None [])
              | Some l => match geo with Some _ => PErr | None => PNode (NSpatial (amr_time time l) l) end
              end
          | OtherCollection => PErr                                                               (* 208: None.children *)
          | Uniform =>
              match topo, geo with
              | Some _, Some g => match attrs with [] => PEmpty (NGrid None None []) | _ => PNode (NGrid time (Some g) attrs) end
              | _, _ => PNone                                                                     (* 212: a warning *)
              end
          | OtherGrid => PNone
          end
      end
  end.
(* 97-124: [self.add(None)] raises; what has truth value True was already added by _parse_grid (250), so it comes first *)
Definition parse_all (l : list xgrid) : option (list parsed) :=
  fold_right (fun x acc => match parse_grid x None with PErr | PNone => None | p => option_map (cons p) acc end) (Some []) l.
Definition load (l : list xgrid) : option (list node) :=
  option_map (fun ps => flat_map (fun p => match p with PNode n => [n] | _ => [] end) ps ++
                        flat_map (fun p => match p with PEmpty n => [n] | _ => [] end) ps) (parse_all l).
End XDMF.
Arguments xgrid : clear implicits.
Arguments node : clear implicits.
