(** Model of viscid/readers/gkeyll.py (names of fields 26-73, 383-413; derived fields 76-219; coordinates 415-450; kinds in a series 320-381; groups of files 240-276)
    and of the reading of one component with [H5pyDataWrapper], viscid/readers/hdf5.py 82-127.

    SIMPLIFICATIONS: numbers are exact; a dataset is a function of its indices; file names are taken apart already (run, type, frame), and compared by numbers. *)
From Verif Require Import GgcmModel.
From Coq Require Import String List Bool Arith ZArith QArith.
Import ListNotations.

(** ** names of the fields *)
Local Open Scope string_scope.
Definition hydro : list string := ["rho"; "rhoux"; "rhouy"; "rhouz"; "e"].                    (* 26 *)
Definition five : list string :=                                                             (* 30-32 *)
  ["rho_e"; "rhoux_e"; "rhouy_e"; "rhouz_e"; "e_e"; "rho_i"; "rhoux_i"; "rhouy_i"; "rhouz_i"; "e_i"; "Ex"; "Ey"; "Ez"; "Bx"; "By"; "Bz"].
Definition ten : list string :=                                                              (* 38-42 *)
  ["rho_e"; "rhoux_e"; "rhouy_e"; "rhouz_e"; "pxx_e"; "pxy_e"; "pxz_e"; "pyy_e"; "pyz_e"; "pzz_e";
   "rho_i"; "rhoux_i"; "rhouy_i"; "rhouz_i"; "pxx_i"; "pxy_i"; "pxz_i"; "pyy_i"; "pyz_i"; "pzz_i"; "Ex"; "Ey"; "Ez"; "Bx"; "By"; "Bz"].
(* _type_info, 53-62: number of fields, the list of names (which is changed in place); one for the process *)
Definition table := list (nat * list string).
Definition type_info : table := [(5%nat, hydro); (16%nat, five); (26%nat, ten)].
Fixpoint look (t : table) (n : nat) : option (list string) :=
  match t with [] => None | (k, l) :: r => if (k =? n)%nat then Some l else look r n end.
Fixpoint append_to (t : table) (n : nat) (x : list string) : table :=
  match t with [] => [] | (k, l) :: r => if (k =? n)%nat then (k, (l ++ x)%list) :: r else (k, l) :: append_to r n x end.
Definition digit (n : nat) : string := String (Ascii.ascii_of_nat (48 + n)%nat) "".
Fixpoint dec (fuel n : nat) : string :=                                                      (* '%d' *)
  match fuel with O => "" | S k => if (n <? 10)%nat then digit n else dec k (n / 10)%nat ++ digit (n mod 10)%nat end.
Definition numbered (n : nat) : list string := map (fun i => "Q" ++ dec (S i) i) (seq 0 n).        (* 64-73 *)
(* 383-413: dict() copies the dict, not the lists in it, so the names are appended to the lists of the table *)
Definition make_template (t : table) (nr : nat) : table * list string :=
  match look t nr with
  | Some l => (t, firstn nr l)
  | None => match (if (nr <? 2)%nat then None else look t (nr - 2)%nat) with
            | Some l => (append_to t (nr - 2)%nat ["phi_E"; "phi_B"], firstn nr (l ++ ["phi_E"; "phi_B"])%list)
            | None => (t, firstn nr (numbered nr))
            end
  end.
(* the files that are read one after the other *)
Fixpoint templates (t : table) (nrs : list nat) : list (list string) :=
  match nrs with [] => [] | n :: r => let '(t', names) := make_template t n in names :: templates t' r end.
(* 305-310, 330-345, 379, 411: the kind that is put on each grid: 'q' from the file name, unless the template was made from this very file *)
Definition kind_of (nr : nat) : string :=
  match nr with 5 => "hydro" | 16 => "five-moment" | 26 => "ten-moment" | 7 => "hydro" | 18 => "five-moment" | 28 => "ten-moment" | _ => "unknown" end%nat.
Definition grid_kinds (files : list nat) : list string :=
  match files with [nr] => [kind_of nr] | _ => map (fun _ => "q") files end.
Close Scope string_scope.

(** ** reading a component *)
(* slice(None), an index, lo:hi, Ellipsis *)
Inductive sel := SAll | SAt (i : nat) | SRange (lo hi : nat) | SEll.
Fixpoint insert_at {A} (k : nat) (x : A) (l : list A) : list A :=                            (* list.insert *)
  match k, l with O, _ => x :: l | S k', y :: r => y :: insert_at k' x r | S _, [] => [x] end.
(* hdf5.py 82-101 with comp_dim -1; [nd]: len(self.shape) *)
Definition inject (nd comp : nat) (slc : option (list sel)) : list sel :=
  let new := match slc with Some l => l ++ repeat SAll (nd - length l)%nat | None => repeat SAll nd end in
  insert_at (nd + 1 - 1)%nat (SAt comp) new.
(* numpy and h5py: an Ellipsis stands for as many axes as are left, axes that are not named are taken whole *)
Definition is_ell (s : sel) : bool := match s with SEll => true | _ => false end.
Fixpoint expand (fill : nat) (l : list sel) : list sel :=
  match l with [] => [] | SEll :: r => repeat SAll fill ++ r | s :: r => s :: expand fill r end.
Definition full (nd : nat) (l : list sel) : list sel :=
  if existsb is_ell l then expand (nd - (length l - 1))%nat l else l ++ repeat SAll (nd - length l)%nat.
(* where element [js] of the result is in the source *)
Fixpoint source (l : list sel) (js : list nat) : list nat :=
  match l with
  | [] => []
  | SAt i :: r => i :: source r js
  | SRange lo _ :: r => match js with j :: js' => (lo + j)%nat :: source r js' | [] => [lo] end
  | _ :: r => match js with j :: js' => j :: source r js' | [] => [] end
  end.
(* dset[item], dset with [nd] axes *)
Definition read (nd : nat) (dset : list nat -> Q) (item : list sel) (js : list nat) : Q := dset (source (full nd item) js).
(* wrapper[item], a component of a dataset with [nd] axes and one for the components *)
Definition read_comp (nd comp : nat) (dset : list nat -> Q) (item : list sel) (js : list nat) : Q := read (S nd) dset (inject nd comp (Some item)) js.
(* __array__, 78-81 *)
Definition read_whole (nd comp : nat) (dset : list nat -> Q) (js : list nat) : Q := read (S nd) dset (inject nd comp None) js.

(** ** derived fields *)
Local Open Scope Q_scope.
(* the stored moments at one place: rho, rho u, p_ab *)
Record moments := MOM { m_rho : Q; m_rhou : nat -> Q; m_p : nat -> nat -> Q }.
(* 86-102, 140-156 *)
Definition get_u (m : moments) (a : nat) : Q := m_rhou m a / m_rho m.
(* 104-138, 158-192: the factors that are used for each of the six *)
Definition get_P (m : moments) (a b : nat) : Q :=
  match a, b with
  | 0%nat, 0%nat => m_p m 0%nat 0%nat - m_rhou m 0%nat * m_rhou m 0%nat / m_rho m
  | 1%nat, 1%nat => m_p m 1%nat 1%nat - m_rhou m 0%nat * m_rhou m 0%nat / m_rho m
  | 2%nat, 2%nat => m_p m 2%nat 2%nat - m_rhou m 0%nat * m_rhou m 0%nat / m_rho m
  | 0%nat, 1%nat => m_p m 0%nat 1%nat - m_rhou m 0%nat * m_rhou m 1%nat / m_rho m
  | 0%nat, 2%nat => m_p m 0%nat 2%nat - m_rhou m 0%nat * m_rhou m 2%nat / m_rho m
  | _, _ => m_p m 1%nat 2%nat - m_rhou m 1%nat * m_rhou m 2%nat / m_rho m
  end.

(** ** coordinates *)
(* 417-423 and coordinate.py: [lower, upper, num + 1] *)
Definition uniform_nodes (lower upper : Q) (num : nat) : list Q :=
  map (fun i => lower + inject_Z (Z.of_nat i) * ((upper - lower) / inject_Z (Z.of_nat num))) (seq 0 (S num)).
(* 424-436: for a structured grid of [nd] axes the dataset has one axis more; four indices do not fit another number of axes *)
Definition structured_axis (nd idx : nat) (n : nat) (dset : list nat -> Q) : option (list Q) :=
  if (nd =? 3)%nat then
    Some (map (fun i => dset (match idx with 0%nat => [i; 0; 0; 0] | 1%nat => [0; i; 0; 1] | _ => [0; 0; i; 2] end)%nat) (seq 0 n))
  else None.

(** ** groups of files *)
(* 252-276; a frame is always there, the detector asks for digits *)
Definition group_frames {A} (l : list (info A)) : option (list (list A)) :=
  match sort_by i_run (sort_by i_type (sort_by time_key l)) with
  | [] => None
  | f :: r => Some (map (map i_name) (split_groups [f] r))
  end.
