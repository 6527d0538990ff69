(** Sponge layer orders, order reduction and grid deformations (dream/mesh.py:301-472, 585-701). *)
From Coq Require Import ZArith QArith Qround List Bool Arith.
From Verif Require Import Base.
Import ListNotations.

(** * Polynomial sponge orders *)

(** A value given for an order: a number or something that cannot be compared with one (dream/mesh.py:439-460). *)
Inductive order_value := ONum (q : Q) | OOther.

(** [data] of the layer as far as the orders are concerned (dream/mesh.py:439-460). *)
Record psponge := mk_psponge { high_order : option Z; low_order : option Z }.

(** [int(x)] of a number that is not negative (Python built-in). *)
Definition int_of (q : Q) : Z := Qfloor q.
(** [x < y] for numbers (Python built-in). *)
Definition Qlt_bool (x y : Q) : bool := negb (Qle_bool y x).

(** Setter of [high_order] (dream/mesh.py:439-449). *)
Definition set_high (s : psponge) (v : order_value) : psponge * option exn :=
  match v with
  | OOther => (s, Some TypeError)
  | ONum q =>
      if Qlt_bool q 0 then (s, Some ValueError)
      else
        let low := match low_order s with Some l => l | None => 0%Z end in
        if negb (Qle_bool (inject_Z low) q) then (s, Some ValueError)
        else (mk_psponge (Some (int_of q)) (low_order s), None)
  end.

(** Setter of [low_order] (dream/mesh.py:451-460); reading a deleted high order raises KeyError. *)
Definition set_low (s : psponge) (v : order_value) : psponge * option exn :=
  match v with
  | OOther => (s, Some TypeError)
  | ONum q =>
      if Qlt_bool q 0 then (s, Some ValueError)
      else match high_order s with
           | None => (s, Some KeyError)
           | Some h => if negb (Qle_bool q (inject_Z h)) then (s, Some ValueError)
                       else (mk_psponge (high_order s) (Some (int_of q)), None)
           end
  end.

(** Construction and [clear] (dream/config.py:405-408): both orders are reset to 0, the high order first. *)
Definition clear_orders : psponge :=
  fst (set_low (fst (set_high (mk_psponge None None) (ONum 0))) (ONum 0)).

(** Statements on a layer (dream/mesh.py:439-460, dream/config.py:174-175, 405-408). *)
Inductive layer_op := SetHigh (v : order_value) | SetLow (v : order_value) | DelHigh | DelLow | ClearOrders.
(** One statement on a layer (dream/mesh.py:439-460, dream/config.py:174-175, 405-408). *)
Definition layer_step (s : psponge) (o : layer_op) : psponge :=
  match o with
  | SetHigh v => fst (set_high s v)
  | SetLow v => fst (set_low s v)
  | DelHigh => mk_psponge None (low_order s)
  | DelLow => mk_psponge (high_order s) None
  | ClearOrders => clear_orders
  end.
(** A sequence of statements on a layer (dream/mesh.py:439-460). *)
Definition layer_run (s : psponge) (ops : list layer_op) : psponge := fold_left layer_step ops s.

(** [range(start, stop, -step)] (Python built-in, used in dream/mesh.py:468); [fuel] bounds its length. *)
Fixpoint range_by (fuel : nat) (start stop step : Z) : list Z :=
  match fuel with
  | O => []
  | S k =>
      let more := if Z.ltb 0 step then Z.ltb stop start else Z.ltb start stop in
      if more then start :: range_by k (start - step)%Z stop step else []
  end.

(** [get_pairs_of_polynomial_orders] (dream/mesh.py:466-469). *)
Definition pairs_of_orders (highest lowest step : Z) : result (list (Z * Z)) :=
  if Z.eqb step 0 then Err ValueError
  else
    let orders := range_by (Z.to_nat (Z.abs (highest - lowest))) highest lowest step ++ [lowest; lowest] in
    Ok (combine (removelast orders) (tl orders)).

(** * Order reduction *)

(** Bit arrays of unknowns as predicates on their numbers (NGSolve [BitArray]). *)
Definition bits := nat -> bool.

(** A layer: the facets (elements) it contains and its high order (dream/mesh.py:684-699). *)
Record layer := mk_layer { l_facet : nat -> bool; l_high : nat }.

(** [space.GetDofs(region)] for a facet space of order [p] whose unknowns are numbered facet by facet
    (NGSolve; [contains] says which facets belong to the region). *)
Definition get_dofs (p : nat) (contains : nat -> bool) : bits := fun d => contains (Nat.div d (p + 1)).

(** [dofs[i::n] = 0] (NGSolve [BitArray] slices). *)
Definition clear_slice (i n : nat) (b : bits) : bits :=
  fun d => if (Nat.leb i d) && Nat.eqb (Nat.modulo (d - i) n) 0 then false else b d.

(** Facet-wise reduction (dream/mesh.py:668-701): the unknowns that are kept, [None] if there is no layer. *)
Fixpoint reduce_facets_loop (p : nat) (layers : list layer) (kept : bits) : result bits :=
  match layers with
  | [] => Ok kept
  | l :: rest =>
      if Nat.ltb p (l_high l) then Err ValueError
      else
        let dofs := fold_left (fun b i => clear_slice i (p + 1) b)
                              (seq (l_high l + 1) (p - l_high l)) (get_dofs p (l_facet l)) in
        reduce_facets_loop p rest (fun d => kept d || dofs d)
  end.
(** [reduce_psponge_layers_order_facetwise] (dream/mesh.py:668-701). *)
Definition reduce_facets (dim p : nat) (layers : list layer) : result (option bits) :=
  match layers with
  | [] => Ok None
  | _ =>
      if negb (Nat.eqb dim 2) then Err NotImplementedError
      else
        let region f := existsb (fun l => l_facet l f) layers in
        let* kept := reduce_facets_loop p layers (fun d => negb (get_dofs p region d)) in
        Ok (Some kept)
  end.

(** Element-wise reduction (dream/mesh.py:641-666): polynomial order of each element. *)
Fixpoint reduce_elements (p : nat) (layers : list layer) (order : nat -> nat) : result (nat -> nat) :=
  match layers with
  | [] => Ok order
  | l :: rest =>
      if Nat.ltb p (l_high l) then Err ValueError
      else reduce_elements p rest (fun e => if l_facet l e then l_high l else order e)
  end.

(** * Grid deformation *)

Section Deformation.
(** Mappings other than the identity (dream/mesh.py:121-244). *)
Variable mapping : Type.
(** The coordinates (dream/mesh.py:332-348). *)
Inductive axis := AxisX | AxisY | AxisZ.
(** A grid mapping: the identity of a coordinate ([GridMapping.none], dream/mesh.py:127-135) or any other. *)
Inductive gmap := Identity (a : axis) | Map (m : mapping).

(** [data] of a [GridDeformation] (dream/mesh.py:324-361); the function is represented by the mappings whose
    deformations are its components. *)
Record deformation := mk_def { d_dim : option Z; d_x : option gmap; d_y : option gmap; d_z : option gmap; d_function : option (list gmap) }.

(** Value assigned to a coordinate: nothing, a mapping, something else (dream/mesh.py:376-384). *)
Inductive map_value := MNone | MMap (m : gmap) | MOther.

(** [check_mapping] (dream/mesh.py:376-384). *)
Definition check_mapping (a : axis) (v : map_value) : result gmap :=
  match v with MNone => Ok (Identity a) | MMap m => Ok m | MOther => Err TypeError end.

(** [(x, y, z)[:dim]] (Python slice; negative numbers count from the end). *)
Definition slice (dim : Z) (l : list gmap) : list gmap :=
  if Z.ltb dim 0 then firstn (Z.to_nat (Z.of_nat (length l) + dim)) l else firstn (Z.to_nat dim) l.

(** [data.get(...)] (dream/mesh.py:352-359). *)
Definition stored (a : axis) (d : deformation) : gmap :=
  match (match a with AxisX => d_x d | AxisY => d_y d | AxisZ => d_z d end) with Some m => m | None => Identity a end.
(** Storing a mapping (dream/mesh.py:332-348, dream/config.py:172). *)
Definition store (a : axis) (m : gmap) (d : deformation) : deformation :=
  match a with
  | AxisX => mk_def (d_dim d) (Some m) (d_y d) (d_z d) (d_function d)
  | AxisY => mk_def (d_dim d) (d_x d) (Some m) (d_z d) (d_function d)
  | AxisZ => mk_def (d_dim d) (d_x d) (d_y d) (Some m) (d_function d)
  end.

(** [set_function] (dream/mesh.py:350-361): the given mapping for its coordinate, if any, the stored ones otherwise. *)
Definition set_function (d : deformation) (a : axis) (v : map_value) : deformation * option exn :=
  let pick b := match a, b, v with
                | AxisX, AxisX, MMap m | AxisY, AxisY, MMap m | AxisZ, AxisZ, MMap m => m
                | _, _, _ => stored b d
                end in
  match d_dim d with
  | None => (d, Some KeyError)
  | Some n => (mk_def (d_dim d) (d_x d) (d_y d) (d_z d) (Some (slice n [pick AxisX; pick AxisY; pick AxisZ])), None)
  end.

(** Setters of x, y and z (dream/mesh.py:332-348). *)
Definition set_axis (d : deformation) (a : axis) (v : map_value) : deformation * option exn :=
  match check_mapping a v with
  | Err e => (d, Some e)
  | Ok m => match set_function d a v with
            | (d', None) => (store a m d', None)
            | r => r
            end
  end.

(** Setters of [dim] (dream/mesh.py:328-330) and [function] (dream/mesh.py:303-305), both without conversion here. *)
Definition set_dim (d : deformation) (n : Z) : deformation := mk_def (Some n) (d_x d) (d_y d) (d_z d) (d_function d).
(** Setter of [function] (dream/mesh.py:303-305, 361), without conversion here. *)
Definition assign_function (d : deformation) (f : option (list gmap)) : deformation := mk_def (d_dim d) (d_x d) (d_y d) (d_z d) f.

(** Construction and [clear] (dream/config.py:405-432): own options first (dim, x, y, z), then the inherited ones. *)
Definition clear_deformation : deformation :=
  let d := set_dim (mk_def None None None None None) 2 in
  let d := fst (set_axis d AxisX MNone) in
  let d := fst (set_axis d AxisY MNone) in
  let d := fst (set_axis d AxisZ MNone) in
  assign_function d None.

(** Statements (dream/mesh.py:324-390); exceptions are caught by the caller. *)
Inductive def_op := SetAxis (a : axis) (v : map_value) | SetDim (n : Z) | SetFunction (f : option (list gmap)) | ClearDef.
(** One statement (dream/mesh.py:324-390). *)
Definition def_step (d : deformation) (o : def_op) : deformation :=
  match o with
  | SetAxis a v => fst (set_axis d a v)
  | SetDim n => set_dim d n
  | SetFunction f => assign_function d f
  | ClearDef => clear_deformation
  end.
(** A sequence of statements (dream/mesh.py:324-390). *)
Definition def_run (d : deformation) (ops : list def_op) : deformation := fold_left def_step ops d.

(** Reading the function (dream/mesh.py:307-310). *)
Definition get_function (d : deformation) : result (list gmap) :=
  match d_function d with Some f => Ok f | None => Err ValueError end.

(** [get_grid_deformation_function] (dream/mesh.py:594-597): without explicit layers the result of [to_pattern] is
    dropped and None is passed on, so that reading its values raises (dream/mesh.py:364-365). *)
Definition grid_deformation_function {D G} (build : D -> result G) (layers : option D) : result G :=
  match layers with None => Err AttributeError | Some d => build d end.
End Deformation.
