(** What sensors measure (dream/io.py:574-581, 647-649, 684-697, 729-853; dream/mesh.py:19-32).  Headers are in
    [M_Header]. *)
From Coq Require Import Reals String List Bool Arith.
From Verif Require Import Base Dict M_Header M_Conditions.
Import ListNotations.
Local Open Scope R_scope.
Local Open Scope list_scope.

(** An element of the mesh (NGSolve): the name of its region and the weights and points of its quadrature rule. *)
Record element := mk_element { e_name : string; e_rule : list (R * nat) }.

(** The mesh as far as sensors use it (NGSolve): its elements, its boundary elements, and the names that
    [GetMaterials] and [GetBoundaries] return. *)
Record smesh := mk_smesh { volume : list element; surface : list element; materials : list string; boundaries : list string }.

(** A component of a coefficient function (NGSolve): its values at the points of elements and at those of boundary
    elements, the latter taken from the adjacent element. *)
Record field := mk_field { in_volume : nat -> R; on_surface : nat -> R }.

(** [mesh.Materials(pattern)] and [mesh.Boundaries(pattern)] (NGSolve, used in dream/io.py:784, 811). *)
Inductive region := Materials (p : string) | Boundaries (p : string).

(** Whether an element belongs to a region given by a pattern (NGSolve; names are separated by bars). *)
Definition selected (p : string) (e : element) : bool := existsb (String.eqb (e_name e)) (split_bar p).

(** The weighted sum of the values of an element (NGSolve [Integrate]). *)
Definition quadrature (f : nat -> R) (e : element) : R := fold_right (fun wx s => fst wx * f (snd wx) + s) 0 (e_rule e).

(** The sum over elements (NGSolve [Integrate]). *)
Definition sum_elements (f : nat -> R) (es : list element) : R := fold_right (fun e s => quadrature f e + s) 0 es.

(** [ngs.Integrate(f, mesh, order=..., definedon=region)] (NGSolve, called in dream/io.py:747): without a region the
    integral over all elements; the integration order is part of the rules. *)
Definition integrate (m : smesh) (definedon : option region) (f : field) : R :=
  match definedon with
  | None => sum_elements (in_volume f) (volume m)
  | Some (Materials p) => sum_elements (in_volume f) (filter (selected p) (volume m))
  | Some (Boundaries p) => sum_elements (on_surface f) (filter (selected p) (surface m))
  end.

(** The option [regions] of a sensor (dream/io.py:735-737). *)
Inductive regions_value := RNone | RStr (s : string) | RSeq (l : list string) | ROther.

(** State of an opened sensor: the option [regions], [_regions], and the names in warnings
    (dream/io.py:749-772; the order of the warnings is arbitrary). *)
Record opened := mk_opened { o_regions : regions_value; o_locations : dict (option region); o_missing : list string }.

(** [x in l] for strings (Python built-in). *)
Definition contains (l : list string) (x : string) : bool := existsb (String.eqb x) l.

(** [set(l)] (Python built-in): every member once, in some order. *)
Definition distinct (l : list string) : list string := nodup string_dec l.

(** [RegionSensor.set_regions] (dream/io.py:749-772). *)
Definition set_regions (regions : regions_value) (expected : list string) (fregion : string -> region) : result opened :=
  match regions with
  | RNone => Ok (mk_opened RNone [(join_bar expected, None)] [])
  | RStr s =>
      let found := filter (contains expected) (split_bar s) in
      let p := join_bar found in
      Ok (mk_opened (RStr p) [(p, Some (fregion p))] (filter (fun x => negb (contains found x)) (distinct (split_bar s))))
  | RSeq l =>
      let found := filter (contains expected) l in
      Ok (mk_opened (RSeq found) (dict_of (map (fun d => (d, Some (fregion d))) found))
                    (filter (fun x => negb (contains found x)) (distinct l)))
  | ROther => Err ValueError
  end.

(** The kinds of region sensors (dream/io.py:778-828). *)
Inductive kind := Domain | Boundary.

(** [open] of domain and boundary sensors (dream/io.py:684-694, 782-784, 807-811) as far as regions are concerned; a sensor
    without fields is rejected (dream/io.py:689-690). *)
Definition open_sensor (k : kind) (m : smesh) (fs : fields) (regions : regions_value) : result opened :=
  match fs with
  | [] => Err ValueError
  | _ =>
      match k with
      | Domain => set_regions regions (materials m) Materials
      | Boundary => set_regions regions (boundaries m) Boundaries
      end
  end.

Section Measure.
(** Value of [BoundaryFromVolumeCF] at points of elements (NGSolve; of no use to anybody). *)
Variable stray : field -> nat -> R.

(** [_field] of a sensor (dream/io.py:694, 810). *)
Definition compound (k : kind) (f : field) : field :=
  match k with Domain => f | Boundary => mk_field (stray f) (on_surface f) end.

(** [measure] of domain and boundary sensors (dream/io.py:647-649, 745-747); [value f i]: component [i] of the field [f].
    Concatenating no arrays raises ValueError (numpy).  So does concatenating arrays without dimension, which is what
    [np.array] makes of the plain number that [Integrate] returns for a field of one component (NGSolve). *)
Definition sensor_measure (k : kind) (m : smesh) (value : string -> nat -> field) (fs : fields) (locations : dict (option region))
  : result (list R) :=
  match locations with
  | [] => Err ValueError
  | _ =>
      if (total_dim fs =? 1)%nat then Err ValueError
      else Ok (concat (map (fun kr => measure_at (fun r f i => integrate m r (compound k (value f i))) fs (snd kr)) locations))
  end.

(** [ngs.InnerProduct(cf, cf)] (NGSolve, used in dream/io.py:792, 819) of a field with [n] components. *)
Definition inner_product (value : nat -> field) (n : nat) : field :=
  mk_field (fun x => fold_right (fun i s => in_volume (value i) x * in_volume (value i) x + s) 0 (seq 0 n))
           (fun x => fold_right (fun i s => on_surface (value i) x * on_surface (value i) x + s) 0 (seq 0 n)).

(** The fields of an opened L2 sensor (dream/io.py:792, 819). *)
Definition L2_value (value : string -> nat -> field) (fs : fields) (f : string) (i : nat) : field :=
  match dget fs f with Some s => inner_product (value f) (shape_dim s) | None => value f i end.

(** [measure] of L2 sensors (dream/io.py:795-797, 823-825). *)
Definition L2_measure (k : kind) (m : smesh) (value : string -> nat -> field) (fs : fields) (locations : dict (option region))
  : result (list R) :=
  let* row := sensor_measure k m (L2_value value fs) (L2_fields fs) locations in Ok (map sqrt row).
End Measure.

Section Points.
(** Points (NGSolve: tuples of coordinates). *)
Context {P : Type}.
(** Equality of points (Python tuples; [set] in dream/io.py:840 relies on it). *)
Variable P_dec : forall a b : P, {a = b} + {a <> b}.

(** The option [points] (dream/io.py:833-835): the name of a boundary or points. *)
Inductive points_value := PBoundary (s : string) | PPoints (l : list P).

(** [PointSensor.open] (dream/io.py:837-843); [bnd]: name and vertices of the boundary elements, [shuffle]: the order in
    which Python traverses a set. *)
Definition open_points (shuffle : list P -> list P) (bnd : list (string * list P)) (v : points_value) : points_value :=
  match v with
  | PBoundary s =>
      PPoints (shuffle (nodup P_dec (flat_map snd (filter (fun e => existsb (String.eqb (fst e)) (split_bar s)) bnd))))
  | PPoints l => PPoints l
  end.

(** [PointSensor.measure] (dream/io.py:647-649, 845-847); [value f i p]: component [i] of the field [f] at the point. *)
Definition point_measure (value : string -> nat -> P -> R) (fs : fields) (v : points_value) : result (list R) :=
  match v with
  | PPoints [] => Err ValueError
  | PPoints l => Ok (measure (fun p f i => value f i p) fs l)
  | PBoundary _ => Err TypeError
  end.
End Points.
Arguments points_value : clear implicits.
