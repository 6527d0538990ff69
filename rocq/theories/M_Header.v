(** Model of sensor headers and rows (dream/io.py:602-612, 614-649, 699-719,
    739-747, 787-853). *)
From Coq Require Import String List Bool Arith QArith.
From Verif Require Import Base Dict.
Import ListNotations.
Local Open Scope string_scope.
Local Open Scope nat_scope.

(** A component label: a string, or a number from [range] (dream/io.py:719). *)
Inductive component := CName (s : string) | CNum (n : nat).

(** A coefficient function as far as its shape goes: [cf.dims]; [()] is a scalar
    (dream/bla.py:94-116, 141-145). *)
Definition shape := list nat.
(** [cf.dim]: the number of components (NGSolve; used in dream/bla.py:94-116). *)
Definition shape_dim (s : shape) : nat := fold_right Nat.mul 1 s.

(** [bla.SCALAR_COMPONENT, VECTOR_COMPONENT, MATRIX_COMPONENT] (dream/bla.py:15-17). *)
Definition SCALAR_COMPONENT := [" "].
(** [bla.VECTOR_COMPONENT] (dream/bla.py:16). *)
Definition VECTOR_COMPONENT := ["x"; "y"; "z"].
(** [bla.MATRIX_COMPONENT] (dream/bla.py:17). *)
Definition MATRIX_COMPONENT := ["xx"; "xy"; "xz"; "yx"; "yy"; "yz"; "zx"; "zy"; "zz"].

(** [Sensor.get_components_name] (dream/io.py:709-719). *)
Definition get_components_name (s : shape) : list component :=
  match s with
  | [] => map CName SCALAR_COMPONENT
  | [n] => if n <=? 3 then map CName (firstn n VECTOR_COMPONENT) else map CNum (seq 0 n)
  | [m; n] =>
      if m * n <=? 9 then
        if (m =? 2) && (n =? 2) then
          map CName [nth 0 MATRIX_COMPONENT ""; nth 1 MATRIX_COMPONENT ""; nth 3 MATRIX_COMPONENT ""; nth 4 MATRIX_COMPONENT ""]
        else map CName MATRIX_COMPONENT
      else map CNum (seq 0 (m * n))
  | _ => map CNum (seq 0 (shape_dim s))
  end.

(** [get_components_name] of the L2 sensors (dream/io.py:799-800, 827-828). *)
Definition get_components_name_L2 (s : shape) : list component := [CName "L2"].

Section Sensor.
(** Location: a region pattern or a point, printed by Python. *)
Context {Loc Val : Type}.

(** The fields of an opened sensor (dream/io.py:693-694), in order. *)
Definition fields := list (string * shape).

(** [self._field.dim] of the compound field (dream/io.py:694). *)
Definition total_dim (fs : fields) : nat := fold_right Nat.add 0 (map (fun f => shape_dim (snd f)) fs).

(** [Sensor.get_header] (dream/io.py:699-707): the rows 'field' and 'component'. *)
Definition base_header (names : shape -> list component) (fs : fields) : list string * list component :=
  (flat_map (fun f => repeat (fst f) (shape_dim (snd f))) fs, flat_map (fun f => names (snd f)) fs).

(** Python [l * n] on lists. *)
Definition times {A} (l : list A) (n : nat) : list A := concat (repeat l n).

(** [RegionSensor.get_header] / [PointSensor.get_header] (dream/io.py:739-743,
    849-853): rows 'region' (or 'point'), 'field', 'component'. *)
Definition located_header (names : shape -> list component) (locs : list Loc) (fs : fields)
    : list Loc * list string * list component :=
  let '(f, c) := base_header names fs in
  (flat_map (fun l => repeat l (total_dim fs)) locs, times f (length locs), times c (length locs)).

(** [SensorStream.get_header] (dream/io.py:602-612): consistency check of all rows
    against 'field'; the row 't' of blanks is [length] cells when not stationary
    (its content carries no information and is represented by its length). *)
Definition stream_header (names : shape -> list component) (stationary : bool) (locs : list Loc) (fs : fields)
    : result (list Loc * list string * list component * option nat) :=
  let '(l, f, c) := located_header names locs fs in
  if (length l =? length f) && (length f =? length f) && (length c =? length f) then
    Ok (l, f, c, if stationary then None else Some (length f))
  else Err ValueError.

(** One measurement: the components of all fields at one location, in the order
    of the compound coefficient function (dream/io.py:745-747, 845-847).
    [value l f k] is component [k] of field [f] at location [l]. *)
Definition measure_at (value : Loc -> string -> nat -> Val) (fs : fields) (l : Loc) : list Val :=
  flat_map (fun f => map (value l (fst f)) (seq 0 (shape_dim (snd f)))) fs.

(** [SensorStream.measure] for one sensor (dream/io.py:647-649), if numpy can concatenate the measurements; when it
    cannot is in [M_Sensor.sensor_measure]. *)
Definition measure (value : Loc -> string -> nat -> Val) (fs : fields) (locs : list Loc) : list Val :=
  concat (map (measure_at value fs) locs).

(** A data row (dream/io.py:616-637): the optional time cell and the data. *)
Definition data_row (t : option Q) (data : list Val) : option Q * list Val := (t, data).

(** Number of cells of a header row [[name, *value]] (dream/io.py:598) and of a data
    row [[t, *data]] or [data] (dream/io.py:619, 628, 634). *)
Definition header_cells (n : nat) : nat := S n.
(** Number of cells of a data row (dream/io.py:619, 628, 634, 637). *)
Definition data_cells (r : option Q * list Val) : nat :=
  match fst r with Some _ => S (length (snd r)) | None => length (snd r) end.

End Sensor.

(** [DomainL2Sensor.open] / [BoundaryL2Sensor.open] (dream/io.py:791-793, 818-821):
    every field is replaced by its inner product with itself, a scalar. *)
Definition L2_fields (fs : fields) : fields := map (fun f => (fst f, [])) fs.
