(** Buffer coordinates, sponge profiles and grid mappings (dream/mesh.py:35-244). *)
From Coq Require Import Reals List.
From Verif Require Import Base M_Bla.
Import ListNotations.
Open Scope R_scope.

(** ** Buffer coordinates *)

(** A buffer coordinate at a point: its value, start and end (dream/mesh.py:35-93). *)
Record buffer := mk_buffer { b_value : R; b_x0 : R; b_xn : R }.

(** [BufferCoord.__init__] for a coefficient function with value [x] (dream/mesh.py:70-74). *)
Definition interval (x a b : R) : R := let y := ifpos (x - a) x a in ifpos (y - b) b y.
(** [BufferCoord.__init__] at a point (dream/mesh.py:70-74). *)
Definition buffer_coord (x x0 xn : R) : buffer :=
  mk_buffer (interval ((x - x0) / (xn - x0)) 0 1 * (xn - x0) + x0) x0 xn.

(** [BufferCoord.x], [y], [z] at a point with the given cartesian coordinate (dream/mesh.py:48-58). *)
Definition buffer_axis (x x0 xn shift : R) : buffer := buffer_coord (x - shift) x0 xn.

(** Sum of the squared differences over the shorter list ([zip], dream/mesh.py:62, 67). *)
Fixpoint squares (x shift : list R) : R :=
  match x, shift with a :: x', s :: shift' => (a - s) ^ 2 + squares x' shift' | _, _ => 0 end.

(** [BufferCoord.polar] with coordinates [x; y] and [BufferCoord.spherical] with [x; y; z] (dream/mesh.py:60-68). *)
Definition buffer_radial (x shift : list R) (r0 rn : R) : buffer := buffer_coord (sqrt (squares x shift)) r0 rn.

(** [length] (dream/mesh.py:88-90). *)
Definition b_length (b : buffer) : R := Rabs (b_xn b - b_x0 b).

(** [get_normalised_coordinate] (dream/mesh.py:92-93). *)
Definition normalised (b : buffer) : R := (b_value b - b_x0 b) / (b_xn b - b_x0 b).

(** ** Sponge functions *)

(** A coordinate argument: a buffer coordinate or anything else (dream/mesh.py:105-106). *)
Inductive coordinate := Buffer (b : buffer) | NoBuffer.

(** [SpongeFunction.constant] (dream/mesh.py:100-102). *)
Definition sponge_constant (weight : R) : R := weight.

(** [SpongeFunction.polynomial] for natural orders (dream/mesh.py:104-110). *)
Definition sponge_polynomial (weight : R) (x : coordinate) (order : nat) : result R :=
  match x with
  | NoBuffer => Err TypeError
  | Buffer b => Ok (weight * normalised b ^ order)
  end.

(** [SpongeFunction.penta] (dream/mesh.py:112-118). *)
Definition sponge_penta (weight : R) (x : coordinate) : result R :=
  match x with
  | NoBuffer => Err TypeError
  | Buffer b => let x := normalised b in Ok (weight * (6 * x ^ 5 - 15 * x ^ 4 + 10 * x ^ 3))
  end.

(** ** Grid mappings *)

(** A grid mapping at a point: its coordinate and the map (dream/mesh.py:211-213). *)
Record grid_mapping := mk_mapping { g_x : buffer; g_map : R -> R }.

(** [GridMapping.none] (dream/mesh.py:127-135). *)
Definition mapping_none (x : buffer) : grid_mapping := mk_mapping x (fun x_ => x_).

(** [GridMapping.linear] (dream/mesh.py:137-155). *)
Definition mapping_linear (scale : R) (x : coordinate) : result grid_mapping :=
  match x with
  | NoBuffer => Err TypeError
  | Buffer b =>
      if Rlt_dec 1 scale then let start := b_x0 b in Ok (mk_mapping b (fun x_ => scale * (x_ - start) + start))
      else Err ValueError
  end.

(** [GridMapping.exponential] (dream/mesh.py:157-182); number of iterations and tolerance of the fixpoint iteration are
    parameters here, the code uses 100 and 1e-16. *)
Definition mapping_exponential (it : nat) (tol : R) (scale : R) (x : coordinate) : result grid_mapping :=
  match x with
  | NoBuffer => Err TypeError
  | Buffer b =>
      if Rlt_dec 1 scale then
        let start := b_x0 b in
        let L := b_xn b - b_x0 b in
        let c1 := fixpoint_iteration L (fun c => ln (1 + scale * L * c) / L) it tol in
        let c0 := -1 / c1 in
        Ok (mk_mapping b (fun x_ => c0 * (1 - exp (c1 * (x_ - start))) + start))
      else Err ValueError
  end.

(** [GridMapping.tangential] (dream/mesh.py:184-209), parameters as above. *)
Definition mapping_tangential (it : nat) (tol : R) (scale : R) (x : coordinate) : result grid_mapping :=
  match x with
  | NoBuffer => Err TypeError
  | Buffer b =>
      if Rlt_dec 1 scale then
        let start := b_x0 b in
        let L := b_xn b - b_x0 b in
        let c1 := fixpoint_iteration L (fun c => atan (scale * L * c) / L) it tol in
        let c0 := 1 / c1 in
        Ok (mk_mapping b (fun x_ => c0 * tan (c1 * (x_ - start)) + start))
      else Err ValueError
  end.

(** [deformation] (dream/mesh.py:235-237). *)
Definition deformation (g : grid_mapping) : R := g_map g (b_value (g_x g)) - b_value (g_x g).

(** [length] (dream/mesh.py:239-241); the end points are numbers. *)
Definition g_length (g : grid_mapping) : R := Rabs (g_map g (b_xn (g_x g)) - g_map g (b_x0 (g_x g))).

(** [polar_to_cartesian] at the point (x, y) with a radial coordinate shifted by (sx, sy) (dream/mesh.py:215-233). *)
Definition polar_to_cartesian (g : grid_mapping) (x y sx sy : R) : grid_mapping * grid_mapping :=
  let r := g_x g in
  let x := x - sx in
  let y := y - sy in
  let cos_theta := x / sqrt (x ^ 2 + y ^ 2) in
  let sin_theta := y / sqrt (x ^ 2 + y ^ 2) in
  let map_x := fun _ : R => g_map g (b_value r) * cos_theta in
  let map_y := fun _ : R => g_map g (b_value r) * sin_theta in
  (mk_mapping (buffer_coord (b_value r * cos_theta) (b_x0 r * cos_theta) (b_xn r * cos_theta)) map_x,
   mk_mapping (buffer_coord (b_value r * sin_theta) (b_x0 r * sin_theta) (b_xn r * sin_theta)) map_y).
