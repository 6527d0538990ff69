(** Structured ring mesh (dream/mesh.py:706-818). *)
From Coq Require Import Reals List Bool Arith.
From Verif Require Import Base.
Import ListNotations.

(** A ring mesh: the points by polar and radial number, in the order in which they are added; triangles as positions
    in the list of points; boundary elements as pairs of positions with the number of their boundary
    (dream/mesh.py:750-813). The netgen mesh and geometry objects are not modelled. *)
Record ring := mk_ring {
  points : list (nat * nat);
  triangles : list (nat * nat * nat);
  segments : list ((nat * nat) * nat) }.

(** Points (dream/mesh.py:750-759), polar number first. *)
Definition ring_points (n m : nat) : list (nat * nat) :=
  flat_map (fun j => map (fun i => (i, j)) (seq 0 n)) (seq 0 (m + 1)).

(** The two triangles of a regular cell (dream/mesh.py:774-783). *)
Definition cell (n i j : nat) : list (nat * nat * nat) :=
  [ (i + j * n, i + (j + 1) * n, i + 1 + j * n);
    (i + (j + 1) * n, i + (j + 1) * n + 1, i + 1 + j * n) ].

(** The two triangles of the closing cell (dream/mesh.py:785-796). *)
Definition closing_cell (n j : nat) : list (nat * nat * nat) :=
  [ (n - 1 + j * n, n - 1 + (j + 1) * n, j * n);
    (0 + j * n, n - 1 + (j + 1) * n, (j + 1) * n) ].

(** Triangles (dream/mesh.py:768-796). *)
Definition ring_triangles (n m : nat) : list (nat * nat * nat) :=
  flat_map (fun j => flat_map (fun i => cell n i j) (seq 0 (n - 1)) ++ closing_cell n j) (seq 0 m).

(** Boundary elements on the inner circle (dream/mesh.py:798-800). *)
Definition inner_segments (n : nat) : list ((nat * nat) * nat) :=
  map (fun i => ((i, i + 1), 1)) (seq 0 (n - 1)) ++ [((n - 1, 0), 1)].

(** First element of the left part of the outer circle (dream/mesh.py:802); the numbers are multiples of 2 and 4 at
    this point so that the quotients are exact. *)
Definition offset (n m : nat) : nat := n / 4 - m / 2.

(** [range(a, b)] (Python built-in). *)
Definition range (a b : nat) : list nat := seq a (b - a).

(** Boundary elements on the outer circle (dream/mesh.py:804-813). *)
Definition outer_segments (n m : nat) : list ((nat * nat) * nat) :=
  let o := offset n m in
  map (fun i => ((i + m * n, i + m * n + 1), 3)) (range 0 o) ++
  map (fun i => ((i + m * n, i + m * n + 1), 2)) (range o (n / 2 + o)) ++
  map (fun i => ((i + m * n, i + m * n + 1), 3)) (range (n / 2 + o) (n - 1)) ++
  [((m * n, n - 1 + m * n), 3)].

(** All positions used are positions of the list of points; Python raises otherwise (dream/mesh.py:768-813). *)
Definition in_range (k : nat) (r : ring) : bool :=
  forallb (fun '(a, b, c) => (a <? k) && (b <? k) && (c <? k)) (triangles r) &&
  forallb (fun '((a, b), _) => (a <? k) && (b <? k)) (segments r).

(** [get_cylinder_omesh] (dream/mesh.py:706-818) for natural numbers of elements. *)
Definition omesh (n m : nat) : result ring :=
  if 0 <? n mod 4 then Err ValueError
  else if 0 <? m mod 2 then Err ValueError
  else if n / 2 <? m then Err ValueError
  else if (m =? 0) && (0 <? n) then Err ZeroDivisionError
  else
    let r := mk_ring (ring_points n m) (ring_triangles n m) (inner_segments n ++ outer_segments n m) in
    if in_range (length (points r)) r then Ok r else Err IndexError.

(** [x ** geom] for a number that is not negative and a positive exponent (Python built-in, dream/mesh.py:757). *)
Definition power (x geom : R) : R := if Req_EM_T x 0 then 0%R else Rpower x geom.

Section Geometry.
(** Inner and outer radius, numbers of elements and grading (dream/mesh.py:706-711). *)
Variables (ri ro geom : R) (n m : nat).

(** Radius of layer [j] (dream/mesh.py:757). *)
Definition radius (j : nat) : R := ((ro - ri) * power (INR j / INR m) geom + ri)%R.
(** Angle of point [i] of layer [j] (dream/mesh.py:753-755). *)
Definition angle (i j : nat) : R := (2 * PI * INR i / INR n + PI / INR n * INR j)%R.
(** Coordinates of a point (dream/mesh.py:753-759). *)
Definition coordinates (ij : nat * nat) : R * R :=
  let (i, j) := ij in (radius j * cos (angle i j), radius j * sin (angle i j))%R.
End Geometry.
