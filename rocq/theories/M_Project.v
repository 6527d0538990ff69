(** Functions obtained by solving a mass system: buffer functions (dream/mesh.py:362-372, 405-429, 594-639) and initial values
    (dream/compressible/formulations/conservative.py:380-390, 788-812, 882-890).

    Points are numbers, every point belongs to a cell (an element, or a facet for the facet unknowns; the points of the
    two sides of a facet belong to the same facet).  Functions are given by their values at the points. *)
From Coq Require Import Reals String List Bool Arith.
From Verif Require Import Base Dict M_Bla M_Flow M_Formulation M_Conditions M_Weak.
Import ListNotations.
Open Scope R_scope.
Open Scope list_scope.

(** The sum of a quadrature rule (NGSolve). *)
Definition quad (q : rule) (f : nat -> R) : R := fold_right (fun wx s => fst wx * f (snd wx) + s) 0 q.

(** A mass system (dream/mesh.py:618-629, conservative.py:800-806): the space, the rules of the bilinear and of the
    linear form, and the right hand side.  Spaces of vectors are products of one space, so every component is such a
    system of its own. *)
Record system := mk_system { y_space : (nat -> R) -> Prop; y_blf : rule; y_lf : rule; y_rhs : nat -> R }.

(** [gfu.vec.data = blf.mat.Inverse(...) * lf.vec] (dream/mesh.py:635-637, conservative.py:808-812): a function of the
    space that satisfies the equations.  [gfu.Set] (conservative.py:390) solves such a system as well (NGSolve). *)
Definition solution (y : system) (u : nat -> R) : Prop :=
  y_space y u /\ forall v, y_space y v -> quad (y_blf y) (fun x => u x * v x) = quad (y_lf y) (fun x => y_rhs y x * v x).

Section Spaces.
(** The cell of a point and the polynomials of a given order on a cell (NGSolve). *)
Variable cell : nat -> nat.
(** Whether the values at the points of the cell are those of a polynomial of the order (NGSolve). *)
Variable shape : nat -> nat -> (nat -> R) -> Prop.

(** A discontinuous space (NGSolve [L2] or [FacetFESpace], [Compress]): the order of every cell, none where the space has
    no unknowns. *)
Definition cell_space (order : nat -> option nat) (u : nat -> R) : Prop :=
  forall e, match order e with Some p => shape e p u | None => forall x, cell x = e -> u x = 0 end.

(** A buffer as far as its function is concerned: class, order and function (dream/mesh.py:301-318). *)
Record blayer := mk_blayer { bl_class : string; bl_order : nat; bl_function : option (nat -> R) }.

(** The name of the region of a cell (NGSolve). *)
Variable name : nat -> string.
(** Whether a cell belongs to [mesh.Materials(pattern)] (NGSolve). *)
Definition in_region (p : string) (e : nat) : bool := existsb (String.eqb (name e)) (split_bar p).

(** [max(orders)] (Python built-in; it raises ValueError for an empty list). *)
Definition max_order (orders : list nat) : nat := fold_right Nat.max 0%nat orders.

(** [SpongeLayer.get_space] (dream/mesh.py:405-429): the order of every element. *)
Definition sponge_space (layers : dict blayer) : result (nat -> option nat) :=
  match layers with
  | [] => Err ValueError
  | (_, l0) :: _ =>
      let orders := map (fun pl => bl_order (snd pl)) layers in
      let is_constant_order := forallb (fun o => Nat.eqb o (bl_order l0)) orders in
      let order e :=
        if is_constant_order then max_order orders
        else fold_left (fun o pl => if in_region (fst pl) e then bl_order (snd pl) else o) layers (max_order orders) in
      Ok (fun e => if in_region (join_bar (dkeys layers)) e then Some (order e) else None)
  end.

(** The right hand side of [get_buffer_function_] (dream/mesh.py:623-629); reading a function that is not set raises
    (dream/mesh.py:307-310). *)
Fixpoint buffer_rhs (buffer_type : string) (layers : dict blayer) : result (nat -> R) :=
  match layers with
  | [] => Ok (fun _ => 0)
  | (p, l) :: rest =>
      if negb (subclass (bl_class l) buffer_type) then Err TypeError
      else match bl_function l with
           | None => Err ValueError
           | Some f => let* g := buffer_rhs buffer_type rest in Ok (fun x => (if in_region p (cell x) then f x else 0) + g x)
           end
  end.

(** Components of the continuous functions of an order whose unknowns belong to the chosen elements (NGSolve [VectorH1],
    [Compress], [Periodic]). *)
Variable continuous : nat -> (nat -> bool) -> (nat -> R) -> Prop.

(** [GridDeformation.get_space] (dream/mesh.py:362-372), one component. *)
Definition deformation_space (layers : dict blayer) : result ((nat -> R) -> Prop) :=
  match layers with
  | [] => Err ValueError
  | _ => Ok (continuous (max_order (map (fun pl => bl_order (snd pl)) layers)) (in_region (join_bar (dkeys layers))))
  end.

(** [get_buffer_function_] (dream/mesh.py:609-639), for grid deformations one component.  All given conditions are
    buffers; the base class has no space (dream/mesh.py:316-318). *)
Definition buffer_system (buffer_type : string) (layers : dict blayer) (blf lf : rule) : result system :=
  if negb (subclass buffer_type "Buffer") then Err TypeError
  else
    let* space := (if subclass buffer_type "SpongeLayer" then let* order := sponge_space layers in Ok (cell_space order)
                   else if subclass buffer_type "GridDeformation" then deformation_space layers
                   else Err NotImplementedError) in
    let* f := buffer_rhs buffer_type layers in
    Ok (mk_system space blf lf f).

(** The initial vector at a point (conservative.py:882-888, 788-796): [MaterialCF] has the value of a domain whose pattern
    contains the element of the point (here the first), and zero where there is none (NGSolve). *)
Fixpoint initial_vector (s : settings) (items : dict (nat -> flow)) (e x : nat) : result (list R) :=
  match items with
  | [] => Ok (repeat 0 (s_dim s + 2)%nat)
  | (p, fields) :: rest => if in_region p e then conservative_vector s (fields x) else initial_vector s rest e x
  end.
End Spaces.

(** The systems of the initial values of component [k] (conservative.py:390 and 798-806): the same initial vector is
    projected to the elements and to the facets.  [elem] and [facet]: the element and the facet of a point; the points of
    the second system lie on the boundaries of the elements. *)
Definition initial_element_system (elem : nat -> nat) (shape : nat -> nat -> (nat -> R) -> Prop) (order : nat -> option nat) (vol vol' : rule)
  (U : nat -> list R) (k : nat) : system := mk_system (cell_space elem shape order) vol vol' (fun x => nth k (U x) 0).
(** The system of the facet unknowns (conservative.py:798-806). *)
Definition initial_facet_system (facet : nat -> nat) (shape : nat -> nat -> (nat -> R) -> Prop) (order : nat -> option nat) (bnd bnd' : rule)
  (U : nat -> list R) (k : nat) : system := mk_system (cell_space facet shape order) bnd bnd' (fun y => nth k (U y) 0).
