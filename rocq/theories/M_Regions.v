(** Model of how conditions on named regions become integrals (dream/compressible/formulations/conservative.py:464-703).

    The dictionary of terms is that of [M_Conditions.add_terms]; here the terms get their quadrature points and integrands,
    which [M_Weak] sums up. *)
From Coq Require Import Reals String List Arith Bool.
From Verif Require Import Base Dict M_Bla M_Flow M_Formulation M_Weak M_Conditions.
Import ListNotations.
Open Scope R_scope.
Open Scope list_scope.

Section Regions.
(** The name of the boundary or of the material a point belongs to (NGSolve [mesh.GetBoundaries], [mesh.GetMaterials]; dream/mesh.py:560, 583). *)
Variable region : nat -> string.
(** The rule over all boundaries or all materials with the integration order of the formulation of a condition
    (conservative.py:525-526, 553-554, 571-573, 628, 648-649, 669-670, 695). *)
Variable points : cond -> rule.

(** [definedon=self.mesh.Boundaries(bnd)], [definedon=self.mesh.Materials(dom)] (conservative.py:526, 695): the points of the
    regions that the pattern names. NGSolve reads the pattern as a regular expression that has to match the whole name; names
    are supposed to have no special characters. *)
Definition definedon (p : string) (q : rule) : rule := filter (fun wy => existsb (String.eqb (region (snd wy))) (split_bar p)) q.

(** The term of a boundary condition (conservative.py:546, 564, 612-620, 641, 659, 688); [vector]: what multiplies the test
    function of the facets, modelled in [M_Formulation]. *)
Definition boundary_integral (vector : cond -> nat -> result (list R)) (e : formulation * string * cond) : bterm :=
  let '(_, p, c) := e in mk_bterm (definedon p (points c)) (vector c).
(** All terms of the boundary conditions (conservative.py:464-496). *)
Definition boundary_integrals (vector : cond -> nat -> result (list R)) (blf : dict (formulation * string * cond)) : list bterm :=
  map (fun kv => boundary_integral vector (snd kv)) blf.

(** The term of a sponge layer (conservative.py:690-703); [target], [function]: the state and the function of the layer
    (dream/mesh.py:301-318, 392-432). *)
Definition sponge_integral (target : cond -> nat -> flow) (function : cond -> nat -> R) (e : formulation * string * cond) : sponge :=
  let '(_, p, c) := e in mk_sponge (definedon p (points c)) (target c) (function c).
(** All terms of the sponge layers (conservative.py:498-518). *)
Definition sponge_integrals (target : cond -> nat -> flow) (function : cond -> nat -> R) (blf : dict (formulation * string * cond)) : list sponge :=
  map (fun kv => sponge_integral target function (snd kv)) blf.
End Regions.
