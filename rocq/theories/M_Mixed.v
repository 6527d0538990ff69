(** Model of the mixed forms (dream/compressible/formulations/conservative.py:90-122, 291-303), which define the strain
    rate and the temperature gradient (or all gradients) in the elements; integrals as in [M_Weak]. *)
From Coq Require Import Reals String List Arith Bool.
From Verif Require Import Base M_Bla M_Flow M_Formulation M_Weak.
Import ListNotations.
Open Scope R_scope.
Open Scope list_scope.

(** Values of the mixed test function and of its gradient: entry (i, j) is the derivative of component i in direction j
    (conservative.py:102, 107). *)
Record mixed_test := mk_mixed_test { tP : nat -> list R; tdP : nat -> matrix }.

(** [Q.eps] and [Q.grad_T] of [get_mixed_fields] (conservative.py:108-109, 160-174). *)
Definition mixed_parts (s : settings) (Q : list R) : result (matrix * list R) :=
  let* g := strain_heat_fields s Q in
  match g_eps g, g_T g with Some e, Some q => Ok (e, q) | _, _ => Err TypeError end.

(** [U.u], [U.T] of [get_conservative_fields] (conservative.py:104-105). *)
Definition velocity_and_temperature (s : settings) (U : list R) : result (list R * R) :=
  let* V := get_conservative_fields s U in
  match f_u V, f_T V with Some u, Some T => Ok (u, T) | _, _ => Err TypeError end.

(** [dev_zeta] (conservative.py:111). *)
Definition dev_zeta (s : settings) (eps : matrix) : result matrix :=
  let* tr := trace eps in Ok (msub eps (mdiv (scale tr (idm (s_dim s))) 3)).

(** [div_dev_zeta] (conservative.py:112-113). *)
Definition div_dev_zeta (g : matrix) : list R :=
  vsub [entry g 0 0 + entry g 1 1; entry g 1 0 + entry g 2 1]
       (vscale (1 / 3) [entry g 0 0 + entry g 2 0; entry g 0 1 + entry g 2 1]).

(** [div_xi] (conservative.py:118). *)
Definition div_xi (g : matrix) : R := entry g 3 0 + entry g 4 1.

(** [StrainHeat.add_mixed_form] (conservative.py:90-122): the six integrals; [dx]: the rule without bonus order,
    [vol], [bnd]: those with the bonus orders of the volume and of the boundary. *)
Definition mixed_form (s : settings) (m : mesh) (dx vol bnd : rule) (u : unknowns) (Q : nat -> list R) (P : mixed_test) : result R :=
  if (s_dim s =? 3)%nat then Err NotImplementedError else
  let* a := integral dx (fun x => let* q := mixed_parts s (Q x) in let* p := mixed_parts s (tP P x) in Ok (inner (entries (fst q)) (entries (fst p)))) in
  let* b := integral vol (fun x => let* v := velocity_and_temperature s (uU u x) in Ok (inner (fst v) (div_dev_zeta (tdP P x)))) in
  let* c := integral bnd (fun y => let* v := velocity_and_temperature s (uUhat u y) in let* p := mixed_parts s (tP P y) in
                                   let* z := dev_zeta s (fst p) in Ok (inner (fst v) (mvmul z (normal m y)))) in
  let* d := integral dx (fun x => let* q := mixed_parts s (Q x) in let* p := mixed_parts s (tP P x) in Ok (inner (snd q) (snd p))) in
  let* e := integral vol (fun x => let* v := velocity_and_temperature s (uU u x) in Ok (snd v * div_xi (tdP P x))) in
  let* f := integral bnd (fun y => let* v := velocity_and_temperature s (uUhat u y) in let* p := mixed_parts s (tP P y) in
                                   Ok (inner (vscale (snd v) (normal m y)) (snd p))) in
  Ok (a + b - c + d + e - f).

(** The test function of the gradient method: values and divergence of each row (conservative.py:295, 302). *)
Record gradient_test := mk_gradient_test { tG : nat -> matrix; tdivG : nat -> list R }.

(** [Gradient.add_mixed_form] (conservative.py:291-303). *)
Definition gradient_form (m : mesh) (dx bnd : rule) (u : unknowns) (Q : nat -> matrix) (P : gradient_test) : result R :=
  let* a := integral dx (fun x => Ok (inner (entries (Q x)) (entries (tG P x)))) in
  let* b := integral dx (fun x => Ok (inner (uU u x) (tdivG P x))) in
  let* c := integral bnd (fun y => Ok (inner (uUhat u y) (mvmul (tG P y) (normal m y)))) in
  Ok (a + b - c).
