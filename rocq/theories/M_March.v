(** Time marching: the equation of a time step formed from the stored levels (dream/time.py:144-153, 175-176, 192-193). *)
From Coq Require Import Reals String List.
From Verif Require Import Base Dict M_Scheme.
Import ListNotations.
Local Open Scope R_scope.

(** The selectable schemes (dream/time.py:169-204). *)
Inductive scheme_kind := ImplicitEuler | BDF2.

(** [time_levels] (dream/time.py:173, 190). *)
Definition time_levels (sc : scheme_kind) : list string := match sc with ImplicitEuler => ie_levels | BDF2 => bdf2_levels end.

(** [gfus[level]] (Python dictionary, dream/time.py:176, 193); a grid function is given by its values at the points of the mass integral. *)
Definition level (g : dict (nat -> R)) (k : string) : result (nat -> R) := match dget g k with Some v => Ok v | None => Err KeyError end.

(** [get_time_derivative] (dream/time.py:175-176, 192-193). *)
Definition get_time_derivative (sc : scheme_kind) (dt : R) (gfus : dict (nat -> R)) : result (nat -> R) :=
  match sc with
  | ImplicitEuler =>
      let* np1 := level gfus "n+1" in let* n := level gfus "n" in Ok (fun x => ie_derivative dt (np1 x) (n x))
  | BDF2 =>
      let* np1 := level gfus "n+1" in let* n := level gfus "n" in let* nm1 := level gfus "n-1" in
      Ok (fun x => bdf2_derivative dt (np1 x) (n x) (nm1 x))
  end.

(** [add_symbolic_temporal_forms] (dream/time.py:144-153) evaluated at [u] with the test function [v]; [mass]: the weights and
    points of the integral (of all components). *)
Definition temporal_form (sc : scheme_kind) (dt : R) (mass : list (R * nat)) (gfus : dict (nat -> R)) (u v : nat -> R) : result R :=
  let* d := get_time_derivative sc dt (dset gfus "n+1"%string u) in
  Ok (fold_right (fun wx s => fst wx * (d (snd wx) * v (snd wx)) + s) 0 mass).
