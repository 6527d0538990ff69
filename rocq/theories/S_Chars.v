(** Vocabulary for the characteristic decomposition: matrix products, waves, conservative and primitive variables and the
    flux of the compressible Euler equations. *)
From Coq Require Import Reals List Arith.
From Coquelicot Require Import Coquelicot.
From Verif Require Import Base M_Bla M_Flow S_Flow.
Import ListNotations.
Open Scope R_scope.

(** ** Matrices of size n *)

Definition shape (n : nat) (a : matrix) : Prop := rows a = n /\ cols a = n /\ length (entries a) = (n * n)%nat.

(** Sum over the first [n] numbers. *)
Fixpoint total (n : nat) (f : nat -> R) : R := match n with O => 0 | S k => total k f + f k end.

Definition delta (i j : nat) : R := if (i =? j)%nat then 1 else 0.

(** [c] is the product of [a] and [b]. *)
Definition is_product (n : nat) (a b c : matrix) : Prop :=
  shape n a /\ shape n b /\ shape n c /\
  forall i j, (i < n)%nat -> (j < n)%nat -> entry c i j = total n (fun k => entry a i k * entry b k j).

(** [a] and [b] are inverse to each other. *)
Definition inverse (n : nat) (a b : matrix) : Prop :=
  shape n a /\ shape n b /\
  forall i j, (i < n)%nat -> (j < n)%nat ->
    total n (fun k => entry a i k * entry b k j) = delta i j /\ total n (fun k => entry b i k * entry a k j) = delta i j.

(** Column [k] of [p] is an eigenvector of [a] with eigenvalue [l k]. *)
Definition eigenvectors (n : nat) (a p : matrix) (l : nat -> R) : Prop :=
  shape n a /\ shape n p /\
  forall i k, (i < n)%nat -> (k < n)%nat -> total n (fun j => entry a i j * entry p j k) = l k * entry p i k.

(** ** Waves *)

(** The speeds of the waves in the direction [n]. *)
Definition wave_speed (un c : R) (k : nat) : R :=
  match k with O => un - c | S (S (S _)) => un + c | _ => un end.

(** The part of a speed that an option selects. *)
Definition part (t : split) (x : R) : R :=
  match t with Full => x | Absolute => Rabs x | Incoming => Rmin x 0 | Outgoing => Rmax x 0 | OtherSplit => 0 end.

(** A unit vector of the plane. *)
Definition unit2 (n : list R) (n0 n1 : R) : Prop := n = [n0; n1] /\ n0 * n0 + n1 * n1 = 1.

(** ** Variables and flux in [d] dimensions *)

Definition primitive (d : nat) (s : state) (k : nat) : R :=
  if (k =? 0)%nat then st_rho s else if (k <=? d)%nat then nth (k - 1) (st_u s) 0 else st_p s.

Definition conservative (g : R) (d : nat) (s : state) (k : nat) : R :=
  if (k =? 0)%nat then st_rho s else if (k <=? d)%nat then st_rho s * nth (k - 1) (st_u s) 0 else q_rho_E g s.

(** Mass, momentum and energy transported in direction [j]. *)
Definition euler_flux (g : R) (d : nat) (s : state) (i j : nat) : R :=
  let uj := nth j (st_u s) 0 in
  if (i =? 0)%nat then st_rho s * uj
  else if (i <=? d)%nat then st_rho s * nth (i - 1) (st_u s) 0 * uj + st_p s * delta (i - 1) j
  else (q_rho_E g s + st_p s) * uj.
