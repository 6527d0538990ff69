(** Specification vocabulary for the timer in floating-point numbers;
    independent of the model. *)
From Coq Require Import QArith Qreals Reals ZArith List.
From Flocq Require Import Core.Core IEEE754.BinarySingleNaN.
From Verif Require Import S_Timer.

(** [x] is the double a Python program has for the decimal literal [q]: the
    double nearest to [q], ties to even. *)
Definition literal (q : Q) (x : binary_float 53 1024) : Prop :=
  is_finite x = true /\
  B2R x = round radix2 (FLT_exp (-1074) 53) ZnearestE (Q2R q).

(** [d] is the number of decimals needed to write [h]. *)
Definition decimals_of (d : nat) (h : Q) : Prop :=
  has_decimals d h /\ forall d', has_decimals d' h -> (d <= d')%nat.

(** The numbers of a list, in order, strictly increase. *)
Definition climbing (l : list (binary_float 53 1024)) : Prop :=
  forall i j x y, (i < j)%nat ->
    nth_error l i = Some x -> nth_error l j = Some y -> (B2R x < B2R y)%R.

(** The numbers of a list, in order, never decrease. *)
Definition nondecreasing (l : list (binary_float 53 1024)) : Prop :=
  forall i j x y, (i < j)%nat ->
    nth_error l i = Some x -> nth_error l j = Some y -> (B2R x <= B2R y)%R.
