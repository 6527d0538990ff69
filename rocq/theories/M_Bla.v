(** Pointwise algebra (dream/bla.py). Coefficient functions are represented by their value at a point; scalars are real
    numbers (rounding is not modelled). *)
From Coq Require Import Reals List Bool Arith.
From Verif Require Import Base.
Import ListNotations.
Open Scope R_scope.

(** NGSolve [IfPos(c, a, b)]. *)
Definition ifpos (c a b : R) : R := if Rlt_dec 0 c then a else b.

(** A scalar argument: coefficient function, Python number, anything else (dream/bla.py:11, 19-46). *)
Inductive scalar := SCf (v : R) | SNum (v : R) | SOther.

(** [abs] (dream/bla.py:19-25). *)
Definition bla_abs (x : scalar) : result scalar :=
  match x with
  | SCf v => Ok (SCf (ifpos v v (- v)))
  | SNum v => Ok (SNum (Rabs v))
  | SOther => Err NotImplementedError
  end.

(** Arithmetic of a coefficient function with something that is neither one nor a number raises TypeError
    (NGSolve; dream/bla.py:31, 41). *)
Definition cf_value (x : scalar) : result R :=
  match x with SCf v => Ok v | SNum v => Ok v | SOther => Err TypeError end.

(** [max] (dream/bla.py:28-35). *)
Definition bla_max (x y : scalar) : result scalar :=
  match x, y with
  | SNum a, SNum b => Ok (SNum (Rmax a b))
  | SCf _, _ | _, SCf _ => let* a := cf_value x in let* b := cf_value y in Ok (SCf (ifpos (a - b) a b))
  | _, _ => Err NotImplementedError
  end.

(** [min] (dream/bla.py:38-45). *)
Definition bla_min (x y : scalar) : result scalar :=
  match x, y with
  | SNum a, SNum b => Ok (SNum (Rmin a b))
  | SCf _, _ | _, SCf _ => let* a := cf_value x in let* b := cf_value y in Ok (SCf (ifpos (a - b) b a))
  | _, _ => Err NotImplementedError
  end.

(** [interval] (dream/bla.py:48-49). *)
Definition bla_interval (x start stop : scalar) : result scalar := let* y := bla_max x start in bla_min y stop.

(** [as_scalar] (dream/bla.py:85-91); the dimension of a coefficient function is not looked at. *)
Definition as_scalar (x : scalar) : result scalar :=
  match x with
  | SCf v => Ok (SCf v)
  | SNum v => Ok (SCf v)
  | SOther => Err NotImplementedError
  end.

(** ** Vectors and matrices *)

(** A matrix: number of rows and columns, entries row by row (NGSolve [CF(..., dims=...)]). *)
Record matrix := mk_matrix { rows : nat; cols : nat; entries : list R }.

(** [x[i, j]] (NGSolve). *)
Definition entry (m : matrix) (i j : nat) : R := nth (i * cols m + j) (entries m) 0.

(** Overwriting an entry of a Python list. *)
Fixpoint set_entry (l : list R) (k : nat) (v : R) : list R :=
  match l, k with
  | [], _ => []
  | _ :: l', O => v :: l'
  | x :: l', S k' => x :: set_entry l' k' v
  end.

(** [diagonal] (dream/bla.py:60-67). *)
Definition diagonal (x : list R) : matrix :=
  let d := length x in
  mk_matrix d d (fold_left (fun mat i => set_entry mat ((d + 1) * i) (nth i x 0)) (seq 0 d) (repeat 0 (d * d))).

(** [trace] (dream/bla.py:52-57); what the code calls symmetric is square (dream/bla.py:148-152). *)
Definition trace (m : matrix) : result R :=
  if (rows m =? cols m)%nat then Ok (fold_left Rplus (map (fun i => entry m i i) (seq 0 (rows m))) 0) else Err ValueError.

(** [as_matrix] of a sequence without explicit dimensions (dream/bla.py:119-138). *)
Definition as_matrix (x : list R) : result matrix :=
  let row := Nat.sqrt (length x) in
  if (row * row =? length x)%nat then Ok (mk_matrix row row x) else Err ValueError.

(** [InnerProduct] of vectors (NGSolve, dream/bla.py:75-76). *)
Fixpoint inner (x y : list R) : R :=
  match x, y with a :: x', b :: y' => a * b + inner x' y' | _, _ => 0 end.

(** [unit_vector] (dream/bla.py:70-72). *)
Definition unit_vector (x : list R) : list R := map (fun a => a / sqrt (inner x x)) x.

(** [OuterProduct] of vectors (NGSolve, dream/bla.py:79-82). *)
Definition outer (x y : list R) : matrix :=
  mk_matrix (length x) (length y) (flat_map (fun a => map (fun b => a * b) y) x).

(** Scalar times matrix (NGSolve). *)
Definition scale (f : R) (m : matrix) : matrix := mk_matrix (rows m) (cols m) (map (Rmult f) (entries m)).

(** [symmetric_matrix_from_vector] (dream/bla.py:181-190). *)
Definition symmetric_matrix (x : list R) (factor : R) : result matrix :=
  match x with
  | [a; b; c] => Ok (scale factor (mk_matrix 2 2 [a; b; b; c]))
  | [a; b; c; d; e; f] => Ok (scale factor (mk_matrix 3 3 [a; b; c; b; d; e; c; e; f]))
  | _ => Err ValueError
  end.

(** Argument of the skew-symmetric builder: a scalar or a vector (dream/bla.py:92-100, 193-203). *)
Inductive components := CScalar (x : R) | CVector (x : list R).

(** [skewsymmetric_matrix_from_vector] (dream/bla.py:193-203). *)
Definition skew_matrix (x : components) (factor : R) : result matrix :=
  match x with
  | CScalar a => Ok (scale factor (mk_matrix 2 2 [0; - a; a; 0]))
  | CVector [a; b; c] => Ok (scale factor (mk_matrix 3 3 [0; - a; b; a; 0; - c; - b; c; 0]))
  | CVector _ => Err ValueError
  end.

(** [fixpoint_iteration] (dream/bla.py:164-178) without its debug output. *)
Fixpoint fixpoint_iteration (x0 : R) (f : R -> R) (it : nat) (tol : R) : R :=
  match it with
  | O => x0
  | S k =>
      let xn := f x0 in
      let err := Rabs (xn - x0) in
      if Rlt_dec err tol then xn else fixpoint_iteration xn f k tol
  end.
