(** Model of the Python numbers a [Timer] computes with (dream/time.py:17-61):
    IEEE 754 doubles with rounding to nearest, ties to even, as Flocq defines
    them, and CPython's conversions to and from them.  NaN payloads are not
    represented. *)
From Coq Require Import QArith ZArith Bool SpecFloat.
From Flocq Require Import Core.Zaux Core.Defs Core.FLX Core.FLT Calc.Div IEEE754.BinarySingleNaN.
From Verif Require Import Base M_Timer.

(** The numbers of the IEEE format of a Python float (every number of
    dream/time.py:19-49): 53 bits, exponents below 1024. *)
Definition double : Type := binary_float 53 1024.

(** A side condition of the format: the precision is positive (for the
    operators of dream/time.py:45 and 48). *)
Definition prec_positive : FLX.Prec_gt_0 53 := eq_refl.

(** A side condition of the format: the precision is below the largest
    exponent (for the operators of dream/time.py:45 and 48). *)
Definition prec_small : Prec_lt_emax 53 1024 := eq_refl.

(** [x + y] of floats (dream/time.py:48). *)
Definition fadd (x y : double) : double := @Bplus 53 1024 prec_positive prec_small mode_NE x y.

(** [x - y] of floats (dream/time.py:45). *)
Definition fsub (x y : double) : double := @Bminus 53 1024 prec_positive prec_small mode_NE x y.

(** [x * y] of floats (dream/time.py:45, 48). *)
Definition fmul (x y : double) : double := @Bmult 53 1024 prec_positive prec_small mode_NE x y.

(** The float 0.0 (dream/time.py:23 compares with 0). *)
Definition fzero : double := B754_zero false.

(** [x / y] of floats: Python raises where IEEE arithmetic has infinity or
    NaN for a zero denominator (dream/time.py:45). *)
Definition fdiv (x y : double) : result double :=
  if Beqb y fzero then Err ZeroDivisionError
  else Ok (@Bdiv 53 1024 prec_positive prec_small mode_NE x y).

(** An integer operand of a float operation (dream/time.py:45, 48: [stride*step]
    and [stride*i*step]): converted to the nearest float, or OverflowError. *)
Definition float_of_int (z : Z) : result double :=
  match @binary_normalize 53 1024 prec_positive prec_small mode_NE z 0 false with
  | B754_infinity _ => Err OverflowError
  | x => Ok x
  end.

(** The rational number a finite float stands for (what CPython's exact
    conversions at dream/time.py:45, 49, 60 start from); 0 for the others. *)
Definition rational (x : double) : Q :=
  match x with
  | B754_finite s m e _ =>
      let z := cond_Zopp s (Zpos m) in
      if Z.leb 0 e then inject_Z (z * 2 ^ e) else Qmake z (Z.to_pos (2 ^ (- e)))
  | _ => 0
  end.

(** The float nearest to the positive rational [n / d] with sign [s]: CPython's
    [strtod], which rounds correctly (dream/time.py:49).  A result outside the
    format does not occur; it would be NaN. *)
Definition nearest (s : bool) (n d : positive) : double :=
  let '(m, e, l) := Fdiv (fexp 53 1024) (Float radix2 (Zpos n) 0) (Float radix2 (Zpos d) 0) in
  match binary_round_aux 53 1024 mode_NE s m e l with
  | S754_zero s => B754_zero s
  | S754_infinity s => B754_infinity s
  | S754_nan => B754_nan
  | S754_finite s m e =>
      match bool_dec (SpecFloat.bounded 53 1024 m e) true with
      | left H => B754_finite s m e H
      | right _ => B754_nan
      end
  end.

(** A decimal literal, and the value [round] builds from the decimals it keeps
    (dream/time.py:49): the float nearest to [q]; a zero keeps the sign [s]. *)
Definition float_of_rational (s : bool) (q : Q) : double :=
  match Qnum q with
  | Z0 => B754_zero s
  | Zpos n => nearest false n (Qden q)
  | Zneg n => nearest true n (Qden q)
  end.

(** [round(x)] of a float (dream/time.py:45). *)
Definition float_round (x : double) : result Z :=
  match x with
  | B754_nan => Err ValueError
  | B754_infinity _ => Err OverflowError
  | _ => Ok (py_round (rational x))
  end.

(** [round(x, d)] of a float with 0 <= d <= 16 (dream/time.py:49): CPython
    rounds the exact value of [x] to [d] decimals, ties to even, and takes the
    nearest float.  Infinities and NaN are returned unchanged. *)
Definition float_round_digits (x : double) (d : nat) : result double :=
  match x with
  | B754_nan | B754_infinity _ => Ok x
  | _ =>
      match float_of_rational (Bsign x) (py_round_digits (rational x) d) with
      | B754_infinity _ => Err OverflowError
      | y => Ok y
      end
  end.

(** The state of a [Timer] (dream/time.py:19-38) in floats. *)
Record ftimer := mk_ftimer {
  ft_interval : double * double;
  ft_step : double;
  ft_t : double;
  ft_digit : nat
}.

(** [Timer._set_digit] (dream/time.py:59-61).  ["nan"] and ["inf"] have no
    point, so that the second part of the split is missing. *)
Definition float_digit (step : double) : result nat :=
  match step with
  | B754_nan | B754_infinity _ => Err IndexError
  | _ => Ok (set_digit (rational step))
  end.

(** Assignment [timer.step = h] (dream/time.py:31-34, dream/config.py:194-202). *)
Definition set_fstep (tm : ftimer) (h : double) : result ftimer :=
  let* d := float_digit h in
  Ok (mk_ftimer (ft_interval tm) h (ft_t tm) d).

(** Assignment [timer.interval = (start, end)] of two floats
    (dream/time.py:19-29): comparisons with NaN are false. *)
Definition set_finterval (tm : ftimer) (start end_ : double) : result ftimer :=
  if Bltb start fzero || Bltb end_ fzero then Err ValueError
  else if Bleb end_ start then Err ValueError
  else Ok (mk_ftimer (start, end_) (ft_step tm) (ft_t tm) (ft_digit tm)).

(** Python statements in a loop, one result per pass (dream/time.py:47-49). *)
Fixpoint passes {A B : Type} (f : A -> result B) (l : list A) : result (list B) :=
  match l with
  | nil => Ok nil
  | cons x rest =>
      let* y := f x in
      let* ys := passes f rest in
      Ok (cons y ys)
  end.

(** [Timer.start] (dream/time.py:40-49) in floats: for every pass the value of
    the parameter [t] and the label yielded.  An exception in a pass is the
    outcome of the whole run; the passes before it are not recorded. *)
Definition ftimer_start (tm : ftimer) (include_start : bool) (stride : Z)
  : result (list (double * double)) :=
  let '(start, end_) := ft_interval tm in
  let* s := float_of_int stride in
  let* q := fdiv (fsub end_ start) (fmul s (ft_step tm)) in
  let* n := float_round q in
  passes (fun i =>
            let* k := float_of_int (stride * i) in
            let t := fadd start (fmul k (ft_step tm)) in
            let* label := float_round_digits t (ft_digit tm) in
            Ok (t, label))
         (zrange (if include_start then 0 else 1)%Z (n + 1)).
