(* Approximations of the transcendental functions in double precision, accurate to some
   units in the last place for moderate arguments.  They stand for the functions of the
   C library when a model with undulators or waves is evaluated (C92).  No statement about
   their accuracy is made. *)
From Coq Require Import ZArith Floats List.
From Verif Require Import Base Num NumFloat ElementModel.
Import ListNotations.
Local Set Warnings "-inexact-float".
Local Open Scope float_scope.

(* sum of the series first * (1 + y/(a b) (1 + y/(c d) (1 + ...))) *)
Fixpoint nested (y : float) (l : list float) : float :=
  match l with [] => 1 | d :: r => 1 + y / d * nested y r end.
(* multiple of pi/2 and remainder *)
Definition f_reduce (x : float) : Z * float :=
  match f_rint (x * 0.63661977236758134308) with
  | Some n => let k := f_ofZ n in
              (n, (x - k * 1.57079632673412561417) - k * 6.07710050650619224932e-11)
  | None => (0%Z, x - x)
  end.
Definition sin_series (r : float) : float := r * nested (- (r * r)) [6; 20; 42; 72; 110; 156; 210; 272].
Definition cos_series (r : float) : float := nested (- (r * r)) [2; 12; 30; 56; 90; 132; 182; 240; 306].
Definition f_sin (x : float) : float :=
  let '(n, r) := f_reduce x in
  match (n mod 4)%Z with 0%Z => sin_series r | 1%Z => cos_series r | 2%Z => - sin_series r | _ => - cos_series r end.
Definition f_cos (x : float) : float :=
  let '(n, r) := f_reduce x in
  match (n mod 4)%Z with 0%Z => cos_series r | 1%Z => - sin_series r | 2%Z => - cos_series r | _ => sin_series r end.
Definition f_exp (x : float) : float :=
  match f_rint (x * 1.44269504088896340736) with
  | Some n => let k := f_ofZ n in
              let r := (x - k * 6.93147180369123816490e-01) - k * 1.90821492927058770002e-10 in
              let s := nested r [1; 2; 3; 4; 5; 6; 7; 8; 9; 10; 11; 12; 13; 14] in
              if (0 <=? n)%Z then s * f_ofZ (2 ^ n) else s / f_ofZ (2 ^ (- n))
  | None => x - x
  end.
Definition f_sinh (x : float) : float := (f_exp x - f_exp (- x)) / 2.
Definition f_cosh (x : float) : float := (f_exp x + f_exp (- x)) / 2.
(* three times the half of the angle, then the series *)
Definition f_atan (x : float) : float :=
  let half y := y / (1 + PrimFloat.sqrt (1 + y * y)) in
  let y := half (half (half x)) in
  let z := y * y in
  8 * y * (1 - z * (1 / 3 - z * (1 / 5 - z * (1 / 7 - z * (1 / 9 - z * (1 / 11 - z * (1 / 13 - z / 15))))))).
Definition TransF : Trans float :=
  {| nsin := f_sin; ncos := f_cos; nsinh := f_sinh; ncosh := f_cosh; natan := f_atan; nexp := f_exp |}.
