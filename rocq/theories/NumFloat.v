(* IEEE binary64 instance of the number interface: the arithmetic the compiled
   code performs (round to nearest even, no fused operations, no extended
   precision).  Executable with vm_compute. *)
From Coq Require Import ZArith Floats Bool.
From Verif Require Import Base Num.
Local Open Scope Z_scope.
Local Set Warnings "-inexact-float".

(* exact value of a finite float as (numerator, binary exponent) *)
Definition f_parts (x : float) : option (Z * Z) :=
  match Prim2SF x with
  | S754_zero _ => Some (0, 0)
  | S754_finite s m e => Some ((if s then Zneg m else Zpos m), e)
  | _ => None
  end.

Definition f_floor (x : float) : option Z :=
  match f_parts x with
  | Some (m, e) => Some (if 0 <=? e then m * 2 ^ e else m / 2 ^ (- e))
  | None => None
  end.

(* round(): halves away from zero *)
Definition f_round (x : float) : option Z :=
  match f_parts x with
  | Some (m, e) =>
      if 0 <=? e then Some (m * 2 ^ e)
      else let d := 2 ^ (- e) in
           Some (Z.sgn m * ((2 * Z.abs m + d) / (2 * d)))
  | None => None
  end.

(* rint() in the default rounding mode: halves to even *)
Definition f_rint (x : float) : option Z :=
  match f_parts x with
  | Some (m, e) =>
      if 0 <=? e then Some (m * 2 ^ e)
      else let d := 2 ^ (- e) in
           let q := m / d in
           let r2 := 2 * (m mod d) in
           Some (if r2 <? d then q else if d <? r2 then q + 1
                 else if Z.even q then q else q + 1)
  | None => None
  end.

(* correctly rounded conversion of an integer *)
Definition f_ofZ (z : Z) : float := SF2Prim (binary_normalize FloatOps.prec FloatOps.emax z 0 false).

#[global] Instance NumF : Num float := {|
  nZ := f_ofZ;
  nadd := PrimFloat.add; nsub := PrimFloat.sub; nmul := PrimFloat.mul; ndiv := PrimFloat.div;
  nopp := PrimFloat.opp; nsqrt := PrimFloat.sqrt; nabs := PrimFloat.abs;
  nltb := PrimFloat.ltb; nleb := PrimFloat.leb; neqb := PrimFloat.eqb;
  nfloor := f_floor; nround := f_round; nrint := f_rint;
  nPi := 3.1415926535897932384626433832795029%float;
  nc := 2.99792458e8%float;
  nqe := 1.6021766208e-19%float;
  neps0 := 8.854187817e-12%float;
  nmu0 := (4 * 3.1415926535897932384626433832795029 * 1e-7)%float;
  nirm := 1.758820025e11%float
|}.
