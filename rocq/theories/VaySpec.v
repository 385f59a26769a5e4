(* Specification vocabulary for particle tracking: relativistic kinematics and the
   equation of motion, stated without reference to the tracking code. *)
From Coq Require Import Reals List.
From Verif Require Import Base Num VecModel.
Local Open Scope R_scope.

(* relativistic factor and velocity (in units of c) belonging to a momentum
   (in units of m c) *)
Definition gamma_of (p : vec R) : R := sqrt (1 + vabs2 p).
Definition beta_of (p : vec R) : vec R := vdiv p (gamma_of p).

(* Lorentz force per charge, in the unit of dp/dt / (q/m): E/c + beta x B *)
Definition lorentz (beta e b : vec R) : vec R := vadd (vdiv e nc) (vcross beta b).

(* charge over mass ratio in SI units of a particle with charge/mass given in
   electron units *)
Definition charge_over_mass (charge mass : R) : R := charge / mass * nirm.

(* total charges etc. *)
Definition vmean (a b : vec R) : vec R := vmul (vadd a b) (/ 2).

(* A field which never raises an exception. *)
Definition total_field (f : R -> vec R -> emf R) : R -> vec R -> res (emf R) :=
  fun t x => Ok (f t x).
