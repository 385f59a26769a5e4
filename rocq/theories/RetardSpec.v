(* Specification vocabulary: signals from a trajectory, fields of moving charges. *)
From Coq Require Import ZArith Reals List.
From Verif Require Import Base Num VecModel ParticleModel ParticleSpec VaySpec.
Import ListNotations.
Local Open Scope R_scope.

(* time at which the signal emitted from a trajectory point reaches the observer *)
Definition arrival (obs : vec R) (a : tpoint R) : R :=
  tpt a + vnorm (vsub obs (tpx a)) / nc.

(* two points of a trajectory are connected with less than light velocity *)
Definition slower_than_light (a b : tpoint R) : Prop :=
  vnorm (vsub (tpx b) (tpx a)) < nc * (tpt b - tpt a).
(* every two successive points are *)
Definition subluminal (l : list (tpoint R)) : Prop :=
  forall i a b, nth_error l i = Some a -> nth_error l (S i) = Some b -> slower_than_light a b.

(* a unit vector *)
Definition direction (v : vec R) : vec R := vmul v (/ vnorm v).

(* q/(4 pi eps0) for a charge given in elementary charges *)
Definition coulomb_const (charge : R) : R := charge * nqe / (4 * PI * neps0).

(* the electric field of Lienard and Wiechert for a charge at x with velocity
   beta*c and acceleration betadot*c, as seen with the light emitted there *)
Definition lienard_wiechert (charge : R) (x beta betadot obs : vec R) : vec R :=
  let r := vnorm (vsub obs x) in
  let n := direction (vsub obs x) in
  let k := (1 - vdot n beta) ^ 3 in
  vmul (vadd (vmul (vsub n beta) ((1 - vabs2 beta) / (k * r ^ 2)))
             (vmul (vcross n (vcross (vsub n beta) betadot)) (/ (nc * k * r))))
       (coulomb_const charge).
Definition with_magnetic (x obs : vec R) (e : vec R) : emf R :=
  EB e (vmul (vcross (direction (vsub obs x)) e) (/ nc)).

(* derivative of the velocity beta of a particle with momentum m = beta gamma
   when dm/dt = a (see RetardProofs.beta_dot_correct) *)
Definition beta_dot (m a : vec R) : vec R :=
  vmul (vsub a (vmul (beta_of m) (vdot (beta_of m) a))) (/ gamma_of m).

(* electric field of a charge in uniform motion with velocity beta*c, which
   presently is at position x (Heaviside) *)
Definition heaviside (charge : R) (x beta obs : vec R) : vec R :=
  let r := vsub obs x in
  vmul r (coulomb_const charge * (1 - vabs2 beta)
          / sqrt (vabs2 r - vabs2 (vcross beta r)) ^ 3).

(* linear interpolation of a trajectory point *)
Definition mix (a b : vec R) (f : R) : vec R := vadd a (vmul (vsub b a) f).
Definition mix_point (a b : tpoint R) (f : R) : tpoint R :=
  TP (tpt a + (tpt b - tpt a) * f) (mix (tpx a) (tpx b) f)
     (mix (tpp a) (tpp b) f) (mix (tpa a) (tpa b) f).

(* The field attributed to a trajectory point: Lienard-Wiechert with the stored
   quantity A/gamma in the place of the derivative of beta. *)
Definition point_field (charge : R) (a : tpoint R) (obs : vec R) : emf R :=
  with_magnetic (tpx a) obs
    (lienard_wiechert charge (tpx a) (beta_of (tpp a)) (vmul (tpa a) (/ gamma_of (tpp a))) obs).
