(* Specification vocabulary: equivalence of particle states, reflections,
   interpolation. *)
From Coq Require Import ZArith Reals List.
From Verif Require Import Base Num VecModel ParticleModel ParticleSpec VaySpec.
Import ListNotations.

Section S.
Context {T : Type}.
(* Two particles which agree in everything that can influence trajectories and
   tracking: charge, mass, tracking constants, stored trajectory, current point
   and the momentum carried between steps.  (Not compared: the reserved capacity
   and the remembered local field values.) *)
Definition same_state (p q : particle T) : Prop :=
  pCharge q = pCharge p /\ pMass q = pMass p /\ pqm q = pqm p /\ pdt q = pdt p /\
  pqmt2 q = pqmt2 p /\ pNP q = pNP p /\ pt q = pt p /\ pX q = pX p /\ pP q = pP p /\
  pA q = pA p /\ pTimes q = pTimes p /\ pXs q = pXs p /\ pPs q = pPs p /\ pAs q = pAs p /\
  pVp q = pVp p /\ pVg q = pVg p.
End S.

(* two runs end the same way, with related results *)
Definition res_rel {A B} (R : A -> B -> Prop) (a : res A) (b : res B) : Prop :=
  match a, b with
  | Ok x, Ok y => R x y
  | Throw e, Throw e' => e = e'
  | UB, UB => True
  | Loop, Loop => True
  | _, _ => False
  end.

Local Open Scope R_scope.
(* y is the mirror image of the point x at the plane through o with normal n:
   the connection is along the normal, the middle lies in the plane *)
Definition mirror_image (o n x y : vec R) : Prop :=
  (exists k, vsub y x = vmul n k) /\ vdot (vsub (vmean x y) o) n = 0.
(* w is the direction v with reversed normal component *)
Definition mirror_direction (n v w : vec R) : Prop :=
  (exists k, vsub w v = vmul n k) /\ vdot w n = - vdot v n.

(* the times stored in a trajectory increase strictly *)
Definition increasing (l : list R) : Prop :=
  forall i j a b, (i < j)%nat -> nth_error l i = Some a -> nth_error l j = Some b -> a < b.

(* linear interpolation between (ta,a) and (tb,b) at time t *)
Definition lin_interp (ta tb : R) (a b : vec R) (t : R) : vec R :=
  vadd a (vmul (vsub b a) ((t - ta) / (tb - ta))).
