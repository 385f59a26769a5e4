(* Motion of a charged particle in homogeneous fields, stated without reference to
   the tracking code. *)
From Coq Require Import Reals.
From Verif Require Import Base Num VecModel.
Local Open Scope R_scope.

(* the field has the same value everywhere and always *)
Definition homogeneous (F : R -> vec R -> res (emf R)) (e b : vec R) : Prop :=
  forall t x, F t x = Ok (EB e b).

(* the part of p along b, and p turned about b: the part along b stays, the rest turns
   by phi from p towards p x b *)
Definition along (b p : vec R) : vec R := vmul b (vdot p b / vabs2 b).
Definition turned (phi : R) (b p : vec R) : vec R :=
  vadd (along b p)
    (vadd (vmul (vsub p (along b p)) (cos phi)) (vmul (vcross p b) (sin phi / vnorm b))).

(* centre of the circle of a particle at x with momentum p (units of m c), qm = charge
   over mass: x - c B x p / (qm B^2) *)
Definition centre_of (qm : R) (b x p : vec R) : vec R :=
  vsub x (vmul (vcross b p) (nc / (qm * vabs2 b))).

(* the exact motion in a homogeneous magnetic field, from position x0 with momentum p0 at
   t = 0: the momentum turns with the angular frequency w = qm |B| / gamma about the field;
   a helix with the advance v along the field *)
Definition helix (qm turn advance : R) (b x0 p0 : vec R) : vec R * vec R :=
  let p := turned turn b p0 in
  (vadd (vadd (centre_of qm b x0 p0) (vmul b (advance / vnorm b))) (vmul (vcross b p) (nc / (qm * vabs2 b))), p).

(* componentwise derivative of a vector valued function of the time *)
Definition derivative (f : R -> vec R) (t : R) (d : vec R) : Prop :=
  derivable_pt_lim (fun s => vx (f s)) t (vx d) /\
  derivable_pt_lim (fun s => vy (f s)) t (vy d) /\
  derivable_pt_lim (fun s => vz (f s)) t (vz d).

(* X and P (in units of m c) are the motion of a particle with charge over mass qm in the
   fields E and B from t0 to t1 *)
Definition solves (qm : R) (E B : R -> vec R -> vec R) (X P : R -> vec R) (t0 t1 : R) : Prop :=
  forall t, t0 <= t <= t1 ->
    let beta := vdiv (P t) (sqrt (1 + vabs2 (P t))) in
    derivative X t (vmul beta nc) /\
    derivative P t (vmul (vadd (vdiv (E t (X t)) nc) (vcross beta (B t (X t)))) qm).
(* f has a derivative f1, which has the Lipschitz constant La *)
Definition smooth (f f1 : R -> vec R) (La t0 t1 : R) : Prop :=
  (forall t, t0 <= t <= t1 -> derivative f t (f1 t)) /\
  (forall s t, t0 <= s <= t1 -> t0 <= t <= t1 -> vnorm (vsub (f1 s) (f1 t)) <= La * Rabs (s - t)).
(* near the orbit the field F exists and has the values E and B, the force per charge is
   bounded and depends on place and velocity (at the same time) with the Lipschitz constants
   L/c and K *)
Definition regular (F : R -> vec R -> res (emf R)) (E B : R -> vec R -> vec R) (X P : R -> vec R) (t0 t1 rho M L K : R) : Prop :=
  forall t x, t0 <= t <= t1 -> vnorm (vsub x (X t)) <= rho ->
    F t x = Ok (EB (E t x) (B t x)) /\
    forall b, vnorm b <= 1 ->
      vnorm (vadd (vdiv (E t x) nc) (vcross b (B t x))) <= M /\
      let beta := vdiv (P t) (sqrt (1 + vabs2 (P t))) in
      vnorm (vsub (vadd (vdiv (E t x) nc) (vcross b (B t x))) (vadd (vdiv (E t (X t)) nc) (vcross beta (B t (X t)))))
        <= L * (vnorm (vsub x (X t)) / nc) + K * vnorm (vsub b beta).
