(* Specification vocabulary: the signal which a trajectory sends to an observer. *)
From Coq Require Import ZArith Reals List.
From Verif Require Import Base Num VecModel ParticleModel ParticleSpec RetardSpec.
Import ListNotations.
Local Open Scope R_scope.

(* linear interpolation between (ta,fa) and (tb,fb) *)
Definition interp_field (ta tb : R) (fa fb : emf R) (t : R) : emf R :=
  eadd fa (emul (esub fb fa) ((t - ta) / (tb - ta))).

(* the signal interpolated linearly between the observed points, no signal before
   the first and after the last one *)
Fixpoint signal (pts : list (R * emf R)) (t : R) : emf R :=
  match pts with
  | (ta, fa) :: (((tb, fb) :: _) as r) =>
      if Rle_dec ta t then if Rlt_dec t tb then interp_field ta tb fa fb t else signal r t
      else ezero
  | _ => ezero
  end.

(* the points seen by an observer: time of arrival and field *)
Definition signal_points (p : particle R) (obs : vec R) : list (R * emf R) :=
  map (fun a => (arrival obs a, point_field (pCharge p) a obs)) (trajectory p).

(* the six components of a field *)
Definition components : list (emf R -> R) :=
  [fun f => vx (fE f); fun f => vy (fE f); fun f => vz (fE f);
   fun f => vx (fB f); fun f => vy (fB f); fun f => vz (fB f)].
