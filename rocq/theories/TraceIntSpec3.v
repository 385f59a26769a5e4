(* Specification: traces whose time step is negative. *)
From Coq Require Import ZArith Reals List.
From Verif Require Import Base Num VecModel ParticleModel ParticleSpec TraceModel RetardSpec.
Local Open Scope R_scope.

(* Step i of the trajectory is seen from before the time of the trace until after it: with a negative
   time step the trace lasts from t0 + (N - 1/2) dt to t0 - dt/2. *)
Definition covering_step (p : particle R) (obs : vec R) (tr : ftrace R) (i : nat) : Prop :=
  exists a b, nth_error (trajectory p) i = Some a /\ nth_error (trajectory p) (S i) = Some b /\
    arrival obs a < tr_t0 tr + (IZR (tr_N tr) - / 2) * tr_dt tr /\ tr_t0 tr - / 2 * tr_dt tr < arrival obs b.
