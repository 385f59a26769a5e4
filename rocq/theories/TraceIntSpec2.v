(* Specification: which trajectories a field trace cannot take. *)
From Coq Require Import ZArith Reals List.
From Verif Require Import Base Num VecModel ParticleModel ParticleSpec TraceModel RetardSpec.
Local Open Scope R_scope.

(* Step i of the trajectory is seen during the time of the trace (from half a time step before the first
   sample to half a time step after the last one), and its end is seen 2^31 - 1/2 time steps or more
   after the first sample. *)
Definition late_step (p : particle R) (obs : vec R) (tr : ftrace R) (i : nat) : Prop :=
  exists a b, nth_error (trajectory p) i = Some a /\ nth_error (trajectory p) (S i) = Some b /\
    tr_t0 tr - / 2 * tr_dt tr < arrival obs b /\ arrival obs a < tr_t0 tr + (IZR (tr_N tr) - / 2) * tr_dt tr /\
    2147483647 + / 2 <= (arrival obs b - tr_t0 tr) / tr_dt tr.
