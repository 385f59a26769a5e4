(* Specification: which beams an observer cannot take. *)
From Coq Require Import ZArith Reals List.
From Verif Require Import Base Num VecModel ParticleModel ParticleSpec TraceModel TraceIntSpec2 ObserverModel ObserverSpec ObserverSpec2 RecordSpec.
Local Open Scope Z_scope.

(* a step of a particle which is late (TraceIntSpec2.v) at one of the cells *)
Definition late_cell (o : observer R) (ps : list (particle R)) : Prop :=
  exists a b x tr p i, in_cells o (a, b) /\ cell_place o a b x /\ cell_clock o a b (tr_t0 tr) (tr_dt tr) /\ tr_N tr = snd (extent o) /\
    In p ps /\ late_step p x tr i.
