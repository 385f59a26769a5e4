(* Specification: the observers whose samples are averages. *)
From Coq Require Import ZArith Reals List.
From Verif Require Import Base Num VecModel TraceModel ObserverModel ObserverSpec ObserverSpec2 RecordSpec.
Local Open Scope R_scope.

(* two or more samples (an int), with a positive time step in every cell *)
Definition sampled (o : observer R) : Prop :=
  (2 <= snd (extent o) <= int_max)%Z /\ forall a b t0 dt, in_cells o (a, b) -> cell_clock o a b t0 dt -> 0 < dt.
