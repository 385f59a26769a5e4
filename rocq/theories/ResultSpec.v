(* Specification: what the files of the observers of the beam are expected to hold. *)
From Coq Require Import ZArith Reals List.
From Coquelicot Require Import Coquelicot.
From Verif Require Import Base Num VecModel ParticleModel ParticleSpec TraceModel RetardSpec TraceIntSpec BunchModel BeamSpec DriverSpec
  ElementModel FelModel ObserverModel ObserverSpec ObserverSpec2 RecordSpec ParserModel ProgramModel ProgramSpec.
Import ListNotations.
Local Open Scope R_scope.

(* component number c of the field: Ex Ey Ez Bx By Bz *)
Definition component (c : Z) : emf R -> R := nth (Z.to_nat c) components (fun _ => 0).
(* v is the average of component c of the field of the particles ps over the time step around the
   sample k of the observer o, at the position of its cell *)
Definition averaged (o : observer R) (ps : list (particle R)) (k : Z * Z * Z) (c : Z) (v : R) : Prop :=
  let '(a, b, it) := k in
  exists x t0 dt, cell_place o a b x /\ cell_clock o a b t0 dt /\ 0 < dt /\
    is_RInt (beam_signal ps x (component c)) (t0 + (IZR it - / 2) * dt) (t0 + (IZR it + / 2) * dt) (dt * v).
(* two or more samples with a positive time step, and all signals in the range of int time steps *)
Definition observable (o : observer R) (ps : list (particle R)) : Prop :=
  (2 <= snd (extent o) <= int_max)%Z /\
  forall a b x t0 dt, in_cells o (a, b) -> cell_place o a b x -> cell_clock o a b t0 dt -> 0 < dt /\ in_reach ps x t0 dt.
(* the particles tracked until the end: every one starts with the coordinates of the particle of the
   document, has one more point for every step, at the times of the steps, and is always slower than light *)
Definition tracked_from (i : pinput (T := R)) (ps : list (particle R)) : Prop :=
  Forall2 (fun p q => wf q /\ subluminal (trajectory q) /\ length (trajectory q) = S (steps i) /\ pCharge q = pCharge p /\ pMass q = pMass p /\
    (forall k a, nth_error (trajectory q) k = Some a -> tpt a = pt p + INR k * bmdt (inBeam i)) /\
    exists a, nth_error (trajectory q) 0 = Some (TP (pt p) (pX p) (pP p) a)) (concat (bmB (inBeam i))) ps.
