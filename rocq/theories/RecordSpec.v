(* Specification: what an observer of a beam is expected to record. *)
From Coq Require Import ZArith Reals List.
From Verif Require Import Base Num VecModel ParticleModel ParticleSpec TraceModel RetardSpec TraceIntSpec BunchModel ObserverModel ObserverSpec.
Import ListNotations.
Local Open Scope Z_scope.

(* where and when the sample k of an observer of fields in time (not a snapshot) is taken, and
   the time between samples *)
Definition cell_place (o : observer R) (a b : Z) (x : vec R) : Prop :=
  match o with
  | OScreen s => let i := IZR (a - scNx s / 2) in let j := IZR (b - scNy s / 2) in
      (x = V (vx (scO s) + i * vx (scdX s) + j * vx (scdY s)) (vy (scO s) + i * vy (scdX s) + j * vy (scdY s)) (vz (scO s) + i * vz (scdX s) + j * vz (scdY s)))%R
  | OSnap s => let i := (IZR a - (IZR (snNx s) - 1) / 2)%R in let j := (IZR b - (IZR (snNy s) - 1) / 2)%R in
      (x = V (vx (snO s) + i * vx (sndX s) + j * vx (sndY s)) (vy (snO s) + i * vy (sndX s) + j * vy (sndY s)) (vz (snO s) + i * vz (sndX s) + j * vz (sndY s)))%R
  | OPoint s => x = poX s
  | OMesh s => nth_error (msX s) (Z.to_nat a) = Some x
  end.
Definition cell_clock (o : observer R) (a b : Z) (t0 dt : R) : Prop :=
  match o with
  | OScreen s => (t0 = sct0 s + IZR (a - scNx s / 2) * scdtx s + IZR (b - scNy s / 2) * scdty s)%R /\ dt = scdt s
  | OSnap _ => False
  | OPoint s => t0 = tr_t0 (poTr s) /\ dt = tr_dt (poTr s)
  | OMesh s => exists tr, nth_error (msA s) (Z.to_nat a) = Some tr /\ t0 = tr_t0 tr /\ dt = tr_dt tr
  end.
(* the traces of a screen start at the times of its cells *)
Definition timed (o : observer R) : Prop :=
  match o with
  | OScreen s => forall a b tr, 0 <= a < scNx s -> 0 <= b < scNy s -> cell_get (scTr s) a b = Ok tr -> cell_clock o a b (tr_t0 tr) (tr_dt tr)
  | _ => True
  end.
(* the signal of all particles in one component of the field *)
Definition beam_signal (ps : list (particle R)) (x : vec R) (c : emf R -> R) (t : R) : R :=
  fold_right Rplus 0%R (map (fun p => c (signal (signal_points p x) t)) ps).
(* no signal arrives later than 2^31-1 time steps after t0 *)
Definition in_reach (ps : list (particle R)) (x : vec R) (t0 dt : R) : Prop :=
  forall p a, In p ps -> In a (trajectory p) -> ((arrival x a - t0) / dt < 2147483647)%R.
