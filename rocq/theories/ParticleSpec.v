(* Specification vocabulary: trajectories of particles and operation histories. *)
From Coq Require Import ZArith List.
From Verif Require Import Base Num VecModel ParticleModel.
Import ListNotations.

Section S.
Context {T : Type} {NT : Num T}.

(* The trajectory of a particle as a list of points. *)
Fixpoint zip4 (ts : list T) (xs ms acs : list (vec T)) : list (tpoint T) :=
  match ts, xs, ms, acs with
  | t :: ts, x :: xs, m :: ms, a :: acs => TP t x m a :: zip4 ts xs ms acs
  | _, _, _, _ => []
  end.
Definition trajectory (p : particle T) : list (tpoint T) :=
  zip4 (pTimes p) (pXs p) (pPs p) (pAs p).

(* the point a query for the current coordinates reports *)
Definition current (p : particle T) : tpoint T := TP (pt p) (pX p) (pP p) (pA p).

(* the four stored sequences have the reported number of points *)
Definition wf (p : particle T) : Prop :=
  (0 <= pNP p)%Z /\
  Z.of_nat (length (pTimes p)) = pNP p /\ Z.of_nat (length (pXs p)) = pNP p /\
  Z.of_nat (length (pPs p)) = pNP p /\ Z.of_nat (length (pAs p)) = pNP p.

(* Operations on a particle. *)
Inductive pop : Type :=
| OpInitTraj (t : T) (x m a : vec T)     (* initTrajectory *)
| OpClear                                (* clearTrajectory *)
| OpAlloc (n : Z)                        (* preAllocate *)
| OpFromBuffer (t : T) (x m a : vec T)   (* what Bunch::setStepFromBuffer does per particle *)
| OpSetup (dt : T) (F : field_fn T)      (* InitVay *)
| OpStep (F : field_fn T)                (* StepVay *)
| OpShift (d : vec T) (f : T)
| OpMirror (o n : vec T) (f : T).

Definition apply_op (p : particle T) (o : pop) : res (particle T) :=
  match o with
  | OpInitTraj t x m a => Ok (initTrajectory t x m a p)
  | OpClear => Ok (clearTrajectory p)
  | OpAlloc n => preAllocate n p
  | OpFromBuffer t x m a => Ok (storeTrajectoryPoint t x m a (setCurrentPoint t x m a p))
  | OpSetup dt F => InitVay dt F p
  | OpStep F => StepVay F p
  | OpShift d f => Shift d f p
  | OpMirror o n f => Mirror o n f p
  end.

Definition run_ops (ops : list pop) (p : particle T) : res (particle T) := fold_res apply_op ops p.

Definition is_move (o : pop) : bool :=
  match o with OpShift _ _ | OpMirror _ _ _ => true | _ => false end.
End S.

Section Tracked.
Context {T : Type} {NT : Num T}.

(* tracking steps, each with its own field (the field may change between steps) *)
Definition run_steps (Fs : list (field_fn T)) (p : particle T) : res (particle T) :=
  fold_res (fun q F => StepVay F q) Fs p.

(* p is the state of a particle after set-up of tracking with time step dt and
   any number of steps in any fields *)
Definition tracked (dt : T) (p : particle T) : Prop :=
  exists (p0 p1 : particle T) (F0 : field_fn T) (Fs : list (field_fn T)),
    wf p0 /\ InitVay dt F0 p0 = Ok p1 /\ run_steps Fs p1 = Ok p.
End Tracked.
