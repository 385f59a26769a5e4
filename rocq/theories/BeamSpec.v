(* Specification vocabulary for operation histories of beams. *)
From Coq Require Import ZArith List.
From Verif Require Import Base Num VecModel ParticleModel ParticleSpec BunchModel BunchSpec.
Import ListNotations.

Section S.
Context {T : Type} {NT : Num T}.

(* operations on a beam *)
Inductive beam_op : Type :=
| BSetup (F : field_fn T)        (* setupTracking *)
| BStep (F : field_fn T)         (* doStep *)
| BReceive (buf : list T)        (* setStepFromBuffer *)
| BClearTraj                     (* clearTrajectories *)
| BAlloc (n : Z).                (* preAllocate *)

(* the state left behind and how the operation ended *)
Definition apply_beam (bm : beam T) (o : beam_op) : beam T * res unit :=
  match o with
  | BSetup F => beam_setup F bm
  | BStep F => beam_step F bm
  | BReceive buf => match beam_setStep buf bm with
                    | Ok (bm', _) => (bm', Ok tt)
                    | Throw e => (bm, Throw e) | UB => (bm, UB) | Loop => (bm, Loop)
                    end
  | BClearTraj => (beam_clearTrajectories bm, Ok tt)
  | BAlloc n => match beam_preAllocate n bm with
                | Ok bm' => (bm', Ok tt)
                | Throw e => (bm, Throw e) | UB => (bm, UB) | Loop => (bm, Loop)
                end
  end.

(* a sequence of operations none of which fails *)
Fixpoint run_beam (ops : list beam_op) (bm : beam T) : option (beam T) :=
  match ops with
  | [] => Some bm
  | o :: r => match apply_beam bm o with (bm', Ok tt) => run_beam r bm' | _ => None end
  end.
(* a sequence of operations; failures are caught and ignored *)
Fixpoint run_beam_catch (ops : list beam_op) (bm : beam T) : beam T :=
  match ops with [] => bm | o :: r => run_beam_catch r (fst (apply_beam bm o)) end.

(* number of steps (own or received) since the last reset, given n before *)
Fixpoint steps_since (ops : list beam_op) (n : Z) : Z :=
  match ops with
  | [] => n
  | BSetup _ :: r | BClearTraj :: r => steps_since r 0
  | BStep _ :: r | BReceive _ :: r => steps_since r (n + 1)
  | BAlloc _ :: r => steps_since r n
  end.

(* operations which change the list of bunches *)
Inductive build_op : Type :=
| BAdd (b : bunch T)             (* Add *)
| BClear.                        (* clear *)
Definition apply_build (bm : beam T) (o : build_op) : beam T :=
  match o with BAdd b => beam_add b bm | BClear => beam_clear bm end.
(* the bunches added since the last clear, after those in l *)
Fixpoint added_since (ops : list build_op) (l : list (bunch T)) : list (bunch T) :=
  match ops with
  | [] => l
  | BAdd b :: r => added_since r (l ++ [b])
  | BClear :: r => added_since r []
  end.

(* same number of bunches and the same numbers of particles in them *)
Definition same_structure (a b : beam T) : Prop := map (@length _) (bmB a) = map (@length _) (bmB b).
Definition wf_beam (bm : beam T) : Prop := Forall (Forall wf) (bmB bm).
(* what is recorded of a probe particle: time, position, momentum, acceleration and the fields there *)
Definition probe_record (p : particle T) : list T :=
  [pt p; vx (pX p); vy (pX p); vz (pX p); vx (pP p); vy (pP p); vz (pP p); vx (pA p); vy (pA p); vz (pA p);
   vx (pE p); vy (pE p); vz (pE p); vx (pB p); vy (pB p); vz (pB p)].
(* total number of particles *)
Definition count (bm : beam T) : Z := Z.of_nat (length (concat (bmB bm))).
End S.
