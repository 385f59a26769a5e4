(* C15: traces whose time step is not positive, in double precision. *)
From Coq Require Import ZArith List Lia Floats.
From Verif Require Import Base Num NumFloat VecModel ParticleModel ParticleSpec TraceModel RetardModel PropTrace.
Import ListNotations.

(* A charge at rest, seen from -1 s to 1 s.  Five samples with the time step 0: the index is the result
   of a division by zero, its conversion to int is undefined.  With the time step -1/16 s: the range
   exception.  The same trace with the time step 1/16 s is integrated. *)
Theorem C15_zero_step_refuted :
  let p := rest_particle (-1)%float 1%float in
  wf p /\ integrateFieldTrace p near (tr_new 0%float 0%float 5) = UB /\
  integrateFieldTrace p near (tr_new 0%float (-0.0625)%float 5) = Throw IOexc /\
  exists tr, integrateFieldTrace p near (tr_new 0%float 0.0625%float 5) = Ok tr.
Proof.
  cbv zeta. split; [unfold wf; cbn; lia|]. split; [vm_compute; reflexivity|]. split; [vm_compute; reflexivity|].
  eexists. vm_compute. reflexivity.
Qed.
Print Assumptions C15_zero_step_refuted.
