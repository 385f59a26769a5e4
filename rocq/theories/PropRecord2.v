(* C96: exactly which beams an observer integrates, and what it has recorded whenever it has. *)
From Coq Require Import ZArith Reals List Lia Lra Bool.
From Coq Require Classical_Prop.
From Coquelicot Require Import Coquelicot.
From Verif Require Import Base BaseFacts Num VecModel VecFacts ParticleModel ParticleSpec ParticleSpec2 TraceModel RetardModel RetardSpec TraceIntSpec TraceIntSpec2 TraceSpec BunchModel BunchSpec
  ObserverModel ObserverSpec ObserverSpec2 RecordSpec RecordSpec2 RecordProofs2 RecordProofs3 RecordProofs4 PropSample PropTrace PropTrace3 PropRecord.
Import ListNotations.
Local Open Scope R_scope.

(* Screens, points and meshes with 2 or more samples: whenever the integration succeeds, every sample is
   the average of the field of the beam.  Missing: one sample (C96_one_sample_refuted). *)
Theorem C96_completed_partial : forall (o o1 : observer R) bm a b c x t0 dt,
  shaped o -> int_sized o -> timed o -> blank o -> inside o (a, b, c) -> (2 <= snd (extent o) <= int_max)%Z ->
  cell_place o a b x -> cell_clock o a b t0 dt -> 0 < dt ->
  (forall p, In p (beam_ps bm) -> wf p /\ subluminal (trajectory p)) ->
  obs_integrate (SBeam bm) o = Ok o1 ->
  exists f, obs_get o1 (a, b, c) = Ok f /\
    forall comp, In comp components ->
      is_RInt (beam_signal (beam_ps bm) x comp) (t0 + (IZR c - / 2) * dt) (t0 + (IZR c + / 2) * dt) (dt * comp f).
Proof. exact recorded_completed. Qed.
Print Assumptions C96_completed_partial.
(* It succeeds if and only if no step of a particle seen by a cell during its samples ends 2^31-1/2 or
   more time steps after the first of them. *)
Theorem C96_defined_iff : forall (o : observer R) bm,
  shaped o -> int_sized o -> timed o -> (2 <= snd (extent o) <= int_max)%Z -> (match o with OSnap _ => False | _ => True end) ->
  (forall a b t0 dt, in_cells o (a, b) -> cell_clock o a b t0 dt -> 0 < dt) ->
  (forall p, In p (beam_ps bm) -> wf p /\ subluminal (trajectory p)) ->
  ((exists o1, obs_integrate (SBeam bm) o = Ok o1) <-> ~ late_cell o (beam_ps bm)).
Proof. exact recorded_iff. Qed.
Print Assumptions C96_defined_iff.
(* Otherwise it is undefined: there is no exception and no endless loop. *)
Theorem C96_undefined_iff : forall (o : observer R) bm,
  shaped o -> int_sized o -> timed o -> (2 <= snd (extent o) <= int_max)%Z -> (match o with OSnap _ => False | _ => True end) ->
  (forall a b t0 dt, in_cells o (a, b) -> cell_clock o a b t0 dt -> 0 < dt) ->
  (forall p, In p (beam_ps bm) -> wf p /\ subluminal (trajectory p)) ->
  (obs_integrate (SBeam bm) o = UB <-> late_cell o (beam_ps bm)).
Proof.
  intros o bm Sh Is Ti Hn Ns Hd Hp. pose proof (recorded_iff o bm Sh Is Ti Hn Ns Hd Hp) as Q.
  pose proof (integrate_fine bm Hp o Sh Ti Hn Ns Hd) as F. split.
  - intros E. apply Classical_Prop.NNPP. intros K. apply Q in K. destruct K. congruence.
  - intros L. destruct (obs_integrate (SBeam bm) o) as [o1| | |]; [|destruct F|reflexivity|destruct F].
    exfalso. apply (proj1 Q); [eauto|exact L].
Qed.
Print Assumptions C96_undefined_iff.
(* the observer of C96_ex cannot take a particle with one very long step *)
Example C96_iff_ex : let o := OPoint (PO (V 0 0 1) ex_trace) in late_cell o [far_particle] /\
  shaped o /\ int_sized o /\ timed o /\ (2 <= snd (extent o) <= int_max)%Z /\ wf far_particle /\ subluminal (trajectory far_particle) /\
  (forall a b t0 dt, in_cells o (a, b) -> cell_clock o a b t0 dt -> 0 < dt).
Proof.
  cbn zeta. destruct C14_completed_ex as (_ & W & S & L). destruct C96_ex as (Sh & Is & Ti & _ & _ & Hn & _).
  split; [|split; [exact Sh|split; [exact Is|split; [exact Ti|split; [exact Hn|split; [exact W|split; [exact S|]]]]]]].
  - exists 0%Z, 0%Z, (V 0 0 1), ex_trace, far_particle, 0%nat. split; [unfold in_cells, extent; cbn; lia|]. split; [reflexivity|].
    split; [split; reflexivity|]. split; [reflexivity|]. split; [left; reflexivity|exact L].
  - intros a b t0 dt _ [_ ->]. cbn. lra.
Qed.
