(* What the observers of a completed run have recorded. *)
From Coq Require Import ZArith Reals List Lia Lra Bool.
From Coquelicot Require Import Coquelicot.
From Verif Require Import Base BaseFacts Num VecModel VecFacts ParticleModel ParticleSpec ParticleSpec2 ParticleProofs ParticleProofs2 VaySpec VayProofs VayTracking VayTracking2
  TraceModel RetardModel RetardSpec RetardProofs RetardProofs2 RetardProofs3 TraceIntSpec BunchModel BunchSpec BeamSpec DriverModel DriverSpec DriverProofs HybridProofs
  ElementModel FelModel ObserverModel ObserverSpec ObserverSpec2 ObserverProofs ObserverProofs2 ObserverProofs3 ObserverProofs4 ObserverProofs5 ObserverProofs6 PropSample RecordSpec RecordProofs
  ParserModel ParserSpec ParserSpec2 ProgramModel ProgramSpec ResultSpec ResultSpec3 RecordProofs2 ResultProofs.
Import ListNotations.
Local Open Scope R_scope.

Lemma observed_completed (o o' : observer R) ps dt0 : shaped o -> (6 * fields o <= int_max)%Z -> blank o -> (forall a b c, inside o (a, b, c) -> timed o) ->
  (match o with OSnap _ => False | _ => True end) ->
  (forall p, In p ps -> wf p /\ subluminal (trajectory p)) -> sampled o ->
  obs_integrate (SBeam (BM [ps] 0 dt0 TRACKING_VAY)) o = Ok o' ->
  forall a b it, inside o (a, b, it) -> exists f, obs_get o' (a, b, it) = Ok f /\ forall c, (0 <= c < 6)%Z -> averaged o ps (a, b, it) c (component c f).
Proof.
  intros Sh F B Ti Ns Hp (Hn & Hr) E a b it I. destruct (inside_sizes o a b it Sh F I) as [Is Hs]. specialize (Ti _ _ _ I).
  assert (Bp : beam_ps (BM [ps] 0 dt0 TRACKING_VAY) = ps) by (unfold beam_ps; cbn [bmB concat]; apply app_nil_r).
  pose proof (inside_cell _ _ _ _ I) as IC. destruct (cell_ok o (a, b) Sh IC) as (tr & C0 & _).
  destruct (cell_beam o (BM [ps] 0 dt0 TRACKING_VAY) a b tr _ Sh Is Ti IC Ns C0 eq_refl) as (x & Px & Ck & Ly & Fy).
  pose proof (Hr a b _ _ IC Ck) as Hd.
  destruct (recorded_completed o o' (BM [ps] 0 dt0 TRACKING_VAY) a b it x _ _ Sh Is Ti B I Hn Px Ck Hd) as (f & G & Q); [rewrite Bp; exact Hp|exact E|].
  exists f. split; [exact G|]. intros c Hc. exists x, (tr_t0 tr), (tr_dt tr). split; [exact Px|]. split; [exact Ck|]. split; [exact Hd|].
  specialize (Q _ (component_in c Hc)). rewrite Bp in Q. exact Q.
Qed.
