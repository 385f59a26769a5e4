(* C96: point observers with a negative time step. *)
From Coq Require Import ZArith Reals Lra Lia List Bool.
From Verif Require Import Base BaseFacts Num VecModel VecFacts ParticleModel ParticleSpec ParticleSpec2 TraceModel RetardModel RetardSpec RetardProofs3 TraceIntSpec3 BunchModel BunchSpec BeamSpec ObserverModel ObserverSpec2 PropBeam PropTrace PropTrace4.
Import ListNotations.
Local Open Scope R_scope.

(* Violation: with a negative time step (not refused by the input) the integration ends with an exception
   as soon as one step of a particle is seen from before the first until after the last sample. *)
Theorem C96_negative_step_refuted : forall x (tr : ftrace R) (bm : beam R) before p after i b,
  tr_dt tr < 0 -> (2 <= tr_N tr <= int_max)%Z ->
  beam_ps bm = before ++ p :: after -> (forall q, In q (before ++ [p]) -> wf q /\ subluminal (trajectory q)) ->
  (forall q j, In q before -> ~ covering_step q x tr j) ->
  covering_step p x tr i -> nth_error (trajectory p) (S i) = Some b -> -2147483648 - / 2 < (arrival x b - tr_t0 tr) / tr_dt tr ->
  obs_integrate (SBeam bm) (OPoint (PO x tr)) = Throw IOexc.
Proof.
  intros x tr bm before p after i b Hd Hn E Hp Hb C Nb Hr. cbn [obs_integrate]. unfold point_integrate. cbn [poX poTr].
  unfold beam_ps in E. rewrite C62_field_trace. unfold beam_ps. rewrite E. clear E.
  assert (Q : fold_res (fun tr p => integrateFieldTrace p x tr) (before ++ p :: after) tr = Throw IOexc); [|rewrite Q; reflexivity].
  induction before as [|q l IH]; cbn [app fold_res].
  - destruct (Hp p) as [W S]; [left; reflexivity|].
    rewrite (C15_negative_step_refuted p x tr i b W Hd Hn (arrivals_increase _ x S) C Nb Hr). reflexivity.
  - destruct (Hp q) as [W S]; [left; reflexivity|].
    rewrite (C15_negative_step q x tr W Hd Hn (arrivals_increase _ x S)); [|intros j; apply Hb; left; reflexivity]. cbn [bind].
    apply IH; [intros r Hr'; apply Hp; right; exact Hr'|intros r j Hr'; apply Hb; right; exact Hr'].
Qed.
Print Assumptions C96_negative_step_refuted.
(* the charge at rest of C15_negative_ex *)
Example C96_negative_ex : beam_ps (BM [[still_particle]] 0 1 TRACKING_VAY) = [] ++ still_particle :: [] /\
  (forall q, In q ([] ++ [still_particle]) -> wf q /\ subluminal (trajectory q)) /\ covering_step still_particle (V 0 0 1) (tr_new 0 (-1) 5) 0.
Proof.
  destruct C15_negative_ex as (W & S & _ & _ & C & _). split; [reflexivity|]. split; [|exact C]. intros q [<-|[]]. auto.
Qed.
