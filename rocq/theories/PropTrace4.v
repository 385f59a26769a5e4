(* C15: traces with a negative time step. *)
From Coq Require Import ZArith Reals Lra Lia List Bool.
From Verif Require Import Base BaseFacts Num VecModel VecFacts ParticleModel ParticleSpec ParticleSpec2 TraceModel RetardModel RetardSpec RetardProofs3 TraceIntSpec3 TraceIntProofs4 PropTrace.
Import ListNotations.
Local Open Scope R_scope.

(* Violation: nothing refuses a negative time step, and then a step of the trajectory which is seen from
   before the time of the trace until after it raises the range exception of FieldTrace::add.  (A signal
   further away than the range of int is undefined as in C15_far_signal_refuted.) *)
Theorem C15_negative_step_refuted : forall (p : particle R) obs (tr : ftrace R) i b,
  wf p -> tr_dt tr < 0 -> (2 <= tr_N tr <= int_max)%Z -> increasing (map (arrival obs) (trajectory p)) ->
  covering_step p obs tr i -> nth_error (trajectory p) (S i) = Some b -> -2147483648 - / 2 < (arrival obs b - tr_t0 tr) / tr_dt tr ->
  integrateFieldTrace p obs tr = Throw IOexc.
Proof. intros p obs tr i b Hw Hd Hn Hi. destruct (trace_back p obs tr Hw Hd Hn Hi) as [_ B]. apply B. Qed.
Print Assumptions C15_negative_step_refuted.
(* All other trajectories leave such a trace as it is. *)
Theorem C15_negative_step : forall (p : particle R) obs (tr : ftrace R),
  wf p -> tr_dt tr < 0 -> (2 <= tr_N tr <= int_max)%Z -> increasing (map (arrival obs) (trajectory p)) ->
  (forall i, ~ covering_step p obs tr i) -> integrateFieldTrace p obs tr = Ok tr.
Proof. intros p obs tr Hw Hd Hn Hi. destruct (trace_back p obs tr Hw Hd Hn Hi) as [B _]. exact B. Qed.
Print Assumptions C15_negative_step.
(* a charge at rest for 20 s, and 5 samples backwards from 0 s; and at other times, 100 s later *)
Definition still_particle : particle R :=
  storeTrajectoryPoint 10 vzero vzero vzero (initTrajectory (-10) vzero vzero vzero (new_particle (-1) 1)).
Example C15_negative_ex : let tr := tr_new 0 (-1) 5 in
  wf still_particle /\ subluminal (trajectory still_particle) /\ tr_dt tr < 0 /\ (2 <= tr_N tr <= int_max)%Z /\
  covering_step still_particle (V 0 0 1) tr 0 /\
  (forall b, nth_error (trajectory still_particle) 1 = Some b -> -2147483648 - / 2 < (arrival (V 0 0 1) b - tr_t0 tr) / tr_dt tr) /\
  forall i, ~ covering_step still_particle (V 0 0 1) (tr_new 100 (-1) 5) i.
Proof.
  assert (N1 : vnorm (vsub (V 0 0 1) vzero) = 1).
  { rewrite vnorm_sqrt. replace (vabs2 _) with (1 * 1) by (cbn; ring). apply sqrt_square. lra. }
  assert (NC : 2 < @nc R _) by (cbn; lra).
  assert (IC : 0 < 1 / @nc R _ < 1).
  { unfold Rdiv. rewrite Rmult_1_l. split; [apply Rinv_0_lt_compat; lra|]. rewrite <- Rinv_1. apply Rinv_lt_contravar; lra. }
  assert (N5 : forall t, tr_N (tr_new t (-1) 5) = 5%Z) by reflexivity.
  assert (Ar : forall t, arrival (V 0 0 1) (TP t vzero vzero vzero) = t + 1 / @nc R _) by (intros t; unfold arrival; cbn [tpx tpt]; rewrite N1; reflexivity).
  cbn zeta. split; [unfold wf; cbn; lia|]. split.
  { intros [|[|i]] a b Ha Hb; cbn in Ha, Hb.
    - injection Ha as <-. injection Hb as <-. unfold slower_than_light. rewrite vnorm_sqrt. cbn [tpx tpt].
      replace (vabs2 _) with 0 by (cbn; ring). rewrite sqrt_0. apply Rmult_lt_0_compat; lra.
    - discriminate.
    - destruct i; discriminate. }
  cbn [tr_new tr_dt tr_t0]. split; [lra|]. split; [change (2 <= 5 <= int_max)%Z; unfold int_max; lia|].
  revert Ar IC. generalize (1 / @nc R _). intros w Ar IC. split; [|split].
  - exists (TP (-10) vzero vzero vzero), (TP 10 vzero vzero vzero). split; [reflexivity|]. split; [reflexivity|].
    rewrite !Ar, N5. cbn [tr_new tr_dt tr_t0]. lra.
  - intros b Hb. cbn in Hb. injection Hb as <-. rewrite Ar. lra.
  - intros [|[|i]] (a & b & Ha & Hb & L1 & L2); cbn in Ha, Hb.
    + injection Hb as <-. rewrite Ar in L2. cbn [tr_new tr_dt tr_t0] in L2. lra.
    + discriminate.
    + destruct i; discriminate.
Qed.
