(* C14, C15: exactly when the integration of a trajectory is defined, and what every completed one adds. *)
From Coq Require Import ZArith Reals Lra Lia List Bool.
From Coquelicot Require Import Coquelicot.
From Verif Require Import Base BaseFacts Num VecModel VecFacts ParticleModel ParticleSpec ParticleSpec2 TraceModel RetardModel RetardSpec RetardProofs3 TraceIntSpec TraceIntSpec2 TraceSpec
  TraceIntProofs TraceIntProofs2 TraceIntProofs3 PropTrace.
Import ListNotations.
Local Open Scope R_scope.

(* Any trajectory with increasing arrival times (all those slower than light), any trace with 2 or more
   samples: the integration is undefined if
   and only if a step of the trajectory seen during the time of the trace ends 2^31-1/2 or more time
   steps after its first sample (late_step, TraceIntSpec2.v); otherwise it succeeds. *)
Theorem C15_defined : forall (p : particle R) obs (tr : ftrace R),
  wf p -> 0 < tr_dt tr -> (2 <= tr_N tr <= int_max)%Z -> increasing (map (arrival obs) (trajectory p)) ->
  ((exists tr', integrateFieldTrace p obs tr = Ok tr') <-> forall i, ~ late_step p obs tr i) /\
  (integrateFieldTrace p obs tr = UB <-> exists i, late_step p obs tr i).
Proof.
  intros p obs tr Hw Hd Hn Hinc. destruct (trace_reach p obs tr Hw Hd Hn Hinc) as [OK BAD].
  destruct (late_any p obs tr) as [L|L].
  - pose proof (BAD L) as B. split; split.
    + intros (tr' & E). congruence.
    + intros K. destruct L as (i & L). exfalso. exact (K i L).
    + intros _. exact L.
    + intros _. exact B.
  - destruct (OK L) as (tr' & E & _). split; split.
    + intros _. exact L.
    + intros _. eauto.
    + intros K. congruence.
    + intros (i & K). exfalso. exact (L i K).
Qed.
Print Assumptions C15_defined.

(* Whenever the integration succeeds, every sample is increased by the average of the signal over its
   time step.  Missing: traces of 2^31 and more samples (C14_long_trace_refuted). *)
Theorem C14_completed_partial : forall (p : particle R) obs (tr tr' : ftrace R),
  wf p -> 0 < tr_dt tr -> (2 <= tr_N tr <= int_max)%Z -> increasing (map (arrival obs) (trajectory p)) ->
  integrateFieldTrace p obs tr = Ok tr' ->
  same_sampling tr tr' /\
  forall k f f', nth_error (tr_f tr) k = Some f -> nth_error (tr_f tr') k = Some f' ->
    forall c, In c components ->
      is_RInt (fun t => c (signal (signal_points p obs) t))
        (tr_t0 tr + (IZR (Z.of_nat k) - / 2) * tr_dt tr)
        (tr_t0 tr + (IZR (Z.of_nat k) + / 2) * tr_dt tr)
        (tr_dt tr * (c f' - c f)).
Proof.
  intros p obs tr tr' Hw Hd Hn Hinc E.
  destruct (trace_reach p obs tr Hw Hd Hn Hinc) as [OK BAD].
  destruct (late_any p obs tr) as [L|L]; [rewrite (BAD L) in E; discriminate|].
  destruct (OK L) as (tr1 & E1 & S & C). rewrite E in E1. apply Ok_inj in E1. subst tr1.
  split; [destruct S as (?&?&?); repeat split; congruence|].
  intros k f f' Hf Hf' c Hc. pose proof (components_linear c Hc) as Hl.
  destruct (C c Hl k f Hf) as (g & G & Hk). assert (g = f') by congruence. subst g. rewrite Hk.
  pose proof (signal_integral (tr_t0 tr) (tr_dt tr) c _ (Z.of_nat k) Hl Hd (signal_points_inc p obs Hinc)) as H.
  replace (tr_dt tr * _) with (shares (tr_t0 tr) (tr_dt tr) c (signal_points p obs) (Z.of_nat k)); [exact H|field; lra].
Qed.
Print Assumptions C14_completed_partial.
(* the particle and the trace of PropTrace.v: no step is late; and one with a late step *)
Definition far_particle : particle R :=
  storeTrajectoryPoint 4294967296 vzero vzero vzero (initTrajectory 0 vzero vzero vzero (new_particle (-1) 1)).
Example C14_completed_ex : (exists tr', integrateFieldTrace ex_particle (V 0 0 1) ex_trace = Ok tr') /\ wf far_particle /\ subluminal (trajectory far_particle) /\ late_step far_particle (V 0 0 1) ex_trace 0.
Proof.
  destruct C14_ex as (W & S & _ & _ & D & N & F). split.
  { destruct (C14_bucket_average_subluminal_partial ex_particle (V 0 0 1) ex_trace W D N S F) as (tr & E & _). eauto. }
  assert (N1 : vnorm (vsub (V 0 0 1) vzero) = 1).
  { rewrite vnorm_sqrt. replace (vabs2 _) with (1 * 1) by (cbn; ring). apply sqrt_square. lra. }
  assert (NC : 2 < @nc R _) by (cbn; lra).
  assert (IC : 0 < / @nc R _ < 1). { split; [apply Rinv_0_lt_compat; lra|]. rewrite <- Rinv_1. apply Rinv_lt_contravar; lra. }
  split; [unfold wf; cbn; lia|]. split.
  { intros [|[|i]] a b Ha Hb; cbn in Ha, Hb.
    - injection Ha as <-. injection Hb as <-. unfold slower_than_light. rewrite vnorm_sqrt. cbn [tpx tpt].
      replace (vabs2 _) with 0 by (cbn; ring). rewrite sqrt_0. apply Rmult_lt_0_compat; lra.
    - discriminate.
    - destruct i; discriminate. }
  exists (TP 0 vzero vzero vzero), (TP 4294967296 vzero vzero vzero). split; [reflexivity|]. split; [reflexivity|].
  unfold arrival. cbn [tpx tpt]. rewrite N1. unfold ex_trace. cbn [tr_new tr_t0 tr_dt]. replace (tr_N _) with 5%Z by reflexivity.
  unfold Rdiv. rewrite !Rmult_1_l. revert IC. generalize (/ @nc R _). intros w IC. rewrite Rinv_1. lra.
Qed.
