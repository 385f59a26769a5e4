(* Properties C01-C09: tracking of single particles, trajectories. *)
From Coq Require Import ZArith Reals Lra Lia List.
From Verif Require Import Base BaseFacts Num VecModel VecFacts ParticleModel ParticleSpec
  ParticleSpec2 ParticleProofs ParticleProofs2 ParticleProofs3 ParticleProofs5 VaySpec VayProofs VayTracking
  VayTracking2 NumChecked NumCheckedProofs.
Import ListNotations.
Local Open Scope R_scope.

(* ---- a concrete particle and a concrete field used as examples ---- *)
Definition ex_start : particle R :=
  initTrajectory 1 (V 0 0 2) (V 0 3 4) vzero (new_particle (-1) 1).
Definition ex_field : field_fn R :=
  total_field (fun t x => EB (V t 0 (vx x)) (V 0 (vz x) 1)).
Lemma ex_start_wf : wf ex_start.
Proof. unfold wf; cbn; lia. Qed.
Lemma ex_setup dt : exists p, InitVay dt ex_field ex_start = Ok p.
Proof.
  exact (setup_nonempty ex_start dt ex_field 1 (V 0 0 2) (V 0 3 4) vzero [] ex_start_wf eq_refl).
Qed.
Lemma ex_tracked dt : exists p, tracked dt p /\ pNP p = 4%Z.
Proof.
  destruct (ex_setup dt) as [p1 H1].
  destruct (total_field_defined (fun t x => EB (V t 0 (vx x)) (V 0 (vz x) 1)) 3 p1) as [q Hq].
  exists q. assert (Hw : wf p1) by (apply (wf_apply ex_start p1 (OpSetup dt ex_field)); [apply ex_start_wf|exact H1]).
  destruct (StepsVay_trajectory _ 3 p1 q Hw Hq) as (_ & _ & _ & _ & _ & HN).
  split.
  - exists ex_start, p1, ex_field, [ex_field; ex_field; ex_field].
    split; [apply ex_start_wf|]. split; [exact H1|]. rewrite StepsVay_run in Hq. exact Hq.
  - rewrite HN. destruct (InitVay_trajectory _ _ _ _ ex_start_wf H1) as (i & l & a & A & B & _).
    pose proof (trajectory_length p1 Hw) as L. rewrite B, app_length in L.
    assert (length i = 0%nat) by (assert (X := f_equal (@length _) A); rewrite app_length in X; cbn in X; lia).
    cbn [length] in L. lia.
Qed.

(* ==== C01 ==== *)
Theorem C01_gamma_and_momentum_agree : forall dt (p : particle R),
  tracked dt p ->
  pVg p * pVg p = 1 + vabs2 (pVp p) /\ 1 <= pVg p /\ vnorm (vdiv (pVp p) (pVg p)) < 1.
Proof. exact tracked_gamma. Qed.
Print Assumptions C01_gamma_and_momentum_agree.
Example C01_gamma_and_momentum_agree_ex : exists p, tracked (-(1/3)) p.
Proof. destruct (ex_tracked (-(1/3))) as (p & H & _). exists p; exact H. Qed.

(* The whole run (set-up and any number of steps in any fields), executed with
   numbers which have no value after an invalid operation, gives exactly the
   values (all valid) of the run with real numbers. *)
Theorem C01_no_invalid_operation : forall dt F0 Fs (p0 : particle R),
  wf p0 -> pMass p0 <> 0 ->
  bind (@InitVay _ NumChk (Some dt) (lfield F0) (lp p0)) (@run_steps _ NumChk (map lfield Fs))
  = lres lp (bind (InitVay dt F0 p0) (run_steps Fs)).
Proof.
  intros dt F0 Fs p0 Hw Hm. rewrite (InitVay_checked dt F0 p0 Hm).
  destruct (InitVay dt F0 p0) as [p1|e| |] eqn:E; [|reflexivity..]. cbn [lres bind].
  apply (run_steps_checked dt). exists p0, p1, F0, []. repeat split; auto; apply Hw.
Qed.
Print Assumptions C01_no_invalid_operation.
Example C01_no_invalid_operation_ex :
  wf ex_start /\ pMass ex_start <> 0 /\
  exists q, bind (InitVay 2 ex_field ex_start) (run_steps [zero_field; ex_field]) = Ok q.
Proof.
  split; [apply ex_start_wf|]. split; [cbn; lra|].
  destruct (ex_setup 2) as [p1 H1]. rewrite H1. cbn [bind]. unfold run_steps. cbn [fold_res].
  unfold StepVay at 1, zero_field at 1, total_field at 1. cbn [bind]. destruct (vay_half _ _ _ _). cbn [bind].
  unfold StepVay at 1, ex_field at 1, total_field at 1. cbn [bind]. destruct (vay_half _ _ _ _). cbn [bind].
  eexists; reflexivity.
Qed.

(* ==== C02 ==== *)
Theorem C02_step_solves_equation_of_motion : forall dt F (p q : particle R),
  tracked dt p -> StepVay F p = Ok q ->
  exists eb,
    F (pt q) (pX q) = Ok eb /\
    pt q = pt p + dt /\
    pX q = vadd (pX p) (vmul (beta_of (pVp p)) (nc * dt)) /\
    pP q = vadd (pVp p) (vmul (lorentz (beta_of (pVp p)) (fE eb) (fB eb))
                              (charge_over_mass (pCharge p) (pMass p) * dt / 2)) /\
    pVp q = vadd (pVp p)
              (vmul (lorentz (vmean (beta_of (pVp p)) (beta_of (pVp q))) (fE eb) (fB eb))
                    (charge_over_mass (pCharge p) (pMass p) * dt)) /\
    (forall u : vec R,
       u = vadd (pVp p)
              (vmul (lorentz (vmean (beta_of (pVp p)) (beta_of u)) (fE eb) (fB eb))
                    (charge_over_mass (pCharge p) (pMass p) * dt)) ->
       u = pVp q) /\
    pA q = vmul (lorentz (beta_of (pP q)) (fE eb) (fB eb))
                (charge_over_mass (pCharge p) (pMass p)).
Proof. exact step_equation. Qed.
Print Assumptions C02_step_solves_equation_of_motion.
Example C02_step_ex : exists p q, tracked 2 p /\ StepVay ex_field p = Ok q.
Proof.
  destruct (ex_tracked 2) as (p & H & _).
  destruct (total_field_defined (fun t x => EB (V t 0 (vx x)) (V 0 (vz x) 1)) 1 p) as [q Hq].
  exists p, q. split; [exact H|]. unfold StepsVay in Hq. cbn [iter_res] in Hq.
  bget Hq as r Hr. okinj Hq. exact Hr.
Qed.

Theorem C02_setup_solves_half_step : forall dt F (p q : particle R),
  wf p -> InitVay dt F p = Ok q ->
  exists eb,
    F (pt q) (pX q) = Ok eb /\
    pVp q = vadd (pP q) (vmul (lorentz (beta_of (pVp q)) (fE eb) (fB eb))
                              (charge_over_mass (pCharge p) (pMass p) * dt / 2)) /\
    (forall u : vec R,
       u = vadd (pP q) (vmul (lorentz (beta_of u) (fE eb) (fB eb))
                              (charge_over_mass (pCharge p) (pMass p) * dt / 2)) -> u = pVp q).
Proof. exact setup_equation. Qed.
Print Assumptions C02_setup_solves_half_step.
Example C02_setup_ex : wf ex_start /\ exists q, InitVay 2 ex_field ex_start = Ok q.
Proof. split; [apply ex_start_wf|apply ex_setup]. Qed.

(* ==== C03 ==== *)
Theorem C03_magnetic_field_does_no_work : forall dt Fs (p q : particle R),
  tracked dt p -> run_steps Fs p = Ok q ->
  (forall F, In F Fs -> forall t x eb, F t x = Ok eb -> fE eb = vzero) ->
  pVg q = pVg p /\ vnorm (pVp q) = vnorm (pVp p).
Proof. exact run_no_work. Qed.
Print Assumptions C03_magnetic_field_does_no_work.
Definition ex_magnet : field_fn R := total_field (fun t x => EB vzero (V t (vz x) 1)).
Example C03_ex : exists p q, tracked 2 p /\ run_steps [ex_magnet; ex_magnet] p = Ok q /\
  (forall F, In F [ex_magnet; ex_magnet] -> forall t x eb, F t x = Ok eb -> fE eb = vzero).
Proof.
  destruct (ex_tracked 2) as (p & H & _).
  destruct (total_field_defined (fun t x => EB vzero (V t (vz x) 1)) 2 p) as [q Hq].
  exists p, q. split; [exact H|]. split; [rewrite StepsVay_run in Hq; exact Hq|].
  intros F [<-|[<-|[]]] t x eb E; unfold ex_magnet, total_field in E; okinj E; reflexivity.
Qed.

(* work-energy balance with electric fields: the energy gained in one step is the
   work of the electric field along the mean velocity, up to the stated positive
   factor (which tends to 2 for small steps) *)
Theorem C03_work_energy_balance : forall dt F (p q : particle R),
  tracked dt p -> StepVay F p = Ok q ->
  exists eb, F (pt q) (pX q) = Ok eb /\
  (pVg q - pVg p) * (1 + (1 + vdot (pVp p) (pVp q)) / (pVg p * pVg q)) =
  charge_over_mass (pCharge p) (pMass p) * dt *
    vdot (vdiv (fE eb) nc) (vadd (beta_of (pVp p)) (beta_of (pVp q))).
Proof. exact step_energy. Qed.
Print Assumptions C03_work_energy_balance.

(* ==== C04 ==== *)
Theorem C04_field_free_motion : forall dt n k (p p1 q : particle R),
  wf p -> InitVay dt zero_field p = Ok p1 -> StepsVay zero_field n p1 = Ok q -> (k <= n)%nat ->
  nth_error (trajectory q) (length (trajectory p) - 1 + k) =
    Some (TP (pt p1 + INR k * dt)
             (vadd (pX p1) (vmul (beta_of (pP p1)) (INR k * dt * nc))) (pP p1) vzero).
Proof. exact field_free_trajectory. Qed.
Print Assumptions C04_field_free_motion.
Theorem C04_start_point : forall dt F (p p1 : particle R),
  InitVay dt F p = Ok p1 ->
  lback (pTimes p) = Ok (pt p1) /\ lback (pXs p) = Ok (pX p1) /\ lback (pPs p) = Ok (pP p1).
Proof. intros dt F p p1 H. destruct (InitVay_end _ _ _ _ H) as (_ & _ & _ & _ & _ & H1). exact H1. Qed.
Print Assumptions C04_start_point.
Example C04_ex : exists p1 q, wf ex_start /\ InitVay 3 zero_field ex_start = Ok p1 /\
  StepsVay zero_field 5 p1 = Ok q.
Proof.
  pose proof (setup_nonempty ex_start 3 zero_field 1 (V 0 0 2) (V 0 3 4) vzero [] ex_start_wf eq_refl) as H.
  cbn in H. destruct H as [p1 H1]. destruct (zero_field_defined 5 p1) as [q Hq].
  exists p1, q. split; [apply ex_start_wf|]. auto.
Qed.

(* ==== C05 ==== *)
(* every history of operations on a new particle keeps the four sequences at the
   reported length *)
Theorem C05_sequences_consistent : forall (T : Type) (NT : Num T) (c m : T) ops q,
  run_ops ops (new_particle c m) = Ok q -> wf q.
Proof. intros T NT c m ops q H. exact (wf_run ops _ q (wf_new c m) H). Qed.
Print Assumptions C05_sequences_consistent.
(* the current point is the last stored one, after every history without
   Shift/Mirror (for these see C08) *)
Theorem C05_current_is_last : forall (T : Type) (NT : Num T) (c m : T) ops q,
  forallb (fun o => negb (is_move o)) ops = true ->
  run_ops ops (new_particle c m) = Ok q -> (0 < pNP q)%Z ->
  nth_error (trajectory q) (length (trajectory q) - 1) = Some (current q).
Proof.
  intros T NT c m ops q Hm H Hn. apply synced_last; auto.
  - exact (wf_run ops _ q (wf_new c m) H).
  - eapply synced_run; eauto. left; reflexivity.
Qed.
Print Assumptions C05_current_is_last.
(* one step appends exactly the new current point *)
Theorem C05_step_appends : forall (T : Type) (NT : Num T) F (p q : particle T),
  wf p -> StepVay F p = Ok q ->
  trajectory q = trajectory p ++ [current q] /\ pNP q = (pNP p + 1)%Z /\ pt q = nadd (pt p) (pdt p).
Proof.
  intros T NT F p q Hw H. destruct (StepVay_trajectory F p q Hw H) as (A & B & _ & _ & _ & _ & _ & C).
  auto.
Qed.
Print Assumptions C05_step_appends.
(* set-up keeps the stored points, except that it recomputes the acceleration of
   the last one *)
Theorem C05_setup_keeps_points : forall (T : Type) (NT : Num T) dt F (p q : particle T),
  wf p -> InitVay dt F p = Ok q ->
  exists init last a', trajectory p = init ++ [last] /\
    trajectory q = init ++ [TP (tpt last) (tpx last) (tpp last) a'].
Proof.
  intros T NT dt F p q Hw H. destruct (InitVay_trajectory dt F p q Hw H) as (i & l & a & A & B & _).
  exists i, l, a. auto.
Qed.
Print Assumptions C05_setup_keeps_points.
Theorem C05_time_stamps : forall dt F n k (p q : particle R),
  tracked dt p -> StepsVay F n p = Ok q -> (k <= n)%nat ->
  exists a, nth_error (trajectory q) (length (trajectory p) - 1 + k) = Some a /\
            tpt a = pt p + INR k * dt.
Proof. exact tracked_time_stamps. Qed.
Print Assumptions C05_time_stamps.
Example C05_ex : exists q,
  run_ops [OpInitTraj 0 vzero (V 0 0 9) vzero; OpAlloc 10; OpSetup 2 ex_field; OpStep ex_field;
           OpFromBuffer 7 vzero vzero vzero]
          (new_particle 5 3) = Ok q /\ (0 < pNP q)%Z.
Proof.
  unfold run_ops. cbn [fold_res apply_op bind].
  set (p1 := initTrajectory _ _ _ _ _).
  destruct (preAllocate 10 p1) as [p2| | |] eqn:E2; try discriminate E2. cbn [bind].
  assert (Hw : wf p2) by (unfold preAllocate, p1 in E2; cbn in E2; okinj E2; unfold wf; cbn; lia).
  pose proof (setup_nonempty p2 2 ex_field 0 vzero (V 0 0 9) vzero [] Hw) as H.
  destruct H as [p3 H3]; [unfold preAllocate, p1 in E2; cbn in E2; okinj E2; reflexivity|].
  rewrite H3. cbn [bind].
  destruct (total_field_defined (fun t x => EB (V t 0 (vx x)) (V 0 (vz x) 1)) 1 p3) as [p4 H4].
  unfold StepsVay in H4. cbn [iter_res] in H4. bget H4 as r H5. okinj H4. unfold ex_field.
  rewrite H5. cbn [bind]. eexists. split; [reflexivity|].
  assert (Hw3 : wf p3) by (apply (wf_apply p2 p3 (OpSetup 2 ex_field) Hw H3)).
  assert (Hw4 : wf r) by (apply (wf_apply p3 r (OpStep _) Hw3 H5)).
  cbn [storeTrajectoryPoint setCurrentPoint pNP]. destruct Hw4 as [Hn _]. lia.
Qed.

(* ==== C06 ==== *)
Theorem C06_time_reversal : forall dt F (p p1 : particle R) n pn,
  wf p -> InitVay dt F p = Ok p1 -> StepsVay F n p1 = Ok pn ->
  exists q0 qn, InitVay (- dt) F pn = Ok q0 /\ StepsVay F n q0 = Ok qn /\
  forall k, (k <= n)%nat ->
  exists a b,
    nth_error (trajectory pn) (length (trajectory pn) - 1 - k) = Some a /\
    nth_error (trajectory qn) (length (trajectory pn) - 1 + k) = Some b /\
    tpt a = tpt b /\ tpx a = tpx b /\ tpp a = tpp b.
Proof. exact retrace. Qed.
Print Assumptions C06_time_reversal.
Example C06_ex : exists p1 pn, wf ex_start /\ InitVay 2 ex_field ex_start = Ok p1 /\
  StepsVay ex_field 7 p1 = Ok pn.
Proof.
  destruct (ex_setup 2) as [p1 H1].
  destruct (total_field_defined (fun t x => EB (V t 0 (vx x)) (V 0 (vz x) 1)) 7 p1) as [q Hq].
  exists p1, q. split; [apply ex_start_wf|]. auto.
Qed.

(* ==== C07 (the retarded-field part is in PropRetard.v) ==== *)
Theorem C07_setup_without_trajectory_throws : forall (T : Type) (NT : Num T) (p : particle T) dt F,
  wf p -> trajectory p = [] -> InitVay dt F p = Throw RANGEexc.
Proof. intros T NT p dt F. apply setup_empty. Qed.
Print Assumptions C07_setup_without_trajectory_throws.
(* and on a particle with trajectory it ends as the field query at the last point *)
Theorem C07_setup_with_trajectory : forall (T : Type) (NT : Num T) (p : particle T) dt F t x m a i,
  wf p -> trajectory p = i ++ [TP t x m a] ->
  match F t x with
  | Ok _ => exists q, InitVay dt F p = Ok q
  | Throw e => InitVay dt F p = Throw e
  | UB => InitVay dt F p = UB
  | Loop => InitVay dt F p = Loop
  end.
Proof. intros T NT p dt F t x m a i. apply setup_nonempty. Qed.
Print Assumptions C07_setup_with_trajectory.
Theorem C07_access_inside : forall (T : Type) (p : particle T) i,
  wf p -> (0 <= i < pNP p)%Z ->
  exists a, nth_error (trajectory p) (Z.to_nat i) = Some a /\
    TrajTime p i = Ok (tpt a) /\ TrajPoint p i = Ok (tpx a) /\
    TrajMomentum p i = Ok (tpp a) /\ TrajAccel p i = Ok (tpa a).
Proof. intros T p i. apply access_inside. Qed.
Print Assumptions C07_access_inside.
Theorem C07_access_outside : forall (T : Type) (p : particle T) i,
  (i < 0 \/ pNP p <= i)%Z ->
  TrajTime p i = Throw IOexc /\ TrajPoint p i = Throw IOexc /\
  TrajMomentum p i = Throw IOexc /\ TrajAccel p i = Throw IOexc.
Proof. intros T p i. apply access_outside. Qed.
Print Assumptions C07_access_outside.
Example C07_ex : wf (new_particle (-1) 1) /\ trajectory (new_particle (-1) 1) = [] /\
  wf ex_start /\ trajectory ex_start = [TP 1 (V 0 0 2) (V 0 3 4) vzero] /\ pNP ex_start = 1%Z.
Proof. split; [apply wf_new|]. split; [reflexivity|]. split; [apply ex_start_wf|]. split; reflexivity. Qed.
(* A particle which has a point but was not set up: a step is not refused.  It stores a second
   point at the same time and place, with the momentum zero. *)
Theorem C07_step_without_setup : forall charge mass t x m a (F : field_fn R) e b,
  F t x = Ok (EB e b) ->
  exists q a', StepVay F (initTrajectory t x m a (new_particle charge mass)) = Ok q /\
    trajectory q = [TP t x m a; TP t x (V 0 0 0) a'] /\ pNP q = 2%Z.
Proof. exact step_without_setup. Qed.
Print Assumptions C07_step_without_setup.
Example C07_step_without_setup_ex : (fun (t : R) (x : vec R) => Ok (EB x x)) 1 (V 1 2 3) = Ok (EB (V 1 2 3) (V 1 2 3)).
Proof. reflexivity. Qed.

(* ==== C08 ==== *)
(* The full property: every stored point is moved. *)
Definition shifts_all (d : vec R) (p q : particle R) : Prop :=
  forall i a, nth_error (trajectory p) i = Some a ->
    nth_error (trajectory q) i = Some (TP (tpt a) (vadd (tpx a) d) (tpp a) (tpa a)).
Definition mirrors_all (o n : vec R) (p q : particle R) : Prop :=
  forall i a, nth_error (trajectory p) i = Some a ->
    exists b, nth_error (trajectory q) i = Some b /\ tpt b = tpt a /\
      mirror_image o n (tpx a) (tpx b) /\ mirror_direction n (tpp a) (tpp b) /\
      mirror_direction n (tpa a) (tpa b).
(* What the code does: all points but the last one are moved; the charge is scaled;
   the operation always succeeds.  Missing for C08: the last stored point. *)
Theorem C08_shift_partial : forall d f (p : particle R), wf p ->
  exists q, Shift d f p = Ok q /\ pCharge q = pCharge p * f /\ pNP q = pNP p /\
  pX q = vadd (pX p) d /\
  forall i a, nth_error (trajectory p) i = Some a -> (Z.of_nat i < pNP p - 1)%Z ->
    nth_error (trajectory q) i = Some (TP (tpt a) (vadd (tpx a) d) (tpp a) (tpa a)).
Proof.
  intros d f p Hw. destruct (Shift_defined d f p Hw) as [q Hq]. exists q. split; [exact Hq|].
  destruct (Shift_points d f p q Hw Hq) as (A & B & C & D). repeat split; auto.
  intros i a Ha Hi. rewrite (D i a Ha). destruct (Z.ltb_spec (Z.of_nat i) (pNP p - 1)); [reflexivity|lia].
Qed.
Print Assumptions C08_shift_partial.
Theorem C08_mirror_partial : forall o n f (p : particle R), wf p -> n <> vzero ->
  exists q, Mirror o n f p = Ok q /\ pCharge q = pCharge p * f /\ pNP q = pNP p /\
  mirror_image o n (pX p) (pX q) /\
  forall i a, nth_error (trajectory p) i = Some a -> (Z.of_nat i < pNP p - 1)%Z ->
    exists b, nth_error (trajectory q) i = Some b /\ tpt b = tpt a /\
      mirror_image o n (tpx a) (tpx b) /\ mirror_direction n (tpp a) (tpp b) /\
      mirror_direction n (tpa a) (tpa b).
Proof.
  intros o n f p Hw Hn. destruct (Mirror_defined o n f p Hw) as [q Hq]. exists q. split; [exact Hq|].
  destruct (Mirror_points o n f p q Hw Hq) as (A & B & C & D). split; [exact A|]. split; [exact B|].
  split; [rewrite C; apply mirror_pos_image, Hn|].
  intros i a Ha Hi. eexists. split; [rewrite (D i a Ha); reflexivity|].
  destruct (Z.ltb_spec (Z.of_nat i) (pNP p - 1)); [|lia]. cbn [tpt tpx tpp tpa].
  repeat split; try (apply mirror_pos_image, Hn); apply mirror_dir_image, Hn.
Qed.
Print Assumptions C08_mirror_partial.
(* the last stored point of every particle is left where it was, so the full
   property fails for every non-empty trajectory and every real displacement *)
Theorem C08_shift_refuted : forall d f (p q : particle R),
  wf p -> trajectory p <> [] -> d <> vzero -> Shift d f p = Ok q -> ~ shifts_all d p q.
Proof.
  intros d f p q Hw Hne Hd Hq Hall. pose proof (trajectory_length p Hw) as HL.
  destruct (exists_last Hne) as (i & a & Ht).
  assert (Ha : nth_error (trajectory p) (length i) = Some a).
  { rewrite Ht, nth_error_app2, Nat.sub_diag by lia. reflexivity. }
  rewrite Ht, app_length in HL. cbn [length] in HL.
  destruct (Shift_points d f p q Hw Hq) as (_ & _ & _ & D).
  pose proof (D _ a Ha) as D1. rewrite (Hall _ a Ha) in D1.
  destruct (Z.ltb_spec (Z.of_nat (length i)) (pNP p - 1)); [lia|].
  apply Hd. injection D1 as D1. apply (f_equal tpx) in D1. cbn [tpx] in D1.
  revert D1. generalize (tpx a). clear. intros x H. destruct x as [x1 x2 x3], d as [d1 d2 d3].
  unfold vadd in H. cbn in H. injection H as H1 H2 H3. unfold vzero. cbn. f_equal; lra.
Qed.
Print Assumptions C08_shift_refuted.
Theorem C08_mirror_refuted : exists (o n : vec R) f (p q : particle R),
  wf p /\ n <> vzero /\ Mirror o n f p = Ok q /\ ~ mirrors_all o n p q.
Proof.
  exists vzero, (V 0 0 1), 1, ex_start.
  destruct (Mirror_defined vzero (V 0 0 1) 1 ex_start ex_start_wf) as [q Hq]. exists q.
  assert (Hn : V 0 0 1 <> vzero).
  { unfold vzero; cbn; intros H; injection H as H; lra. }
  split; [apply ex_start_wf|]. split; [exact Hn|]. split; [exact Hq|]. intros Hall.
  destruct (Mirror_points _ _ _ _ q ex_start_wf Hq) as (_ & _ & _ & D).
  destruct (Hall 0%nat _ eq_refl) as (b & Hb & _ & Hm & _).
  rewrite (D 0%nat _ eq_refl) in Hb. injection Hb as <-. cbn in Hm. destruct Hm as [_ Hm].
  cbv [vmean] in Hm. vunfold_in Hm. unnum_in Hm. lra.
Qed.
Print Assumptions C08_mirror_refuted.
(* The current point is mirrored completely.  The state of the tracking (momentum at the
   end of the step) is not: the next step goes on in the old direction from the mirrored place. *)
Theorem C08_mirror_step_refuted : forall o n f (p q : particle R), n <> vzero -> Mirror o n f p = Ok q ->
  pt q = pt p /\ mirror_image o n (pX p) (pX q) /\ mirror_direction n (pP p) (pP q) /\ mirror_direction n (pA p) (pA q) /\
  pqm q = pqm p * f /\ pqmt2 q = pqmt2 p * f /\
  forall F q', StepVay F q = Ok q' -> pX q' = vadd (pX q) (vmul (vmul (vdiv (pVp p) (pVg p)) nc) (pdt p)).
Proof.
  intros o n f p q Hn H. unfold Mirror in H. bget H as xs Hxs. bget H as ps Hps. bget H as acs Hacs. okinj H.
  cbn [pt pX pP pA pqm pqmt2]. split; [reflexivity|]. split; [apply mirror_pos_image, Hn|]. split; [apply mirror_dir_image, Hn|].
  split; [apply mirror_dir_image, Hn|]. split; [reflexivity|]. split; [reflexivity|].
  intros F q' H. unfold StepVay in H. cbn [pVp pVg pt pdt pX] in H. bget H as eb Heb.
  destruct (vay_half _ _ _ _) as [p1 g]. okinj H. reflexivity.
Qed.
Print Assumptions C08_mirror_step_refuted.
Theorem C08_shift_step : forall d f (p q : particle R), Shift d f p = Ok q ->
  pt q = pt p /\ pX q = vadd (pX p) d /\ pP q = pP p /\ pA q = pA p /\ pqm q = pqm p * f /\ pqmt2 q = pqmt2 p * f /\
  pVp q = pVp p /\ pVg q = pVg p /\ pdt q = pdt p.
Proof. intros d f p q H. unfold Shift in H. bget H as xs Hxs. okinj H. repeat split; reflexivity. Qed.
Print Assumptions C08_shift_step.
Example C08_ex : exists p : particle R, wf p /\ pNP p = 4%Z /\ V 0 0 1 <> @vzero R NumR.
Proof.
  destruct (ex_tracked 2) as (p & H & HN). exists p. split; [apply (tracked_tstate _ _ H)|].
  split; [exact HN|]. unfold vzero; cbn; intros E; injection E as E; lra.
Qed.

(* ==== C09 ==== *)
Theorem C09_coordinates_at_time : forall (p : particle R) time,
  wf p -> increasing (pTimes p) ->
  ((forall a, In a (trajectory p) -> time < tpt a) -> CoordinatesAtTime p time = Ok (vzero, vzero)) /\
  ((forall a, In a (trajectory p) -> tpt a < time) -> CoordinatesAtTime p time = Ok (vzero, vzero)) /\
  (forall i a, nth_error (trajectory p) i = Some a -> time = tpt a ->
     CoordinatesAtTime p time = Ok (tpx a, tpp a)) /\
  (forall i a b, nth_error (trajectory p) i = Some a -> nth_error (trajectory p) (S i) = Some b ->
     tpt a <= time <= tpt b ->
     CoordinatesAtTime p time = Ok (lin_interp (tpt a) (tpt b) (tpx a) (tpx b) time,
                                    lin_interp (tpt a) (tpt b) (tpp a) (tpp b) time)).
Proof. exact CoordinatesAtTime_spec. Qed.
Print Assumptions C09_coordinates_at_time.
Example C09_ex :
  let p := storeTrajectoryPoint 5 (V 1 1 1) vzero vzero
             (storeTrajectoryPoint 2 (V 0 0 3) (V 0 0 1) vzero ex_start) in
  wf p /\ increasing (pTimes p) /\ pNP p = 3%Z.
Proof.
  split; [unfold wf; cbn; lia|]. split; [|reflexivity].
  intros [|[|[|i]]] [|[|[|j]]] a b Hij Ha Hb; cbn in Ha, Hb; try lia;
    repeat match goal with H : nth_error [] _ = Some _ |- _ => destruct i || destruct j; discriminate H end;
    try discriminate; injection Ha as <-; injection Hb as <-; lra.
Qed.
