(* Properties C07 (retarded fields), C10-C13, C59: signals and fields of moving charges. *)
From Coq Require Import ZArith Reals Lra Lia Psatz List.
From Verif Require Import Base BaseFacts Num VecModel VecFacts ParticleModel ParticleSpec
  ParticleSpec2 ParticleProofs ParticleProofs2 VaySpec VayProofs VayTracking VayTracking2
  TraceModel RetardModel RetardSpec RetardProofs RetardProofs2 RetardProofs3.
Import ListNotations.
Local Open Scope R_scope.

(* ==== C07 ==== *)
Theorem C07_field_without_trajectory_throws :
  forall (T : Type) (NT : Num T) (p : particle T) t obs,
  wf p -> trajectory p = [] -> RetardedField_time p t obs = Throw RANGEexc.
Proof. intros T NT p t obs. apply RetardedField_time_empty. Qed.
Print Assumptions C07_field_without_trajectory_throws.
(* with a trajectory the computation always ends and never leaves the stored data,
   in any arithmetic (also with NaN) *)
Theorem C07_field_with_trajectory :
  forall (T : Type) (NT : Num T) (p : particle T) t obs,
  wf p -> trajectory p <> [] -> exists f, RetardedField_time p t obs = Ok f.
Proof. intros T NT p t obs. apply RetardedField_time_defined. Qed.
Print Assumptions C07_field_with_trajectory.
Theorem C07_retarded_outside : forall (T : Type) (NT : Num T) (p : particle T) i obs,
  (i < 0 \/ pNP p <= i)%Z ->
  RetardedTime p i obs = Throw IOexc /\ RetardedField_index p i obs = Throw IOexc.
Proof. intros T NT p i obs. apply Retarded_outside. Qed.
Print Assumptions C07_retarded_outside.
Theorem C07_retarded_inside : forall (T : Type) (NT : Num T) (p : particle T) i obs,
  wf p -> (0 <= i < pNP p)%Z ->
  exists t f, RetardedTime p i obs = Ok t /\ RetardedField_index p i obs = Ok f.
Proof.
  intros T NT p i obs Hw Hi. destruct (access_inside p i Hw Hi) as (a & Ha & _).
  destruct (Retarded_inside p _ a obs Hw Ha) as [A B]. rewrite Z2Nat.id in A, B by lia.
  rewrite A, B. do 2 eexists. split; reflexivity.
Qed.
Print Assumptions C07_retarded_inside.

Definition ex_track : particle R :=
  storeTrajectoryPoint 1 (V 0 0 1) (V 0 0 3) vzero
    (initTrajectory 0 vzero (V 0 0 4) (V 1 0 0) (new_particle (-1) 1)).
Lemma ex_track_wf : wf ex_track.
Proof. unfold wf; cbn; lia. Qed.
Example C07_retarded_ex : wf (new_particle (-1) 1) /\ trajectory (new_particle (-1) 1) = [] /\
  wf ex_track /\ trajectory ex_track <> [] /\ pNP ex_track = 2%Z.
Proof. split; [apply wf_new|]. split; [reflexivity|]. split; [apply ex_track_wf|]. split; [discriminate|reflexivity]. Qed.

(* ==== C10 ==== *)
Theorem C10_radiation_geometry : forall (p : particle R) i a obs,
  wf p -> nth_error (trajectory p) i = Some a -> obs <> tpx a ->
  exists f, RetardedField_index p (Z.of_nat i) obs = Ok f /\
    fB f = vmul (vcross (direction (vsub obs (tpx a))) (fE f)) (/ nc) /\
    vdot (fE f) (fB f) = 0 /\ vdot (direction (vsub obs (tpx a))) (fB f) = 0 /\
    vnorm (fB f) <= vnorm (fE f) / nc.
Proof.
  intros p i a obs Hw Ha Hne. eexists. split; [apply RetardedField_index_point; eauto|].
  apply with_magnetic_geometry, Hne.
Qed.
Print Assumptions C10_radiation_geometry.
(* [direction] is the unit vector *)
Theorem C10_direction_is_unit : forall v : vec R, v <> vzero ->
  vnorm (direction v) = 1 /\ vmul (direction v) (vnorm v) = v.
Proof.
  intros v Hv. split; [exact (vnormalize_unit v Hv)|]. pose proof (vnorm_pos v Hv) as H.
  unfold direction. revert H. generalize (vnorm v). intros r Hr. clear Hv.
  vdestr; vunfold; unnum; vsplit; field; lra.
Qed.
Print Assumptions C10_direction_is_unit.
Theorem C10_coulomb_field_at_rest : forall (p : particle R) i a obs,
  wf p -> nth_error (trajectory p) i = Some a -> obs <> tpx a ->
  tpp a = vzero -> tpa a = vzero ->
  RetardedField_index p (Z.of_nat i) obs =
    Ok (EB (vmul (vsub obs (tpx a))
              (pCharge p * nqe / (4 * PI * neps0) / vnorm (vsub obs (tpx a)) ^ 3)) vzero).
Proof.
  intros p i a obs Hw Ha Hne Hp Hac.
  destruct (RetardedField_index_point p i a obs Hw Ha) as [-> _]. f_equal.
  unfold point_field. rewrite Hp, Hac.
  replace (beta_of vzero) with (@vzero R _).
  2:{ unfold beta_of. generalize (gamma_of vzero). intros g. vunfold; unnum. unfold Rdiv. vsplit; ring. }
  replace (vmul vzero (/ gamma_of vzero)) with (@vzero R _)
    by (generalize (/ gamma_of vzero); vring).
  apply coulomb_at_rest, Hne.
Qed.
Print Assumptions C10_coulomb_field_at_rest.
Example C10_ex : wf ex_track /\
  nth_error (trajectory ex_track) 0 = Some (TP 0 vzero (V 0 0 4) (V 1 0 0)) /\ V 1 2 3 <> @vzero R _.
Proof. split; [apply ex_track_wf|]. split; [reflexivity|]. intros H. injection H. cbn. lra. Qed.
Example C10_rest_ex :
  let p := initTrajectory 7 (V 1 1 1) vzero vzero (new_particle (-1) 1) in
  wf p /\ nth_error (trajectory p) 0 = Some (TP 7 (V 1 1 1) vzero vzero) /\ V 1 2 3 <> V 1 1 1.
Proof. split; [unfold wf; cbn; lia|]. split; [reflexivity|]. intros H. injection H. lra. Qed.

(* ==== C11 ==== *)
(* The full property: the field is that of a charge which has always been moving
   uniformly, i.e. the Heaviside field of the present position, where the motion
   is the continuation of the first stored point. *)
Definition present_position (a : tpoint R) (t : R) : vec R :=
  vadd (tpx a) (vmul (beta_of (tpp a)) (nc * (t - tpt a))).
Definition uniform_motion_field (charge : R) (a : tpoint R) (t : R) (obs : vec R) : emf R :=
  let b := beta_of (tpp a) in
  let e := heaviside charge (present_position a t) b obs in
  EB e (vmul (vcross b e) (/ nc)).

(* Proved for trajectories which start at time zero; see C11_start_time_refuted
   for all others. *)
Theorem C11_uniform_motion_partial : forall (p : particle R) t obs a,
  wf p -> nth_error (trajectory p) 0 = Some a -> tpt a = 0 ->
  (forall b, In b (trajectory p) -> t <= arrival obs b) ->
  obs <> present_position a t ->
  RetardedField_time p t obs = Ok (uniform_motion_field (pCharge p) a t obs) /\
  (* the emission point is on the backward light cone of the observer, before the start *)
  exists T, T <= 0 /\
    vnorm (vsub obs (present_position a T)) = nc * (t - T) /\ 0 < t - T /\
    RetardedField_time p t obs =
      Ok (with_magnetic (present_position a T) obs
            (lienard_wiechert (pCharge p) (present_position a T) (beta_of (tpp a)) vzero obs)).
Proof.
  intros p t obs a Hw Ha H0 Hall Hne. unfold uniform_motion_field, present_position in *.
  rewrite H0, Rminus_0_r in *.
  rewrite (before_start p t obs a Hw Ha Hall).
  destruct (uniform_motion (pCharge p) (tpx a) (tpp a) t obs Hne) as (A & B & C).
  split; [rewrite C; reflexivity|].
  exists (emission (beta_of (tpp a)) (vdiv (vsub obs (tpx a)) nc) t). rewrite Rminus_0_r.
  split; [|auto].
  destruct (emission_facts (beta_of (tpp a)) (vdiv (vsub obs (tpx a)) nc) t (beta_abs2_lt _))
    as (_ & _ & _ & _ & _ & D). apply D.
  pose proof (Hall a (nth_error_In _ _ Ha)) as L. unfold arrival in L. rewrite H0, Rplus_0_l in L.
  pose proof nc_pos as Hc. rewrite vnorm_div by lra. rewrite Rabs_pos_eq by lra. exact L.
Qed.
Print Assumptions C11_uniform_motion_partial.
(* what the code computes for every start time: the field of a charge which is at
   the first stored position at time zero *)
Theorem C11_field_of_start_at_zero : forall (p : particle R) t obs a,
  wf p -> nth_error (trajectory p) 0 = Some a ->
  (forall b, In b (trajectory p) -> t <= arrival obs b) ->
  obs <> present_position (TP 0 (tpx a) (tpp a) (tpa a)) t ->
  RetardedField_time p t obs =
    Ok (uniform_motion_field (pCharge p) (TP 0 (tpx a) (tpp a) (tpa a)) t obs).
Proof.
  intros p t obs a Hw Ha Hall Hne. unfold uniform_motion_field, present_position in *.
  cbn [tpt tpx tpp] in *. rewrite Rminus_0_r in *.
  rewrite (before_start p t obs a Hw Ha Hall).
  destruct (uniform_motion (pCharge p) (tpx a) (tpp a) t obs Hne) as (A & B & C).
  rewrite C; reflexivity.
Qed.
Print Assumptions C11_field_of_start_at_zero.
(* for every other start time there is an observer for whom the electric field does
   not point along the line from the present position *)
Theorem C11_start_time_refuted : forall (ts m : R), ts <> 0 -> m <> 0 ->
  exists (p : particle R) t obs a f,
    wf p /\ trajectory p = [a] /\ tpt a = ts /\ tpp a = V m 0 0 /\
    (forall b, In b (trajectory p) -> t <= arrival obs b) /\ obs <> present_position a t /\
    RetardedField_time p t obs = Ok f /\
    vcross (fE f) (vsub obs (present_position a t)) <> vzero.
Proof.
  intros ts m Hts Hm.
  set (a := TP ts vzero (V m 0 0) (@vzero R _)).
  set (p := initTrajectory ts vzero (V m 0 0) vzero (new_particle (-1) 1)).
  assert (Hw : wf p) by (unfold wf; cbn; lia).
  assert (Ht : trajectory p = [a]) by reflexivity.
  set (obs := V 0 1 0 : vec R).
  assert (Hall : forall b, In b (trajectory p) -> ts <= arrival obs b).
  { rewrite Ht. intros b [<-|[]]. unfold arrival, a. cbn [tpt tpx].
    pose proof nc_pos. pose proof (vnorm_nonneg (vsub obs vzero)).
    assert (0 <= vnorm (vsub obs vzero) / nc) by (apply Rmult_le_pos; [assumption|left; apply Rinv_0_lt_compat; assumption]).
    lra. }
  assert (Hpres : present_position a ts = vzero).
  { unfold present_position, a. cbn [tpt tpx tpp]. rewrite Rminus_diag_eq by reflexivity.
    generalize (beta_of (V m 0 0)) (nc (T:=R)). vring. }
  pose proof (gamma_of_pos (V m 0 0)) as Hg.
  assert (Hbeta : beta_of (V m 0 0) = V (m / gamma_of (V m 0 0)) 0 0).
  { unfold beta_of. generalize dependent (gamma_of (V m 0 0)). intros g Hg. vunfold; unnum. vsplit; field; lra. }
  set (bx := m / gamma_of (V m 0 0)) in *.
  assert (Hbx : bx <> 0).
  { unfold bx. intros E. apply Hm. apply (Rmult_eq_compat_r (gamma_of (V m 0 0))) in E.
    unfold Rdiv in E. rewrite Rmult_assoc, Rinv_l in E by lra. lra. }
  assert (Hb1 : 0 < 1 - bx * bx).
  { pose proof (beta_abs2_lt (V m 0 0)) as H. rewrite Hbeta in H. unfold vabs2 in H. cbn in H. lra. }
  set (now := vadd vzero (vmul (beta_of (V m 0 0)) (nc * ts))).
  assert (Hnow : now = V (bx * (nc * ts)) 0 0).
  { unfold now. rewrite Hbeta. generalize (nc * ts). intros u. clear. vunfold; unnum. vsplit; ring. }
  assert (Hne : obs <> now).
  { rewrite Hnow. unfold obs. intros E. apply (f_equal vy) in E. cbn [vy] in E. lra. }
  exists p, ts, obs, a. eexists.
  split; [exact Hw|]. split; [exact Ht|]. split; [reflexivity|]. split; [reflexivity|].
  split; [exact Hall|]. split.
  { rewrite Hpres. unfold obs. intros E. apply (f_equal vy) in E. cbn in E. lra. }
  split; [apply (C11_field_of_start_at_zero p ts obs a Hw); [rewrite Ht; reflexivity|exact Hall|]|].
  { unfold present_position, a. cbn [tpt tpx tpp]. rewrite Rminus_0_r. exact Hne. }
  rewrite Hpres. unfold uniform_motion_field, present_position. cbn [tpt tpx tpp fE a].
  rewrite Rminus_0_r. fold now. unfold heaviside. cbv zeta. rewrite Hbeta, Hnow.
  set (k := coulomb_const (pCharge p) * _ / _).
  assert (Hk : k <> 0).
  { unfold k. match goal with |- context [sqrt ?d] => set (D := d) end.
    assert (HD : 0 < D).
    { unfold D, obs. vunfold; unnum. generalize (nc (T:=R)). intros c. nra. }
    pose proof (sqrt_lt_R0 _ HD) as Hs.
    assert (Hc : coulomb_const (pCharge p) <> 0).
    { apply coulomb_const_neq0. cbn. lra. }
    unfold Rdiv. apply Rmult_integral_contrapositive_currified.
    - apply Rmult_integral_contrapositive_currified; [exact Hc|]. unfold vabs2. cbn. lra.
    - apply Rinv_neq_0_compat. pose proof (pow_lt _ 3 Hs) as X. apply Rgt_not_eq. exact X. }
  clearbody k. intros E. apply (f_equal vz) in E. unfold obs in E.
  pose proof nc_pos as Hc. revert E Hc. generalize (nc (T:=R)). intros c E Hc.
  vunfold_in E. unnum_in E.
  assert (E' : bx * c * ts * k = 0) by lra.
  apply Rmult_integral in E'. destruct E' as [E'|E']; [|contradiction].
  apply Rmult_integral in E'. destruct E' as [E'|E']; [|contradiction].
  apply Rmult_integral in E'. destruct E' as [E'|E']; [contradiction|lra].
Qed.
Print Assumptions C11_start_time_refuted.
Example C11_ex : let p := initTrajectory 0 vzero (V 0 0 4) vzero (new_particle (-1) 1) in
  let a := TP 0 vzero (V 0 0 4) (@vzero R _) in
  wf p /\ nth_error (trajectory p) 0 = Some a /\ tpt a = 0 /\
  (forall b, In b (trajectory p) -> 0 <= arrival (V 1 0 0) b) /\ V 1 0 0 <> present_position a 0.
Proof.
  cbv zeta. split; [unfold wf; cbn; lia|]. split; [reflexivity|]. split; [reflexivity|]. split.
  - intros b [<-|[]]. unfold arrival. cbn [tpt tpx]. pose proof nc_pos as Hc.
    pose proof (vnorm_nonneg (vsub (V 1 0 0) (@vzero R _))).
    assert (0 <= vnorm (vsub (V 1 0 0) (@vzero R _)) / nc)
      by (apply Rmult_le_pos; [assumption|left; apply Rinv_0_lt_compat, Hc]). cbn [tpt]. lra.
  - unfold present_position. cbn [tpt tpx tpp]. intros E. apply (f_equal vx) in E.
    unfold beta_of in E. revert E. generalize (gamma_of (V 0 0 4)) (nc (T:=R)). intros g c E.
    vunfold_in E. unnum_in E. unfold Rdiv in E. lra.
Qed.

(* ==== C12 ==== *)
Theorem C12_search_brackets_light_cone : forall (p : particle R) t obs a z,
  wf p -> nth_error (trajectory p) 0 = Some a ->
  nth_error (trajectory p) (length (trajectory p) - 1) = Some z ->
  arrival obs a < t -> t <= arrival obs z ->
  exists j b1 b2 frac,
    nth_error (trajectory p) j = Some b1 /\ nth_error (trajectory p) (S j) = Some b2 /\
    arrival obs b1 < t /\ t <= arrival obs b2 /\
    RetardedField_time p t obs = Ok (point_field (pCharge p) (mix_point b1 b2 frac) obs).
Proof. exact light_cone_search. Qed.
Print Assumptions C12_search_brackets_light_cone.
Theorem C12_no_field_after_end : forall (p : particle R) t obs z,
  wf p -> nth_error (trajectory p) (length (trajectory p) - 1) = Some z ->
  arrival obs z < t -> RetardedField_time p t obs = Ok (EB vzero vzero).
Proof. exact seen_earlier. Qed.
Print Assumptions C12_no_field_after_end.
Example C12_ex : wf ex_track /\
  nth_error (trajectory ex_track) 0 = Some (TP 0 vzero (V 0 0 4) (V 1 0 0)) /\
  nth_error (trajectory ex_track) (length (trajectory ex_track) - 1)
    = Some (TP 1 (V 0 0 1) (V 0 0 3) vzero) /\
  arrival vzero (TP 0 vzero (V 0 0 4) (V 1 0 0)) < 1 /\
  1 <= arrival vzero (TP 1 (V 0 0 1) (V 0 0 3) vzero).
Proof.
  split; [apply ex_track_wf|]. split; [reflexivity|]. split; [reflexivity|]. pose proof nc_pos as Hc.
  unfold arrival; cbn [tpt tpx]. split.
  - replace (vsub vzero vzero) with (@vzero R _) by vring.
    rewrite (proj2 (vnorm_zero_iff vzero) eq_refl). unfold Rdiv. lra.
  - pose proof (vnorm_nonneg (vsub (@vzero R _) (V 0 0 1))).
    assert (0 <= vnorm (vsub (@vzero R _) (V 0 0 1)) / nc)
      by (apply Rmult_le_pos; [assumption|left; apply Rinv_0_lt_compat, Hc]). lra.
Qed.

(* ==== C13 ==== *)
Theorem C13_arrival_order : forall (p : particle R) obs,
  subluminal (trajectory p) -> increasing (map (arrival obs) (trajectory p)).
Proof. intros p obs. apply arrivals_increase. Qed.
Print Assumptions C13_arrival_order.
(* and these are the times the code computes *)
Theorem C13_retarded_time : forall (p : particle R) i a obs,
  wf p -> nth_error (trajectory p) i = Some a ->
  RetardedTime p (Z.of_nat i) obs = Ok (arrival obs a).
Proof. intros p i a obs Hw Ha. apply RetardedField_index_point; assumption. Qed.
Print Assumptions C13_retarded_time.
Theorem C13_tracking_is_subluminal : forall dt F0 Fs (p0 p1 q : particle R),
  0 < dt -> wf p0 -> subluminal (trajectory p0) ->
  InitVay dt F0 p0 = Ok p1 -> run_steps Fs p1 = Ok q -> subluminal (trajectory q).
Proof. exact tracking_subluminal. Qed.
Print Assumptions C13_tracking_is_subluminal.
(* every particle with one start point qualifies *)
Theorem C13_single_point_start : forall (p : particle R) a,
  trajectory p = [a] -> subluminal (trajectory p).
Proof. intros p a H i x y _ Hy. rewrite H in Hy. destruct i; discriminate Hy. Qed.
Print Assumptions C13_single_point_start.
Example C13_ex : exists p1 q,
  let p0 := initTrajectory 0 vzero (V 0 0 4) vzero (new_particle (-1) 1) in
  wf p0 /\ subluminal (trajectory p0) /\ InitVay 2 zero_field p0 = Ok p1 /\
  run_steps [zero_field; zero_field] p1 = Ok q.
Proof.
  set (p0 := initTrajectory 0 vzero (V 0 0 4) vzero (new_particle (-1) 1)).
  assert (Hw : wf p0) by (unfold wf; cbn; lia).
  pose proof (setup_nonempty p0 2 zero_field 0 vzero (V 0 0 4) vzero [] Hw eq_refl) as H.
  cbn in H. destruct H as [p1 H1]. destruct (zero_field_defined 2 p1) as [q Hq].
  exists p1, q. cbv zeta. split; [exact Hw|].
  split; [apply (C13_single_point_start p0 (TP 0 vzero (V 0 0 4) vzero)); reflexivity|].
  split; [exact H1|]. rewrite StepsVay_run in Hq. exact Hq.
Qed.

(* ==== C59 ==== *)
(* The full property: the field observed from a stored point is the field of
   Lienard and Wiechert, with the time derivative of the velocity. *)
Definition true_point_field (charge : R) (a : tpoint R) (obs : vec R) : emf R :=
  with_magnetic (tpx a) obs
    (lienard_wiechert charge (tpx a) (beta_of (tpp a)) (beta_dot (tpp a) (tpa a)) obs).
(* [beta_dot] is the time derivative of the velocity, given that of the momentum *)
Theorem C59_beta_dot_is_derivative : forall (m : R -> vec R) t a,
  vderive m t a -> vderive (fun s => beta_of (m s)) t (beta_dot (m t) a).
Proof. exact beta_dot_correct. Qed.
Print Assumptions C59_beta_dot_is_derivative.
(* It holds for points where the force is perpendicular to the motion (magnetic
   fields).  Missing: forces with a component along the motion, see below. *)
Theorem C59_lienard_wiechert_partial : forall (p : particle R) i a obs,
  wf p -> nth_error (trajectory p) i = Some a -> vdot (tpp a) (tpa a) = 0 ->
  RetardedField_index p (Z.of_nat i) obs = Ok (true_point_field (pCharge p) a obs).
Proof.
  intros p i a obs Hw Ha H. destruct (RetardedField_index_point p i a obs Hw Ha) as [-> _].
  unfold point_field, true_point_field. rewrite (beta_dot_perp _ _ H). reflexivity.
Qed.
Print Assumptions C59_lienard_wiechert_partial.
(* the stored quantity A/gamma is not the derivative of the velocity if the force
   has a component along the motion: the field is wrong for every observer
   perpendicular to the motion *)
Theorem C59_lienard_wiechert_refuted : forall (p : particle R) i a obs,
  wf p -> nth_error (trajectory p) i = Some a -> vdot (tpp a) (tpa a) <> 0 ->
  pCharge p <> 0 -> obs <> tpx a -> vdot (vsub obs (tpx a)) (tpp a) = 0 ->
  RetardedField_index p (Z.of_nat i) obs <> Ok (true_point_field (pCharge p) a obs).
Proof.
  intros p i a obs Hw Ha Hma Hq Hne Hperp Heq.
  destruct (RetardedField_index_point p i a obs Hw Ha) as [E _]. rewrite E in Heq. clear E.
  apply Ok_inj in Heq. apply (f_equal fE) in Heq.
  unfold point_field, true_point_field, with_magnetic, lienard_wiechert in Heq. cbn [fE] in Heq.
  assert (Hr : vsub obs (tpx a) <> vzero).
  { intros H. apply Hne. rewrite <- (vadd_0_l (tpx a)), <- H. clear. generalize (tpx a); vring. }
  pose proof (vnorm_pos _ Hr) as Hrp. pose proof nc_pos as Hc.
  pose proof (direction_abs2 _ Hr) as Hn1.
  pose proof (gamma_of_pos (tpp a)) as Hg.
  assert (Hnb : vdot (direction (vsub obs (tpx a))) (beta_of (tpp a)) = 0).
  { unfold direction, beta_of. rewrite vdot_mul_l, vdot_div_r, Hperp. unfold Rdiv. ring. }
  set (n := direction (vsub obs (tpx a))) in *. set (b := beta_of (tpp a)) in *.
  rewrite Hnb in Heq. set (s := coulomb_const (pCharge p)) in *.
  assert (Hs : s <> 0).
  { apply coulomb_const_neq0, Hq. }
  set (r := vnorm (vsub obs (tpx a))) in *.
  (* difference of the two fields, projected on the velocity *)
  apply (f_equal (fun v => vdot v b)) in Heq.
  assert (Hbd : vmul (tpa a) (/ gamma_of (tpp a)) =
                vadd (beta_dot (tpp a) (tpa a)) (vmul b (vdot b (tpa a) * / gamma_of (tpp a)))).
  { unfold beta_dot. fold b. generalize (/ gamma_of (tpp a)) (vdot b (tpa a)) (tpa a) b. clear. vring. }
  rewrite Hbd in Heq. set (d := beta_dot (tpp a) (tpa a)) in *.
  set (k := vdot b (tpa a) * / gamma_of (tpp a)) in *.
  replace (vcross n (vcross (vsub n b) (vadd d (vmul b k))))
    with (vadd (vcross n (vcross (vsub n b) d)) (vmul (vsub (vmul n (vdot n b)) (vmul b (vabs2 n))) k)) in Heq
    by (generalize n b d k; clear; vring).
  rewrite Hnb, Hn1 in Heq.
  rewrite !vdot_mul_l, !vdot_add_l, !vdot_mul_l in Heq.
  rewrite !vdot_add_l, !vdot_mul_l, !vdot_sub_l, !vdot_mul_l, Hnb in Heq.
  change (vdot b b) with (vabs2 b) in Heq.
  replace ((1 - 0) ^ 3) with 1 in Heq by ring.
  assert (Hb0 : vabs2 b <> 0).
  { intros E. apply Hma. apply vabs2_zero_iff in E. unfold b, beta_of in E.
    assert (tpp a = vzero).
    { apply vec_eq; [apply (f_equal vx) in E|apply (f_equal vy) in E|apply (f_equal vz) in E];
      cbn in E |- *; apply (Rmult_eq_compat_r (gamma_of (tpp a))) in E;
      unfold Rdiv in E; rewrite Rmult_assoc, Rinv_l in E by lra; lra. }
    rewrite H. generalize (tpa a). vring. }
  assert (Hk : k <> 0).
  { unfold k, b, beta_of. rewrite vdot_div_l. unfold Rdiv.
    repeat apply Rmult_integral_contrapositive_currified; auto; apply Rinv_neq_0_compat; lra. }
  assert (Hi : / (nc * 1 * r) <> 0) by (apply Rinv_neq_0_compat; nra).
  apply Rmult_eq_reg_l in Heq; [|exact Hs].
  apply Rplus_eq_reg_l in Heq. apply Rmult_eq_reg_l in Heq; [|exact Hi].
  assert (X : k * vabs2 b = 0) by lra. apply Rmult_integral in X. tauto.
Qed.
Print Assumptions C59_lienard_wiechert_refuted.
Example C59_ex : let p := initTrajectory 0 vzero (V 0 0 4) (V 1 0 0) (new_particle (-1) 1) in
  wf p /\ nth_error (trajectory p) 0 = Some (TP 0 vzero (V 0 0 4) (V 1 0 0)) /\
  vdot (V 0 0 4) (V 1 0 0) = 0.
Proof. cbv zeta. split; [unfold wf; cbn; lia|]. split; [reflexivity|]. cbn. lra. Qed.
Example C59_refuted_ex : let p := initTrajectory 0 vzero (V 0 0 4) (V 0 0 1) (new_particle (-1) 1) in
  let a := TP 0 vzero (V 0 0 4) (V 0 0 1) in
  wf p /\ nth_error (trajectory p) 0 = Some a /\ vdot (tpp a) (tpa a) <> 0 /\ pCharge p <> 0 /\
  V 1 0 0 <> tpx a /\ vdot (vsub (V 1 0 0) (tpx a)) (tpp a) = 0.
Proof.
  cbv zeta. split; [unfold wf; cbn; lia|]. split; [reflexivity|]. cbn. repeat split; try lra.
  intros E. injection E. lra.
Qed.
