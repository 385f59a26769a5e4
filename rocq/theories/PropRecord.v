(* C96: what an observer records of a beam. *)
From Coq Require Import ZArith Reals List Lia Lra Bool.
From Coquelicot Require Import Coquelicot.
From Verif Require PropRetard RetardProofs.
From Verif Require Import ObserverProofs ObserverProofs2 ObserverProofs3 ObserverProofs4.
From Verif Require Import Base BaseFacts Num VecModel VecFacts ParticleModel ParticleSpec ParticleSpec2 TraceModel RetardModel RetardSpec TraceIntSpec TraceSpec BunchModel BunchSpec
  DriverModel ObserverModel ObserverSpec ObserverSpec2 RecordSpec RecordProofs PropSample PropTrace PropBeam PropObserver.
Import ListNotations.
Local Open Scope R_scope.

(* Screens, points and meshes which have been created (cleared), with 2 or more samples: sample c of
   the cell (a,b) is the average of the field of all particles arriving at the position x of the cell
   over the time step dt around the time t0 + c dt.  The field of a particle is interpolated between the
   points of its trajectory.  Missing: the limits of C14. *)
Theorem C96_average_partial : forall (o o1 : observer R) bm a b c x t0 dt,
  shaped o -> int_sized o -> timed o -> blank o -> inside o (a, b, c) -> (2 <= snd (extent o) <= int_max)%Z ->
  cell_place o a b x -> cell_clock o a b t0 dt -> 0 < dt ->
  (forall p, In p (beam_ps bm) -> wf p /\ subluminal (trajectory p)) -> in_reach (beam_ps bm) x t0 dt ->
  obs_integrate (SBeam bm) o = Ok o1 ->
  exists f, obs_get o1 (a, b, c) = Ok f /\
    forall comp, In comp components ->
      is_RInt (beam_signal (beam_ps bm) x comp) (t0 + (IZR c - / 2) * dt) (t0 + (IZR c + / 2) * dt) (dt * comp f).
Proof. exact recorded. Qed.
Print Assumptions C96_average_partial.
(* the integration succeeds *)
Theorem C96_defined_partial : forall (o : observer R) bm,
  shaped o -> int_sized o -> timed o -> (2 <= snd (extent o) <= int_max)%Z -> (match o with OSnap _ => False | _ => True end) ->
  (forall p, In p (beam_ps bm) -> wf p /\ subluminal (trajectory p)) ->
  (forall a b x t0 dt, in_cells o (a, b) -> cell_place o a b x -> cell_clock o a b t0 dt -> 0 < dt /\ in_reach (beam_ps bm) x t0 dt) ->
  exists o1, obs_integrate (SBeam bm) o = Ok o1.
Proof. exact recorded_defined. Qed.
Print Assumptions C96_defined_partial.
(* new screens fulfil the conditions on the observer *)
Theorem C96_new_screen : forall (pos dx dy : vec R) nx ny t0 dt dtx dty nots s,
  (0 <= nx <= int_max)%Z -> (0 <= ny <= int_max)%Z -> (0 <= nots <= int_max)%Z ->
  screen_new pos dx dy nx ny t0 dt dtx dty nots = Ok s -> timed (OScreen s) /\ int_sized (OScreen s) /\ snd (extent (OScreen s)) = nots.
Proof. exact screen_timed. Qed.
Print Assumptions C96_new_screen.
(* a snapshot holds in every cell the sum of the retarded fields of all particles at its time *)
Theorem C96_snapshot : forall (s : snapshot R) o1 bm a b x, shaped (OSnap s) -> int_sized (OSnap s) -> inside (OSnap s) (a, b, 0%Z) ->
  cell_place (OSnap s) a b x -> (forall p, In p (beam_ps bm) -> wf p /\ trajectory p <> []) -> obs_integrate (SBeam bm) (OSnap s) = Ok o1 ->
  exists fs, Forall2 (fun p f => RetardedField_time p (snt s) x = Ok f) (beam_ps bm) fs /\ obs_get o1 (a, b, 0%Z) = Ok (fold_right eadd ezero fs).
Proof.
  intros s o1 bm a b x Sh Is I Px Hp E. destruct (snap_recorded s o1 bm a b x Sh Is I Px E) as (f & G & H).
  assert (M : exists fs, map_res (fun p => RetardedField_time p (snt s) x) (beam_ps bm) = Ok fs /\ Forall2 (fun p f => RetardedField_time p (snt s) x = Ok f) (beam_ps bm) fs).
  { revert Hp. generalize (beam_ps bm). induction l as [|p l IH]; intros Hp; [exists []; split; [reflexivity|constructor]|].
    destruct (PropRetard.C07_field_with_trajectory R NumR p (snt s) x) as (g & Hg); [apply Hp; left; reflexivity|apply Hp; left; reflexivity|].
    destruct IH as (fs & M1 & M2); [intros q Hq; apply Hp; right; exact Hq|]. exists (g :: fs). cbn [map_res]. rewrite Hg. cbn [bind]. rewrite M1. split; [reflexivity|constructor; assumption]. }
  destruct M as (fs & M1 & M2). exists fs. split; [exact M2|]. rewrite G. f_equal.
  pose proof (C62_retarded_field bm (snt s) x fs M1) as Q. rewrite H in Q. apply Ok_inj in Q. exact Q.
Qed.
Print Assumptions C96_snapshot.
(* a particle passing a point observer *)
Example C96_ex : let o := OPoint (PO (V 0 0 1) (tr_new 0 1 5)) in let bm := BM [[ex_particle]] 0 1 TRACKING_VAY in
  shaped o /\ int_sized o /\ timed o /\ blank o /\ inside o (0, 0, 1)%Z /\ (2 <= snd (extent o) <= int_max)%Z /\
  cell_place o 0 0 (V 0 0 1) /\ cell_clock o 0 0 0 1 /\ (forall p, In p (beam_ps bm) -> wf p /\ subluminal (trajectory p)) /\ in_reach (beam_ps bm) (V 0 0 1) 0 1.
Proof.
  destruct C14_ex as (W & S & _ & _ & _ & _ & F). destruct (C34_new_observers R NumR) as (_ & _ & Q & _). destruct (Q (V 0 0 1) 0 1 5%nat) as [Q1 Q2].
  cbn zeta. split; [exact Q1|]. split; [unfold int_sized, extent, int_max; lia|]. split; [exact I|]. split; [exact Q2|].
  split; [unfold inside, extent; cbn; lia|]. split; [cbn; unfold int_max; lia|]. split; [reflexivity|]. split; [split; reflexivity|].
  split; [intros p [<-|[]]; split; assumption|]. intros p a [<-|[]] Ha. apply F. exact Ha.
Qed.
(* An observer with one sample records nothing, whatever the beam: integrateFieldTrace returns at once
   (particle.cpp:784).  The average of the field of a charge at rest 1 m away is not zero. *)
Definition resting : particle R :=
  storeTrajectoryPoint 10 vzero vzero vzero (initTrajectory (-10) vzero vzero vzero (new_particle (-1) 1)).
Definition one_sample : observer R := OPoint (PO (V 0 0 1) (tr_new 0 1 1)).
Theorem C96_one_sample_refuted :
  (forall (bm : beam R) x t0 dt, obs_integrate (SBeam bm) (OPoint (PO x (tr_new t0 dt 1))) = Ok (OPoint (PO x (tr_new t0 dt 1)))) /\
  let bm := BM [[resting]] 0 1 TRACKING_VAY in
  shaped one_sample /\ blank one_sample /\ cell_place one_sample 0 0 (V 0 0 1) /\ cell_clock one_sample 0 0 0 1 /\
  (forall p, In p (beam_ps bm) -> wf p /\ subluminal (trajectory p)) /\ in_reach (beam_ps bm) (V 0 0 1) 0 1 /\
  obs_get one_sample (0, 0, 0)%Z = Ok ezero /\
  is_RInt (beam_signal (beam_ps bm) (V 0 0 1) (fun f => vz (fE f))) (0 + (0 - / 2) * 1) (0 + (0 + / 2) * 1) (1 * coulomb_const (-1)) /\
  coulomb_const (-1) < 0.
Proof.
  split.
  { intros bm x t0 dt. cbn [obs_integrate]. unfold point_integrate. cbn [poX poTr].
    assert (B : forall b, bunch_integrate b x (tr_new t0 dt 1) = Ok (tr_new t0 dt 1)).
    { intros b. unfold bunch_integrate. induction b as [|p b IH]; [reflexivity|]. cbn [fold_res]. exact IH. }
    unfold beam_integrate. induction (bmB bm) as [|b l IH]; [reflexivity|]. cbn [fold_res]. rewrite B. cbn [bind].
    exact IH. }
  cbn zeta. destruct (C34_new_observers R NumR) as (_ & _ & Q & _). destruct (Q (V 0 0 1) 0 1 1%nat) as [Q1 Q2].
  split; [exact Q1|]. split; [exact Q2|]. split; [reflexivity|]. split; [split; reflexivity|].
  assert (N1 : vnorm (vsub (V 0 0 1) vzero) = 1).
  { rewrite vnorm_sqrt. replace (vabs2 _) with (1 * 1) by (cbn; ring). apply sqrt_square. lra. }
  assert (NC : 2 < @nc R _) by (cbn; lra).
  split.
  { intros p [<-|[]]. split; [unfold wf; cbn; lia|]. intros [|[|i]] a b Ha Hb; cbn in Ha, Hb.
    - injection Ha as <-. injection Hb as <-. unfold slower_than_light. rewrite vnorm_sqrt. cbn [tpx tpt].
      replace (vabs2 _) with 0 by (cbn; ring). rewrite sqrt_0. lra.
    - discriminate.
    - destruct i; discriminate. }
  assert (A : forall t, arrival (V 0 0 1) (TP t vzero vzero vzero) = t + / nc).
  { intros t. unfold arrival. cbn [tpx tpt]. rewrite N1. unfold Rdiv. ring. }
  assert (IC : 0 < / @nc R _ < 1). { split; [apply Rinv_0_lt_compat; lra|]. rewrite <- Rinv_1. apply Rinv_lt_contravar; lra. }
  assert (TJ : trajectory resting = [TP (-10) vzero vzero vzero; TP 10 vzero vzero vzero]) by reflexivity.
  split.
  { intros p a [<-|[]] Ha. rewrite TJ in Ha. destruct Ha as [<-|[<-|[]]]; rewrite A; lra. }
  split; [reflexivity|].
  set (g := point_field (-1) (TP 0 vzero vzero vzero) (V 0 0 1)).
  assert (SP : signal_points resting (V 0 0 1) = [(-10 + / nc, g); (10 + / nc, g)]).
  { unfold signal_points. rewrite TJ. cbn [map]. rewrite !A. reflexivity. }
  assert (G : vz (fE g) = coulomb_const (-1)).
  { destruct (RetardProofs.RetardedField_index_point resting 0 (TP (-10) vzero vzero vzero) (V 0 0 1)) as [E _]; [unfold wf; cbn; lia|reflexivity|].
    rewrite (PropRetard.C10_coulomb_field_at_rest resting 0 (TP (-10) vzero vzero vzero) (V 0 0 1)) in E;
      [|unfold wf; cbn; lia|reflexivity|cbn [tpx]; intros K; injection K; cbn; lra|reflexivity|reflexivity].
    apply Ok_inj in E. cbn [tpx] in E. rewrite N1 in E. change g with (point_field (pCharge resting) (TP (-10) vzero vzero vzero) (V 0 0 1)). rewrite <- E.
    change (pCharge resting) with (-1). cbn [fE]. unfold coulomb_const. generalize (-1 * nqe / (4 * PI * neps0)). intros k. cbn. field. }
  split.
  - apply (is_RInt_ext (fun _ => coulomb_const (-1))).
    + intros t Ht. rewrite Rmin_left, Rmax_right in Ht by lra. clearbody g. revert SP IC. clear A TJ NC. generalize (/ @nc R _). intros w SP IC. unfold beam_signal. cbn [beam_ps bmB concat app map fold_right]. rewrite SP.
      cbn [signal]. destruct (Rle_dec _ _) as [_|K]; [|exfalso; lra]. destruct (Rlt_dec _ _) as [_|K]; [|exfalso; lra].
      rewrite <- G. unfold interp_field. generalize ((t - (-10 + w)) / (10 + w - (-10 + w))). intros z. destruct g as [[a b c] h]. cbn. ring.
    + replace (1 * coulomb_const (-1)) with (scal ((0 + (0 + / 2) * 1) - (0 + (0 - / 2) * 1)) (coulomb_const (-1))) by (unfold scal; cbn; unfold mult; cbn; field).
      apply @is_RInt_const.
  - unfold coulomb_const. generalize RetardProofs.nqe_pos RetardProofs.neps0_pos PI_RGT_0. generalize (@nqe R _) (@neps0 R _). intros q e Hq He Hp.
    assert (0 < q / (4 * PI * e)) by (apply Rdiv_lt_0_compat; [assumption|apply Rmult_lt_0_compat; [lra|assumption]]).
    replace (-1 * q / (4 * PI * e)) with (- (q / (4 * PI * e))) by (unfold Rdiv; ring). lra.
Qed.
Print Assumptions C96_one_sample_refuted.
(* The same for all screens, points and meshes, whatever they held before: with one sample, or with a
   number of samples which the conversion to int makes negative, the integration succeeds and leaves
   every sample as it was. *)
Theorem C96_unrecorded : forall (o : observer R) bm,
  shaped o -> int_sized o -> timed o -> (match o with OSnap _ => False | _ => True end) ->
  (snd (extent o) = 1 \/ 2 ^ 31 <= snd (extent o) < 2 ^ 32)%Z ->
  exists o1, obs_integrate (SBeam bm) o = Ok o1 /\ like o o1 /\
    forall k, inside o k -> obs_get o1 k = obs_get o k.
Proof.
  intros o bm Sh Is Ti Ns N.
  assert (L : (i32 (snd (extent o)) < 2)%Z).
  { destruct N as [->|N]; [reflexivity|]. revert N. generalize (snd (extent o)). intros n N. change (2 ^ 31)%Z with 2147483648%Z in N. change (2 ^ 32)%Z with 4294967296%Z in N.
    unfold i32. change (2 ^ 31)%Z with 2147483648%Z. change (2 ^ 32)%Z with 4294967296%Z.
    replace (n + 2147483648)%Z with (n - 2147483648 + 1 * 4294967296)%Z by lia. rewrite Z.mod_add by lia. rewrite Z.mod_small by lia. lia. }
  assert (F : forall x ps tr, tr_N tr = snd (extent o) -> fold_res (fun tr p => integrateFieldTrace p x tr) ps tr = Ok (tr : ftrace R)).
  { intros x ps tr E. induction ps as [|p ps IH]; [reflexivity|]. cbn [fold_res]. unfold integrateFieldTrace at 1. rewrite E. apply Z.ltb_lt in L. rewrite L. cbn [bind]. exact IH. }
  destruct (integrate_total (SBeam bm) o Sh) as (o1 & E).
  { intros [a b] IC. destruct (cell_ok o (a, b) Sh IC) as (tr & C0 & _). exists tr.
    destruct (cell_beam o bm a b tr _ Sh Is Ti IC Ns C0 eq_refl) as (x & Px & Ck & Ly & Fy). exists tr. split; [exact C0|]. rewrite Fy. apply F. exact Ly. }
  destruct (integrate_ok _ _ _ Sh E) as [K C]. exists o1. split; [exact E|]. split; [exact K|]. intros [[a b] c] I.
  pose proof (inside_cell _ _ _ _ I) as IC. destruct (C (a, b) IC) as (tr & r & C0 & C1 & C2).
  assert (I1 : inside o1 (a, b, c)) by (eapply like_inside; eassumption).
  destruct (cell_beam o bm a b tr (Ok r) Sh Is Ti IC Ns C0 C1) as (y & Py & Cy & Ly & Fy). rewrite F in Fy by exact Ly. apply Ok_inj in Fy. subst r.
  rewrite (get_cell o a b c I), (get_cell o1 a b c I1), C0, C2. reflexivity.
Qed.
Print Assumptions C96_unrecorded.
Example C96_unrecorded_ex : shaped one_sample /\ int_sized one_sample /\ timed one_sample /\ snd (extent one_sample) = 1%Z /\ inside one_sample (0, 0, 0)%Z.
Proof.
  destruct (C34_new_observers R NumR) as (_ & _ & Q & _). destruct (Q (V 0 0 1) 0 1 1%nat) as [Q1 _].
  split; [exact Q1|]. split; [unfold int_sized, extent, int_max; cbn; lia|]. split; [exact I|]. split; [reflexivity|unfold inside, extent; cbn; lia].
Qed.
