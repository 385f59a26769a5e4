(* Properties C22-C24: serialization and copies of particles.
   All of them hold for every number type, hence bit by bit for doubles. *)
From Coq Require Import ZArith Reals Lra Lia List Floats.
From Verif Require Import Base BaseFacts Num NumFloat VecModel ParticleModel ParticleSpec
  ParticleSpec2 ParticleProofs ParticleProofs2 ParticleProofs5 VaySpec VayTracking VayTracking2 PropTracking.
Import ListNotations.

(* ==== C22 ==== *)
(* Snapshot of a particle with trajectory: 12 numbers, from which (whatever
   follows them in memory) a particle with the same charge and mass is rebuilt
   whose only trajectory point is the last one of the original. *)
Theorem C22_snapshot_round_trip_partial :
  forall (T : Type) (NT : Num T) (p : particle T) t x m a i,
  wf p -> trajectory p = i ++ [TP t x m a] ->
  exists b, serialize p = Ok b /\ length b = 12%nat /\
    forall rest, exists q, deserialize (b ++ rest) = Ok q /\
      pCharge q = pCharge p /\ pMass q = pMass p /\
      trajectory q = [TP t x m a] /\ current q = TP t x m a.
Proof. intros T NT p t x m a i. apply serialize_round_trip. Qed.
Print Assumptions C22_snapshot_round_trip_partial.
Example C22_ex : wf ex_start /\ trajectory ex_start = [] ++ [TP 1%R (V 0 0 2)%R (V 0 3 4)%R vzero].
Proof. split; [apply ex_start_wf|reflexivity]. Qed.
(* Missing: a particle without trajectory.  The full property fails there: 12
   numbers are written too, but the rebuilt particle has one (invented) point. *)
Theorem C22_empty_snapshot_refuted : forall (T : Type) (NT : Num T) (c m : T),
  exists b q, serialize (new_particle c m) = Ok b /\ deserialize b = Ok q /\
    pNP (new_particle c m) = 0%Z /\ trajectory q = [TP (nZ 0) vzero vzero vzero].
Proof.
  intros T NT c m. eexists. eexists. split; [reflexivity|]. split; [reflexivity|].
  split; reflexivity.
Qed.
Print Assumptions C22_empty_snapshot_refuted.
(* how much of the buffer is read: all of its first 12 numbers, nothing behind them; the
   length of the buffer is not known to the constructor *)
Theorem C22_length : forall (T : Type) (NT : Num T) (b : list T),
  ((length b < 12)%nat -> deserialize b = UB) /\ ((12 <= length b)%nat -> exists p, deserialize b = Ok p).
Proof.
  intros T NT b. pose proof (deserialize_length b) as H. destruct (Nat.ltb_spec (length b) 12); split; intros; try lia; exact H.
Qed.
Print Assumptions C22_length.
Example C22_length_ex : (length (repeat 0%R 11) < 12)%nat /\ (12 <= length (repeat 0%R 12))%nat.
Proof. cbn. lia. Qed.

(* ==== C23 ==== *)
(* the state of every particle which was set up and tracked is rebuilt from its
   serialized trajectory, and every further sequence of operations ends the same
   way with equivalent particles *)
Theorem C23_transparent_restart :
  forall (T : Type) (NT : Num T) dt F0 Fs (p0 p1 p : particle T) nPre,
  wf p0 -> InitVay dt F0 p0 = Ok p1 -> run_steps Fs p1 = Ok p ->
  exists b, serializeTraj p = Ok b /\ Z.of_nat (length b) = TrajBufSize p /\
    forall rest, exists q, deserializeTraj (b ++ rest) (pNP p) nPre = Ok q /\
      trajectory q = trajectory p /\ current q = current p /\ same_state p q /\
      forall ops, res_rel (fun p' q' => trajectory q' = trajectory p' /\ same_state p' q')
                          (run_ops ops p) (run_ops ops q).
Proof.
  intros T NT dt F0 Fs p0 p1 p nPre Hw H1 H.
  assert (Hrun : run_ops (OpSetup dt F0 :: map OpStep Fs) p0 = Ok p).
  { unfold run_ops. cbn [fold_res apply_op]. rewrite H1. cbn [bind]. clear - H.
    unfold run_steps in H. revert p1 H; induction Fs as [|F Fs IH]; intros p1 H; [exact H|].
    cbn [map fold_res apply_op] in *. destruct (StepVay F p1); cbn [bind] in *; try discriminate.
    apply IH; exact H. }
  pose proof (wf_run _ _ _ Hw Hrun) as Hwp.
  assert (Hinv : synced p1 /\ (0 < pNP p1)%Z).
  { pose proof H1 as H1'. unfold InitVay in H1'. destruct (Z.ltb_spec (pNP p0) 1); [discriminate|].
    bget H1' as t Ht. bget H1' as x Hx. bget H1' as m Hm. bget H1' as eb Heb.
    destruct (vay_half _ _ _ _) as [v g]. bget H1' as acs Ha. okinj H1'. cbn [pNP]. split; [|lia].
    right. cbn. apply set_back_inv in Ha. destruct Ha as [i [b [Hi ->]]]. rewrite lback_app. auto. }
  assert (Hinv2 : synced p /\ (0 < pNP p)%Z).
  { clear - Hinv H. unfold run_steps in H. revert p1 Hinv H.
    induction Fs as [|F Fs IH]; intros p1 [Hs Hn] H; cbn [fold_res] in H.
    - okinj H. auto.
    - bget H as r Hr. apply (IH r); [|exact H]. split.
      + eapply (synced_apply p1 r (OpStep F)); eauto.
      + unfold StepVay in Hr. bget Hr as eb Heb. destruct (vay_half _ _ _ _). okinj Hr.
        cbn [storeTrajectoryPoint pNP]. lia. }
  destruct Hinv2 as [Hs Hn].
  destruct (traj_round_trip p nPre Hwp Hn Hs) as (b & Hb & HL & HR).
  exists b. split; [exact Hb|]. split; [exact HL|]. intros rest.
  destruct (HR rest) as (q & Hq & Hsame). exists q. split; [exact Hq|].
  destruct (same_trajectory p q Hsame) as [A B]. split; [exact A|]. split; [exact B|].
  split; [exact Hsame|]. intros ops. pose proof (same_run ops p q Hsame) as Hr.
  destruct (run_ops ops p), (run_ops ops q); cbn [res_rel] in *; auto.
  split; [|exact Hr]. apply (same_trajectory _ _ Hr).
Qed.
Print Assumptions C23_transparent_restart.
Example C23_ex : exists p1 p, wf ex_start /\ InitVay 2%R ex_field ex_start = Ok p1 /\
  run_steps [ex_field; ex_field; ex_field] p1 = Ok p.
Proof.
  destruct (ex_setup 2) as [p1 H1].
  destruct (total_field_defined (fun t x => EB (V t 0%R (vx x)) (V 0%R (vz x) 1%R)) 3 p1) as [q Hq].
  exists p1, q. split; [apply ex_start_wf|]. split; [exact H1|]. rewrite StepsVay_run in Hq. exact Hq.
Qed.
(* with no stored point the reading constructor takes back() of an empty vector *)
(* the numbers read when a trajectory of nTraj points is restored *)
Theorem C23_length : forall (T : Type) (NT : Num T) (b : list T) nTraj nPre, (1 <= nTraj)%Z ->
  ((Z.of_nat (length b) < 9 + 10 * nTraj)%Z -> deserializeTraj b nTraj nPre = UB) /\
  ((9 + 10 * nTraj <= Z.of_nat (length b))%Z -> exists p, deserializeTraj b nTraj nPre = Ok p).
Proof.
  intros T NT b nTraj nPre HN. pose proof (deserializeTraj_length b nTraj nPre HN) as H.
  destruct (Z.ltb_spec (Z.of_nat (length b)) (9 + 10 * nTraj)); split; intros; try lia; exact H.
Qed.
Print Assumptions C23_length.
Example C23_length_ex : (Z.of_nat (length (repeat 0%R 28)) < 9 + 10 * 2)%Z /\ (9 + 10 * 2 <= Z.of_nat (length (repeat 0%R 29)))%Z.
Proof. cbn. lia. Qed.
Theorem C23_empty_trajectory_undefined : forall (T : Type) (NT : Num T) (c m : T) nPre,
  exists b, serializeTraj (new_particle c m) = Ok b /\ deserializeTraj b 0 nPre = UB.
Proof.
  intros T NT c m nPre. eexists. split; [reflexivity|]. unfold deserializeTraj.
  cbn [app wrv rd rdv bind Z.to_nat pNP new_particle ser_points deser_points].
  destruct (Z.ltb_spec 0 nPre); [|reflexivity].
  unfold preAllocate. destruct (Z.ltb_spec nPre 0); [lia|]. reflexivity.
Qed.
Print Assumptions C23_empty_trajectory_undefined.

(* ==== C24 (particles; bunches and beams: PropBeam.v) ==== *)
(* A particle with any history, copied, behaves as the original under every
   further sequence of operations. *)
Theorem C24_copy_equivalent :
  forall (T : Type) (NT : Num T) (c m : T) history p,
  run_ops history (new_particle c m) = Ok p ->
  exists q, copy_particle p = Ok q /\ trajectory q = trajectory p /\ current q = current p /\
    pCharge q = pCharge p /\ pMass q = pMass p /\
    forall ops, res_rel (fun p' q' => trajectory q' = trajectory p' /\ same_state p' q')
                        (run_ops ops p) (run_ops ops q).
Proof.
  intros T NT c m h p H. pose proof (wf_run _ _ _ (wf_new c m) H) as Hw.
  destruct (npre_run h (new_particle c m) p 0%Z eq_refl H) as [n Hn].
  destruct (copy_same p n Hw Hn) as (q & Hq & Hs & _). exists q.
  destruct (same_trajectory p q Hs) as [A B].
  split; [exact Hq|]. split; [exact A|]. split; [exact B|].
  split; [apply Hs|]. split; [apply Hs|].
  intros ops. pose proof (same_run ops p q Hs) as Hr.
  destruct (run_ops ops p), (run_ops ops q); cbn [res_rel] in *; auto.
  split; [|exact Hr]. apply (same_trajectory _ _ Hr).
Qed.
Print Assumptions C24_copy_equivalent.
Example C24_ex : exists p, run_ops [OpInitTraj 0%R vzero (V 0 0 9)%R vzero] (new_particle 5%R 3%R) = Ok p.
Proof. eexists; reflexivity. Qed.
(* ... but the copy reports other local fields to a probe until its next step *)
Theorem C24_probe_of_copy_refuted : exists p q : particle R,
  wf p /\ copy_particle p = Ok q /\ bufferProbe q <> bufferProbe p.
Proof.
  set (F := total_field (fun _ _ => EB (V 0 0 0)%R (V 1 0 0)%R)).
  pose proof (setup_nonempty ex_start 2%R F 1%R (V 0 0 2)%R (V 0 3 4)%R vzero [] ex_start_wf eq_refl) as H.
  destruct H as [p H]. exists p.
  assert (Hw : wf p) by (apply (wf_apply ex_start p (OpSetup 2%R F) ex_start_wf H)).
  unfold InitVay in H. cbn [pNP ex_start initTrajectory Z.ltb Z.compare Pos.compare Pos.compare_cont pTimes pXs pPs pAs lback bind] in H.
  unfold F, total_field in H. cbn [bind] in H. destruct (vay_half _ _ _ _). cbn [set_back bind] in H.
  okinj H. eexists. split; [exact Hw|]. split; [reflexivity|].
  unfold bufferProbe. cbn [pt pX pP pA pE pB fE fB wrv vx vy vz app vzero].
  intros E. apply (f_equal (fun l => nth 13 l 0%R)) in E. cbn in E. lra.
Qed.
Print Assumptions C24_probe_of_copy_refuted.
(* ... and copying a particle which was read from a buffer without pre-allocation
   evaluates a member that was never initialised *)
Theorem C24_copy_of_restored_undefined : forall (T : Type) (NT : Num T) (q : particle T) b n nPre,
  (nPre <= 0)%Z -> deserializeTraj b n nPre = Ok q -> copy_particle q = UB.
Proof.
  intros T NT q b n nPre Hn H. unfold deserializeTraj in H.
  do 5 (match type of H with bind ?m _ = _ => destruct m as [[? ?]| | |]; cbn [bind] in H; try discriminate end).
  match type of H with bind ?m _ = _ => destruct m as [[? ?]| | |]; cbn [bind] in H; try discriminate end.
  match type of H with bind ?m _ = _ => destruct m as [[? ?]| | |]; cbn [bind] in H; try discriminate end.
  destruct (Z.ltb_spec 0 nPre); [lia|]. cbn [bind] in H.
  bget H as r Hr. bget H as t' Ht'. bget H as x' Hx'. bget H as m' Hm'. bget H as a' Ha'. okinj H.
  assert (HN : pNpre r = None).
  { revert Hr. match goal with |- deser_points _ _ ?p0 = _ -> _ => assert (Hp : pNpre p0 = None) by reflexivity; revert Hp; generalize p0 end.
    generalize (Z.to_nat n). clear. intros k. revert l5. induction k as [|k IH]; intros b p0 Hp H; cbn [deser_points] in H.
    - okinj H. exact Hp.
    - do 4 (match type of H with bind ?m _ = _ => destruct m as [[? ?]| | |]; cbn [bind] in H; try discriminate end).
      eapply IH; [|exact H]. exact Hp. }
  unfold copy_particle. cbn [setCurrentPoint pNpre]. rewrite HN. reflexivity.
Qed.
Print Assumptions C24_copy_of_restored_undefined.
Example C24_undefined_ex : exists q : particle R,
  deserializeTraj [ -1; 1; 1; 1; 1;  0;0;0; 1;   5; 1;2;3; 0;0;0; 0;0;0]%R 1 0 = Ok q.
Proof. eexists. reflexivity. Qed.
