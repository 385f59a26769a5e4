(* Properties with the rounding of double precision: C27. *)
From Coq Require Import ZArith Reals List Bool Lia Lra Floats.
From Flocq Require Import Core.
From Verif Require Import Base BaseFacts Num NumFloat FloatFacts FloatFacts2 VecModel VecFacts ParticleModel BunchModel BunchSpec BunchProofs FloatTrack FloatStep2 FloatStat FloatStat2 PropFloat3.
Import ListNotations.
Local Open Scope R_scope.

(* ==== C27 ==== *)
(* The averages in double precision are the means of the values up to about n rounding errors of the largest
   value M.  (In particular they leave the range of the values by no more than that.) *)
Theorem C27_double_average : forall (b : bunch flt) M, b <> [] -> (Z.of_nat (length b) <= 2 ^ 50)%Z -> M <= bpow radix2 900 ->
  (Forall (fun p => fin (pt p) /\ Rabs (FR (pt p)) <= M) b ->
   fin (bunch_avgTime b) /\
   Rabs (FR (bunch_avgTime b) - mean (map (fun p => FR (pt p)) b)) <= (INR (length b) + 3) * bpow radix2 (-52) * M + bpow radix2 (-1075)) /\
  forall (get : particle flt -> vec flt) (avg : bunch flt -> vec flt), (get = pX /\ avg = bunch_avgPosition) \/ (get = pP /\ avg = bunch_avgMomentum) ->
  forall c, In c [vx; vy; vz] -> Forall (fun p => fin (c (get p)) /\ Rabs (FR (c (get p))) <= M) b ->
   fin (c (avg b)) /\
   Rabs (FR (c (avg b)) - mean (map (fun p => FR (c (get p))) b)) <= (INR (length b) + 3) * bpow radix2 (-52) * M + bpow radix2 (-1075).
Proof.
  intros b M Hb Hn HM. assert (HB : 0 <= M -> INR (length b) * M <= bpow radix2 1022).
  { intros M0. apply Rle_trans with (bpow radix2 (50 + 900)); [|apply bp_le; lia]. rewrite bpow_plus. pose proof Hn as N. apply IZR_le in N. rewrite <- INR_IZR_INZ in N. apply Rmult_le_compat; auto using pos_INR. }
  assert (M0 : forall f : particle flt -> flt, Forall (fun p => fin (f p) /\ Rabs (FR (f p)) <= M) b -> 0 <= M).
  { intros f H. destruct b as [|p r]; [contradiction|]. apply Forall_inv in H. pose proof (Rabs_pos (FR (f p))). lra. }
  split.
  - intros H. destruct (times_ok b M Hb Hn H (HB (M0 _ H))) as [F E]. split; [exact F|]. eapply Rle_trans; [exact E|]. apply Rplus_le_compat_r. apply Rmult_le_compat_r; [apply (M0 _ H)|].
    apply Rmult_le_compat_r; [apply bpow_ge_0|lra].
  - intros get avg Hg c Hc H. assert (E : avg b = V (favg (map (fun p => vx (get p)) b)) (favg (map (fun p => vy (get p)) b)) (favg (map (fun p => vz (get p)) b))).
    { destruct Hg as [[-> ->]|[-> ->]]; apply vavg_f. }
    assert (Ec : c (avg b) = favg (map (fun p => c (get p)) b)) by (rewrite E; destruct Hc as [<-|[<-|[<-|[]]]]; reflexivity). rewrite Ec.
    apply (favg_ok b M Hb Hn (fun p => c (get p)) H (HB (M0 _ H))).
Qed.
Print Assumptions C27_double_average.

(* the standard deviation is not negative, and correct up to the same error *)
Theorem C27_double_rms : forall (b : bunch flt) M c, b <> [] -> (Z.of_nat (length b) <= 2 ^ 50)%Z -> M <= bpow radix2 400 ->
  In c [vx; vy; vz] -> Forall (fun p => fin (c (pX p)) /\ Rabs (FR (c (pX p))) <= M) b ->
  fin (c (bunch_rmsPosition b)) /\ 0 <= FR (c (bunch_rmsPosition b)) /\
  Rabs (FR (c (bunch_rmsPosition b)) - rms (map (fun p => FR (c (pX p))) b)) <= (4 * INR (length b) + 17) * bpow radix2 (-52) * M + bpow radix2 (-534).
Proof.
  intros b M c Hb Hn HM Hc H. assert (Ec : c (bunch_rmsPosition b) = dev_rms (map (fun p => c (pX p)) b) (favg (map (fun p => c (pX p)) b))) by (rewrite rms_f; destruct Hc as [<-|[<-|[<-|[]]]]; reflexivity).
  rewrite Ec. apply (frms_ok b M Hb Hn (fun p => c (pX p)) H HM).
Qed.
Print Assumptions C27_double_rms.

(* the average relativistic factor is at least one, in spite of the rounding *)
Theorem C27_double_gamma : forall (b : bunch flt), b <> [] -> (Z.of_nat (length b) <= 2 ^ 50)%Z -> Forall (fun p => finv (pP p) /\ below 200 (pP p)) b ->
  fin (bunch_avgGamma b) /\ 1 <= FR (bunch_avgGamma b).
Proof. exact gamma_ge_1. Qed.
Print Assumptions C27_double_gamma.

Definition at_z (z : flt) : particle flt := initTrajectory 0%float (V 0 0 z)%float (V 0 3 5)%float vzero (new_particle (-1)%float 1%float).
Example C27_double_ex : let b := [at_z 1%float; at_z 3%float] in b <> [] /\ (Z.of_nat (length b) <= 2 ^ 50)%Z /\ bpow radix2 3 <= bpow radix2 400 /\
  Forall (fun p => fin (pt p) /\ Rabs (FR (pt p)) <= bpow radix2 3) b /\ Forall (fun p => fin (vz (pX p)) /\ Rabs (FR (vz (pX p))) <= bpow radix2 3) b /\
  Forall (fun p => finv (pP p) /\ below 200 (pP p)) b.
Proof.
  cbn zeta. split; [discriminate|]. split; [cbn; lia|]. split; [apply bp_le; lia|].
  split; [|split].
  - do 2 (apply Forall_cons; [split; [fc|lc3]|]). apply Forall_nil.
  - do 2 (apply Forall_cons; [split; [fc|lc3]|]). apply Forall_nil.
  - pose proof (bp_le 3 200 ltac:(lia)). do 2 (apply Forall_cons; [split; [split; [fc|split; fc]|split; [|split]; (eapply Rle_trans; [|eassumption]); lc3]|]). apply Forall_nil.
Qed.

(* The bounds of the averages are not met exactly, and the standard deviation of equal values is not exactly
   zero: for five particles at z = 0.3 the average exceeds 0.3.  The standard deviation of different values
   may be zero: the squares of small deviations vanish. *)
Definition five : bunch flt := repeat (at_z 0x1.3333333333333p-2%float) 5.
Theorem C27_double_refuted :
  (exists b : bunch flt, exists z : flt, b <> [] /\ (forall p, In p b -> vz (pX p) = z) /\ fin z /\
     fin (vz (bunch_avgPosition b)) /\ FR z < FR (vz (bunch_avgPosition b)) /\
     fin (vz (bunch_rmsPosition b)) /\ 0 < FR (vz (bunch_rmsPosition b))) /\
  (exists (b : bunch flt) p q, In p b /\ In q b /\ fin (vz (pX p)) /\ fin (vz (pX q)) /\ FR (vz (pX p)) < FR (vz (pX q)) /\ vz (bunch_rmsPosition b) = 0%float).
Proof.
  split.
  - exists five, 0x1.3333333333333p-2%float. split; [discriminate|]. split; [intros p Hp; apply repeat_spec in Hp; rewrite Hp; reflexivity|].
    assert (F0 : fin 0x1.3333333333333p-2%float) by fc. assert (F1 : fin (vz (bunch_avgPosition five))) by fc.
    assert (F2 : fin (vz (bunch_rmsPosition five))) by fc. assert (FZ : fin 0%float) by fc.
    assert (VZ : FR 0%float = 0) by (change 0%float with (f_ofZ 0); destruct (ofZ_ok 0 ltac:(lia)) as [_ ->]; reflexivity).
    split; [exact F0|]. split; [exact F1|]. split; [|split; [exact F2|]].
    + assert (L : Coq.Floats.PrimFloat.ltb 0x1.3333333333333p-2%float (vz (bunch_avgPosition five)) = true) by (vm_compute; reflexivity).
      rewrite ltb_ok in L by assumption. destruct (Rltb_spec (FR 0x1.3333333333333p-2%float) (FR (vz (bunch_avgPosition five)))); [assumption|discriminate L].
    + assert (L : Coq.Floats.PrimFloat.ltb 0%float (vz (bunch_rmsPosition five)) = true) by (vm_compute; reflexivity).
      rewrite ltb_ok in L by assumption. destruct (Rltb_spec (FR 0%float) (FR (vz (bunch_rmsPosition five)))); [lra|discriminate L].
  - exists [at_z 0%float; at_z 0x1p-600%float], (at_z 0%float), (at_z 0x1p-600%float). split; [left; reflexivity|]. split; [right; left; reflexivity|].
    assert (F0 : fin (vz (pX (at_z 0%float)))) by fc. assert (F1 : fin (vz (pX (at_z 0x1p-600%float)))) by fc. split; [exact F0|]. split; [exact F1|]. split.
    + assert (L : Coq.Floats.PrimFloat.ltb (vz (pX (at_z 0%float))) (vz (pX (at_z 0x1p-600%float))) = true) by (vm_compute; reflexivity). rewrite ltb_ok in L by assumption.
      destruct (Rltb_spec (FR (vz (pX (at_z 0%float)))) (FR (vz (pX (at_z 0x1p-600%float))))); [assumption|discriminate L].
    + vm_compute. reflexivity.
Qed.
Print Assumptions C27_double_refuted.
