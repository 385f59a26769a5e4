(* Properties with the rounding of double precision: C01, C03. *)
From Coq Require Import ZArith Reals List Bool Lia Lra Floats.
From Flocq Require Import Core.
From Verif Require Import Base BaseFacts Num NumFloat FloatFacts FloatFacts2 VecModel VecFacts ParticleModel ParticleSpec VaySpec VayProofs FloatTrack FloatErr FloatStep FloatStep2.
Import ListNotations.
Local Open Scope R_scope.

(* ==== C01 ==== *)
(* Momentum and relativistic factor after the set-up or after a step in double precision.
   p' is the momentum after the kick by the electric field, tau the rotation by the magnetic field
   during half a step. *)
Theorem C01_double_partial : forall dt F (p q : particle flt),
  InitVay dt F p = Ok q \/ StepVay F p = Ok q ->
  let p' := vadd (pP q) (vmul (vdiv (pE q) nc) (pqmt2 q)) in let tau := vmul (pB q) (pqmt2 q) in
  finv p' -> below 240 p' -> finv tau ->
  Rabs (FR (vx tau)) <= / 4 -> Rabs (FR (vy tau)) <= / 4 -> Rabs (FR (vz tau)) <= / 4 ->
  finv (pVp q) /\ fin (pVg q) /\
  Rabs (FR (pVg q) * FR (pVg q) - (1 + vabs2 (FV (pVp q)))) <= bpow radix2 (-45) * (FR (pVg q) * FR (pVg q)) /\
  1 - bpow radix2 (-45) <= FR (pVg q) /\
  (FR (pVg q) <= bpow radix2 22 -> vnorm (FV (pVp q)) < FR (pVg q)).
Proof. exact double_gamma. Qed.
Print Assumptions C01_double_partial.

(* a particle in a magnetic field of 1 T *)
Definition mag_start (p : vec flt) : particle flt := initTrajectory 0%float vzero p vzero (new_particle (-1)%float 1%float).
Definition mag_field : field_fn flt := fun _ _ => Ok (EB vzero (V 0 0 1)%float).
Definition mag_dt : flt := 0x1p-40%float.
Definition mag_init : particle flt := match InitVay mag_dt mag_field (mag_start (V 0 3 5)%float) with Ok p => p | _ => mag_start vzero end.
Lemma mag_init_ok : InitVay mag_dt mag_field (mag_start (V 0 3 5)%float) = Ok mag_init.
Proof. unfold mag_init. destruct (InitVay mag_dt mag_field (mag_start (V 0 3 5)%float)) eqn:E; [reflexivity| | |]; vm_compute in E; discriminate E. Qed.
Lemma fl_le x e m : fin x -> (Coq.Floats.PrimFloat.abs x <=? m)%float = true -> fin m -> FR m = bpow radix2 e -> Rabs (FR x) <= bpow radix2 e.
Proof. intros F L Fm E. rewrite <- E. destruct (abs_ok x F) as [A <-]. rewrite (leb_ok _ _ A Fm) in L. destruct (Rleb_spec (FR (Coq.Floats.PrimFloat.abs x)) (FR m)); [assumption|discriminate]. Qed.
Lemma p2_ok : fin 0x1p-2%float /\ FR 0x1p-2%float = bpow radix2 (-2).
Proof. destruct (FR_lit 0x1p-2%float 4503599627370496 (-54) eq_refl) as [F E]. split; [exact F|]. rewrite E. change 4503599627370496 with (bpow radix2 52). rewrite <- bpow_plus. reflexivity. Qed.
Lemma p3_ok : fin 0x1p3%float /\ FR 0x1p3%float = bpow radix2 3.
Proof. destruct (FR_lit 0x1p3%float 4503599627370496 (-49) eq_refl) as [F E]. split; [exact F|]. rewrite E. change 4503599627370496 with (bpow radix2 52). rewrite <- bpow_plus. reflexivity. Qed.
Ltac fc := apply fin_compute; vm_compute; reflexivity.
Ltac lc2 := apply (fl_le _ (-2) 0x1p-2%float); [fc|vm_compute; reflexivity|apply p2_ok|apply p2_ok].
Ltac lc3 := apply (fl_le _ 3 0x1p3%float); [fc|vm_compute; reflexivity|apply p3_ok|apply p3_ok].
Example C01_double_ex : exists dt F p q, (InitVay dt F p = Ok q \/ StepVay F p = Ok q) /\
  let p' := vadd (pP q) (vmul (vdiv (pE q) nc) (pqmt2 q)) in let tau := vmul (pB q) (pqmt2 q) in
  finv p' /\ below 240 p' /\ finv tau /\ Rabs (FR (vx tau)) <= / 4 /\ Rabs (FR (vy tau)) <= / 4 /\ Rabs (FR (vz tau)) <= / 4.
Proof.
  exists mag_dt, mag_field, (mag_start (V 0 3 5)%float), mag_init. split; [left; exact mag_init_ok|]. cbn zeta.
  split; [split; [fc|split; fc]|]. split; [pose proof (bp_le 3 240 ltac:(lia)); split; [|split]; (eapply Rle_trans; [|eassumption]); lc3|].
  split; [split; [fc|split; fc]|]. change (/ 4) with (bpow radix2 (-2)). split; [|split]; lc2.
Qed.

(* Without the limit on the rotation the property fails in double precision: an electron at rest in a
   magnetic field of 1 T tracked with a time step of 1/128 s gets the relativistic factor 0 and an
   undefined momentum. *)
Theorem C01_double_refuted : exists dt F (p q : particle flt),
  InitVay dt F p = Ok q /\ fin dt /\ finv (pP q) /\ zerov (pE q) /\ finv (pB q) /\ fin (pqmt2 q) /\
  FR (pVg q) = 0 /\ ~ fin (vx (pVp q)).
Proof.
  exists 0x1p-7%float, mag_field, (mag_start vzero). eexists. split; [vm_compute; reflexivity|]. cbn [pP pE pB pqmt2 pVg pVp vx].
  split; [fc|]. split; [split; [fc|split; fc]|]. split; [apply zerov_of; apply (ofZ_ok 0); lia|]. split; [split; [fc|split; fc]|]. split; [fc|].
  split; [apply (ofZ_ok 0); lia|]. intros H. unfold fin in H. rewrite <- BinarySingleNaN.is_finite_SF_B2SF, Flocq.IEEE754.PrimFloat.B2SF_Prim2B in H. vm_compute in H. discriminate H.
Qed.
Print Assumptions C01_double_refuted.
(* At very high energy the speed is not below c any more: the 1 in 1+p^2 is lost. *)
Theorem C01_double_speed_refuted : exists dt F (p q : particle flt),
  InitVay dt F p = Ok q /\ finv (pVp q) /\ fin (pVg q) /\ FR (pVg q) = bpow radix2 30 /\ vnorm (FV (pVp q)) = FR (pVg q).
Proof.
  exists mag_dt, free_field, (mag_start (V 0 0 0x1p30)%float). eexists. split; [vm_compute; reflexivity|]. cbn [pVg pVp].
  assert (A : fin 1073741824%float /\ FR 1073741824%float = bpow radix2 30).
  { destruct (FR_lit 1073741824%float 4503599627370496 (-22) eq_refl) as [F E]. split; [exact F|]. rewrite E. change 4503599627370496 with (bpow radix2 52). rewrite <- bpow_plus. reflexivity. }
  split; [split; [fc|split; fc]|]. split; [fc|]. split; [apply A|]. unfold FV. cbn [vx vy vz]. change 0%float with (f_ofZ 0). destruct A as [_ ->]. destruct (ofZ_ok 0 ltac:(lia)) as [_ ->].
  unfold vnorm, vabs2. cbn [vx vy vz]. change (@nsqrt R NumR) with R_sqrt.sqrt. unnum. replace (0 * 0 + 0 * 0 + bpow radix2 30 * bpow radix2 30) with (bpow radix2 30 * bpow radix2 30) by ring. apply sqrt_square, bpow_ge_0.
Qed.
Print Assumptions C01_double_speed_refuted.

(* ==== C03 ==== *)
(* The energy of a particle in magnetic fields (of up to 2^e T in every component, any functions of time
   and position) in double precision: per step it changes by less than 2^-44 of its value. *)
Theorem C03_double : forall e dt F Fs (p p1 q : particle flt), (-900 <= e <= 900)%Z ->
  InitVay dt F p = Ok p1 -> run_steps Fs p1 = Ok q ->
  (forall F', In F' (F :: Fs) -> forall t x eb, F' t x = Ok eb -> zerov (fE eb) /\ finv (fB eb) /\ below e (fB eb)) ->
  fin (pqmt2 p1) -> Rabs (FR (pqmt2 p1)) <= bpow radix2 (-2 - e) -> finv (pP p1) -> below 220 (pP p1) -> INR (length Fs) <= bpow radix2 44 ->
  fin (pVg p1) /\ fin (pVg q) /\ finv (pVp q) /\
  Rabs (FR (pVg q) - FR (pVg p1)) <= (INR (length Fs) + 1) * bpow radix2 (-44) * FR (pVg p1) /\
  Rabs (gamma_of (FV (pVp q)) - gamma_of (FV (pVp p1))) <= INR (length Fs) * bpow radix2 (-44) * gamma_of (FV (pVp p1)).
Proof. exact magnet_energy. Qed.
Print Assumptions C03_double.
Example C03_double_ex : exists q, InitVay mag_dt mag_field (mag_start (V 0 3 5)%float) = Ok mag_init /\ run_steps [mag_field; mag_field] mag_init = Ok q /\
  (forall F', In F' [mag_field; mag_field; mag_field] -> forall t x eb, F' t x = Ok eb -> zerov (fE eb) /\ finv (fB eb) /\ below 0 (fB eb)) /\
  fin (pqmt2 mag_init) /\ Rabs (FR (pqmt2 mag_init)) <= bpow radix2 (-2 - 0) /\ finv (pP mag_init) /\ below 220 (pP mag_init).
Proof.
  destruct (run_steps [mag_field; mag_field] mag_init) as [q| | |] eqn:E; [|vm_compute in E; discriminate E..]. exists q. split; [exact mag_init_ok|]. split; [reflexivity|]. split.
  { assert (M : forall t x eb, mag_field t x = Ok eb -> zerov (fE eb) /\ finv (fB eb) /\ below 0 (fB eb)).
    { intros t x eb H. unfold mag_field in H. apply Ok_inj in H. subst eb. cbn [fE fB]. split; [apply zerov_zero|]. split; [split; [fc|split; fc]|].
      unfold below. cbn [vx vy vz]. change 0%float with (f_ofZ 0). change 1%float with (f_ofZ 1). destruct (ofZ_ok 0 ltac:(lia)) as [_ ->]. destruct (ofZ_ok 1 ltac:(lia)) as [_ ->].
      change (bpow radix2 0) with 1. rewrite Rabs_R0, Rabs_pos_eq by lra. repeat split; lra. }
    intros F' [<-|[<-|[<-|[]]]]; exact M. }
  split; [fc|]. change (-2 - 0)%Z with (-2)%Z. split; [lc2|]. split; [split; [fc|split; fc]|]. pose proof (bp_le 3 220 ltac:(lia)). split; [|split]; (eapply Rle_trans; [|eassumption]); lc3.
Qed.
