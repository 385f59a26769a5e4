(* Properties with the rounding of double precision: C54. *)
From Coq Require Import ZArith Reals List Bool Lia Lra Floats.
From Flocq Require Import Core.
From Verif Require Import Base BaseFacts Num NumFloat FloatFacts VecModel ParticleModel BunchModel ElementModel DriverModel DriverSpec
  FelModel FelSpec FelProofs FelProofs2 FelProofs4 FelProofs6 FelProofs7.
Import ListNotations.
Local Open Scope R_scope.

(* ==== C54 ==== *)
(* Double precision: with any time step between 2^-1000 and 2^900 and up to 2^25 (33 million)
   steps the run is that of a program without any comparison of times, so no time-mismatch
   exception is raised. *)
Theorem C54_double_partial : forall (TT : Trans flt) (dt : flt) NOTS lat (bm : beam flt) k,
  fin dt -> bpow radix2 (-1000) <= FR dt <= bpow radix2 900 -> (Z.of_nat k <= 2 ^ 25)%Z ->
  bmdt bm = dt -> Forall (fun p => pt p = nZ 0) (concat (bmB bm)) -> Forall (fun f => feTime f = nZ 0 /\ feDt f = dt) (snd lat) ->
  sim_run full_field inter_init inter_step NOTS lat bm k = sim_run field_free inter_init_free inter_step_free NOTS lat bm k.
Proof.
  intros TT dt NOTS lat bm k F D K H1 H2 H3. apply (any_run dt); [|assumption|assumption|assumption].
  intros j Hj. apply clocks_agree_F; [split; assumption|lia].
Qed.
Print Assumptions C54_double_partial.
(* the time of the field and of the particles after n steps *)
Theorem C54_drift : forall (dt : flt) n, fin dt -> bpow radix2 (-1000) <= FR dt <= bpow radix2 900 -> (Z.of_nat n <= 2 ^ 53)%Z ->
  fin (clock dt n) /\ Rabs (FR (clock dt n) - INR n * FR dt) <= INR n * INR n * bpow radix2 (-53) * FR dt.
Proof.
  intros dt n F D Hn. apply clock_err; [split; assumption|]. rewrite INR_IZR_INZ. apply IZR_le in Hn. change (IZR (2 ^ 53)) with 9007199254740992 in Hn.
  pose proof ur_val. pose proof ur_pos. nra.
Qed.
Print Assumptions C54_drift.

(* Violation: the sum of the time steps and the product drift apart.  With the time step
   1+2^-27 (or any multiple of it by a power of two) no run with an FEL interaction gets past
   step n_bad = 100663304, whatever the beam. *)
Theorem C54_double_refuted : forall (TT : Trans flt) NOTS lat (bm : beam flt) k s,
  bmdt bm = dt_bad -> Forall (fun p => pt p = nZ 0) (concat (bmB bm)) -> snd lat <> [] -> Forall (fun f => feTime f = nZ 0 /\ feDt f = dt_bad) (snd lat) ->
  (n_bad <= Z.of_nat k)%Z -> sim_run full_field inter_init inter_step NOTS lat bm k <> Ok s.
Proof. exact @bad_run. Qed.
Print Assumptions C54_double_refuted.
Example C54_double_ex : exists (lat : lattice_T flt) (bm : beam flt), (fin dt_bad /\ bpow radix2 (-1000) <= FR dt_bad <= bpow radix2 900) /\
  bmdt bm = dt_bad /\ Forall (fun p => pt p = nZ 0) (concat (bmB bm)) /\ concat (bmB bm) <> [] /\ snd lat <> [] /\
  Forall (fun f => feTime f = nZ 0 /\ feDt f = dt_bad) (snd lat).
Proof.
  exists ([], [FEL 2 dt_bad (nZ 0) 0 vzero vzero vzero (V 0 0 1)%float 1%float (V 1 0 0)%float (V 0 1 0)%float 1%float 1%float 0%float
    [0%float; 0%float] [0%float; 0%float] [] [] false (Some 1%Z)]),
    (BM [[initTrajectory (nZ 0) (V 0 0 (-1))%float (V 0 0 5)%float vzero (new_particle (-1)%float 1%float)]] 0 dt_bad TRACKING_VAY).
  destruct bad_val as [Fd Vd]. split; [split; [exact Fd|]|].
  - rewrite Vd. pose proof (bpow_gt_0 radix2 (-27)). split.
    + apply Rle_trans with (bpow radix2 0); [apply bp; lia|cbn; lra].
    + apply Rle_trans with (bpow radix2 1); [cbn; lra|apply bp; lia].
  - split; [reflexivity|]. split; [constructor; [reflexivity|constructor]|]. split; [discriminate|]. split; [discriminate|].
    constructor; [split; reflexivity|constructor].
Qed.
