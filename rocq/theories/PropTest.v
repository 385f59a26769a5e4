(* The test programs (C92). *)
From Coq Require Import ZArith Reals Lra Lia List String Floats.
From Verif Require Import Base Num NumFloat VecModel VecFacts ParticleModel ElementModel TransFloat BunchModel SddsModel TestModel TestModel2 TestProofs TestProofs2.
Import ListNotations.
Local Set Warnings "-inexact-float".

(* In double precision all checks of the programs succeed.  The first five do not depend on the
   functions of the C library; for the last two these are replaced by those of TransFloat.v. *)
Theorem C92_double : forall TF : Trans float,
  @magnet_main float NumF TF = Ok 0%Z /\ @EcrossB_main float NumF TF = Ok 0%Z /\
  @electrostatic_main float NumF TF = Ok 0%Z /\ @loop_main float NumF TF = Ok 0%Z /\
  @integrate_field_main float NumF = Ok 0%Z.
Proof. intros TF. refine (conj _ (conj _ (conj _ (conj _ _)))); vm_compute; reflexivity. Qed.
Print Assumptions C92_double.
Theorem C92_double_partial : @undulator_main float NumF TransF 9.1e-31%float = Ok 0%Z /\ @RadPush_main float NumF TransF = Ok 0%Z.
Proof. split; vm_compute; reflexivity. Qed.
Print Assumptions C92_double_partial.

Local Open Scope R_scope.
(* In exact arithmetic: crossed fields pass for all fields, directions, energies, times and
   numbers of steps *)
Theorem C92_EcrossB : forall (B Rand : vec R) gamma tau n, Rand <> vzero -> 1 <= gamma -> 0 <= tau -> (0 < n)%nat ->
  @EcrossB R NumR TransR B Rand gamma tau n = Ok 0%Z.
Proof. exact EcrossB_passes. Qed.
Print Assumptions C92_EcrossB.
(* the magnet passes whenever the gyro radius is small enough for the number of steps *)
Theorem C92_magnet : forall (B n : vec R) gamma N, B <> vzero -> vcross n B <> vzero -> 1 < gamma -> (13 <= N)%nat ->
  let Rgyro := R_sqrt.sqrt (gamma * gamma - 1) * (5109989461 / 10000) / 299792458 / R_sqrt.sqrt (vx B * vx B + vy B * vy B + vz B * vz B) in
  Rgyro * (9 / (INR N * INR N) + 1 / 100000000) <= 1 / 100000 -> @magnet R NumR TransR B n gamma N = Ok 0%Z.
Proof. exact magnet_passes. Qed.
Print Assumptions C92_magnet.
(* the tracking before the diffraction screen passes if the time step is no longer than 1 us *)
Theorem C92_screen : forall charge gamma N, 1 < gamma -> (0 < N)%nat ->
  20 / (R_sqrt.sqrt (1 - 1 / (gamma * gamma)) * 299792458) / INR N <= 1 / 1000000 ->
  @DiffractionScreen_tracking R NumR TransR charge gamma N = Ok 0%Z.
Proof. exact screen_passes. Qed.
Print Assumptions C92_screen.
(* and so do these programs with the values given in them *)
Theorem C92_exact : @magnet_main R NumR TransR = Ok 0%Z /\ @EcrossB_main R NumR TransR = Ok 0%Z /\
  @DiffractionScreen_main R NumR TransR = Ok 0%Z.
Proof. exact (conj magnet_main_passes (conj EcrossB_main_passes screen_main_passes)). Qed.
Print Assumptions C92_exact.

(* The checks accept wrong results: every final position with one correct coordinate, *)
Theorem C92_position_refuted : forall (tau deltaT : R) (X P d : vec R), 0 <= deltaT -> vx d = 0 \/ vy d = 0 \/ vz d = 0 ->
  EcrossB_checks (T:=R) tau deltaT tau X (vadd X d) P P = 0%Z.
Proof. exact position_accepted. Qed.
Print Assumptions C92_position_refuted.
(* every final momentum which is not smaller than the initial one, *)
Theorem C92_momentum_refuted : forall (tau deltaT : R) (X P P' : vec R), 0 <= deltaT -> vnorm P <= vnorm P' ->
  EcrossB_checks (T:=R) tau deltaT tau X X P P' = 0%Z.
Proof. exact momentum_accepted. Qed.
Print Assumptions C92_momentum_refuted.
(* and all fields which are not larger than the reference, for example no field at all *)
Theorem C92_fields_refuted : forall a b : list R, Forall2 (fun x y => x / y <= 1) a b -> lists_check (T:=R) a b = 0%Z.
Proof. exact lists_accepted. Qed.
Print Assumptions C92_fields_refuted.
(* DiffractionScreen accepts all times of the whole run as start and as end of the trajectory *)
Theorem C92_times_refuted : forall beta t_start t_final : R, 1 / 10 <= beta ->
  Rabs t_start <= 10 / (beta * 299792458) -> Rabs t_final <= 10 / (beta * 299792458) -> screen_times (T:=R) beta t_start t_final = 0%Z.
Proof. exact times_accepted. Qed.
Print Assumptions C92_times_refuted.

Example C92_never_moved : screen_times (T:=R) 1 0 0 = 0%Z.
Proof. apply C92_times_refuted; [lra| |]; rewrite Rabs_R0; lra. Qed.
Example C92_far_position : EcrossB_checks (T:=R) 1 1 1 (V 0 0 0) (vadd (V 0 0 0) (V 1000 1000 0)) (V 0 0 1) (V 0 0 1) = 0%Z.
Proof. apply C92_position_refuted; [lra|]. right. right. reflexivity. Qed.
Example C92_no_field : lists_check (T:=R) [0; 0; 0] [-5; -7; -5] = 0%Z.
Proof. apply C92_fields_refuted. repeat constructor; lra. Qed.
(* the checks do detect a wrong time, a larger distance in all coordinates and a larger field *)
Example C92_detects : (EcrossB_checks 1 0.5 2 (V 0 0 0) (V 1 1 1) (V 0 0 2) (V 0 0 1))%float = 3%Z /\
  lists_check (T:=float) [(-6)%float] [(-5)%float] = 1%Z.
Proof. split; vm_compute; reflexivity. Qed.
(* with too few steps the magnet fails a check *)
Example C92_magnet_detects : forall TF : Trans float,
  @magnet float NumF TF (V 0.03 0.05 0.08)%float (V 0.08 0.05 0.03)%float 10%float 20 = Ok 1%Z.
Proof. intros TF. vm_compute. reflexivity. Qed.
Example C92_EcrossB_example : EcrossB (T:=R) (V 1 2 3) (V 0 0 1) 2 3 10 = Ok 0%Z.
Proof. apply C92_EcrossB; [|lra|lra|lia]. intros E. apply (f_equal vz) in E. cbn in E. lra. Qed.

(* The bunch test, in any arithmetic and for any random numbers: the program finds the particles it
   prints and writes the file; the file has NOP rows with the coordinates of the distribution
   (g k i: coordinate k of particle i) displaced by 1 mm in x and by the momentum in z; the
   distribution has no times, all of them are zero. *)
Theorem C92_bunch : forall (T : Type) (NT : Num T) NOP rnd (g : Z -> Z -> T), (6 <= NOP)%Z -> (6 * NOP <= int_max)%Z ->
  let at_all (f : Z -> T) := Some (map f (zseq 0 (Z.to_nat NOP))) in
  exists d, bunch_test NOP rnd g = Ok d /\ sdRows d = NOP /\
    named (sdCol d) "t" = at_all (fun _ => nadd (nZ 0) (nZ 0)) /\
    named (sdCol d) "x" = at_all (fun i => nadd (ndiv (nZ 1) (nZ 1000)) (g 0%Z i)) /\
    named (sdCol d) "y" = at_all (fun i => nadd (nZ 0) (g 1%Z i)) /\
    named (sdCol d) "z" = at_all (fun i => nadd (nZ 0) (g 2%Z i)) /\
    named (sdCol d) "px" = at_all (fun i => nadd (nZ 0) (g 3%Z i)) /\
    named (sdCol d) "py" = at_all (fun i => nadd (nZ 0) (g 4%Z i)) /\
    named (sdCol d) "pz" = at_all (fun i => nadd (nsqrt (nsub (nmul (nZ 50) (nZ 50)) (nZ 1))) (g 5%Z i)).
Proof. exact @bunch_test_ok. Qed.
Print Assumptions C92_bunch.
Example C92_bunch_ex : (6 <= 100000)%Z /\ (6 * 100000 <= int_max)%Z.
Proof. unfold int_max. lia. Qed.
