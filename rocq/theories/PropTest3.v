(* C92: the whole program DiffractionScreen; what the checks of the programs magnet, EcrossB,
   electrostatic, loop and integrate_field accept. *)
From Coq Require Import ZArith Reals Lra Lia List Bool String.
From Verif Require Import Base BaseFacts Num VecModel VecFacts ParticleModel ParticleSpec TraceModel TraceProofs2 RetardModel ElementModel BunchModel ObserverModel ObserverSpec ObserverSpec2
  SddsModel OutputModel OutputSpec TestModel TestModel3 TestProofs TestProofs3 TestProofs4 TestProofs5.
Import ListNotations.
Local Open Scope R_scope.

(* The tracked charge moves along the axis from -10 m to 10 m and passes the origin at time 0. *)
Theorem C92_screen_particle : forall charge gamma N, 1 < gamma -> (0 < N)%nat ->
  let v := R_sqrt.sqrt (1 - 1 / (gamma * gamma)) * 299792458 in
  exists p, @DiffractionScreen_particle R NumR TransR charge gamma N = Ok p /\ List.length (trajectory p) = S N /\
    forall k, (k <= N)%nat -> nth_error (trajectory p) k =
      Some (TP (- (10 / v) + INR k * (20 / v / INR N)) (V 0 0 (-10 + 20 * INR k / INR N)) (V 0 0 (R_sqrt.sqrt (gamma * gamma - 1))) vzero).
Proof. exact screen_particle. Qed.
Print Assumptions C92_screen_particle.
(* For every mesh which can be read and for which the fields are computed (s'), the program writes
   a file from which the mesh with these fields is read back.  It succeeds if and only if the energy
   leaving through the cells is 0.463 uJ to 0.020 uJ. *)
Theorem C92_screen_program : forall fs charge gamma N f s dt total g,
  1 < gamma -> (0 < N)%nat -> 20 / (R_sqrt.sqrt (1 - 1 / (gamma * gamma)) * 299792458) / INR N <= 1 / 1000000 ->
  fs "tests/DiffractionScreen.h5"%string = Some f -> mesh_read f = Ok (s, dt) -> msX s <> [] -> mesh_init s = Ok (total, g) ->
  small (OMesh s) -> mesh_fits s -> forall p s', @DiffractionScreen_particle R NumR TransR charge gamma N = Ok p ->
  mesh_integrate (SBeam (BM [[p]] 0 0 TRACKING_NONE)) (mesh_zero s) = Ok s' ->
  exists n out, @DiffractionScreen R NumR TransR fs charge gamma N = Ok (n, Some out) /\ mesh_read out = Ok (s', dt) /\ (0 <= n <= 1)%Z /\
    (n = 0%Z <-> Rabs (rsum (map outflow (combine (msA s') g)) * 1000000 - 463 / 1000) <= 20 / 1000).
Proof. exact screen_program. Qed.
Print Assumptions C92_screen_program.
(* Without the file, or with one which is refused, it reports one error and writes nothing. *)
Theorem C92_screen_unread : forall fs charge gamma N,
  1 < gamma -> (0 < N)%nat -> 20 / (R_sqrt.sqrt (1 - 1 / (gamma * gamma)) * 299792458) / INR N <= 1 / 1000000 ->
  (fs "tests/DiffractionScreen.h5"%string = None \/ exists f x, fs "tests/DiffractionScreen.h5"%string = Some f /\ mesh_read f = Throw x) ->
  @DiffractionScreen R NumR TransR fs charge gamma N = Ok (1%Z, None).
Proof. exact screen_unread. Qed.
Print Assumptions C92_screen_unread.
Example C92_screen_ex : @DiffractionScreen R NumR TransR (fun _ => None) 1 2 (20 * 1000) = Ok (1%Z, None).
Proof.
  apply C92_screen_unread; [lra|lia| |left; reflexivity].
  assert (NN : INR (20 * 1000) = 20000) by (rewrite mult_INR, !INR_IZR_INZ; change (20 * 1000 = 20000); lra). rewrite NN.
  assert (B : 1 / 2 <= R_sqrt.sqrt (1 - 1 / (2 * 2))) by (rewrite <- (R_sqrt.sqrt_square (1 / 2)) by lra; apply R_sqrt.sqrt_le_1_alt; lra).
  set (b := R_sqrt.sqrt (1 - 1 / (2 * 2))) in *. apply Rmult_le_reg_r with (b * 299792458 * 20000); [lra|]. field_simplify; [lra|lra].
Qed.

(* magnet: half a turn ends at twice the gyro radius; after the turn the time, the position and the
   momentum are those of the start. *)
Theorem C92_magnet_checks : forall (TT : Trans R) (B n : vec R) gamma N e mid fin,
  let F := lat_field [Homogeneous (EB vzero B)] in
  let rg := R_sqrt.sqrt (gamma * gamma - 1) * (5109989461 / 10000) / 299792458 / vnorm B in
  let tau := 2 * PI * rg / (R_sqrt.sqrt (1 - 1 / (gamma * gamma)) * 299792458) in
  InitVay (5 / 10 * tau / INR N) F (initTrajectory 0 vzero (vdiv (vmul (vcross n B) (R_sqrt.sqrt (gamma * gamma - 1))) (vnorm (vcross n B))) vzero (new_particle (-1) 1)) = Ok e ->
  StepsVay F N e = Ok mid -> StepsVay F N mid = Ok fin ->
  exists k, @magnet R NumR TT B n gamma N = Ok k /\ (0 <= k <= 4)%Z /\
    (k = 0%Z <-> Rabs (5 / 10 * vnorm (pX mid) - rg) <= 1 / 100000 /\ 1000000000000 * Rabs (pt fin - tau) <= 1 / 100 /\
                 vnorm (pX fin) <= 1 / 100000 /\ Rabs (vnorm (pP fin) - R_sqrt.sqrt (gamma * gamma - 1)) <= 1 / 10000).
Proof. exact @magnet_checks. Qed.
Print Assumptions C92_magnet_checks.
(* EcrossB: the time; one coordinate of the position; a momentum which is not too small. *)
Theorem C92_EcrossB_checks : forall (tau dT t : R) (Xe X P0 P : vec R),
  (0 <= EcrossB_checks tau dT t Xe X P0 P <= 3)%Z /\
  (EcrossB_checks tau dT t Xe X P0 P = 0%Z <-> Rabs (t - tau) <= dT /\
    (Rabs (vx X - vx Xe) <= 2 / 1000000 \/ Rabs (vy X - vy Xe) <= 2 / 1000000 \/ Rabs (vz X - vz Xe) <= 2 / 1000000) /\
    vnorm P0 - vnorm P <= 15 / 10000).
Proof. exact EcrossB_accepts. Qed.
Print Assumptions C92_EcrossB_checks.
(* electrostatic: the fields of the charge at rest at three points, the fields of the charge in motion
   beside it at two times, its position, and the profiles of the field at the two times, where only a
   field larger than the reference is an error. *)
Theorem C92_electrostatic_checks : forall (TT : Trans R) (Dir : vec R) gamma tau ObsTime N,
  let c := 299792458 in let u := vnormalize Dir in let perp := vnormalize (vcross u (V 1 0 0)) in
  let beta := R_sqrt.sqrt (1 - 1 / (gamma * gamma)) in
  let E0 := 1 / 1000000000000 / (4 * PI * neps0 * (1 / 1000) * (1 / 1000)) in
  let Ev := vmul (vmul (vmul perp E0) (-1)) gamma in
  let Bv := vmul (vdiv (vdiv (vmul (vmul (vcross (vmul (vmul u beta) c) perp) (- (1 / 1000000000000))) nmu0) (4 * PI)) (1 / 1000 * (1 / 1000))) gamma in
  let place := vmul (vmul (vmul u ObsTime) beta) c in
  let F := element_field (Homogeneous ezero) in
  let rest := initTrajectory 0 vzero vzero vzero (new_particle (- (1 / 1000000000000) / nqe) 1) in
  forall e p f1 f2 f3 f4 f5 xp En Et,
  RetardedField_time rest 0 (V (1 / 1000) 0 0) = Ok f1 -> RetardedField_time rest 0 (V (- (1 / 1000)) 0 0) = Ok f2 -> RetardedField_time rest 0 (V 0 0 (1 / 1000)) = Ok f3 ->
  InitVay (tau / INR N) F (initTrajectory 0 vzero (vmul u (R_sqrt.sqrt (gamma * gamma - 1))) vzero rest) = Ok e -> StepsVay F N e = Ok p ->
  RetardedField_time p 0 (vmul perp (1 / 1000)) = Ok f4 -> CoordinatesAtTime p ObsTime = Ok xp ->
  RetardedField_time p ObsTime (vadd place (vmul perp (1 / 1000))) = Ok f5 ->
  let along t pos i E := exists f, RetardedField_time p t (vadd pos (vmul u (- (5 / 1000) + IZR i * (1 / 1000)))) = Ok f /\ vdot (fE f) perp = E in
  Forall2 (along 0 (vmul perp (1 / 1000))) (zseq 0 11) En -> Forall2 (along ObsTime (vadd place (vmul perp (1 / 1000)))) (zseq 0 11) Et ->
  exists n, @electrostatic R NumR TT Dir gamma tau ObsTime N = Ok n /\ (0 <= n <= 19)%Z /\
    (n = 0%Z <-> vnorm (vsub (vmul (V (-1) 0 0) E0) (fE f1)) < 1 / 1000 /\ vnorm (vsub (vmul (V 1 0 0) E0) (fE f2)) < 1 / 1000 /\
      vnorm (vsub (vmul (V 0 0 (-1)) E0) (fE f3)) / E0 < 1 / 1000000 /\
      vnorm (vsub Ev (fE f4)) / vnorm Ev < 1 / 100000 /\ vnorm (vsub Bv (fB f4)) / vnorm Bv < 1 / 100000 /\
      vnorm (vsub place (fst xp)) < 1 / 1000000 /\
      vnorm (vsub Ev (fE f5)) / vnorm Ev < 1 / 1000 /\ vnorm (vsub Bv (fB f5)) / vnorm Bv < 1 / 1000 /\
      Forall2 (fun x y => (x - y) / y <= 1 / 100000) Et En).
Proof. exact @electrostatic_checks. Qed.
Print Assumptions C92_electrostatic_checks.
(* loop: the positions after half a turn and a whole one, the momentum, and the magnetic field in the
   centre as computed for one time and as averaged in a trace. *)
Theorem C92_loop_checks : forall (TT : Trans R) B0 gamma charge N e half full snap tr field,
  let c := 299792458 in let B := V 0 B0 0 in let F := lat_field [Homogeneous (EB vzero B)] in
  let bg := R_sqrt.sqrt (gamma * gamma - 1) in let radius := bg * 511000 / (vnorm B * c) in
  let tau := 2 * PI / (vnorm B / (gamma * (5109989461 / 10000)) * c * c) in
  let Bref := nmu0 * charge / tau / (2 * radius) in
  InitVay (5 / 10 * tau / INR N) F (initTrajectory 0 vzero (V 0 0 bg) vzero (new_particle (charge / nqe) (charge / nqe))) = Ok e ->
  StepsVay F N e = Ok half -> StepsVay F N half = Ok full -> RetardedField_time full tau (V (- radius) 0 0) = Ok snap ->
  bunch_integrate [full] (V (- radius) 0 0) (tr_new (tau - 1 / 1000000000000000) (2 / 1000000000000000) 2) = Ok tr -> nth_error (tr_f tr) 0 = Some field ->
  exists n, @loop R NumR TT B0 gamma charge N = Ok n /\ (0 <= n <= 5)%Z /\
    (n = 0%Z <-> vnorm (vsub (pX half) (V (- 2 * radius) 0 0)) <= 1 / 1000 /\ vnorm (vsub (pX full) vzero) <= 1 / 10000 /\
      Rabs (vnorm (pP full) - vnorm (V 0 0 bg)) <= 1 / 1000 /\ Rabs (vnorm (fB snap) - Bref) / Bref <= 1 / 1000 /\ Rabs (vnorm (fB field) - Bref) / Bref <= 1 / 1000).
Proof. exact @loop_checks. Qed.
Print Assumptions C92_loop_checks.
(* integrate_field: every sample of the trace is compared with the expected value. *)
Theorem C92_trace_checks : forall (b : list (special (T:=R))) t0 dt expected tr,
  fold_res special_integrate b (tr_new t0 dt (List.length expected)) = Ok tr -> List.length (tr_f tr) = List.length expected ->
  exists n, trace_test b t0 dt expected = Ok n /\ (0 <= n <= Z.of_nat (List.length expected))%Z /\
    (n = 0%Z <-> Forall2 (fun f x => Rabs (vx (fE f) - x) <= 1 / 1000000) (tr_f tr) expected).
Proof. exact trace_checks. Qed.
Print Assumptions C92_trace_checks.
Example C92_trace_ex : fold_res special_integrate [] (tr_new 0 1 (List.length [0; 0])) = Ok (tr_new (T:=R) 0 1 2).
Proof. reflexivity. Qed.
