(* C92: what the checks of the programs RadPush and undulator accept, and the values they are run with. *)
From Coq Require Import ZArith Reals Lra Lia List Bool.
From Verif Require Import Base BaseFacts Num VecModel VecFacts ParticleModel ParticleSpec ElementModel TestModel TestProofs TestProofs3.
Import ListNotations.
Local Open Scope R_scope.

(* RadPush accepts a tracked electron if and only if the extent of its trajectory in x is that of the
   figure of eight, its transverse momenta reach -1 and 1 and the longitudinal one 1/2, each to 10^-3.
   The extreme values are those of all recorded points. *)
Theorem C92_RadPush_checks : forall (TT : Trans R) lambda A zR N e p F0,
  element_field (Localized 0 vzero (LWave (GW lambda A 0 zR))) 0 vzero = Ok F0 ->
  let F := lat_field [Localized 0 vzero (LWave (GW lambda A 0 zR))] in let c := 299792458 in
  InitVay (10 * (lambda / c) / INR N) F (initTrajectory 0 vzero vzero vzero (new_particle (-1) 1)) = Ok e -> StepsVay F N e = Ok p ->
  exists n, @RadPush R NumR TT lambda A zR N = Ok n /\ (0 <= n <= 3)%Z /\
    forall xlo xhi plo phi zhi,
      let x := map (fun q => vx (tpx q)) (trajectory p) in let bgx := map (fun q => vx (tpp q)) (trajectory p) in
      let bgz := map (fun q => vz (tpp q)) (trajectory p) in
      smallest xlo x -> largest xhi x -> smallest plo bgx -> largest phi bgx -> largest zhi bgz ->
      let omega := 2 * PI * c / lambda in let a0_k := c * (vx (fE F0) / (5109989461 / 10000 / c * omega)) / omega in
      (n = 0%Z <-> Rabs (xhi - xlo - 2 * a0_k) / a0_k <= 1 / 1000 /\ Rabs (plo + 1) <= 1 / 1000 /\ Rabs (phi - 1) <= 1 / 1000 /\
                   Rabs (zhi - 5 / 10) <= 1 / 1000).
Proof. exact @rad_checks. Qed.
Print Assumptions C92_RadPush_checks.

(* undulator accepts a tracked electron if and only if it arrives at z = 3 m on the axis, at the calculated
   time, and its largest displacement more than one period inside is the calculated amplitude *)
Theorem C92_undulator_checks : forall (TT : Trans R) me B lambda gamma N K e p, 0 < lambda ->
  let c := 299792458 in
  let F := lat_field [Localized 0 (V 0 0 (15 / 10)) (LPlanar (PU B lambda N))] in
  let bg := R_sqrt.sqrt (gamma * gamma - 1) in let beta := R_sqrt.sqrt (1 - 1 / (gamma * gamma)) in
  let Ku := 934 / 1000 * 100 * lambda * B in let lambdar := lambda / (2 * gamma * gamma) * (1 + Ku * Ku / 2) in
  let ku := 2 * PI / lambda in let amplitude := nqe * B * c / (bg * me * c * c * ku * ku) in
  let tau := IZR N * (lambda + lambdar) / c + (3 - IZR N * lambda) / (beta * c) in
  InitVay (tau / INR K) F (initTrajectory 0 vzero (V 0 0 bg) vzero (new_particle (-1) 1)) = Ok e -> StepsVay F K e = Ok p ->
  exists n, @undulator R NumR TT me B lambda gamma N K = Ok n /\ (0 <= n <= 4)%Z /\
    forall xhi, largest xhi (0 :: map (fun q => vx (tpx q)) (filter (inside lambda (IZR N * lambda)) (trajectory p))) ->
      (n = 0%Z <-> Rabs (vz (pX p) - 3) <= 1 / 100000 /\ Rabs (xhi - amplitude) <= 1 / 100000 /\ Rabs (pt p - tau) <= tau / INR K /\
                   Rabs (vx (pX p)) <= 1 / 100000).
Proof. exact @und_checks. Qed.
Print Assumptions C92_undulator_checks.

(* the values in the programs *)
Theorem C92_values : forall (TT : Trans R) me,
  @RadPush_main R NumR TT = @RadPush R NumR TT (1 / 1000000) 3210700000000 1 2000 /\
  @undulator_main R NumR TT me = @undulator R NumR TT me (532 / 1000) (37 / 1000) (3035823388162631 / 100000000000000) 54 3000 /\
  @magnet_main R NumR TT = @magnet R NumR TT (V (33166247903554 / 1000000000000000) (5 / 100) (8 / 100)) (V (8 / 100) (5 / 100) (3 / 100)) 10 500 /\
  @EcrossB_main R NumR TT = @EcrossB R NumR TT (V (12 / 100) (52 / 100) (45 / 100)) (V 2 3 5) (3035823388162631 / 100000000000000) (10 / 1000000000) 3000 /\
  @electrostatic_main R NumR TT = @electrostatic R NumR TT (V 2 3 5) 10 (4 / 1000000000) (3 / 1000000000) 2000 /\
  @loop_main R NumR TT = @loop R NumR TT (5 / 10) 10 (1 / 1000000000) 100 /\
  @DiffractionScreen_main R NumR TT = @DiffractionScreen_tracking R NumR TT (100 / 1000000000000) 20 (20 * 1000).
Proof.
  intros TT me. assert (L : forall m k, @lit R NumR m k = IZR m / IZR (10 ^ k)) by reflexivity.
  refine (conj _ (conj _ (conj _ (conj _ (conj _ (conj _ _)))))).
  - unfold RadPush_main. rewrite L. reflexivity.
  - unfold undulator_main. rewrite !L. reflexivity.
  - unfold magnet_main. rewrite !L. reflexivity.
  - unfold EcrossB_main. rewrite !L. reflexivity.
  - unfold electrostatic_main. rewrite !L. reflexivity.
  - unfold loop_main. rewrite !L. reflexivity.
  - unfold DiffractionScreen_main. rewrite L. reflexivity.
Qed.
Print Assumptions C92_values.
Example C92_extremes_ex : smallest (-1) [0; -1; 2] /\ largest 2 [0; -1; 2] /\ inside 1 5 (TP 0 (V 0 0 2) vzero vzero) = true.
Proof.
  split; [split; [right; left; reflexivity|intros x [<-|[<-|[<-|[]]]]; lra]|]. split; [split; [right; right; left; reflexivity|intros x [<-|[<-|[<-|[]]]]; lra]|].
  unfold inside. cbn. unfold Rltb. destruct (Rlt_dec 1 2), (Rlt_dec 2 (5 - 1)); first [reflexivity|lra].
Qed.
