(* Model of the test programs /repo/tests/teufel.magnet.cpp, teufel.EcrossB.cpp,
   teufel.electrostatic.cpp, teufel.loop.cpp, teufel.integrate_field.cpp,
   teufel.undulator.cpp, teufel.RadPush.cpp and the first part of teufel.DiffractionScreen.cpp.  The result
   is the return value of main(), the number of failed checks.  Printing is left out.
   The constants of the programs which matter for general statements are parameters; the
   values used are given beside the definitions named *_main. *)
From Coq Require Import ZArith List Bool.
From Verif Require Import Base Num VecModel ParticleModel TraceModel RetardModel ElementModel BunchModel.
Import ListNotations.
Local Open Scope num_scope.
Local Open Scope res_scope.

Section Test.
Context {T : Type} {NT : Num T} {TT : Trans T}.
Notation vecT := (vec T).

(* The literal m * 10^-k.  In double precision numerator and denominator are exact for
   m < 2^53 and k <= 22, so that the quotient is the correctly rounded literal. *)
Definition lit (m k : Z) : T := nZ m / nZ (10 ^ k)%Z.
(* mecsquared, global.h:38 *)
Definition mec2 : T := lit 5109989461 4.
(* if (failed) errors++; *)
Definition fails (b : bool) : Z := if b then 1%Z else 0%Z.
(* a > b *)
Definition gtb (a b : T) : bool := b <? a.

(* ---- teufel.magnet.cpp:64-171 ---- *)
(* the momentum at the start, 79-105 *)
Definition magnet_P0 (B n : vecT) (gamma : T) : vecT :=
  let p := vcross n B in
  let betagamma := nsqrt (gamma * gamma - nZ 1) in
  vdiv (vmul p betagamma) (vnorm p).
(* gyro radius and time of one turn, 83-92 *)
Definition magnet_Rgyro (B : vecT) (gamma : T) : T :=
  nsqrt (gamma * gamma - nZ 1) * mec2 / nc / vnorm B.
Definition magnet_tau (B : vecT) (gamma : T) : T :=
  let beta := nsqrt (nZ 1 - nZ 1 / (gamma * gamma)) in
  nZ 2 * nPi * magnet_Rgyro B gamma / (beta * nc).
Definition magnet (B n : vecT) (gamma : T) (NOTS : nat) : res Z :=
  let F := lat_field (lat_add [] (Homogeneous (EB (V (nZ 0) (nZ 0) (nZ 0)) B))) in
  let betagamma := nsqrt (gamma * gamma - nZ 1) in
  let Rgyro := magnet_Rgyro B gamma in
  let tau := magnet_tau B gamma in
  let electron := initTrajectory (nZ 0) vzero (magnet_P0 B n gamma) vzero (new_particle (nZ (-1)) (nZ 1)) in
  let deltaT := lit 5 1 * tau / nZ (Z.of_nat NOTS) in
  electron <- InitVay deltaT F electron;;
  middle <- StepsVay F NOTS electron;;
  let dist := vnorm (pX middle) in
  let e1 := fails (gtb (nabs (lit 5 1 * dist - Rgyro)) (lit 1 5)) in
  final <- StepsVay F NOTS middle;;
  let e2 := fails (gtb (nZ (10 ^ 12) * nabs (pt final - tau)) (lit 1 2)) in
  let e3 := fails (gtb (vnorm (pX final)) (lit 1 5)) in
  let e4 := fails (gtb (nabs (vnorm (pP final) - betagamma)) (lit 1 4)) in
  Ok (e1 + e2 + e3 + e4)%Z.
Definition magnet_main : res Z :=
  magnet (V (lit 33166247903554 15) (lit 5 2) (lit 8 2)) (V (lit 8 2) (lit 5 2) (lit 3 2)) (nZ 10) 500.

(* ---- teufel.EcrossB.cpp:60-160 ---- *)
(* the checks at the end, 117-150 *)
Definition EcrossB_checks (tau deltaT FinalTime : T) (ExpectedPosition FinalPosition P0 FinalMomentum : vecT) : Z :=
  let e1 := fails (gtb (nabs (FinalTime - tau)) deltaT) in
  let e2 := fails (gtb (nabs (vx FinalPosition - vx ExpectedPosition)) (lit 2 6) &&
                   gtb (nabs (vy FinalPosition - vy ExpectedPosition)) (lit 2 6) &&
                   gtb (nabs (vz FinalPosition - vz ExpectedPosition)) (lit 2 6)) in
  let e3 := fails (gtb (vnorm P0 - vnorm FinalMomentum) (lit 15 4)) in
  (e1 + e2 + e3)%Z.
Definition EcrossB (B Rand : vecT) (gamma tau : T) (NOTS : nat) : res Z :=
  let beta := nsqrt (nZ 1 - nZ 1 / (gamma * gamma)) in
  let betagamma := nsqrt (gamma * gamma - nZ 1) in
  let RandVector := vdiv Rand (vnorm Rand) in
  let Vel := vmul (vmul RandVector beta) nc in
  let E := vcross B Vel in
  let F := element_field (Homogeneous (EB E B)) in
  let P0 := vmul RandVector betagamma in
  let electron := initTrajectory (nZ 0) vzero P0 vzero (new_particle (nZ (-1)) (nZ 1)) in
  let deltaT := tau / nZ (Z.of_nat NOTS) in
  electron <- InitVay deltaT F electron;;
  final <- StepsVay F NOTS electron;;
  Ok (EcrossB_checks tau deltaT (pt final) (V (vx Vel * tau) (vy Vel * tau) (vz Vel * tau)) (pX final) P0 (pP final)).
Definition EcrossB_main : res Z :=
  EcrossB (V (lit 12 2) (lit 52 2) (lit 45 2)) (V (nZ 2) (nZ 3) (nZ 5)) (lit 3035823388162631 14) (lit 10 9) 3000.

(* ---- teufel.electrostatic.cpp:60-237 ---- *)
(* the comparison of two lists of fields, 224-230 *)
Definition lists_check (a b : list T) : Z :=
  fold_left Z.add (map (fun ab => fails (gtb ((fst ab - snd ab) / snd ab) (lit 1 5))) (combine a b)) 0%Z.
Definition trace_points : list Z := zseq 0 11.
Definition electrostatic (Dir : vecT) (gamma tau ObsTime : T) (NOTS : nat) : res Z :=
  let F := element_field (Homogeneous ezero) in
  let one := nZ 1 in
  let particle := initTrajectory (nZ 0) vzero vzero vzero (new_particle (- lit 1 12 / nqe) one) in
  let Eref := lit 1 12 / (nZ 4 * nPi * neps0 * lit 1 3 * lit 1 3) in
  (* the particle at rest, 87-118 *)
  EB1 <- RetardedField_time particle (nZ 0) (V (lit 1 3) (nZ 0) (nZ 0));;
  let e1 := fails (negb (vnorm (vsub (vmul (V (nZ (-1)) (nZ 0) (nZ 0)) Eref) (fE EB1)) <? lit 1 3)) in
  EB2 <- RetardedField_time particle (nZ 0) (V (- lit 1 3) (nZ 0) (nZ 0));;
  let e2 := fails (negb (vnorm (vsub (vmul (V (nZ 1) (nZ 0) (nZ 0)) Eref) (fE EB2)) <? lit 1 3)) in
  EB3 <- RetardedField_time particle (nZ 0) (V (nZ 0) (nZ 0) (lit 1 3));;
  let e3 := fails (negb (vnorm (vsub (vmul (V (nZ 0) (nZ 0) (nZ (-1))) Eref) (fE EB3)) / Eref <? lit 1 6)) in
  (* the particle in motion, 120-144 *)
  let beta := nsqrt (nZ 1 - nZ 1 / (gamma * gamma)) in
  let betagamma := nsqrt (gamma * gamma - nZ 1) in
  let Dir := vnormalize Dir in
  let Perp := vnormalize (vcross Dir (V (nZ 1) (nZ 0) (nZ 0))) in
  let P0 := vmul Dir betagamma in
  let particle := initTrajectory (nZ 0) vzero P0 vzero particle in
  let deltaT := tau / nZ (Z.of_nat NOTS) in
  particle <- InitVay deltaT F particle;;
  particle <- StepsVay F NOTS particle;;
  let ErefV := vmul (vmul (vmul Perp Eref) (nZ (-1))) gamma in
  let BrefV := vmul (vdiv (vdiv (vmul (vmul (vcross (vmul (vmul Dir beta) nc) Perp) (- lit 1 12)) nmu0) (nZ 4 * nPi)) (lit 1 3 * lit 1 3)) gamma in
  (* near the origin, 152-180 *)
  let ObsPos := vmul Perp (lit 1 3) in
  EB4 <- RetardedField_time particle (nZ 0) ObsPos;;
  let e4 := fails (negb (vnorm (vsub ErefV (fE EB4)) / vnorm ErefV <? lit 1 5)) in
  let e5 := fails (negb (vnorm (vsub BrefV (fB EB4)) / vnorm BrefV <? lit 1 5)) in
  let trace t pos := map_res (fun i =>
        eb <- RetardedField_time particle t (vadd pos (vmul Dir (- lit 5 3 + nZ i * lit 1 3)));;
        Ok (vdot (fE eb) Perp)) trace_points in
  ENull <- trace (nZ 0) ObsPos;;
  (* after about 1 m, 183-222 *)
  let ObsPos := vmul (vmul (vmul Dir ObsTime) beta) nc in
  xp <- CoordinatesAtTime particle ObsTime;;
  let e6 := fails (negb (vnorm (vsub ObsPos (fst xp)) <? lit 1 6)) in
  let ObsPos := vadd ObsPos (vmul Perp (lit 1 3)) in
  EB5 <- RetardedField_time particle ObsTime ObsPos;;
  let e7 := fails (negb (vnorm (vsub ErefV (fE EB5)) / vnorm ErefV <? lit 1 3)) in
  let e8 := fails (negb (vnorm (vsub BrefV (fB EB5)) / vnorm BrefV <? lit 1 3)) in
  ETrans <- trace ObsTime ObsPos;;
  let e9 := lists_check ETrans ENull in
  Ok (e1 + e2 + e3 + e4 + e5 + e6 + e7 + e8 + e9)%Z.
Definition electrostatic_main : res Z :=
  electrostatic (V (nZ 2) (nZ 3) (nZ 5)) (nZ 10) (lit 4 9) (lit 3 9) 2000.

(* ---- teufel.loop.cpp:76-195 ---- *)
Definition loop (B0 gamma charge : T) (NOTS : nat) : res Z :=
  let B := V (nZ 0) B0 (nZ 0) in
  let F := lat_field (lat_add [] (Homogeneous (EB (V (nZ 0) (nZ 0) (nZ 0)) B))) in
  let betagamma := nsqrt (gamma * gamma - nZ 1) in
  let AngFreq := vnorm B / (gamma * mec2) * nc * nc in
  let Radius := betagamma * nZ 511000 / (vnorm B * nc) in
  let tau := nZ 2 * nPi / AngFreq in
  let ne := charge / nqe in
  let RadBField := nmu0 * charge / tau / (nZ 2 * Radius) in
  let P0 := V (nZ 0) (nZ 0) betagamma in
  let electron := initTrajectory (nZ 0) vzero P0 vzero (new_particle ne ne) in
  let deltaT := lit 5 1 * tau / nZ (Z.of_nat NOTS) in
  electron <- InitVay deltaT F electron;;
  half <- StepsVay F NOTS electron;;
  let e1 := fails (gtb (vnorm (vsub (pX half) (V (nZ (-2) * Radius) (nZ 0) (nZ 0)))) (lit 1 3)) in
  full <- StepsVay F NOTS half;;
  let e2 := fails (gtb (vnorm (vsub (pX full) vzero)) (lit 1 4)) in
  let e3 := fails (gtb (nabs (vnorm (pP full) - vnorm P0)) (lit 1 3)) in
  snapshot <- RetardedField_time full tau (V (- Radius) (nZ 0) (nZ 0));;
  let e4 := fails (gtb (nabs (vnorm (fB snapshot) - RadBField) / RadBField) (lit 1 3)) in
  tr <- bunch_integrate [full] (V (- Radius) (nZ 0) (nZ 0)) (tr_new (tau - lit 1 15) (lit 2 15) 2);;
  field <- tr_get tr 0;;
  let e5 := fails (gtb (nabs (vnorm (fB field) - RadBField) / RadBField) (lit 1 3)) in
  Ok (e1 + e2 + e3 + e4 + e5)%Z.
Definition loop_main : res Z := loop (lit 5 1) (nZ 10) (lit 1 9) 100.

(* ---- teufel.integrate_field.cpp ---- *)
(* class Special, 51-84: two trajectory points with given times and fields *)
Record special : Type := SP { sp1 : T; sp2 : T; spf1 : T; spf2 : T }.
Definition Ex (e : T) : emf T := EB (V e (nZ 0) (nZ 0)) (V (nZ 0) (nZ 0) (nZ 0)).
(* integrateFieldTrace of such a particle, particle.cpp:767-867, with the overridden
   methods RetardedTime and RetardedField *)
Definition special_integrate (tr : ftrace T) (s : special) : res (ftrace T) :=
  let t0 := tr_t0 tr in
  let dt := tr_dt tr in
  let nots := i32 (tr_N tr) in
  if (nots <? 2)%Z then Ok tr else
  let tmin := t0 - dt * nhalf in
  let tmax := t0 + dt * (nZ nots - nhalf) in
  if (tmin <? sp2 s) && (sp1 s <? tmax)
  then integrate_step t0 dt nots (sp1 s) (sp2 s) (Ex (spf1 s)) (Ex (spf2 s)) tr
  else Ok tr.
(* one bunch, one trace and the expected values *)
Definition trace_test (b : list special) (t0 dt : T) (expected : list T) : res Z :=
  tr <- fold_res special_integrate b (tr_new t0 dt (length expected));;
  es <- map_res (fun i => f <- tr_get tr (fst i);; Ok (fails (gtb (nabs (vx (fE f) - snd i)) (lit 1 6))))
          (combine (zseq 0 (length expected)) expected);;
  Ok (fold_left Z.add es 0%Z).
Definition integrate_field_main : res Z :=
  let b1 := [SP (nZ 0) (nZ 1) (lit 15 1) (lit 5 1)] in
  let b2 := [SP (lit 5 2) (lit 15 2) (lit 15 1) (lit 5 1)] in
  let b3 := [SP (nZ 1) (nZ 2) (nZ 1) (nZ 0); SP (nZ 1) (nZ 2) (nZ 0) (nZ 1); SP (nZ 2) (lit 22 1) (nZ 1) (nZ 1);
             SP (lit 22 1) (lit 24 1) (nZ 1) (nZ 0); SP (lit 24 1) (nZ 3) (nZ 0) (nZ 1)] in
  e1 <- trace_test b1 (nZ 0) (lit 2 1) [lit 725 3; lit 13 1; lit 11 1; lit 9 1; lit 7 1; lit 275 3; nZ 0; nZ 0];;
  e2 <- trace_test b1 (- lit 1 1) (lit 2 1) [nZ 0; lit 14 1; lit 12 1; nZ 1; lit 8 1; lit 6 1; nZ 0; nZ 0];;
  e3 <- trace_test b2 (- lit 2 1) (lit 2 1) [nZ 0; lit 3125 4; lit 1875 4; nZ 0];;
  e4 <- trace_test b2 (- lit 1 1) (lit 2 1) [nZ 0; lit 5 1; nZ 0; nZ 0];;
  e5 <- trace_test b3 (nZ 0) (lit 5 1) [nZ 0; nZ 0; lit 5 1; nZ 1; lit 9875 4; lit 316667 6; lit 395833 6; nZ 0];;
  Ok (e1 + e2 + e3 + e4 + e5)%Z.

(* ---- teufel.undulator.cpp:79-201; writing the log file succeeds ---- *)
(* one step and the largest displacement so far, 141-149 *)
Definition und_step (F : field_fn T) (lambda N : T) (s : particle T * T) : res (particle T * T) :=
  p <- StepVay F (fst s);;
  let XP := pX p in
  Ok (p, if (lambda <? vz XP) && (vz XP <? N * lambda - lambda) && (snd s <? vx XP) then vx XP else snd s).
(* me is the literal 9.1e-31 *)
Definition undulator (me B lambda gamma : T) (N : Z) (NOTS : nat) : res Z :=
  let Nd := nZ N in
  let ku := nZ 2 * nPi / lambda in
  let F := lat_field (lat_add [] (Localized (nZ 0) (V (nZ 0) (nZ 0) (lit 15 1)) (LPlanar (PU B lambda N)))) in
  let beta := nsqrt (nZ 1 - nZ 1 / (gamma * gamma)) in
  let betagamma := nsqrt (gamma * gamma - nZ 1) in
  let K := lit 934 3 * nZ 100 * lambda * B in
  let lambdar := lambda / (nZ 2 * gamma * gamma) * (nZ 1 + K * K / nZ 2) in
  let xdis := nqe * B * nc / (betagamma * me * nc * nc * ku * ku) in
  let electron := initTrajectory (nZ 0) vzero (V (nZ 0) (nZ 0) betagamma) vzero (new_particle (nZ (-1)) (nZ 1)) in
  let tau := Nd * (lambda + lambdar) / nc + (nZ 3 - Nd * lambda) / (beta * nc) in
  let deltaT := tau / nZ (Z.of_nat NOTS) in
  electron <- InitVay deltaT F electron;;
  final <- iter_res (und_step F lambda Nd) NOTS (electron, nZ 0);;
  let '(electron, xdisp) := final in
  let e1 := fails (gtb (nabs (vz (pX electron) - nZ 3)) (lit 1 5)) in
  let e2 := fails (gtb (nabs (xdisp - xdis)) (lit 1 5)) in
  let e3 := fails (gtb (nabs (pt electron - tau)) deltaT) in
  let e4 := fails (gtb (nabs (vx (pX electron))) (lit 1 5)) in
  Ok (e1 + e2 + e3 + e4)%Z.
Definition undulator_main (me : T) : res Z :=
  undulator me (lit 532 3) (lit 37 3) (lit 3035823388162631 14) 54 3000.

(* ---- teufel.RadPush.cpp:66-158; writing the log file succeeds ---- *)
(* the extreme values so far, 111-128 *)
Record extremes : Type := XT { xmin : T; xmax : T; bgxmin : T; bgxmax : T; bgzmax : T }.
Definition rad_step (F : field_fn T) (s : particle T * extremes) : res (particle T * extremes) :=
  p <- StepVay F (fst s);;
  let e := snd s in
  let x := vx (pX p) in let bgx := vx (pP p) in let bgz := vz (pP p) in
  Ok (p, XT (if x <? xmin e then x else xmin e) (if xmax e <? x then x else xmax e)
            (if bgx <? bgxmin e then bgx else bgxmin e) (if bgxmax e <? bgx then bgx else bgxmax e)
            (if bgzmax e <? bgz then bgz else bgzmax e)).
Definition RadPush (lambda A zR : T) (NOTS : nat) : res Z :=
  let wave := Localized (nZ 0) vzero (LWave (GW lambda A (nZ 0) zR)) in
  F0 <- element_field wave (nZ 0) vzero;;
  let Ex := vx (fE F0) in
  let omega := nZ 2 * nPi * nc / lambda in
  let a0 := Ex / (mec2 / nc * omega) in
  let a0_k := nc * a0 / omega in
  let F := lat_field (lat_add [] wave) in
  let electron := initTrajectory (nZ 0) vzero vzero vzero (new_particle (nZ (-1)) (nZ 1)) in
  let tau := lambda / nc in
  let deltaT := nZ 10 * tau / nZ (Z.of_nat NOTS) in
  electron <- InitVay deltaT F electron;;
  final <- iter_res (rad_step F) NOTS (electron, XT (nZ 0) (nZ 0) (nZ 0) (nZ 0) (nZ 0));;
  let e := snd final in
  let xamp := xmax e - xmin e in
  let e1 := fails (gtb (nabs (xamp - nZ 2 * a0_k) / a0_k) (lit 1 3)) in
  let e2 := fails (gtb (nabs (bgxmin e + nZ 1)) (lit 1 3) || gtb (nabs (bgxmax e - nZ 1)) (lit 1 3)) in
  let e3 := fails (gtb (nabs (bgzmax e - lit 5 1)) (lit 1 3)) in
  Ok (e1 + e2 + e3)%Z.
Definition RadPush_main : res Z := RadPush (lit 1 6) (nZ 3210700000000) (nZ 1) 2000.

(* ---- teufel.DiffractionScreen.cpp:67-123, the part before the screen is read ---- *)
(* the checks of the times, 106-115 *)
Definition screen_times (beta t_start t_final : T) : Z :=
  let e1 := fails (gtb (nabs (t_start + nZ 10 / (beta * nc))) (lit 1 6)) in
  let e2 := fails (gtb (nabs (t_final - nZ 10 / (beta * nc))) (lit 1 6)) in
  (e1 + e2)%Z.
Definition DiffractionScreen_tracking (charge gamma : T) (NOTS : nat) : res Z :=
  let F := lat_field [] in
  let beta := nsqrt (nZ 1 - nZ 1 / (gamma * gamma)) in
  let betagamma := nsqrt (gamma * gamma - nZ 1) in
  let t0 := - nZ 10 / (beta * nc) in
  let electrons := initTrajectory t0 (V (nZ 0) (nZ 0) (nZ (-10))) (V (nZ 0) (nZ 0) betagamma) vzero
                     (new_particle (- charge / nqe) (charge / nqe)) in
  let duration := nZ 20 / (beta * nc) in
  let dt := duration / nZ (Z.of_nat NOTS) in
  electrons <- InitVay dt F electrons;;
  electrons <- StepsVay F NOTS electrons;;
  t_start <- TrajTime electrons 0;;
  t_final <- TrajTime electrons (Z.of_nat NOTS - 1);;
  let e1 := screen_times beta t_start t_final in
  let e2 := fails (gtb (nabs (vz (pX electrons) - nZ 10)) (lit 1 6)) in
  Ok (e1 + e2)%Z.
Definition DiffractionScreen_main : res Z := DiffractionScreen_tracking (lit 100 12) (nZ 20) (20 * 1000).
End Test.
