(* Model of the whole program /repo/tests/teufel.DiffractionScreen.cpp:67-165; the checks of the
   tracking are those of TestModel.v.  fs is the file system; fs "tests/DiffractionScreen.h5" the file
   with the mesh.  The result is the number of errors and the file written, if any.  Exceptions
   within the try block are counted, except in integrate(): an exception cannot leave the parallel
   loop there, the program ends.  Printing is left out. *)
From Coq Require Import ZArith List String.
From Verif Require Import Base Num VecModel ParticleModel TraceModel ElementModel BunchModel ObserverModel SddsModel OutputModel TestModel.
Import ListNotations.
Local Open Scope num_scope.
Local Open Scope res_scope.

Section Screen.
Context {T : Type} {NT : Num T} {TT : Trans T}.

(* the particle and its tracking, 67-105 *)
Definition DiffractionScreen_particle (charge gamma : T) (NOTS : nat) : res (particle T) :=
  let F := lat_field [] in
  let beta := nsqrt (nZ 1 - nZ 1 / (gamma * gamma)) in
  let betagamma := nsqrt (gamma * gamma - nZ 1) in
  let t0 := - nZ 10 / (beta * nc) in
  let electrons := initTrajectory t0 (V (nZ 0) (nZ 0) (nZ (-10))) (V (nZ 0) (nZ 0) betagamma) vzero
                     (new_particle (- charge / nqe) (charge / nqe)) in
  let duration := nZ 20 / (beta * nc) in
  let dt := duration / nZ (Z.of_nat NOTS) in
  electrons <- InitVay dt F electrons;;
  StepsVay F NOTS electrons.
(* the check of the energy, 143-150 *)
Definition energy_check (energy : T) : Z :=
  let EuJ := energy * nZ 1000000 in
  let EuJ_th := lit 463 3 in
  fails (gtb (nabs (EuJ - EuJ_th)) (lit 20 3)).
(* the try block, 131-162: the bunch as a beam of one bunch, for which MeshedScreen<Beam> and
   MeshedScreen<Bunch> add the same fields *)
Definition DiffractionScreen_screen (fs : string -> option (h5file T)) (p : particle T) : res (Z * option (h5file T)) :=
  let counted {A} (r : res A) (errors : Z) (k : A -> res (Z * option (h5file T))) : res (Z * option (h5file T)) :=
    match r with Ok a => k a | Throw _ => Ok ((errors + 1)%Z, None) | UB => UB | Loop => Loop end in
  counted (mesh_open fs "tests/DiffractionScreen.h5") 0%Z (fun sd =>
  counted (mesh_init (fst sd)) 0%Z (fun g =>
  s <- mesh_integrate (SBeam (BM [[p]] 0 (nZ 0) TRACKING_NONE)) (mesh_zero (fst sd));;
  counted (mesh_energy s (snd g)) 0%Z (fun e =>
  counted (mesh_file s (snd sd)) (energy_check e) (fun f =>
  Ok (energy_check e, Some f))))).
Definition DiffractionScreen (fs : string -> option (h5file T)) (charge gamma : T) (NOTS : nat) : res (Z * option (h5file T)) :=
  e <- DiffractionScreen_tracking charge gamma NOTS;;
  p <- DiffractionScreen_particle charge gamma NOTS;;
  r <- DiffractionScreen_screen fs p;;
  Ok ((e + fst r)%Z, snd r).
End Screen.
