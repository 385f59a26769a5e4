(* Specification: what the files written during the tracking are expected to hold. *)
From Coq Require Import ZArith String Reals List.
From Verif Require Import Base Num VecModel ParticleModel ParticleSpec ElementModel BunchModel BunchModelR BunchSpec SddsModel OutputModel OutputSpec.
Import ListNotations.
Local Open Scope R_scope.

(* the elements of l in groups with the sizes of the bunches *)
Fixpoint regroup {A B} (bs : list (list A)) (l : list B) : list (list B) :=
  match bs with [] => [] | b :: r => firstn (length b) l :: regroup r (skipn (length b) l) end.
(* the points number j of the trajectories *)
Definition points_at (j : nat) (qs : list (particle R)) (pts : list (tpoint R)) : Prop :=
  Forall2 (fun q a => nth_error (trajectory q) j = Some a) qs pts.
(* absolute value of the complex number which is the bunching factor, logger.cpp:69-72 *)
Definition bf_modulus (b : bunch R) (f : R) : R :=
  let '(re, im) := bunch_BunchingFactor b f in sqrt (re * re + im * im).

(* row r of the table of the parameters: averages over the given points *)
Definition logged (d : sdds R) (r : nat) (freq : option R) (pts : list (tpoint R)) : Prop :=
  let p2 a := vx (tpp a) * vx (tpp a) + vy (tpp a) * vy (tpp a) + vz (tpp a) * vz (tpp a) in
  let m := map (fun a => sqrt (p2 a)) pts in
  column d "t"%string r = Some (mean (map tpt pts)) /\
  column d "x_av"%string r = Some (mean (map (fun a => vx (tpx a)) pts)) /\
  column d "y_av"%string r = Some (mean (map (fun a => vy (tpx a)) pts)) /\
  column d "z_av"%string r = Some (mean (map (fun a => vz (tpx a)) pts)) /\
  column d "bgx_av"%string r = Some (mean (map (fun a => vx (tpp a)) pts)) /\
  column d "bgy_av"%string r = Some (mean (map (fun a => vy (tpp a)) pts)) /\
  column d "bgz_av"%string r = Some (mean (map (fun a => vz (tpp a)) pts)) /\
  column d "gamma"%string r = Some (mean (map (fun a => sqrt (p2 a + 1)) pts)) /\
  column d "delta"%string r = Some (rms m / mean m) /\
  column d "x_rms"%string r = Some (rms (map (fun a => vx (tpx a)) pts)) /\
  column d "y_rms"%string r = Some (rms (map (fun a => vy (tpx a)) pts)) /\
  column d "z_rms"%string r = Some (rms (map (fun a => vz (tpx a)) pts)) /\
  column d "BF"%string r = Some
    match freq with
    | Some f =>
        let c := mean (map (fun a => cos (2 * PI * f * vz (tpx a) / nc)) pts) in
        let s := mean (map (fun a => sin (2 * PI * f * vz (tpx a) / nc)) pts) in sqrt (c * c + s * s)
    | None => 0
    end.
(* value number c of a point: position and momentum *)
Definition phase_value (c : Z) (a : tpoint R) : option R :=
  if (c <? 3)%Z then coordinate c (tpx a) else coordinate (c - 3) (tpp a).
