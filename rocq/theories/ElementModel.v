(* Model of the lattice elements of /repo/src/fields.cpp, undulator.cpp, dipole.cpp, wave.cpp
   and pec_plate.cpp, and of class Lattice, fields.cpp:194-246.
   Not modelled: printing, the derived values Krms, I0 and Ptot that are only printed or
   returned to tests, the destructors. *)
From Coq Require Import ZArith List Bool Reals Rtrigo_def Ratan.
From Verif Require Import Base Num VecModel ParticleModel NumChecked BunchModel.
Import ListNotations.
Local Open Scope num_scope.
Local Open Scope res_scope.

(* The functions of the C mathematical library used by the elements *)
Class Trans (T : Type) : Type := MkTrans {
  nsin : T -> T; ncos : T -> T; nsinh : T -> T; ncosh : T -> T; natan : T -> T; nexp : T -> T }.
#[global] Instance TransR : Trans R :=
  {| nsin := sin; ncos := cos; nsinh := sinh; ncosh := cosh; natan := atan; nexp := exp |}.
(* these functions are defined for every real argument *)
Definition TransChk : Trans (option R) :=
  {| nsin := option_map sin; ncos := option_map cos; nsinh := option_map sinh;
     ncosh := option_map cosh; natan := option_map atan; nexp := option_map exp |}.

Section Element.
Context {T : Type} {NT : Num T} {TT : Trans T}.
Notation vecT := (vec T).
Notation n1 := (nZ 1).
Notation n2 := (nZ 2).

(* ---- undulators ---- *)
(* class PlanarUndulator: BPeak, LambdaU, NPeriods; Setup, undulator.cpp:66-80, makes
   kz = 2 Pi / LambdaU (ky is set but never used) *)
Record planar : Type := PU { puB : T; puL : T; puN : Z }.
Definition pu_kz (u : planar) : T := n2 * nPi / puL u.

(* the limits z1, z2 of the field, undulator.cpp:112-113 and 224-225.
   NPeriods+1 is an int and may overflow; its negative then exists *)
Definition und_ends (n : Z) (lambda : T) : res (T * T) :=
  m <- iadd n 1;;
  Ok (nZ (- m) * lambda / n2, nZ m * lambda / n2).
(* the ramps over one period at both ends, undulator.cpp:120-123 and 237-240 *)
Definition und_ramps (z1 z2 lambda z : T) (B : vecT) : vecT :=
  let B := if z <? z1 + lambda then vmul B ((z - z1) / lambda) else B in
  if z2 - lambda <=? z then vmul B ((z2 - z) / lambda) else B.
(* PlanarUndulator::LocalField, undulator.cpp:107-126 *)
Definition planar_local (u : planar) (t : T) (X : vecT) : res (emf T) :=
  '(z1, z2) <- und_ends (puN u) (puL u);;
  let kz := pu_kz u in
  let B := if (z1 <=? vz X) && (vz X <? z2)
           then und_ramps z1 z2 (puL u) (vz X)
                  (V (nZ 0) (puB u * nsin (kz * vz X) * ncosh (kz * vy X))
                            (puB u * ncos (kz * vz X) * nsinh (kz * vy X)))
           else vzero in
  Ok (EB vzero B).

(* class TransverseGradientUndulator; Setup, undulator.cpp:171-192 *)
Record tgu : Type := TG { tgB : T; tgkx : T; tgM : T; tgL : T; tgN : Z }.
Definition tg_kz (u : tgu) : T := n2 * nPi / tgL u.
Definition tg_ky (u : tgu) : T := nsqrt (tg_kz u * tg_kz u + tgkx u * tgkx u).
(* TransverseGradientUndulator::LocalField, undulator.cpp:219-243 *)
Definition tgu_local (u : tgu) (t : T) (X : vecT) : res (emf T) :=
  '(z1, z2) <- und_ends (tgN u) (tgL u);;
  let kx := tgkx u in let ky := tg_ky u in let kz := tg_kz u in
  let x := vx X in let y := vy X in let z := vz X in
  let a := tgB u * (n1 + tgM u * nsin (kz * z)) in
  let B := if (z1 <=? z) && (z <? z2)
           then und_ramps z1 z2 (tgL u) z
             (V (nZ 0 + a * kx / ky * ncos (kx * x) * nsinh (ky * y) * nsin (kz * z))
                (a * nsin (kz * z) * ncosh (kz * y)
                   + a * nsin (kx * x) * ncosh (ky * y) * nsin (kz * z))
                (a * ncos (kz * z) * nsinh (kz * y)
                   + a * kz / ky * nsin (kx * x) * nsinh (ky * y) * ncos (kz * z)))
           else vzero in
  Ok (EB vzero B).

(* ---- dipoles ---- *)
(* class HardEdgeDipole: B_val and the two limiting planes *)
Record hard : Type := HD { hdB : vecT; hdp1 : vecT; hdn1 : vecT; hdp2 : vecT; hdn2 : vecT }.
(* HardEdgeDipole::LocalField, dipole.cpp:108-118 *)
Definition hard_local (d : hard) (t : T) (X : vecT) : res (emf T) :=
  let d1 := vdot (vsub X (hdp1 d)) (hdn1 d) in
  let d2 := vdot (vsub X (hdp2 d)) (hdn2 d) in
  Ok (EB vzero (if (d1 <? nZ 0) && (d2 <? nZ 0) then hdB d else vzero)).

(* class SoftEdgeDipole: in addition the transition lengths *)
Record soft : Type := SD { sdB : vecT; sdp1 : vecT; sdn1 : vecT; sdt1 : T;
                           sdp2 : vecT; sdn2 : vecT; sdt2 : T }.
(* SoftEdgeDipole::LocalField, dipole.cpp:216-229 *)
Definition soft_local (d : soft) (t : T) (X : vecT) : res (emf T) :=
  let d1 := vdot (vsub X (sdp1 d)) (sdn1 d) in
  let d2 := vdot (vsub X (sdp2 d)) (sdn2 d) in
  let at1 := natan (n2 * d1 / sdt1 d) in
  let at2 := natan (n2 * d2 / sdt2 d) in
  let scal := n1 - (at1 / nPi + nhalf) - (at2 / nPi + nhalf) in
  Ok (EB vzero (vmul (sdB d) scal)).

(* ---- laser waves ---- *)
(* class GaussianWave: lambda, zR and the complex amplitude; Setup, wave.cpp:67-83, makes
   k, omega and w0 *)
Record wave : Type := GW { gwl : T; gwAr : T; gwAi : T; gwzR : T }.
Definition gw_k (g : wave) : T := n2 * nPi / gwl g.
Definition gw_omega (g : wave) : T := gw_k g * nc.
Definition gw_w0 (g : wave) : T := nsqrt (gwl g * gwzR g / nPi).
(* the mode size, wave.cpp:91,178; pow(x,2.0) is x*x *)
Definition gw_w (g : wave) (z : T) : T :=
  gw_w0 g * nsqrt (n1 + z / gwzR g * (z / gwzR g)).
(* the phase, wave.cpp:93-96 and 180-184.  At z=0 the code computes with an infinite
   curvature radius and gets the curvature phase zero *)
Definition gw_phase (g : wave) (t : T) (X : vecT) (r : T) : T :=
  let z := vz X in
  let flat := gw_omega g * t - gw_k g * z in
  if z =? nZ 0 then flat
  else flat - nPi * r * r / gwl g / (z + gwzR g * gwzR g / z).
(* field of a wave with the real exponent e; the complex exponential is
   exp(e)*(cos phase + i sin phase), (A*dens).real() = Re A Re dens - Im A Im dens;
   wave.cpp:96-101 and 183-189 *)
Definition gw_field (g : wave) (z e phase : T) : emf T :=
  let f := gw_w0 g / gw_w g z in
  let dr := f * (nexp e * ncos phase) in
  let di := f * (nexp e * nsin phase) in
  let re := gwAr g * dr - gwAi g * di in
  EB (V re (nZ 0) (nZ 0)) (V (nZ 0) (re / nc) (nZ 0)).
(* GaussianWave::LocalField, wave.cpp:85-102 *)
Definition wave_local (g : wave) (t : T) (X : vecT) : res (emf T) :=
  let z := vz X in
  let r := vnorm (V (vx X) (vy X) (nZ 0)) in
  let q := r / gw_w g z in
  Ok (gw_field g z (- (q * q)) (gw_phase g t X r)).
(* GaussianWavePacket::LocalField, wave.cpp:172-190 *)
Definition packet_local (g : wave) (tau t : T) (X : vecT) : res (emf T) :=
  let z := vz X in
  let r := vnorm (V (vx X) (vy X) (nZ 0)) in
  let q := r / gw_w g z in
  let s := (t - z / nc) / tau in
  Ok (gw_field g z (- (q * q) - s * s) (gw_phase g t X r)).

(* ---- the elements ---- *)
(* the kinds of localized fields *)
Inductive local : Type :=
| LPlanar (u : planar) | LTgu (u : tgu) | LHard (d : hard) | LSoft (d : soft)
| LWave (g : wave) | LPacket (g : wave) (tau : T)
| LOther (f : T -> vecT -> res (emf T)).   (* any other LocalField, as of a SourceScreen *)
Definition local_field (l : local) : T -> vecT -> res (emf T) :=
  match l with
  | LPlanar u => planar_local u | LTgu u => tgu_local u
  | LHard d => hard_local d | LSoft d => soft_local d
  | LWave g => wave_local g | LPacket g tau => packet_local g tau
  | LOther f => f
  end.
(* GeneralField: HomogeneousField (fields.cpp:150-163), LocalizedField (fields.cpp:165-188,
   members t0 and origin), any other such as PlatePEC *)
Inductive element : Type :=
| Homogeneous (f : emf T)
| Localized (t0 : T) (origin : vecT) (l : local)
| OtherField (f : T -> vecT -> res (emf T)).
(* GeneralField::Field; LocalizedField::Field, fields.cpp:180-183 *)
Definition element_field (e : element) (t : T) (X : vecT) : res (emf T) :=
  match e with
  | Homogeneous f => Ok f
  | Localized t0 origin l => local_field l (t - t0) (vsub X origin)
  | OtherField f => f t X
  end.

(* ---- class Lattice: the vector of elements ---- *)
(* Lattice::addElement, fields.cpp:208-211 *)
Definition lat_add (els : list element) (e : element) : list element := els ++ [e].
(* Lattice::count, fields.cpp:213; size_t converted to int *)
Definition lat_count (els : list element) : Z := i32 (Z.of_nat (length els)).
Definition lat_bad (els : list element) (i : Z) : bool := ((i <? 0) || (lat_count els <=? i))%Z.
(* Lattice::at, fields.cpp:215-220 *)
Definition lat_at (els : list element) (i : Z) : res element :=
  if lat_bad els i then Throw IOexc else zget els i.
(* Lattice::remove, fields.cpp:222-227 *)
Definition lat_remove (els : list element) (i : Z) : res (list element) :=
  if lat_bad els i then Throw IOexc
  else Ok (firstn (Z.to_nat i) els ++ skipn (S (Z.to_nat i)) els).
(* Lattice::Field, fields.cpp:229-239 *)
Definition lat_field (els : list element) (t : T) (X : vecT) : res (emf T) :=
  fold_res (fun tot e => f <- element_field e t X;; Ok (eadd tot f)) els ezero.
End Element.
Arguments planar : clear implicits. Arguments tgu : clear implicits.
Arguments hard : clear implicits. Arguments soft : clear implicits.
Arguments wave : clear implicits. Arguments local : clear implicits.
Arguments element : clear implicits.
