(* Specifications of the lattice and its elements; see ElementModel.v *)
From Coq Require Import ZArith List Reals.
From Coquelicot Require Import Coquelicot.
From Verif Require Import Base Num VecModel ElementModel.
Import ListNotations.
Local Open Scope R_scope.

(* sum of fields *)
Definition sum_of (l : list (emf R)) : emf R := fold_right eadd ezero l.

(* e' is the localized element e displaced by the time dt and the distance d *)
Definition displaced (dt : R) (d : vec R) (e e' : element R) : Prop :=
  exists t0 o l, e = Localized t0 o l /\ e' = Localized (t0 + dt) (vadd o d) l.

(* A static magnetic field as function of the coordinates, and its derivatives.
   divergence F x y z v: the divergence exists and is v *)
Definition field3 := R -> R -> R -> vec R.
Definition divergence (F : field3) (x y z v : R) : Prop :=
  exists dx dy dz : R,
    is_derive (fun a => vx (F a y z)) x dx /\
    is_derive (fun a => vy (F x a z)) y dy /\
    is_derive (fun a => vz (F x y a)) z dz /\ v = dx + dy + dz.
Definition curl_free (F : field3) (x y z : R) : Prop :=
  exists dxy dxz dyx dyz dzx dzy : R,
    is_derive (fun a => vx (F x a z)) y dxy /\ is_derive (fun a => vx (F x y a)) z dxz /\
    is_derive (fun a => vy (F a y z)) x dyx /\ is_derive (fun a => vy (F x y a)) z dyz /\
    is_derive (fun a => vz (F a y z)) x dzx /\ is_derive (fun a => vz (F x a z)) y dzy /\
    dzy - dyz = 0 /\ dxz - dzx = 0 /\ dyx - dxy = 0.
(* f computes the purely magnetic, time independent field F *)
Definition magnetostatic (f : R -> vec R -> res (emf R)) (F : field3) : Prop :=
  forall t x y z, f t (V x y z) = Ok (EB vzero (F x y z)).
Definition continuous_vec (F : R -> vec R) : Prop :=
  continuity (fun a => vx (F a)) /\ continuity (fun a => vy (F a)) /\ continuity (fun a => vz (F a)).

(* the length of an undulator with n periods of length l including the two half-periods
   used up by the ramps; field between -half and half *)
Definition und_half (n : Z) (l : R) : R := IZR (n + 1) * l / 2.
(* the field rises over one period from the one end and falls over one period to the other *)
Definition und_taper (n : Z) (l z : R) : R :=
  Rmax 0 (Rmin 1 ((und_half n l + z) / l)) * Rmax 0 (Rmin 1 ((und_half n l - z) / l)).

(* (signed) distance from a plane through p with normal n *)
Definition distance (X p n : vec R) : R :=
  (vx X - vx p) * vx n + (vy X - vy p) * vy n + (vz X - vz p) * vz n.
