(* What the output files are expected to contain, stated by indices. *)
From Coq Require Import ZArith String List Bool.
From Verif Require Import Base Num VecModel ParticleModel TraceModel ObserverModel ObserverSpec SddsModel OutputModel.
Import ListNotations.
Local Open Scope Z_scope.

Section Spec.
Context {T : Type} {NT : Num T}.

(* row-major position of an element of an array with these dimensions *)
Fixpoint row_major (dims idx : list Z) : option Z :=
  match dims, idx with
  | [], [] => Some 0
  | n :: ds, i :: is =>
      match row_major ds is with
      | Some k => if (0 <=? i) && (i <? n) then Some (i * fold_right Z.mul 1 ds + k) else None
      | None => None
      end
  | _, _ => None
  end.
(* an element of a data set *)
Definition element_of (d : h5set T) (idx : list Z) : option T :=
  match row_major (hsDims d) idx, hsData d with
  | Some k, HDoubles l => nth_error l (Z.to_nat k)
  | _, _ => None
  end.
(* the data set has as many values as its dimensions say *)
Definition complete (d : h5set T) : Prop :=
  Z.of_nat (match hsData d with HDoubles l => length l | HInts l => length l end) = fold_right Z.mul 1 (hsDims d).
Definition attribute (d : h5set T) (k : string) : option (sval T) := named (hsAttr d) k.

(* coordinate number c of a vector *)
Definition coordinate (c : Z) (v : vec T) : option T :=
  if c =? 0 then Some (vx v) else if c =? 1 then Some (vy v) else if c =? 2 then Some (vz v) else None.
(* component number c of a field: Ex Ey Ez Bx By Bz *)
Definition field_value (c : Z) (f : emf T) : option T :=
  if c <? 3 then coordinate c (fE f) else coordinate (c - 3) (fB f).

(* the position of a cell of a screen: the centre is the cell with the indices Nx/2, Ny/2 *)
Definition centre_pos (O dX dY : vec T) (nx ny ix iy : Z) : vec T :=
  vadd (vadd O (vmul dX (nZ (ix - nx / 2)))) (vmul dY (nZ (iy - ny / 2))).
(* the position of a point of a snapshot: the centre is in the middle of the grid *)
Definition middle_pos (O dX dY : vec T) (nx ny ix iy : Z) : vec T :=
  vadd (vadd O (vmul dX (nsub (nZ ix) (nmul nhalf (nsub (nZ nx) (nZ 1))))))
       (vmul dY (nsub (nZ iy) (nmul nhalf (nsub (nZ ny) (nZ 1))))).
(* sizes for which the list of the positions fits *)
Definition positions_fit (nx ny : Z) : Prop := 0 <= nx <= int_max /\ 0 <= ny <= int_max /\ 3 * (nx * ny) < 2 ^ 32.
(* a mesh with a centre for every triangle, and sizes for which the int arithmetic of the
   writer does not overflow *)
Definition mesh_fits (s : mesh T) : Prop :=
  length (msTri s) = length (msX s) /\ 3 * Z.of_nat (length (msPts s)) <= int_max /\ 3 * Z.of_nat (length (msX s)) <= int_max /\ msNt s <= int_max.
(* the components of a field along two directions *)
Definition tangential (ex ey : vec T) (f : emf T) : emf T :=
  EB (V (vdot (fE f) ex) (vdot (fE f) ey) (nZ 0)) (V (vdot (fB f) ex) (vdot (fB f) ey) (nZ 0)).
(* a column of a table *)
Definition column (d : sdds T) (k : string) (i : nat) : option T :=
  match named (sdCol d) k with Some l => nth_error l i | None => None end.
End Spec.
