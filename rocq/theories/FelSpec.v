(* What the one-dimensional FEL interaction is to do. *)
From Coq Require Import ZArith Reals List Bool.
From Verif Require Import Base Num VecModel ParticleModel BunchModel ElementModel DriverModel FelModel.
Import ListNotations.
Local Open Scope res_scope.

(* value of cell number j, zero outside *)
Definition cell (l : list R) (j : Z) : R :=
  if (j <? 0)%Z then 0%R else nth (Z.to_nat j) l 0%R.

Section S.
Context {T : Type} {NT : Num T} {TT : Trans T}.

(* all arrays have the size of the grid *)
Definition fel_wf (f : fel T) : Prop :=
  (0 <= feN f <= int_max)%Z /\ Z.of_nat (length (feE f)) = feN f /\ Z.of_nat (length (fePrev f)) = feN f /\
  Forall (fun l => Z.of_nat (length l) = feN f) (feSt f) /\ Forall (fun l => Z.of_nat (length l) = feN f) (feJst f).

(* distance behind the head of the grid *)
Definition behind (f : fel T) (X : vec T) : T := vdot (vsub (feHead f) X) (feProp f).

(* time after n steps of the clock *)
Fixpoint clock (dt : T) (n : nat) : T := match n with O => nZ 0 | S m => nadd (clock dt m) dt end.

(* ---- the interaction without any comparison of times ---- *)
Definition init_free (bm : beam T) (f : fel T) : res (fel T) :=
  fel_init (BM (bmB bm) (bmNOTS bm) (feDt f) (bmTracker bm)) f.
Definition step_free (bm : beam T) (f : fel T) : res (fel T) :=
  z <- zeros (feN f);;
  J <- fold_res (deposit_at f) (concat (bmB bm)) z;;
  fel_advance J f.
Definition field_free (l : lattice_T T) : field_fn T := fun t X =>
  ext <- lat_field (fst l) t X;;
  fold_res (fun tot f => e <- fel_field_at f X;; Ok (eadd tot e)) (snd l) ext.
Definition inter_init_free (bm : beam T) (l : lattice_T T) : res (lattice_T T) :=
  fs <- map_res (init_free bm) (snd l);; Ok (fst l, fs).
Definition inter_step_free (bm : beam T) (l : lattice_T T) : res (lattice_T T) :=
  fs <- map_res (step_free bm) (snd l);; Ok (fst l, fs).

(* the states of the field after each of a number of steps with given beams *)
Fixpoint fel_states (bms : list (beam T)) (f : fel T) : res (list (fel T)) :=
  match bms with
  | [] => Ok []
  | bm :: r => f' <- fel_step bm f;; l <- fel_states r f';; Ok (f' :: l)
  end.
Definition fel_steps (bms : list (beam T)) (f : fel T) : res (fel T) :=
  fold_res (fun f bm => fel_step bm f) bms f.
(* the fields number n of which are to be recorded: the multiples of s *)
Definition due_by (s : Z) (g : fel T) : bool := (feNst g mod s =? 0)%Z.
End S.

(* a beam which drives no field with this polarization *)
Definition quiet (f : fel R) (bm : beam R) : Prop :=
  Forall (fun p => vdot (pA p) (feEx f) = 0%R \/ pCharge p = 0%R) (concat (bmB bm)).

(* cell j of an undriven field after n steps, if a is the field before *)
Definition undriven (a : Z -> R) (n j : Z) : R :=
  let m := (j / 2)%Z in
  if Z.even j then (a j - (if (m <? n)%Z then a 0%Z else 0))%R
  else (a j + (if (m <? n)%Z then a 0%Z - a 1%Z else 0) - (if (m + 1 <? n)%Z then a 0%Z else 0))%R.

(* ---- the driven field ---- *)
(* source of the wave in cell i with the current J; the first and the last cell are left out *)
Definition source (f : fel R) (J : list R) (i : Z) : R :=
  if ((1 <=? i) && (i <=? feN f - 2))%Z then (feDt f * feDt f * cell J i)%R else 0%R.
(* change of cell j in the last of the steps with the sources qs (the latest one first):
   what is created in one step has moved by one cell in this step and moves by two cells
   in every further one *)
Fixpoint gain (qs : list (Z -> R)) (j : Z) : R :=
  match qs with
  | [] => 0%R
  | q :: older => (q (j - 1)%Z + (gain older (j - 2) - match older with [] => 0 | q' :: _ => q' (j - 2)%Z end))%R
  end.
Fixpoint driven (qs : list (Z -> R)) (j : Z) : R :=
  match qs with [] => 0%R | q :: older => (driven older j + gain qs j)%R end.
Definition fel_drive (Js : list (list R)) (f : fel R) : res (fel R) := fold_res (fun f J => fel_advance J f) Js f.
