(* What is claimed about the heap objects of a run, in terms of the input only. *)
From Coq Require Import List Bool Arith.
From Verif Require Import Base MemModel.
Import ListNotations.

(* number of particles of the beam *)
Definition shape_nop (s : bunch_shape) : nat :=
  match s with SParticle _ => 1 | SBunch n _ _ => n | SSdds n _ => n end.
Definition total_nop (r : run_shape) : nat := list_sum (map shape_nop (rs_beam r)).

(* a snapshot of the field of the beam *)
Definition beam_snap (s : obs_shape) : bool :=
  match s with SSnap _ false => true | _ => false end.

(* The objects which nobody releases: the interactions, and the empty buffers
   for the particles in the snapshots of rank 0 if the beam has no particles. *)
Definition unreleased (r : run_shape) : list kind :=
  repeat KFel (length (rs_fels r)) ++
  (if (rs_rank r =? 0) && (total_nop r =? 0)
   then repeat KSnap (length (filter beam_snap (rs_obs r))) else []).

(* The parts of the input for which an array is released with the wrong form
   of delete. *)
Definition elem_mismatch (s : elem_shape) : bool :=
  match s with SElem => false | SSource _ _ => true end.
Definition obs_mismatch (rank nop : nat) (s : obs_shape) : bool :=
  match s with
  | SMesh _ _ _ _ _ => true
  | SScreen ok _ _ _ => (rank =? 0) && ok
  | SSnap _ lat => (rank =? 0) && negb lat && (0 <? nop)
  | SPoint _ _ => false
  end.
Definition mismatch (r : run_shape) : bool :=
  existsb elem_mismatch (rs_elems r) || existsb (obs_mismatch (rs_rank r) (total_nop r)) (rs_obs r).
