(* Specifications for the programs propagate and reflection; see ToolsModel.v *)
From Coq Require Import ZArith String List Reals Sorting.Permutation.
From Verif Require Import Base Num VecModel TraceModel TraceSpec ObserverModel PropagateModel PropagateSpec OutputModel ToolsModel.
Import ListNotations.
Local Open Scope R_scope.

(* every cell is worked on exactly once *)
Definition fair (sched : nat -> list Z) : Prop := forall n, Permutation (sched n) (zseq 0 n).

Section Spec.
Context {T : Type} {NT : Num T}.
(* what the source cell number i stands for: position, area, normal and the recorded trace, its
   time derivative and its normal derivative *)
Definition cell_of (solve : list (list T) -> list T -> list T) (s : mesh T) (g : list cellgeo) (i : nat) (c : srccell T) : Prop :=
  nth_error (msX s) i = Some (srcX c) /\
  (exists e, nth_error g i = Some e /\ cgArea e = srcArea c /\ cgNormal e = srcN c) /\
  nth_error (msA s) i = Some (srcA c) /\
  tr_derivative (srcA c) = Ok (srcAt c) /\
  cell_dn solve s g (srcAt c) (Z.of_nat i) = Ok (srcAn c).
Definition cells_of solve (s : mesh T) g (srcs : list (srccell T)) : Prop :=
  length srcs = length (msX s) /\ forall i c, nth_error srcs i = Some c -> cell_of solve s g i c.
(* the same mesh with other field values *)
Definition same_mesh (s s' : mesh T) : Prop :=
  msPts s' = msPts s /\ msTri s' = msTri s /\ msX s' = msX s /\ msNt s' = msNt s /\ Forall2 same_sampling (msA s) (msA s').
(* all files but one are the same *)
Definition only_changed (fn : string) (fs fs' : string -> option (h5file T)) : Prop := forall n, n <> fn -> fs' n = fs n.
End Spec.

(* x is contained in the interval b *)
Definition within (b : R * R) (x : R) : Prop := fst b <= x <= snd b.
