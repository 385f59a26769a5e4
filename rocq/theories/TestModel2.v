(* Model of the program /repo/tests/teufel.bunch.cpp:48-105.  NOP is a parameter (100000 there);
   rnd are the random numbers of the constructor of the distribution, g k those of the call of
   generateGaussian for coordinate k, scaled with the given sigma.  Printing is not modelled, but the
   access to the particles printed is.  Writing of the file succeeds (as everywhere in the model), hence
   the program returns 0 errors when it has a file. *)
From Coq Require Import ZArith List.
From Verif Require Import Base Num VecModel ParticleModel BunchModel SddsModel.
Import ListNotations.
Local Open Scope num_scope.
Local Open Scope res_scope.

Section B.
Context {T : Type} {NT : Num T}.
Definition bunch_test (NOP : Z) (rnd : nat -> T) (g : Z -> Z -> T) : res (sdds T) :=
  let gamma := nZ 50 in
  let betagamma := nsqrt (gamma * gamma - nZ 1) in
  d <- dist_new 6 NOP rnd;;
  d <- fold_res (fun d k => d_gaussian k (g k) d) (zseq 0 6) d;;
  b <- bunch_from_dist d (nZ 0) (V (nZ 1 / nZ 1000) (nZ 0) (nZ 0)) (V (nZ 0) (nZ 0) betagamma) (- nZ 1) (nZ 1);;
  _ <- map_res (fun i => match bunch_particle b i with Some p => Ok p | None => UB end) (zseq 0 6);;
  beam_watch (beam_add b beam_new).
End B.
