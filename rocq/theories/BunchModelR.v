(* Model of Bunch::BunchingFactor over real numbers (complex exponential by sine and
   cosine). *)
From Coq Require Import ZArith Reals List.
From Verif Require Import Base Num VecModel ParticleModel BunchModel.
Local Open Scope R_scope.

(* BunchingFactor, bunch.cpp:601-612: real and imaginary part.  The argument of the
   exponential is purely imaginary. *)
Definition bunching_arg (freq z : R) : R := 2 * PI * freq * z / nc.
Definition bunch_BunchingFactor (b : bunch R) (freq : R) : R * R :=
  let '(re, im) := fold_left (fun s p => let a := bunching_arg freq (vz (pX p)) in
                                (fst s + cos a, snd s + sin a)) b (0, 0) in
  (1 / nNOP b * re, 1 / nNOP b * im).
