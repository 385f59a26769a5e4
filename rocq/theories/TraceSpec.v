(* Specification vocabulary for field traces. *)
From Coq Require Import ZArith Reals List.
From Verif Require Import Base Num VecModel ParticleModel TraceModel TraceIntSpec.
Import ListNotations.
Local Open Scope R_scope.

(* the moment of sample k *)
Definition sample_time (tr : ftrace R) (k : Z) : R := tr_t0 tr + IZR k * tr_dt tr.

(* two traces sampled at the same times *)
Definition same_sampling {T} (a b : ftrace T) : Prop :=
  length (tr_f a) = length (tr_f b) /\ tr_t0 a = tr_t0 b /\ tr_dt a = tr_dt b.

(* c is obtained from a and b sample by sample *)
Definition samplewise {T} (f : emf T -> emf T -> emf T) (a b c : ftrace T) : Prop :=
  same_sampling a c /\
  forall k x y, nth_error (tr_f a) k = Some x -> nth_error (tr_f b) k = Some y ->
                nth_error (tr_f c) k = Some (f x y).

(* all samples of the trace are the values of a function of time *)
Definition samples_of (tr : ftrace R) (g : R -> emf R) : Prop :=
  forall k f, nth_error (tr_f tr) k = Some f -> f = g (sample_time tr (Z.of_nat k)).

(* polynomial signals *)
Definition linear_signal (a b : emf R) (t : R) : emf R := eadd a (emul b t).
Definition quadratic_signal (a b c : emf R) (t : R) : emf R :=
  eadd (linear_signal a b t) (emul c (t * t)).

(* orthonormal, right-handed *)
Definition right_handed (ex ey ez : vec R) : Prop :=
  vdot ex ex = 1 /\ vdot ey ey = 1 /\ vdot ez ez = 1 /\
  vdot ex ey = 0 /\ vdot ey ez = 0 /\ vdot ez ex = 0 /\ vcross ex ey = ez.
