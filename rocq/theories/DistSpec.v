(* Specification vocabulary for particle distributions, bunches and beams. *)
From Coq Require Import ZArith Reals List Permutation.
From Verif Require Import Base Num VecModel ParticleModel ParticleSpec BunchModel.
Import ListNotations.

Section S.
Context {T : Type}.

(* a distribution of dDIM coordinates of dNOP particles, all sizes within int *)
Definition wf_dist (d : dist T) : Prop :=
  (0 <= dDIM d /\ 0 <= dNOP d /\ dDIM d * dNOP d <= int_max)%Z /\
  Z.of_nat (length (dA d)) = (dDIM d * dNOP d)%Z.

(* coordinate k of particle i *)
Definition coordinate (d : dist T) (i k : Z) : option T :=
  nth_error (dA d) (Z.to_nat (i * dDIM d + k)).

Definition in_dist (d : dist T) (i k : Z) : Prop := (0 <= i < dNOP d /\ 0 <= k < dDIM d)%Z.

Definition same_shape (a b : dist T) : Prop := dDIM a = dDIM b /\ dNOP a = dNOP b.

(* the particles of a beam *)
Definition all_particles (bs : list (bunch T)) : list (particle T) := concat bs.
End S.
