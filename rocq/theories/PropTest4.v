(* C92: the program electrostatic in exact arithmetic. *)
From Coq Require Import ZArith Reals Lra Lia List Bool.
From Verif Require Import Base BaseFacts Num VecModel VecFacts ParticleModel ParticleSpec RetardModel RetardSpec ElementModel TestModel TestProofs5 TestProofs6 TestProofs7.
Import ListNotations.
Local Open Scope R_scope.

(* For every direction not along x, energy, duration, number of steps and time of observation within the
   run: the fields of the charge at rest, those beside the moving charge at its start and its position
   are accepted, and the profile taken at the start is that of the field of Heaviside.  What remains are
   the fields at the later time, which the code finds by an iteration (see C94): the program succeeds if
   and only if these are accepted.  For a time step small enough see C92_electrostatic_fields_partial. *)
Theorem C92_electrostatic_partial : forall (TT : Trans R) (Dir : vec R) gamma tau ObsTime N,
  vcross Dir (V 1 0 0) <> vzero -> 1 < gamma -> 0 < tau -> 0 <= ObsTime <= tau -> (0 < N)%nat ->
  let c := 299792458 in let u := vnormalize Dir in let perp := vnormalize (vcross u (V 1 0 0)) in
  let beta := R_sqrt.sqrt (1 - 1 / (gamma * gamma)) in
  let E0 := 1 / 1000000000000 / (4 * PI * neps0 * (1 / 1000) * (1 / 1000)) in
  let Ev := vmul (vmul (vmul perp E0) (-1)) gamma in
  let Bv := vmul (vdiv (vdiv (vmul (vmul (vcross (vmul (vmul u beta) c) perp) (- (1 / 1000000000000))) nmu0) (4 * PI)) (1 / 1000 * (1 / 1000))) gamma in
  let place := vmul (vmul (vmul u ObsTime) beta) c in
  let F := element_field (T:=R) (Homogeneous ezero) in
  let q := - (1 / 1000000000000) / nqe in
  exists e p,
  InitVay (tau / INR N) F (initTrajectory 0 vzero (vmul u (R_sqrt.sqrt (gamma * gamma - 1))) vzero (initTrajectory 0 vzero vzero vzero (new_particle q 1))) = Ok e /\
  StepsVay F N e = Ok p /\
  (forall k, (k <= N)%nat -> nth_error (trajectory p) k =
      Some (TP (INR k * (tau / INR N)) (vmul u (beta * c * (INR k * (tau / INR N)))) (vmul u (R_sqrt.sqrt (gamma * gamma - 1))) vzero)) /\
  exists n f5 En Et,
    @electrostatic R NumR TT Dir gamma tau ObsTime N = Ok n /\
    RetardedField_time p ObsTime (vadd place (vmul perp (1 / 1000))) = Ok f5 /\
    Forall2 (fun i E => E = vdot (heaviside q vzero (vmul u beta) (vadd (vmul perp (1 / 1000)) (vmul u (- (5 / 1000) + IZR i * (1 / 1000))))) perp) (zseq 0 11) En /\
    Forall2 (fun i E => exists f, RetardedField_time p ObsTime (vadd (vadd place (vmul perp (1 / 1000))) (vmul u (- (5 / 1000) + IZR i * (1 / 1000)))) = Ok f /\ vdot (fE f) perp = E) (zseq 0 11) Et /\
    (n = 0%Z <-> vnorm (vsub Ev (fE f5)) / vnorm Ev < 1 / 1000 /\ vnorm (vsub Bv (fB f5)) / vnorm Bv < 1 / 1000 /\
      Forall2 (fun x y => (x - y) / y <= 1 / 100000) Et En).
Proof. intros TT Dir gamma tau ObsTime N HD HG HT HO HN. exact (electrostatic_exact Dir gamma tau ObsTime N HD HG HT HO HN). Qed.
Print Assumptions C92_electrostatic_partial.
Example C92_electrostatic_ex : vcross (V 2 3 5) (V 1 0 0) <> @vzero R NumR /\ 1 < 10 /\ 0 < 4 / 1000000000 /\ 0 <= 3 / 1000000000 <= 4 / 1000000000 /\ (0 < 2000)%nat.
Proof. refine (conj _ (conj _ (conj _ (conj _ _)))); [|lra|lra|lra|lia]. intros H. apply (f_equal vy) in H. cbn in H. lra. Qed.

(* If the particle moves in one time step by no more than gamma / 10 mm, then the fields beside it at the
   later time are accepted too: the program succeeds if and only if the profile taken at that time
   differs in no point by more than 10^-5 from the one taken at the start.  Missing: that it does not; the
   points 1 mm and 2 mm behind the particle lie too near to it for the bound C94_slopes. *)
Theorem C92_electrostatic_fields_partial : forall (TT : Trans R) (Dir : vec R) gamma tau ObsTime N,
  vcross Dir (V 1 0 0) <> vzero -> 1 < gamma -> 0 < tau -> 0 <= ObsTime <= tau -> (0 < N)%nat ->
  let c := 299792458 in let u := vnormalize Dir in let perp := vnormalize (vcross u (V 1 0 0)) in
  let beta := R_sqrt.sqrt (1 - 1 / (gamma * gamma)) in
  beta * c * (tau / INR N) <= gamma / 10000 ->
  let place := vmul (vmul (vmul u ObsTime) beta) c in
  let F := element_field (T:=R) (Homogeneous ezero) in
  let q := - (1 / 1000000000000) / nqe in
  exists e p n En Et,
    InitVay (tau / INR N) F (initTrajectory 0 vzero (vmul u (R_sqrt.sqrt (gamma * gamma - 1))) vzero (initTrajectory 0 vzero vzero vzero (new_particle q 1))) = Ok e /\
    StepsVay F N e = Ok p /\
    @electrostatic R NumR TT Dir gamma tau ObsTime N = Ok n /\
    Forall2 (fun i E => E = vdot (heaviside q vzero (vmul u beta) (vadd (vmul perp (1 / 1000)) (vmul u (- (5 / 1000) + IZR i * (1 / 1000))))) perp) (zseq 0 11) En /\
    Forall2 (fun i E => exists f, RetardedField_time p ObsTime (vadd (vadd place (vmul perp (1 / 1000))) (vmul u (- (5 / 1000) + IZR i * (1 / 1000)))) = Ok f /\ vdot (fE f) perp = E) (zseq 0 11) Et /\
    (n = 0%Z <-> Forall2 (fun x y => (x - y) / y <= 1 / 100000) Et En).
Proof.
  intros TT Dir gamma tau ObsTime N HD HG HT HO HN. cbv zeta. intros HH.
  destruct (C92_electrostatic_partial TT Dir gamma tau ObsTime N HD HG HT HO HN) as (e & p & He & Hp & _ & n & f5 & En & Et & Hn & H5 & HEn & HEt & Hiff).
  destruct (beside_checks Dir gamma tau ObsTime N HD HG HT HO HN HH e p He Hp) as (f & Hf & C1 & C2).
  assert (f = f5) by (apply Ok_inj; rewrite <- Hf; exact H5). subst f.
  exists e, p, n, En, Et. repeat (apply conj; [assumption|]).
  split.
  - intros K. apply Hiff in K. exact (proj2 (proj2 K)).
  - intros K. apply Hiff. exact (conj C1 (conj C2 K)).
Qed.
Print Assumptions C92_electrostatic_fields_partial.

(* 2000 steps of 2 ps at gamma = 10 *)
Example C92_electrostatic_fields_ex : R_sqrt.sqrt (1 - 1 / (10 * 10)) * 299792458 * (4 / 1000000000 / 2000) <= 10 / 10000.
Proof.
  assert (R_sqrt.sqrt (1 - 1 / (10 * 10)) <= 1) by (eapply Rle_trans; [apply (sqrt_le_1_alt _ 1); lra|rewrite sqrt_1; apply Rle_refl]).
  lra.
Qed.
