(* Property C91: the tracked orbit converges to the solution of the equation of motion. *)
From Coq Require Import ZArith Reals Lra Lia List.
From Verif Require Import Base Num VecModel VecFacts ParticleModel ParticleSpec ParticleProofs2 VaySpec OrbitSpec
  VayTracking OrbitProofs ConvergeProofs ConvergeProofs3 ConvergeProofs4 PropTracking.
Import ListNotations.
Local Open Scope R_scope.

(* X, P: the exact motion from the last point of the trajectory.  Velocity and force along
   it have Lipschitz-continuous derivatives, and within the distance rho of it the fields
   exist, are bounded and Lipschitz-continuous.  Then there is a bound C, for all time steps
   below some delta and all numbers of steps up to t1, on the errors of all recorded positions,
   momenta and derivatives of the momentum in units of the square of the time step. *)
Theorem C91_second_order : forall F Ef Bf (p : particle R) i t0 x0 m0 a0 X P t1 rho M L K b1 f1 Lb Lf,
  wf p -> trajectory p = i ++ [TP t0 x0 m0 a0] ->
  let qm := charge_over_mass (pCharge p) (pMass p) in
  solves qm Ef Bf X P t0 t1 -> X t0 = x0 -> P t0 = m0 ->
  t0 < t1 -> 0 < rho -> regular F Ef Bf X P t0 t1 rho M L K ->
  smooth (fun t => beta_of (P t)) b1 Lb t0 t1 ->
  smooth (fun t => lorentz (beta_of (P t)) (Ef t (X t)) (Bf t (X t))) f1 Lf t0 t1 ->
  0 <= Lb -> 0 <= Lf -> 0 <= L -> 0 <= K ->
  exists C delta, 0 < delta /\
    forall dt n, 0 < dt < delta -> (INR n + 1 / 2) * dt <= t1 - t0 ->
    exists q, bind (InitVay dt F p) (StepsVay F n) = Ok q /\
      length (trajectory q) = (length i + S n)%nat /\
      forall k, (k <= n)%nat -> let t := t0 + INR k * dt in exists x m a,
        nth_error (trajectory q) (length i + k) = Some (TP t x m a) /\
        vnorm (vsub x (X t)) <= C * Rsqr dt /\
        vnorm (vsub m (P t)) <= C * Rsqr dt /\
        vnorm (vsub a (vmul (lorentz (beta_of (P t)) (Ef t (X t)) (Bf t (X t))) qm)) <= C * Rsqr dt.
Proof.
  intros F Ef Bf p i t0 x0 m0 a0 X P t1 rho M L K b1 f1 Lb Lf Hw HT qm HS HX HP Ht Hr HR Sb Sf Lb0 Lf0 L0 K0.
  eapply converges; eauto.
Qed.
Print Assumptions C91_second_order.

(* The hypotheses hold for the particle of the examples in a magnetic field. *)
Example C91_ex :
  let F := total_field (fun _ _ => EB vzero (V 0 1 0)) in
  let qm := charge_over_mass (pCharge ex_start) (pMass ex_start) in
  wf ex_start /\ trajectory ex_start = [] ++ [TP 1 (V 0 0 2) (V 0 3 4) vzero] /\
  exists X P b1 f1 Lb Lf, 
    solves qm (fun _ _ => vzero) (fun _ _ => V 0 1 0) X P 1 3 /\ X 1 = V 0 0 2 /\ P 1 = V 0 3 4 /\
    regular F (fun _ _ => vzero) (fun _ _ => V 0 1 0) X P 1 3 1 (vnorm (V 0 1 0)) 0 (vnorm (V 0 1 0)) /\
    smooth (fun t => beta_of (P t)) b1 Lb 1 3 /\
    smooth (fun t => lorentz (beta_of (P t)) vzero (V 0 1 0)) f1 Lf 1 3 /\
    0 <= Lb /\ 0 <= Lf /\ 0 <= vnorm (V 0 1 0) /\
    lorentz (beta_of (P 1)) vzero (V 0 1 0) <> vzero.
Proof.
  intros F qm. split; [apply ex_start_wf|]. split; [reflexivity|].
  assert (Hq : qm <> 0). { unfold qm, charge_over_mass. cbn [pCharge pMass ex_start initTrajectory new_particle]. unfold nirm. cbn. lra. }
  set (b := V 0 1 0 : vec R). assert (Hb : b <> vzero) by (intros H; apply (f_equal vy) in H; cbn in H; lra).
  destruct (helix_exact qm b (V 0 0 2) (V 0 3 4) Hb Hq) as (X0 & P0 & D). cbv zeta in X0, P0, D.
  set (g := gamma_of (V 0 3 4)) in *.
  set (X := fun t => fst (helix qm (qm * vnorm b / g * t) (t * nc * (vdot (V 0 3 4) b / vnorm b) / g) b (V 0 0 2) (V 0 3 4))) in *.
  set (P := fun t => snd (helix qm (qm * vnorm b / g * t) (t * nc * (vdot (V 0 3 4) b / vnorm b) / g) b (V 0 0 2) (V 0 3 4))) in *.
  assert (G : forall t, gamma_of (P t) = g) by (intros t; unfold g, gamma_of; change (P t) with (turned (qm * vnorm b / g * t) b (V 0 3 4)); rewrite (turned_abs2 _ b _ Hb); reflexivity).
  destruct (magnetic qm b g (fun t => X (t - 1)) (fun t => P (t - 1)) 1 3 1 F) as (S & Rg & b1 & Lb & L0 & Sb & Sf).
  { intros t x. reflexivity. } { intros t. apply G. } { intros t. split; [apply (deriv_shift X t 1), D|apply (deriv_shift P t 1), D]. }
  exists (fun t => X (t - 1)), (fun t => P (t - 1)), b1, (fun t => vcross (b1 t) b), Lb, (Lb * vnorm b).
  assert (Z : 1 - 1 = 0) by ring. cbv beta. rewrite Z.
  split; [exact S|]. split; [exact X0|]. split; [exact P0|]. split; [exact Rg|]. split; [exact Sb|]. split; [exact Sf|].
  split; [exact L0|]. split; [apply Rmult_le_pos; [exact L0|apply norm_nonneg]|]. split; [apply norm_nonneg|].
  change (P 0) with (snd (helix qm (qm * vnorm b / g * 0) (0 * nc * (vdot (V 0 3 4) b / vnorm b) / g) b (V 0 0 2) (V 0 3 4))). rewrite P0, lorentz_mag. intros H. apply (f_equal vx) in H. unfold b, beta_of in H. fold g in H. vunfold_in H. unnum_in H. pose proof (gamma_ge (V 0 3 4)) as G1. fold g in G1.
  assert (4 / g = 0) by lra. assert (4 / g * g = 4) by (field; lra). nra.
Qed.
