(* Property C90: a particle tracked in homogeneous fields. *)
From Coq Require Import ZArith Reals Lra Lia List.
From Verif Require Import Base Num VecModel VecFacts ParticleModel ParticleSpec ParticleProofs2 VaySpec OrbitSpec
  VayTracking OrbitProofs PropTracking.
Import ListNotations.
Local Open Scope R_scope.

(* Crossed fields without force (E/c + beta x B = 0, in particular no field): the recorded
   points are those of the uniform motion, with acceleration zero. *)
Theorem C90_drift : forall dt F e b (p : particle R) i t0 x0 m0 a0 n,
  wf p -> homogeneous F e b -> trajectory p = i ++ [TP t0 x0 m0 a0] -> lorentz (beta_of m0) e b = vzero ->
  exists q, bind (InitVay dt F p) (StepsVay F n) = Ok q /\
    length (trajectory q) = (length i + S n)%nat /\
    forall k, (k <= n)%nat ->
      nth_error (trajectory q) (length i + k) =
        Some (TP (t0 + INR k * dt) (vadd x0 (vmul (beta_of m0) (INR k * dt * nc))) m0 vzero).
Proof. exact orbit_drift. Qed.
Print Assumptions C90_drift.

(* Electric field only: the recorded momenta are the exact ones, p + t (q/m) E/c. *)
Theorem C90_electric : forall dt F e (p : particle R) i t0 x0 m0 a0 n,
  wf p -> homogeneous F e vzero -> trajectory p = i ++ [TP t0 x0 m0 a0] ->
  exists q, bind (InitVay dt F p) (StepsVay F n) = Ok q /\
    length (trajectory q) = (length i + S n)%nat /\
    forall k, (k <= n)%nat -> exists x a,
      nth_error (trajectory q) (length i + k) =
        Some (TP (t0 + INR k * dt) x
          (vadd m0 (vmul e (INR k * dt * charge_over_mass (pCharge p) (pMass p) / nc))) a).
Proof. exact orbit_electric. Qed.
Print Assumptions C90_electric.

(* Magnetic field only: the recorded points lie on a helix; every step turns the momentum
   about the field by the angle 2 atan(q dt B/(2 m g)), with the relativistic factor g of
   the half steps, and the acceleration is that of the Lorentz force. *)
Theorem C90_helix : forall dt F b (p : particle R) i t0 x0 m0 a0 n,
  wf p -> homogeneous F vzero b -> b <> vzero -> trajectory p = i ++ [TP t0 x0 m0 a0] ->
  let qm := charge_over_mass (pCharge p) (pMass p) in
  qm <> 0 ->
  exists g q,
    1 <= g <= gamma_of m0 /\
    Rsqr (gamma_of m0) = Rsqr g + Rsqr (qm * dt / 2) * vabs2 (vcross m0 b) / (Rsqr g + Rsqr (qm * dt / 2) * vabs2 b) /\
    bind (InitVay dt F p) (StepsVay F n) = Ok q /\
    length (trajectory q) = (length i + S n)%nat /\
    forall k, (k <= n)%nat ->
      let xp := helix qm (INR k * (2 * atan (qm * dt * vnorm b / (2 * g))))
                      (INR k * dt * nc * (vdot m0 b / vnorm b) / g) b x0 m0 in
      nth_error (trajectory q) (length i + k) =
        Some (TP (t0 + INR k * dt) (fst xp) (snd xp) (vmul (lorentz (beta_of (snd xp)) vzero b) qm)).
Proof. exact orbit_helix. Qed.
Print Assumptions C90_helix.

(* The exact motion is a helix with the same axis and the same radius ... *)
Theorem C90_exact : forall qm b x0 p0, b <> vzero -> qm <> 0 ->
  let g := gamma_of p0 in
  let X t := fst (helix qm (qm * vnorm b / g * t) (t * nc * (vdot p0 b / vnorm b) / g) b x0 p0) in
  let P t := snd (helix qm (qm * vnorm b / g * t) (t * nc * (vdot p0 b / vnorm b) / g) b x0 p0) in
  X 0 = x0 /\ P 0 = p0 /\
  forall t, derivative X t (vmul (beta_of (P t)) nc) /\ derivative P t (vmul (lorentz (beta_of (P t)) vzero b) qm).
Proof. exact helix_exact. Qed.
Print Assumptions C90_exact.

Theorem C90_cylinder : forall qm turn advance b x0 p0, b <> vzero -> qm <> 0 ->
  vabs2 (vcross (vsub (fst (helix qm turn advance b x0 p0)) (centre_of qm b x0 p0)) b)
  = Rsqr (nc / qm) * vabs2 (vcross p0 b) / vabs2 b /\
  vabs2 (snd (helix qm turn advance b x0 p0)) = vabs2 p0 /\
  vdot (snd (helix qm turn advance b x0 p0)) b = vdot p0 b.
Proof.
  intros qm turn advance b x0 p0 Hb Hm. split; [apply helix_cylinder; assumption|]. split; [apply turned_abs2|apply turned_dot]; assumption.
Qed.
Print Assumptions C90_cylinder.

(* ... and the angle and the advance of one step differ from the exact ones by terms of
   third order in the time step. *)
Theorem C90_third_order : forall qm dt b m0 g, 
  1 <= g <= gamma_of m0 ->
  Rsqr (gamma_of m0) = Rsqr g + Rsqr (qm * dt / 2) * vabs2 (vcross m0 b) / (Rsqr g + Rsqr (qm * dt / 2) * vabs2 b) ->
  Rabs (2 * atan (qm * dt * vnorm b / (2 * g)) - qm * vnorm b / gamma_of m0 * dt)
    <= Rabs (qm * dt / 2 / g) ^ 3 * vnorm b * (vabs2 (vcross m0 b) / g ^ 2 + 2 / 3 * vabs2 b) /\
  Rabs (dt * nc * (vdot m0 b / vnorm b) / g - dt * nc * (vdot m0 b / vnorm b) / gamma_of m0)
    <= Rabs (dt * nc * (vdot m0 b / vnorm b)) * (Rsqr (qm * dt / 2) * vabs2 (vcross m0 b) / (2 * g ^ 5)).
Proof.
  intros qm dt b m0 g Hg E. assert (G : 0 < g) by lra. assert (Ga : 0 < gamma_of m0) by lra. pose proof (abs2_pos (vcross m0 b)) as W.
  assert (N0 : 0 <= vnorm b) by (unfold vnorm; unnum; apply sqrt_pos). split.
  - rewrite <- (norm_sq b) in E |- *. pose proof (phase_error (qm * dt / 2) (vnorm b) g (gamma_of m0) _ Hg W N0 E) as A.
    replace (qm * dt * vnorm b / (2 * g)) with (qm * dt / 2 * vnorm b / g) by (field; lra).
    replace (qm * vnorm b / gamma_of m0 * dt) with (2 * (qm * dt / 2 * vnorm b / gamma_of m0)) by (field; lra).
    eapply Rle_trans; [exact A|]. right. replace (qm * dt / 2 / g) with (qm * dt / 2 * / g) by reflexivity. rewrite (Rabs_mult (qm * dt / 2) (/ g)), (Rabs_pos_eq (/ g)) by (left; apply Rinv_0_lt_compat; lra). field. lra.
  - destruct (gamma_error _ _ _ _ _ Hg W (abs2_pos b) E) as (L & U). set (s := dt * nc * (vdot m0 b / vnorm b)).
    replace (s / g - s / gamma_of m0) with (s * (/ g - / gamma_of m0)) by (field; lra). rewrite Rabs_mult, (Rabs_pos_eq _ L). apply Rmult_le_compat_l; [apply Rabs_pos|].
    eapply Rle_trans; [exact U|]. right. field. lra.
Qed.
Print Assumptions C90_third_order.

(* So the method is of second order: at a time t after the start the recorded momentum and
   position differ from the exact ones by at most a constant times t dt^2, with constants
   which depend neither on the time step nor on the number of steps. *)
Theorem C90_error : forall dt F b (p : particle R) i t0 x0 m0 a0 n,
  wf p -> homogeneous F vzero b -> b <> vzero -> trajectory p = i ++ [TP t0 x0 m0 a0] ->
  let qm := charge_over_mass (pCharge p) (pMass p) in
  qm <> 0 ->
  let A := Rabs qm * Rabs qm * Rabs qm / 8 * vnorm b * (vabs2 (vcross m0 b) + 2 / 3 * vabs2 b) in
  let B := nc * (Rabs (vdot m0 b) / vnorm b) * (qm * qm / 8) * vabs2 (vcross m0 b) in
  exists q, bind (InitVay dt F p) (StepsVay F n) = Ok q /\
    forall k, (k <= n)%nat ->
      let t := INR k * dt in
      let exact := helix qm (qm * vnorm b / gamma_of m0 * t) (t * nc * (vdot m0 b / vnorm b) / gamma_of m0) b x0 m0 in
      exists x m a, nth_error (trajectory q) (length i + k) = Some (TP (t0 + t) x m a) /\
        vnorm (vsub m (snd exact)) <= vnorm (vcross m0 b) / vnorm b * A * Rabs t * Rsqr dt /\
        vnorm (vsub x (fst exact)) <= (B + nc / (Rabs qm * vabs2 b) * vnorm (vcross m0 b) * A) * Rabs t * Rsqr dt.
Proof. exact orbit_error. Qed.
Print Assumptions C90_error.

Example C90_ex : 
  wf ex_start /\ trajectory ex_start = [] ++ [TP 1 (V 0 0 2) (V 0 3 4) vzero] /\
  charge_over_mass (pCharge ex_start) (pMass ex_start) <> 0 /\
  homogeneous (total_field (fun _ _ => EB vzero (V 0 1 0))) vzero (V 0 1 0) /\ (V 0 1 0 : vec R) <> vzero /\
  homogeneous (total_field (fun _ _ => EB (V 1 0 0) vzero)) (V 1 0 0) vzero /\
  lorentz (beta_of (V 0 3 4)) vzero vzero = vzero /\
  (* a velocity selector: E/c = - beta x B *)
  lorentz (beta_of (V 0 0 (sqrt 3))) (V (sqrt 3 / 2 * nc) 0 0) (V 0 1 0) = vzero.
Proof.
  split; [apply ex_start_wf|]. split; [reflexivity|]. split.
  { unfold charge_over_mass. cbn [pCharge pMass ex_start initTrajectory new_particle]. unfold nirm. cbn. lra. }
  split; [intros t x; reflexivity|]. split; [intros H; apply (f_equal vy) in H; cbn in H; lra|]. split; [intros t x; reflexivity|].
  assert (NC : (nc : R) <> 0) by (pose proof nc_pos; lra). split.
  - unfold lorentz. generalize (beta_of (V 0 3 4)). intros v. vdestr. vunfold. unnum. vsplit; field; exact NC.
  - assert (G : gamma_of (V 0 0 (sqrt 3)) = 2).
    { unfold gamma_of. replace (1 + vabs2 (V 0 0 (sqrt 3))) with (2 * 2); [apply sqrt_square; lra|]. vunfold. unnum. rewrite <- Rmult_assoc || idtac. pose proof (sqrt_sqrt 3 ltac:(lra)). nra. }
    unfold lorentz, beta_of. rewrite G. vunfold. unnum. vsplit; field; exact NC.
Qed.
