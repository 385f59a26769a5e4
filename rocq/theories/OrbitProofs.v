(* Tracking in homogeneous fields: lemmas behind PropOrbit.v. *)
From Coq Require Import ZArith Reals Lra Lia Psatz List.
From Verif Require Import Base BaseFacts Num VecModel VecFacts ParticleModel ParticleSpec
  ParticleProofs ParticleProofs2 VaySpec OrbitSpec VayProofs VayTracking VayTracking2.
Import ListNotations.
Local Open Scope R_scope.

Lemma step_kept (F : field_fn R) p q : StepVay F p = Ok q -> pCharge q = pCharge p /\ pMass q = pMass p.
Proof. intros H. unfold StepVay in H. bget H as eb Heb. destruct (vay_half _ _ _ _) as [p1 g]. okinj H. split; reflexivity. Qed.
Lemma setup_kept dt (F : field_fn R) p q : InitVay dt F p = Ok q -> pCharge q = pCharge p /\ pMass q = pMass p.
Proof. intros H. destruct (InitVay_end dt F p q H) as (eb & _ & _ & A & B & _). auto. Qed.

(* induction over the steps: I holds after set-up and is kept *)
Lemma steps_ind dt (F : field_fn R) p p1 (I : nat -> particle R -> Prop) :
  wf p -> InitVay dt F p = Ok p1 -> I 0%nat p1 ->
  (forall k a b, tracked dt a -> pCharge a = pCharge p -> pMass a = pMass p -> I k a -> StepVay F a = Ok b -> I (S k) b) ->
  forall n q, StepsVay F n p1 = Ok q -> tracked dt q /\ pCharge q = pCharge p /\ pMass q = pMass p /\ I n q.
Proof.
  intros Hw H0 B S. assert (T0 : tracked dt p1) by (exists p, p1, F, []; repeat split; auto; apply Hw). destruct (setup_kept _ _ _ _ H0) as (C0 & M0).
  induction n as [|n IH]; intros q H.
  - cbn in H. okinj H. auto.
  - unfold StepsVay in H. rewrite iter_res_S_r in H. bget H as r Hr. destruct (IH r Hr) as (T & C & M & HI). destruct (step_kept F r q H) as (C1 & M1).
    split; [eapply tracked_step; eauto|]. split; [congruence|]. split; [congruence|]. eapply S; eauto.
Qed.
(* the recorded points *)
Lemma recorded dt (F : field_fn R) p p1 n k q : wf p -> InitVay dt F p = Ok p1 -> StepsVay F n p1 = Ok q -> (k <= n)%nat ->
  exists r, StepsVay F k p1 = Ok r /\ nth_error (trajectory q) (length (trajectory p) - 1 + k) = Some (current r).
Proof.
  intros Hw H0 H Hk. destruct (InitVay_tstate dt F p p1 Hw H0) as (Hw1 & _ & _ & _ & _ & Hn1 & Hs1).
  destruct (StepsVay_nth _ n k p1 q Hw1 Hs1 Hn1 Hk H) as (r & Hr & _ & Hnth). exists r. split; [exact Hr|]. rewrite <- Hnth. f_equal. f_equal. f_equal.
  destruct (InitVay_trajectory dt F p p1 Hw H0) as (i & l & a' & HA & HB & _). rewrite HA, HB, !app_length. reflexivity.
Qed.

Local Notation constant := homogeneous.
Lemma const_at F e b t x eb : constant F e b -> F t x = Ok eb -> eb = EB e b.
Proof. intros H E. rewrite H in E. okinj E. reflexivity. Qed.
Lemma vadd_zero (a : vec R) s : vadd a (vmul vzero s) = a.
Proof. vring. Qed.
Lemma setup_accel dt (F : field_fn R) e b p p1 : constant F e b -> InitVay dt F p = Ok p1 -> pA p1 = vay_accel (charge_over_mass (pCharge p) (pMass p)) (pP p1) e b.
Proof.
  intros C H. unfold InitVay in H. destruct (pNP p <? 1)%Z; [discriminate|]. bget H as t Ht. bget H as x Hx. bget H as m Hm. bget H as eb Heb. apply (const_at F e b) in Heb; [|exact C]. subst eb.
  destruct (vay_half _ _ _ _) as [p2 g]. bget H as acs Ha. okinj H. reflexivity.
Qed.
Lemma accel_lorentz qm ph e b : vay_accel qm ph e b = vmul (lorentz (beta_of ph) e b) qm.
Proof.
  unfold vay_accel, lorentz, beta_of, gamma_of. cbv zeta. replace (nsqrt (nadd (vabs2 ph) (nZ 1))) with (sqrt (1 + vabs2 ph)) by (unnum; f_equal; ring).
  generalize (vdiv ph (sqrt (1 + vabs2 ph))). intros v. generalize (vdiv e nc). intros w. vring.
Qed.

(* ---- crossed fields ---- *)
Lemma drift_steps dt F e b p p1 n q : wf p -> constant F e b -> InitVay dt F p = Ok p1 -> lorentz (beta_of (pP p1)) e b = vzero -> StepsVay F n p1 = Ok q ->
  current q = TP (pt p1 + INR n * dt) (vadd (pX p1) (vmul (beta_of (pP p1)) (INR n * dt * nc))) (pP p1) vzero.
Proof.
  intros Hw HC H0 HL H.
  assert (G : tracked dt q /\ pCharge q = pCharge p /\ pMass q = pMass p /\
    (pVp q = pP p1 /\ current q = TP (pt p1 + INR n * dt) (vadd (pX p1) (vmul (beta_of (pP p1)) (INR n * dt * nc))) (pP p1) vzero)).
  { revert q H. apply (steps_ind dt F p p1 (fun n q => pVp q = pP p1 /\ current q = TP (pt p1 + INR n * dt) (vadd (pX p1) (vmul (beta_of (pP p1)) (INR n * dt * nc))) (pP p1) vzero) Hw H0).
    - split.
      + destruct (setup_equation dt F p p1 Hw H0) as (eb & E & _ & U). apply (const_at F e b) in E; [|exact HC]. subst eb. cbn [fE fB] in U. symmetry. apply U. rewrite HL, vadd_zero. reflexivity.
      + unfold current. rewrite (setup_accel dt F e b p p1 HC H0), accel_lorentz, HL. cbn [INR]. f_equal; [ring| |]; [generalize (beta_of (pP p1)) (pX p1)|]; vring.
    - intros k a c Ta Ca Ma (Va & Cur) Hs. destruct (step_equation dt F a c Ta Hs) as (eb & E & T1 & X1 & P1 & V1 & U & A1). apply (const_at F e b) in E; [|exact HC]. subst eb. cbn [fE fB] in *.
      rewrite Va in *. rewrite HL, vadd_zero in P1. rewrite P1, HL in A1. split.
      + symmetry. apply U. replace (vmean (beta_of (pP p1)) (beta_of (pP p1))) with (beta_of (pP p1)); [rewrite HL, vadd_zero; reflexivity|].
        unfold vmean. generalize (beta_of (pP p1)). intros v. vdestr. vunfold. unnum. vsplit; field.
      + pose proof (f_equal tpt Cur) as Ct. pose proof (f_equal tpx Cur) as Cx. cbn [current tpt tpx] in Ct, Cx. unfold current. rewrite T1, X1, P1, A1, Ct, Cx, S_INR.
        f_equal; [ring| |]; [generalize (beta_of (pP p1)) (pX p1)|]; vring. }
  apply G.
Qed.

(* ---- electric field ---- *)
Lemma cross_zero (a : vec R) : vcross a vzero = vzero.
Proof. vring. Qed.
Lemma electric_steps dt F e p p1 n q : wf p -> constant F e vzero -> InitVay dt F p = Ok p1 -> StepsVay F n p1 = Ok q ->
  pt q = pt p1 + INR n * dt /\ pP q = vadd (pP p1) (vmul e (INR n * dt * charge_over_mass (pCharge p) (pMass p) / nc)).
Proof.
  intros Hw HC H0 H. assert (NC : (nc : R) <> 0) by (pose proof nc_pos; lra). set (m := charge_over_mass (pCharge p) (pMass p)).
  assert (G : tracked dt q /\ pCharge q = pCharge p /\ pMass q = pMass p /\
    (pt q = pt p1 + INR n * dt /\ pP q = vadd (pP p1) (vmul e (INR n * dt * m / nc)) /\ pVp q = vadd (pP q) (vmul e (dt * m / 2 / nc)))).
  { revert q H. apply (steps_ind dt F p p1 (fun n q => pt q = pt p1 + INR n * dt /\ pP q = vadd (pP p1) (vmul e (INR n * dt * m / nc)) /\ pVp q = vadd (pP q) (vmul e (dt * m / 2 / nc))) Hw H0).
    - destruct (setup_equation dt F p p1 Hw H0) as (eb & E & V1 & _). apply (const_at F e vzero) in E; [|exact HC]. subst eb. cbn [fE fB] in V1. unfold lorentz in V1. rewrite cross_zero in V1. fold m in V1.
      split; [cbn [INR]; ring|]. split.
      + cbn [INR]. generalize (pP p1). intros v. vdestr. vunfold. unnum. vsplit; field; exact NC.
      + rewrite V1. generalize (pP p1). intros v. vdestr. vunfold. unnum. vsplit; field; exact NC.
    - intros k a c Ta Ca Ma (Ht & HP & HV) Hs. destruct (step_equation dt F a c Ta Hs) as (eb & E & T1 & X1 & P1 & V1 & U & A1). apply (const_at F e vzero) in E; [|exact HC]. subst eb. cbn [fE fB] in *.
      rewrite Ca, Ma in *. fold m in P1, V1. unfold lorentz in P1, V1. rewrite cross_zero in P1, V1.
      split; [rewrite T1, Ht, S_INR; ring|]. split.
      + rewrite P1, HV, HP, S_INR. generalize (pP p1). intros v. vdestr. vunfold. unnum. vsplit; field; exact NC.
      + rewrite V1, P1, HV. generalize (pP a). intros v. vdestr. vunfold. unnum. vsplit; field; exact NC. }
  tauto.
Qed.

(* ---- magnetic field ---- *)
Lemma gamma_pos (v : vec R) : 0 < gamma_of v.
Proof. unfold gamma_of. apply sqrt_lt_R0. assert (0 <= vabs2 v); [|lra]. destruct v. vunfold. unnum. nra. Qed.
Lemma gamma_sq (v : vec R) : gamma_of v * gamma_of v = 1 + vabs2 v.
Proof. unfold gamma_of. apply sqrt_sqrt. assert (0 <= vabs2 v); [|lra]. destruct v. vunfold. unnum. nra. Qed.
Lemma gamma_norm (v w : vec R) : vnorm w = vnorm v -> vabs2 w = vabs2 v.
Proof.
  unfold vnorm. unnum. intros E. apply sqrt_inj in E; auto; destruct v, w; vunfold; unnum; nra.
Qed.
Lemma abs2_pos (b : vec R) : 0 <= vabs2 b.
Proof. destruct b. vunfold. unnum. nra. Qed.
Lemma abs2_nz (b : vec R) : b <> vzero -> vabs2 b <> 0.
Proof. intros H E. apply H. apply vabs2_zero_iff. exact E. Qed.
(* (a x b)^2 *)
Lemma lagrange (a b : vec R) : vabs2 (vcross a b) = vabs2 a * vabs2 b - vdot a b * vdot a b.
Proof. destruct a, b. vunfold. unnum. ring. Qed.
Lemma lorentz_b (v b : vec R) g : g <> 0 -> lorentz (vdiv v g) vzero b = vmul (vcross v b) (/ g).
Proof. intros Hg. unfold lorentz. assert (NC : (nc : R) <> 0) by (pose proof nc_pos; lra). destruct v, b. vunfold. unnum. vsplit; field; auto. Qed.
Lemma vmean_b (v w b : vec R) g : g <> 0 -> lorentz (vmean (vdiv v g) (vdiv w g)) vzero b = vmul (vcross (vadd v w) b) (/ (2 * g)).
Proof. intros Hg. unfold lorentz, vmean. assert (NC : (nc : R) <> 0) by (pose proof nc_pos; lra). destruct v, w, b. vunfold. unnum. vsplit; field; auto. Qed.

(* what the state after k steps is like: v the momentum of the half step, h = dt q/(2 m gamma) *)
Definition orbit (h : R) (b v p : vec R) : Prop := p = vsub v (vmul (vcross v b) h).
Lemma orbit_dot h b v p : orbit h b v p -> vdot p b = vdot v b.
Proof. intros ->. destruct v, b. vunfold. unnum. ring. Qed.
Lemma orbit_abs h b v p : orbit h b v p -> vabs2 p = vabs2 v + h * h * vabs2 (vcross v b).
Proof. intros ->. destruct v, b. vunfold. unnum. ring. Qed.
Lemma orbit_cross h b v p : orbit h b v p -> vabs2 (vcross p b) = vabs2 (vcross v b) * (1 + h * h * vabs2 b).
Proof. intros ->. destruct v, b. vunfold. unnum. ring. Qed.
Lemma orbit_step (h : R) (b v w : vec R) : w = vadd v (vmul (vcross (vadd v w) b) h) ->
  orbit h b w (vadd v (vmul (vcross v b) h)) /\ vdot w b = vdot v b.
Proof.
  intros E. split.
  - unfold orbit. rewrite E at 1. destruct v, w, b. vunfold. unnum. vsplit; ring.
  - rewrite E. destruct v, w, b. vunfold. unnum. ring.
Qed.
Lemma orbit_cayley h b v p : orbit h b v p -> let q := vadd v (vmul (vcross v b) h) in q = vadd p (vmul (vcross (vadd p q) b) h).
Proof. intros ->. cbv zeta. destruct v, b. vunfold. unnum. vsplit; ring. Qed.

Lemma sub_of_add (w q d : vec R) : w = vadd q d -> q = vsub w d.
Proof. intros ->. vring. Qed.

Section Magnetic.
Variables (dt : R) (F : field_fn R) (b : vec R) (p p1 : particle R).
Hypothesis HF : constant F vzero b.
Hypothesis Hw : wf p.
Hypothesis H0 : InitVay dt F p = Ok p1.
Hypothesis Hb : b <> vzero.
Let m := charge_over_mass (pCharge p) (pMass p).
Hypothesis Hm : m <> 0.
Let g := gamma_of (pVp p1).
Let h := m * dt / (2 * g).

Lemma g_pos : 0 < g.
Proof. apply gamma_pos. Qed.

Definition on_helix (k : nat) (q : particle R) : Prop :=
  pt q = pt p1 + INR k * dt /\ vabs2 (pVp q) = vabs2 (pVp p1) /\ vdot (pVp q) b = vdot (pVp p1) b /\ orbit h b (pVp q) (pP q) /\
  centre_of m b (pX q) (pP q) = vadd (centre_of m b (pX p1) (pP p1)) (vmul b (INR k * (dt * nc * vdot (pVp p1) b / (g * vabs2 b)))) /\
  pA q = vmul (lorentz (beta_of (pP q)) vzero b) m.

Lemma helix_setup : on_helix 0 p1.
Proof.
  pose proof g_pos as G. split; [cbn [INR]; ring|]. split; [reflexivity|]. split; [reflexivity|]. split; [|split].
  - destruct (setup_equation dt F p p1 Hw H0) as (eb & E & V1 & _). apply (const_at F vzero b) in E; [|exact HF]. subst eb. cbn [fE fB] in V1. fold m in V1. unfold beta_of in V1. fold g in V1. rewrite lorentz_b in V1 by lra.
    unfold orbit. assert (P1 : pP p1 = vsub (pVp p1) (vmul (vmul (vcross (pVp p1) b) (/ g)) (m * dt / 2))) by (apply sub_of_add; exact V1).
    rewrite P1. f_equal. unfold h. generalize (vcross (pVp p1) b). intros v. destruct v. vunfold. unnum. vsplit; field; lra.
  - cbn [INR]. generalize (centre_of m b (pX p1) (pP p1)). intros v. assert (B2 := abs2_nz b Hb). destruct v, b. vunfold. unnum. vunfold_in B2. unnum_in B2. vsplit; field; split; [exact B2|lra|exact B2|lra|exact B2|lra].
  - rewrite (setup_accel dt F vzero b p p1 HF H0). apply accel_lorentz.
Qed.
Lemma helix_step k a c : tracked dt a -> pCharge a = pCharge p -> pMass a = pMass p -> on_helix k a -> StepVay F a = Ok c ->
  on_helix (S k) c /\ pP c = vadd (pP a) (vmul (vcross (vadd (pP a) (pP c)) b) h).
Proof.
  pose proof g_pos as G. intros Ta Ca Ma (Ht & HN & HD & HO & HC & HA) Hs.
  destruct (step_no_work dt F a c Ta Hs) as (_ & N). { intros t x eb E. apply (const_at F vzero b) in E; [|exact HF]. subst. reflexivity. }
  apply gamma_norm in N. destruct (step_equation dt F a c Ta Hs) as (eb & E & T1 & X1 & P1 & V1 & _ & A1). apply (const_at F vzero b) in E; [|exact HF]. subst eb. cbn [fE fB] in *.
  rewrite Ca, Ma in *. fold m in P1, V1, A1.
  assert (Ga : gamma_of (pVp a) = g) by (unfold g, gamma_of; rewrite HN; reflexivity). assert (Gc : gamma_of (pVp c) = g) by (rewrite <- Ga; unfold gamma_of; rewrite N; reflexivity).
  unfold beta_of in X1, P1, V1. rewrite Ga in X1, P1, V1. rewrite Gc in V1. rewrite lorentz_b in P1 by lra. rewrite vmean_b in V1 by lra.
  assert (P2 : pP c = vadd (pVp a) (vmul (vcross (pVp a) b) h)).
  { rewrite P1. f_equal. unfold h. generalize (vcross (pVp a) b). intros v. destruct v. vunfold. unnum. vsplit; field; lra. }
  assert (V2 : pVp c = vadd (pVp a) (vmul (vcross (vadd (pVp a) (pVp c)) b) h)).
  { rewrite V1 at 1. f_equal. unfold h. generalize (vcross (vadd (pVp a) (pVp c)) b). intros v. destruct v. vunfold. unnum. vsplit; field; lra. }
  clear P1 V1. destruct (orbit_step h b (pVp a) (pVp c) V2) as (O & D). rewrite <- P2 in O. split.
  - split; [rewrite T1, Ht, S_INR; ring|]. split; [congruence|]. split; [congruence|]. split; [exact O|]. split; [|exact A1].
    transitivity (vadd (centre_of m b (pX a) (pP a)) (vmul b (dt * nc * vdot (pVp p1) b / (g * vabs2 b)))).
    + rewrite <- HD. unfold centre_of. rewrite X1, P2, HO. unfold h. assert (B2 := abs2_nz b Hb). clear - B2 G Hm. generalize (pX a), (pVp a). intros x v. destruct b as [b1 b2 b3]. destruct x, v. vunfold. unnum. vunfold_in B2. unnum_in B2. vsplit; field; repeat split; auto; lra.
    + rewrite HC, S_INR. generalize (centre_of m b (pX p1) (pP p1)). intros v. generalize (dt * nc * vdot (pVp p1) b / (g * vabs2 b)). intros s. destruct v, b. vunfold. unnum. vsplit; ring.
  - pose proof (orbit_cayley h b (pVp a) (pP a) HO) as Y. cbv zeta in Y. rewrite <- P2 in Y. exact Y.
Qed.
Lemma helix_all n q : StepsVay F n p1 = Ok q -> tracked dt q /\ pCharge q = pCharge p /\ pMass q = pMass p /\ on_helix n q.
Proof. revert q. apply (steps_ind dt F p p1 on_helix Hw H0 helix_setup). intros k a c Ta Ca Ma Ia Hs. apply (helix_step k a c Ta Ca Ma Ia Hs). Qed.

(* the factor of the half step *)
Lemma helix_gamma : gamma_of (pP p1) * gamma_of (pP p1) = g * g + (m * dt / 2) * (m * dt / 2) * vabs2 (vcross (pP p1) b) / (g * g + (m * dt / 2) * (m * dt / 2) * vabs2 b).
Proof.
  destruct helix_setup as (_ & _ & _ & O & _). pose proof g_pos as G. rewrite gamma_sq, (orbit_abs _ _ _ _ O), (orbit_cross _ _ _ _ O).
  assert (K : 1 + vabs2 (pVp p1) = g * g) by (unfold g; rewrite gamma_sq; reflexivity).
  transitivity (g * g + h * h * vabs2 (vcross (pVp p1) b)); [rewrite <- K; ring|]. unfold h.
  assert (0 < g * g) by nra. assert (0 <= (m * dt / 2) * (m * dt / 2) * vabs2 b) by (apply Rmult_le_pos; [apply Rle_0_sqr|apply abs2_pos]).
  clear K. generalize dependent (vabs2 (vcross (pVp p1) b)). intros C. generalize dependent (vabs2 b). intros B2 HB. field. split; [lra|].
  intros Z. lra.
Qed.
End Magnetic.

(* ---- rotation ---- *)
Lemma half_angle s : cos (2 * atan s) = (1 - s * s) / (1 + s * s) /\ sin (2 * atan s) = 2 * s / (1 + s * s).
Proof.
  assert (C : cos (atan s) <> 0) by (pose proof (atan_bound s); apply Rgt_not_eq, cos_gt_0; lra).
  assert (S : sin (atan s) = s * cos (atan s)) by (pose proof (tan_atan s) as T; unfold tan in T; rewrite <- T at 2; field; exact C).
  pose proof (sin2_cos2 (atan s)) as U. unfold Rsqr in U. rewrite S in U. rewrite cos_2a, sin_2a, S. set (c := cos (atan s)) in *. assert (0 < 1 + s * s) by nra.
  split; apply (Rmult_eq_reg_r (1 + s * s)); try lra; [replace ((1 - s * s) / (1 + s * s) * (1 + s * s)) with (1 - s * s) by (field; lra)|replace (2 * s / (1 + s * s) * (1 + s * s)) with (2 * s) by (field; lra)].
  - transitivity ((1 - s * s) * (s * c * (s * c) + c * c)); [ring|]. rewrite U. ring.
  - transitivity (2 * s * (s * c * (s * c) + c * c)); [ring|]. rewrite U. ring.
Qed.
Lemma norm_sq (b : vec R) : vnorm b * vnorm b = vabs2 b.
Proof. unfold vnorm. unnum. apply sqrt_sqrt, abs2_pos. Qed.
Lemma norm_pos (b : vec R) : b <> vzero -> 0 < vnorm b.
Proof. intros H. unfold vnorm. unnum. apply sqrt_lt_R0. destruct (abs2_pos b) as [|E]; [assumption|]. destruct (abs2_nz b H). auto. Qed.
Lemma abs2_def (x y z : R) : vabs2 (V x y z) = x * x + y * y + z * z.
Proof. vunfold. unnum. ring. Qed.
Lemma turned_0 b p : turned 0 b p = p.
Proof.
  unfold turned. rewrite cos_0, sin_0. unfold Rdiv. rewrite Rmult_0_l. generalize (along b p), (vcross p b). intros u v. destruct u, v, p. vunfold. unnum. vsplit; ring.
Qed.
Lemma along_turned x b p : b <> vzero -> along b (turned x b p) = along b p.
Proof.
  intros Hb. assert (B2 := abs2_nz b Hb). unfold turned, along. f_equal. generalize (cos x) (sin x / vnorm b). intros c s.
  destruct b as [b1 b2 b3]. destruct p as [p1 p2 p3]. vunfold_in B2. unnum_in B2. vunfold. unnum. field. exact B2.
Qed.
Lemma cross_along b p : vcross (along b p) b = vzero.
Proof. unfold along. generalize (vdot p b / vabs2 b). intros s. vring. Qed.
Lemma cross_twice b p : b <> vzero -> vcross (vcross p b) b = vmul (vsub p (along b p)) (- vabs2 b).
Proof.
  intros Hb. assert (B2 := abs2_nz b Hb). unfold along. destruct b as [b1 b2 b3]. destruct p as [p1 p2 p3]. vunfold_in B2. unnum_in B2. vunfold. unnum. vsplit; field; exact B2.
Qed.
Lemma cross_turned x b p : b <> vzero -> vcross (turned x b p) b = vsub (vmul (vcross p b) (cos x)) (vmul (vsub p (along b p)) (sin x * vnorm b)).
Proof.
  intros Hb. pose proof (norm_pos b Hb) as N. unfold turned.
  transitivity (vadd (vcross (along b p) b) (vadd (vmul (vsub (vcross p b) (vcross (along b p) b)) (cos x)) (vmul (vcross (vcross p b) b) (sin x / vnorm b)))).
  { generalize (along b p) (cos x) (sin x / vnorm b). intros u c s. vring. }
  rewrite cross_along, (cross_twice b p Hb), <- norm_sq. generalize dependent (vnorm b). intros n Hn. generalize (along b p) (vcross p b) (cos x) (sin x). intros u w c s.
  destruct u, w, p. vunfold. unnum. vsplit; field; lra.
Qed.
Lemma turned_plus x y b p : b <> vzero -> turned x b (turned y b p) = turned (x + y) b p.
Proof.
  intros Hb. pose proof (norm_pos b Hb) as N. unfold turned at 1. rewrite (along_turned y b p Hb), (cross_turned y b p Hb). unfold turned. rewrite cos_plus, sin_plus.
  generalize dependent (vnorm b). intros n Hn. generalize (along b p) (vcross p b) (cos x) (sin x) (cos y) (sin y). intros u w c s c' s'.
  destruct u, w, p. vunfold. unnum. vsplit; field; lra.
Qed.
(* the implicit midpoint step is a rotation, and the only solution of its equation *)
Lemma cayley_turned h b p : b <> vzero -> let q := turned (2 * atan (h * vnorm b)) b p in q = vadd p (vmul (vcross (vadd p q) b) h).
Proof.
  intros Hb q. pose proof (norm_pos b Hb) as N. destruct (half_angle (h * vnorm b)) as (C & S).
  transitivity (vadd p (vmul (vadd (vcross p b) (vcross q b)) h)); [|generalize q; intros; vring]. unfold q at 2. rewrite (cross_turned _ b p Hb). unfold q, turned. rewrite C, S.
  clear q C S. generalize dependent (vnorm b). intros n Hn. assert (0 < 1 + h * n * (h * n)) by (pose proof (Rle_0_sqr (h * n)); unfold Rsqr in *; lra).
  generalize (along b p) (vcross p b). intros u w. destruct u, w, p. vunfold. unnum. vsplit; field; split; lra.
Qed.
Lemma cayley_unique h (b p q r : vec R) : q = vadd p (vmul (vcross (vadd p q) b) h) -> r = vadd p (vmul (vcross (vadd p r) b) h) -> q = r.
Proof.
  intros Q E. assert (D : vsub q r = vmul (vcross (vsub q r) b) h) by (rewrite Q at 1; rewrite E at 1; generalize q r; intros; vring).
  assert (Z : vabs2 (vsub q r) = 0).
  { transitivity (vdot (vsub q r) (vsub q r)); [generalize (vsub q r); vring|]. rewrite D at 2. generalize (vsub q r). intros d. destruct d, b. vunfold. unnum. ring. }
  apply vabs2_zero_iff in Z. clear Q E D. destruct q, r. vunfold_in Z. unnum_in Z. injection Z as A B C. f_equal; lra.
Qed.

(* ---- the recorded points ---- *)
Lemma homogeneous_total F e b : homogeneous F e b -> forall n (p : particle R), exists q, StepsVay F n p = Ok q.
Proof.
  intros H n. induction n as [|n IH]; intros p; [exists p; reflexivity|]. unfold StepsVay. cbn [iter_res]. unfold StepVay at 1. rewrite H. cbn [bind]. destruct (vay_half _ _ _ _). cbn [bind]. apply IH.
Qed.
Lemma homogeneous_run dt F e b p i t0 x0 m0 a0 n : wf p -> homogeneous F e b -> trajectory p = i ++ [TP t0 x0 m0 a0] ->
  exists p1 q, InitVay dt F p = Ok p1 /\ StepsVay F n p1 = Ok q /\ pt p1 = t0 /\ pX p1 = x0 /\ pP p1 = m0 /\ length (trajectory q) = (length i + S n)%nat /\
    (forall k, (k < length i)%nat -> nth_error (trajectory q) k = nth_error i k) /\
    forall k, (k <= n)%nat -> exists r, StepsVay F k p1 = Ok r /\ nth_error (trajectory q) (length i + k) = Some (current r).
Proof.
  intros Hw HF HT. pose proof (setup_nonempty p dt F t0 x0 m0 a0 i Hw HT) as S. rewrite HF in S. destruct S as (p1 & H1). destruct (homogeneous_total F e b HF n p1) as (q & Hq). exists p1, q.
  destruct (InitVay_trajectory dt F p p1 Hw H1) as (i' & l & a' & A & B & C & _). rewrite HT in A. apply app_inj_tail in A. destruct A as (<- & <-). cbn [tpt tpx tpp] in *. injection C as Ct Cx Cp Ca.
  assert (Hw1 : wf p1) by (apply (wf_apply p p1 (OpSetup dt F)); assumption). destruct (StepsVay_trajectory F n p1 q Hw1 Hq) as (_ & pts & Hl & Ht & _ & _).
  split; [exact H1|]. split; [exact Hq|]. split; [exact Ct|]. split; [exact Cx|]. split; [exact Cp|]. split; [|split].
  - rewrite Ht, B, !app_length, Hl. cbn [length]. lia.
  - intros k Hk. rewrite Ht, B, <- app_assoc, nth_error_app1 by exact Hk. reflexivity.
  - intros k Hk. destruct (recorded dt F p p1 n k q Hw H1 Hq Hk) as (r & Hr & E). exists r. split; [exact Hr|]. rewrite <- E, HT, app_length. f_equal. cbn [length]. lia.
Qed.

Lemma orbit_drift dt F e b p i t0 x0 m0 a0 n : wf p -> homogeneous F e b -> trajectory p = i ++ [TP t0 x0 m0 a0] -> lorentz (beta_of m0) e b = vzero ->
  exists q, bind (InitVay dt F p) (StepsVay F n) = Ok q /\ length (trajectory q) = (length i + S n)%nat /\
    forall k, (k <= n)%nat -> nth_error (trajectory q) (length i + k) = Some (TP (t0 + INR k * dt) (vadd x0 (vmul (beta_of m0) (INR k * dt * nc))) m0 vzero).
Proof.
  intros Hw HF HT HL. destruct (homogeneous_run dt F e b p i t0 x0 m0 a0 n Hw HF HT) as (p1 & q & H1 & Hq & <- & <- & <- & L & _ & R). exists q. rewrite H1. split; [exact Hq|]. split; [exact L|].
  intros k Hk. destruct (R k Hk) as (r & Hr & ->). f_equal. eapply drift_steps; eauto.
Qed.
Lemma orbit_electric dt F e p i t0 x0 m0 a0 n : wf p -> homogeneous F e vzero -> trajectory p = i ++ [TP t0 x0 m0 a0] ->
  exists q, bind (InitVay dt F p) (StepsVay F n) = Ok q /\ length (trajectory q) = (length i + S n)%nat /\
    forall k, (k <= n)%nat -> exists x a, nth_error (trajectory q) (length i + k) = Some (TP (t0 + INR k * dt) x (vadd m0 (vmul e (INR k * dt * charge_over_mass (pCharge p) (pMass p) / nc))) a).
Proof.
  intros Hw HF HT. destruct (homogeneous_run dt F e vzero p i t0 x0 m0 a0 n Hw HF HT) as (p1 & q & H1 & Hq & <- & <- & <- & L & _ & R). exists q. rewrite H1. split; [exact Hq|]. split; [exact L|].
  intros k Hk. destruct (R k Hk) as (r & Hr & ->). destruct (electric_steps dt F e p p1 k r Hw HF H1 Hr) as (<- & <-). exists (pX r), (pA r). reflexivity.
Qed.

Lemma helix_momentum dt F b p p1 : homogeneous F vzero b -> wf p -> InitVay dt F p = Ok p1 -> b <> vzero -> charge_over_mass (pCharge p) (pMass p) <> 0 ->
  forall n q, StepsVay F n p1 = Ok q ->
  pP q = turned (INR n * (2 * atan (charge_over_mass (pCharge p) (pMass p) * dt / (2 * gamma_of (pVp p1)) * vnorm b))) b (pP p1).
Proof.
  intros HF Hw H0 Hb Hm. set (h := _ * dt / _). induction n as [|n IH]; intros q H.
  - cbn in H. okinj H. cbn [INR]. rewrite Rmult_0_l, turned_0. reflexivity.
  - unfold StepsVay in H. rewrite iter_res_S_r in H. bget H as r Hr. specialize (IH r Hr).
    destruct (helix_all dt F b p p1 HF Hw H0 Hb Hm n r Hr) as (T & C & M & O). destruct (helix_step dt F b p p1 HF Hb Hm n r q T C M O H) as (_ & Y). fold h in Y.
    rewrite S_INR. replace ((INR n + 1) * (2 * atan (h * vnorm b))) with (2 * atan (h * vnorm b) + INR n * (2 * atan (h * vnorm b))) by ring. rewrite <- turned_plus by exact Hb. rewrite <- IH.
    apply (cayley_unique h b (pP r)); [exact Y|]. apply (cayley_turned h b (pP r) Hb).
Qed.
Lemma orbit_helix dt F b p i t0 x0 m0 a0 n : wf p -> homogeneous F vzero b -> b <> vzero -> trajectory p = i ++ [TP t0 x0 m0 a0] ->
  let qm := charge_over_mass (pCharge p) (pMass p) in qm <> 0 ->
  exists g q, 1 <= g <= gamma_of m0 /\ Rsqr (gamma_of m0) = Rsqr g + Rsqr (qm * dt / 2) * vabs2 (vcross m0 b) / (Rsqr g + Rsqr (qm * dt / 2) * vabs2 b) /\
    bind (InitVay dt F p) (StepsVay F n) = Ok q /\ length (trajectory q) = (length i + S n)%nat /\
    forall k, (k <= n)%nat ->
      let xp := helix qm (INR k * (2 * atan (qm * dt * vnorm b / (2 * g)))) (INR k * dt * nc * (vdot m0 b / vnorm b) / g) b x0 m0 in
      nth_error (trajectory q) (length i + k) = Some (TP (t0 + INR k * dt) (fst xp) (snd xp) (vmul (lorentz (beta_of (snd xp)) vzero b) qm)).
Proof.
  intros Hw HF Hb HT qm Hm. destruct (homogeneous_run dt F vzero b p i t0 x0 m0 a0 n Hw HF HT) as (p1 & q & H1 & Hq & <- & <- & <- & L & _ & R). exists (gamma_of (pVp p1)), q.
  pose proof (helix_gamma dt F b p p1 HF Hw H1 Hb) as HG. fold qm in HG. set (g := gamma_of (pVp p1)) in *. pose proof (gamma_pos (pVp p1)) as G0. fold g in G0. pose proof (gamma_sq (pVp p1)) as G2. fold g in G2.
  pose proof (gamma_pos (pP p1)) as GP.
  assert (G1 : 1 <= g) by (pose proof (abs2_pos (pVp p1)); nra).
  split.
  { split; [exact G1|]. assert (X : g * g <= gamma_of (pP p1) * gamma_of (pP p1)); [|nra]. rewrite HG.
    assert (0 <= qm * dt / 2 * (qm * dt / 2) * vabs2 b) by (apply Rmult_le_pos; [apply Rle_0_sqr|apply abs2_pos]).
    assert (0 <= qm * dt / 2 * (qm * dt / 2) * vabs2 (vcross (pP p1) b)) by (apply Rmult_le_pos; [apply Rle_0_sqr|apply abs2_pos]).
    assert (0 < g * g + qm * dt / 2 * (qm * dt / 2) * vabs2 b) by nra.
    assert (0 <= qm * dt / 2 * (qm * dt / 2) * vabs2 (vcross (pP p1) b) / (g * g + qm * dt / 2 * (qm * dt / 2) * vabs2 b)) by (apply Rmult_le_pos; [lra|left; apply Rinv_0_lt_compat; lra]). lra. }
  split; [exact HG|]. rewrite H1. split; [exact Hq|]. split; [exact L|]. intros k Hk. destruct (R k Hk) as (r & Hr & ->). f_equal.
  destruct (helix_all dt F b p p1 HF Hw H1 Hb Hm k r Hr) as (_ & _ & _ & (T & _ & D & O & C & A)). pose proof (helix_momentum dt F b p p1 HF Hw H1 Hb Hm k r Hr) as P.
  fold qm in P, O, C, A. fold g in P, O, C.
  assert (P' : pP r = turned (INR k * (2 * atan (qm * dt * vnorm b / (2 * g)))) b (pP p1)).
  { rewrite P. do 4 f_equal. field. lra. }
  destruct (helix_setup dt F b p p1 HF Hw H1 Hb) as (_ & _ & _ & O1 & _). fold qm in O1. fold g in O1. rewrite (orbit_dot _ _ _ _ O1).
  unfold current, helix. cbv zeta. cbn [fst snd]. rewrite <- P', T, A. f_equal.
  pose proof (norm_pos b Hb) as N. pose proof (norm_sq b) as N2.
  assert (Cx : pX r = vadd (centre_of qm b (pX r) (pP r)) (vmul (vcross b (pP r)) (nc / (qm * vabs2 b)))).
  { unfold centre_of. generalize (vmul (vcross b (pP r)) (nc / (qm * vabs2 b))) (pX r). intros u v. clear. vring. }
  rewrite Cx at 1. rewrite C. do 4 f_equal. rewrite <- N2. field. lra.
Qed.

(* ---- on the cylinder of the exact orbit ---- *)
Lemma turned_dot x b p : b <> vzero -> vdot (turned x b p) b = vdot p b.
Proof.
  intros Hb. pose proof (along_turned x b p Hb) as E. assert (B2 := abs2_nz b Hb). unfold along in E.
  assert (S : vdot (vmul b (vdot (turned x b p) b / vabs2 b)) b = vdot (vmul b (vdot p b / vabs2 b)) b) by (rewrite E; reflexivity).
  assert (D : forall s, vdot (vmul b (s / vabs2 b)) b = s).
  { intros s. destruct b. vunfold. unnum. vunfold_in B2. unnum_in B2. field. exact B2. }
  rewrite !D in S. exact S.
Qed.
Lemma turned_cross2 x b p : b <> vzero -> vabs2 (vcross (turned x b p) b) = vabs2 (vcross p b).
Proof.
  intros Hb. rewrite (cross_turned x b p Hb). assert (B2 := abs2_nz b Hb). pose proof (norm_sq b) as N2. pose proof (sin2_cos2 x) as U. unfold Rsqr in U.
  set (w := vcross p b). set (v := vsub p (along b p)).
  assert (W : vdot w v = 0). { unfold w, v, along. generalize (vdot p b / vabs2 b). intros s. clear. destruct p, b. vunfold. unnum. ring. }
  assert (Vv : vabs2 v * vabs2 b = vabs2 w). { unfold w, v, along. clear - B2. destruct p, b. vunfold_in B2. unnum_in B2. vunfold. unnum. field. exact B2. }
  transitivity (vabs2 w * (cos x * cos x) + (vnorm b * vnorm b) * vabs2 v * (sin x * sin x) - 2 * cos x * sin x * vnorm b * vdot w v).
  { generalize (cos x) (sin x) (vnorm b). clearbody w v. clear. intros. destruct w, v. vunfold. unnum. ring. }
  rewrite W, N2. replace (vabs2 b * vabs2 v) with (vabs2 w) by (rewrite <- Vv; ring). rewrite <- (Rmult_1_r (vabs2 w)) at 3. rewrite <- U. ring.
Qed.
Lemma turned_abs2 x b p : b <> vzero -> vabs2 (turned x b p) = vabs2 p.
Proof.
  intros Hb. pose proof (turned_cross2 x b p Hb) as E. rewrite !lagrange, (turned_dot x b p Hb) in E. apply (Rmult_eq_reg_r (vabs2 b)); [lra|apply abs2_nz, Hb].
Qed.
Lemma helix_cylinder qm turn adv b x0 p0 : b <> vzero -> qm <> 0 ->
  vabs2 (vcross (vsub (fst (helix qm turn adv b x0 p0)) (centre_of qm b x0 p0)) b) = Rsqr (nc / qm) * vabs2 (vcross p0 b) / vabs2 b.
Proof.
  intros Hb Hm. unfold helix. cbn [fst]. rewrite <- (turned_cross2 turn b p0 Hb). generalize (turned turn b p0) (centre_of qm b x0 p0) (adv / vnorm b). intros p c s.
  assert (B2 := abs2_nz b Hb). unfold Rsqr. generalize (nc : R). intros cc.
  transitivity (vabs2 (vcross (vmul (vcross b p) (cc / (qm * vabs2 b))) b)); [f_equal; generalize (vmul (vcross b p) (cc / (qm * vabs2 b))); intros u; clear; vring|].
  transitivity (Rsqr (cc / (qm * vabs2 b)) * (vabs2 (vcross p b) * vabs2 b)).
  { unfold Rsqr. generalize (cc / (qm * vabs2 b)). clear. intros s. destruct p, b. vunfold. unnum. ring. }
  unfold Rsqr. generalize (vabs2 (vcross p b)). intros w. field. auto.
Qed.

(* ---- the exact motion solves the equation of motion ---- *)
Lemma derivable_eq f g x l k : derivable_pt_lim f x l -> (forall t, g t = f t) -> k = l -> derivable_pt_lim g x k.
Proof. intros H E ->. intros eps He. destruct (H eps He) as (d & Hd). exists d. intros h h0 hd. rewrite !E. apply Hd; auto. Qed.
Lemma deriv_trig A B C D w t : derivable_pt_lim (fun s => A + (B * cos (w * s) + C * sin (w * s)) + D * s) t (w * (C * cos (w * t) - B * sin (w * t)) + D).
Proof.
  assert (L : derivable_pt_lim (fun s => w * s) t w).
  { eapply derivable_eq; [apply (derivable_pt_lim_scal id w t 1), derivable_pt_lim_id|reflexivity|ring]. }
  assert (Co : derivable_pt_lim (fun s => cos (w * s)) t (- sin (w * t) * w)) by (apply (derivable_pt_lim_comp (fun s => w * s) cos); [exact L|apply derivable_pt_lim_cos]).
  assert (Si : derivable_pt_lim (fun s => sin (w * s)) t (cos (w * t) * w)) by (apply (derivable_pt_lim_comp (fun s => w * s) sin); [exact L|apply derivable_pt_lim_sin]).
  eapply derivable_eq; [apply (derivable_pt_lim_plus _ _ t _ _ (derivable_pt_lim_plus _ _ t _ _ (derivable_pt_lim_const A t) (derivable_pt_lim_plus _ _ t _ _ (derivable_pt_lim_scal _ B t _ Co) (derivable_pt_lim_scal _ C t _ Si))) (derivable_pt_lim_scal _ D t _ (derivable_pt_lim_id t)))| |].
  - intros s. unfold plus_fct, mult_real_fct, fct_cte, id. reflexivity.
  - ring.
Qed.
Lemma helix_exact qm b x0 p0 : b <> vzero -> qm <> 0 ->
  let g := gamma_of p0 in
  let X t := fst (helix qm (qm * vnorm b / g * t) (t * nc * (vdot p0 b / vnorm b) / g) b x0 p0) in
  let P t := snd (helix qm (qm * vnorm b / g * t) (t * nc * (vdot p0 b / vnorm b) / g) b x0 p0) in
  X 0 = x0 /\ P 0 = p0 /\
  forall t, derivative X t (vmul (beta_of (P t)) nc) /\ derivative P t (vmul (lorentz (beta_of (P t)) vzero b) qm).
Proof.
  intros Hb Hm g X P. pose proof (gamma_pos p0) as G. fold g in G. pose proof (norm_pos b Hb) as N. pose proof (norm_sq b) as N2. assert (B2 := abs2_nz b Hb).
  assert (P0 : P 0 = p0) by (unfold P, helix; cbn [snd]; rewrite Rmult_0_r; apply turned_0).
  split.
  { unfold X, helix. cbn [fst]. rewrite Rmult_0_r, turned_0. unfold centre_of. generalize (vmul (vcross b p0) (nc / (qm * vabs2 b))). intros u.
    replace (0 * nc * (vdot p0 b / vnorm b) / g / vnorm b) with 0 by (field; lra). clear. vring. }
  split; [exact P0|]. intros t. assert (Gt : gamma_of (P t) = g) by (unfold g, gamma_of, P, helix; cbn [snd]; rewrite (turned_abs2 _ b p0 Hb); reflexivity).
  unfold beta_of. rewrite Gt, lorentz_b by lra. set (w := qm * vnorm b / g).
  assert (EP : forall s, P s = turned (w * s) b p0) by reflexivity.
  assert (EX : forall s, X s = vadd (vadd (centre_of qm b x0 p0) (vmul b (s * (nc * vdot p0 b / (g * vabs2 b))))) (vmul (vcross b (turned (w * s) b p0)) (nc / (qm * vabs2 b)))).
  { intros s. unfold X, helix. cbn [fst]. fold w. f_equal. f_equal. f_equal. rewrite <- N2. field. lra. }
  clearbody X P. unfold derivative. split.
  - rewrite EP. assert (HX : forall s, X s = vadd (vadd (centre_of qm b x0 p0) (vmul b (s * (nc * vdot p0 b / (g * vabs2 b))))) (vmul (vadd (vmul (vcross b p0) (cos (w * s))) (vmul (vsub p0 (along b p0)) (sin (w * s) * vnorm b))) (nc / (qm * vabs2 b)))).
    { intros s. rewrite EX. f_equal. f_equal. pose proof (cross_turned (w * s) b p0 Hb) as CT. 
      transitivity (vmul (vcross (turned (w * s) b p0) b) (-1)); [generalize (turned (w * s) b p0); clear; intros; vring|]. rewrite CT. generalize (along b p0) (cos (w * s)) (sin (w * s) * vnorm b). clear. intros. vring. }
    clear EX EP. set (c0 := centre_of qm b x0 p0) in *. clearbody c0.
    assert (AL : along b p0 = vmul b (vdot p0 b / vabs2 b)) by reflexivity. unfold turned. set (al := along b p0) in *. clearbody al. set (cr := vcross p0 b) in *.
    assert (CR : vcross b p0 = vmul cr (-1)) by (unfold cr; clear; vring). rewrite CR in HX. clearbody cr.
    set (d := vdot p0 b) in *. clearbody d. set (n := vnorm b) in *. clearbody n. set (B := vabs2 b) in *. clearbody B. 
    assert (WW : w * (nc / (qm * B)) = nc / (n * g)) by (unfold w; rewrite <- N2; field; repeat split; lra). clearbody w g.
    destruct c0 as [c1 c2 c3], p0 as [p1 p2 p3], al as [a1 a2 a3], cr as [r1 r2 r3]. pose proof (f_equal vx AL) as A1. pose proof (f_equal vy AL) as A2. pose proof (f_equal vz AL) as A3. clear AL CR Gt P0 N2 Hb.
    destruct b as [b1 b2 b3]. cbn [vx vy vz vmul] in A1, A2, A3. unnum_in A1. unnum_in A2. unnum_in A3. set (k := nc / (qm * B)) in *.
    split; [|split].
    + eapply derivable_eq; [apply (deriv_trig c1 (- r1 * k) ((p1 - a1) * n * k) (b1 * (nc * d / (g * B))) w t)|intros s; rewrite HX; vunfold; unnum; ring|].
      transitivity (w * k * ((p1 - a1) * n * cos (w * t) + r1 * sin (w * t)) + b1 * (nc * d / (g * B))); [|ring]. rewrite WW. vunfold. unnum. rewrite A1. field. repeat split; auto; lra.
    + eapply derivable_eq; [apply (deriv_trig c2 (- r2 * k) ((p2 - a2) * n * k) (b2 * (nc * d / (g * B))) w t)|intros s; rewrite HX; vunfold; unnum; ring|].
      transitivity (w * k * ((p2 - a2) * n * cos (w * t) + r2 * sin (w * t)) + b2 * (nc * d / (g * B))); [|ring]. rewrite WW. vunfold. unnum. rewrite A2. field. repeat split; auto; lra.
    + eapply derivable_eq; [apply (deriv_trig c3 (- r3 * k) ((p3 - a3) * n * k) (b3 * (nc * d / (g * B))) w t)|intros s; rewrite HX; vunfold; unnum; ring|].
      transitivity (w * k * ((p3 - a3) * n * cos (w * t) + r3 * sin (w * t)) + b3 * (nc * d / (g * B))); [|ring]. rewrite WW. vunfold. unnum. rewrite A3. field. repeat split; auto; lra.
  - rewrite EP, (cross_turned _ b p0 Hb). unfold turned in EP. clear EX Gt P0. set (al := along b p0) in *. clearbody al. set (cr := vcross p0 b) in *. clearbody cr. set (n := vnorm b) in *. clearbody n.
    assert (WW : w = qm * n / g) by reflexivity. clearbody w g. clear N2 B2 Hb.
    destruct p0 as [p1 p2 p3], al as [a1 a2 a3], cr as [r1 r2 r3]. split; [|split].
    + eapply derivable_eq; [apply (deriv_trig a1 (p1 - a1) (r1 / n) 0 w t)|intros s; rewrite EP; vunfold; unnum; field; lra|]. vunfold. unnum. rewrite WW at 3. field. lra.
    + eapply derivable_eq; [apply (deriv_trig a2 (p2 - a2) (r2 / n) 0 w t)|intros s; rewrite EP; vunfold; unnum; field; lra|]. vunfold. unnum. rewrite WW at 3. field. lra.
    + eapply derivable_eq; [apply (deriv_trig a3 (p3 - a3) (r3 / n) 0 w t)|intros s; rewrite EP; vunfold; unnum; field; lra|]. vunfold. unnum. rewrite WW at 3. field. lra.
Qed.

(* ---- phase ---- *)
Lemma atan_cubic s : 0 <= s -> s - s * s * s / 3 <= atan s <= s.
Proof.
  intros Hs. destruct (Req_dec s 0) as [->|Hn]; [rewrite atan_0; lra|].
  assert (A : forall x, derivable_pt_lim atan x (/ (1 + x * x))).
  { intros x. pose proof (derivable_pt_lim_atan x) as D. unfold Rsqr in D. replace (x ^ 2) with (x * x) in D by ring. exact D. }
  assert (U1 : forall x, derivable_pt_lim (fun s => s - atan s) x (1 - / (1 + x * x))).
  { intros x. apply (derivable_pt_lim_minus id atan); [apply derivable_pt_lim_id|apply A]. }
  assert (U2 : forall x, derivable_pt_lim (fun s => s * s * s / 3 - (s - atan s)) x (x * x - (1 - / (1 + x * x)))).
  { intros x. apply (derivable_pt_lim_minus (fun s => s * s * s / 3) (fun s => s - atan s)); [|apply U1].
    eapply derivable_eq; [apply (derivable_pt_lim_scal _ (/ 3) x _ (derivable_pt_lim_mult _ _ x _ _ (derivable_pt_lim_mult id id x 1 1 (derivable_pt_lim_id x) (derivable_pt_lim_id x)) (derivable_pt_lim_id x)))| |].
    - intros t. unfold mult_real_fct, mult_fct, id. field.
    - unfold mult_fct, id. field. }
  assert (H0 : 0 < s) by lra.
  destruct (MVT_cor2 (fun s => s - atan s) _ 0 s H0 (fun c _ => U1 c)) as (c & E & _). destruct (MVT_cor2 (fun s => s * s * s / 3 - (s - atan s)) _ 0 s H0 (fun c _ => U2 c)) as (c' & E' & _). cbv beta in E, E'. rewrite atan_0 in E, E'.
  assert (I : forall x, x * x - (1 - / (1 + x * x)) = x * x * (x * x) / (1 + x * x) /\ 1 - / (1 + x * x) = x * x / (1 + x * x)) by (intros x; assert (0 < 1 + x * x) by nra; split; field; lra).
  assert (Q : forall x, 0 <= x * x / (1 + x * x) /\ 0 <= x * x * (x * x) / (1 + x * x)).
  { intros x. assert (0 < 1 + x * x) by nra. split; apply Rmult_le_pos; try (left; apply Rinv_0_lt_compat; lra); try apply Rle_0_sqr; apply Rmult_le_pos; apply Rle_0_sqr. }
  destruct (I c) as (_ & I2), (I c') as (I1 & _). rewrite I2 in E. rewrite I1 in E'. destruct (Q c) as (Q1 & _), (Q c') as (_ & Q2). split; nra.
Qed.
Lemma atan_error s : Rabs (atan s - s) <= Rabs s * Rabs s * Rabs s / 3.
Proof.
  destruct (Rle_lt_dec 0 s) as [H|H].
  - pose proof (atan_cubic s H). rewrite (Rabs_pos_eq s H), Rabs_left1; lra.
  - pose proof (atan_cubic (- s) ltac:(lra)) as A. rewrite atan_opp in A. rewrite (Rabs_left s H), Rabs_pos_eq; [|lra]. lra.
Qed.
Lemma gamma_error tau g ga W B : 1 <= g <= ga -> 0 <= W -> 0 <= B -> Rsqr ga = Rsqr g + Rsqr tau * W / (Rsqr g + Rsqr tau * B) ->
  0 <= / g - / ga <= Rsqr tau * W / (2 * (g * g * g * g * g)).
Proof.
  intros (Hg & Hga) HW HB E. unfold Rsqr in *. assert (T : 0 <= tau * tau) by apply Rle_0_sqr. assert (0 <= tau * tau * W) by nra. assert (0 <= tau * tau * B) by nra. assert (0 < g * g) by nra.
  assert (Q : tau * tau * W / (g * g + tau * tau * B) <= tau * tau * W / (g * g)).
  { apply Rmult_le_compat_l; [assumption|]. apply Rinv_le_contravar; lra. }
  assert (D : ga * ga - g * g <= tau * tau * W / (g * g)) by lra. split.
  - apply Rinv_le_contravar in Hga; lra.
  - replace (/ g - / ga) with ((ga * ga - g * g) * / (g * ga * (ga + g))) by (field; repeat split; lra).
    replace (tau * tau * W / (2 * (g * g * g * g * g))) with (tau * tau * W / (g * g) * / (2 * (g * g * g))) by (field; lra).
    assert (0 <= ga * ga - g * g) by nra. assert (0 < g * g * g) by nra.
    apply Rmult_le_compat; try assumption; [left; apply Rinv_0_lt_compat; nra|]. apply Rinv_le_contravar; [lra|]. assert (g * g <= ga * ga) by nra. assert (g * g <= ga * g) by nra. nra.
Qed.
Lemma phase_error tau n g ga W : 1 <= g <= ga -> 0 <= W -> 0 <= n -> Rsqr ga = Rsqr g + Rsqr tau * W / (Rsqr g + Rsqr tau * (n * n)) ->
  Rabs (2 * atan (tau * n / g) - 2 * (tau * n / ga)) <= (Rabs tau / g) * (Rabs tau / g) * (Rabs tau / g) * n * (W / (g * g) + 2 / 3 * (n * n)).
Proof.
  intros Hg HW Hn E. assert (G0 : 0 < g) by lra. assert (Ga0 : 0 < ga) by lra. assert (B : 0 <= n * n) by nra. destruct (gamma_error tau g ga W (n * n) Hg HW B E) as (L & U).
  replace (2 * atan (tau * n / g) - 2 * (tau * n / ga)) with (2 * (atan (tau * n / g) - tau * n / g) + 2 * (tau * n) * (/ g - / ga)) by (field; lra).
  eapply Rle_trans; [apply Rabs_triang|]. rewrite !Rabs_mult, (Rabs_pos_eq 2) by lra. rewrite (Rabs_pos_eq n Hn), (Rabs_pos_eq _ L).
  pose proof (atan_error (tau * n / g)) as A. assert (S : Rabs (tau * n / g) = Rabs tau / g * n).
  { unfold Rdiv. rewrite !Rabs_mult, (Rabs_pos_eq n Hn), (Rabs_pos_eq (/ g)); [ring|]. left. apply Rinv_0_lt_compat. lra. }
  rewrite S in A. set (a := Rabs tau) in *. assert (a0 : 0 <= a) by apply Rabs_pos. assert (T2 : Rsqr tau = a * a) by (rewrite (Rsqr_abs tau); reflexivity). rewrite T2 in U.
  assert (M : 2 * (a * n) * (/ g - / ga) <= 2 * (a * n) * (a * a * W / (2 * (g * g * g * g * g)))) by (apply Rmult_le_compat_l; [nra|exact U]).
  eapply Rle_trans; [apply Rplus_le_compat; [apply Rmult_le_compat_l; [lra|exact A]|exact M]|]. right. field. lra.
Qed.

(* ---- distance of two helices ---- *)
Lemma one_cos x : 0 <= 2 - 2 * cos x <= x * x.
Proof.
  replace x with (2 * (x / 2)) at 1 2 by field. rewrite cos_2a_sin. assert (S : Rabs (sin (x / 2)) <= Rabs (x / 2)).
  { assert (P : forall y, 0 <= y -> Rabs (sin y) <= y).
    { intros y Hy. pose proof (SIN_bound y). destruct (Rle_lt_dec y 1) as [L|L]; [|apply Rabs_le; lra].
      destruct (Req_dec y 0) as [->|N]; [rewrite sin_0, Rabs_R0; lra|]. pose proof (sin_lt_x y ltac:(lra)). pose proof PI_4. pose proof PI2_1. pose proof (sin_ge_0 y Hy ltac:(unfold PI2 in *; lra)). apply Rabs_le. lra. }
    destruct (Rle_lt_dec 0 (x / 2)) as [H|H]; [rewrite (Rabs_pos_eq (x / 2) H); apply P, H|].
    rewrite (Rabs_left (x / 2) H), <- (Rabs_Ropp (sin (x / 2))), <- sin_neg. apply P. lra. }
  pose proof (Rabs_pos (sin (x / 2))). assert (Q : sin (x / 2) * sin (x / 2) <= x / 2 * (x / 2)).
  { rewrite <- (Rabs_pos_eq (sin (x / 2) * sin (x / 2))) by apply Rle_0_sqr. rewrite <- (Rabs_pos_eq (x / 2 * (x / 2))) by apply Rle_0_sqr. rewrite !Rabs_mult. apply Rmult_le_compat; assumption. }
  pose proof (Rle_0_sqr (sin (x / 2))) as Z. unfold Rsqr in Z. split; nra.
Qed.
Lemma perp_norm b p : b <> vzero -> vabs2 (vsub p (along b p)) * vabs2 b = vabs2 (vcross p b).
Proof.
  intros Hb. assert (B2 := abs2_nz b Hb). unfold along. clear Hb. destruct p, b. vunfold_in B2. unnum_in B2. vunfold. unnum. field. exact B2.
Qed.
Lemma turned_distance2 x y b p : b <> vzero -> vabs2 (vsub (turned x b p) (turned y b p)) * vabs2 b = vabs2 (vcross p b) * (2 - 2 * cos (x - y)).
Proof.
  intros Hb. pose proof (norm_pos b Hb) as N. pose proof (norm_sq b) as N2. pose proof (perp_norm b p Hb) as PN. unfold turned. set (v := vsub p (along b p)) in *. set (w := vcross p b) in *.
  assert (W : vdot w v = 0). { unfold w, v, along. generalize (vdot p b / vabs2 b). intros s. clear. destruct p, b. vunfold. unnum. ring. }
  transitivity ((vabs2 v * vabs2 b) * (cos x - cos y) * (cos x - cos y) + vabs2 w * (vabs2 b / (vnorm b * vnorm b)) * (sin x - sin y) * (sin x - sin y) + 2 * vabs2 b * (cos x - cos y) * (sin x - sin y) / vnorm b * vdot w v).
  { generalize (along b p). intros u. generalize (cos x) (sin x) (cos y) (sin y) (vabs2 b). intros c s c' s' B. clear N2 PN W. clearbody v w. destruct u, v, w. generalize dependent (vnorm b). intros n Hn. vunfold. unnum. field. lra. }
  rewrite W, PN, N2. replace (vabs2 b / vabs2 b) with 1 by (field; apply abs2_nz, Hb). rewrite cos_minus. pose proof (sin2_cos2 x) as U. pose proof (sin2_cos2 y) as U'. unfold Rsqr in U, U'.
  transitivity (vabs2 w * ((sin x * sin x + cos x * cos x) + (sin y * sin y + cos y * cos y) - 2 * (cos x * cos y + sin x * sin y))); [ring|]. rewrite U, U'. ring.
Qed.
Lemma turned_distance x y b p : b <> vzero -> vnorm (vsub (turned x b p) (turned y b p)) <= vnorm (vcross p b) / vnorm b * Rabs (x - y).
Proof.
  intros Hb. pose proof (norm_pos b Hb) as N. pose proof (norm_sq b) as N2. apply (Rmult_le_reg_r (vnorm b)); [exact N|].
  replace (vnorm (vcross p b) / vnorm b * Rabs (x - y) * vnorm b) with (vnorm (vcross p b) * Rabs (x - y)) by (field; lra).
  assert (A0 : forall a : vec R, 0 <= vnorm a) by (intros a; unfold vnorm; unnum; apply sqrt_pos).
  apply Rsqr_incr_0; [|apply Rmult_le_pos; [apply A0|lra]|apply Rmult_le_pos; [apply A0|apply Rabs_pos]].
  unfold Rsqr. replace (vnorm (vsub (turned x b p) (turned y b p)) * vnorm b * (vnorm (vsub (turned x b p) (turned y b p)) * vnorm b)) with ((vnorm (vsub (turned x b p) (turned y b p)) * vnorm (vsub (turned x b p) (turned y b p))) * (vnorm b * vnorm b)) by ring.
  rewrite !norm_sq, (turned_distance2 x y b p Hb). replace (vnorm (vcross p b) * Rabs (x - y) * (vnorm (vcross p b) * Rabs (x - y))) with (vnorm (vcross p b) * vnorm (vcross p b) * (Rabs (x - y) * Rabs (x - y))) by ring. rewrite norm_sq.
  apply Rmult_le_compat_l; [apply abs2_pos|]. replace (Rabs (x - y) * Rabs (x - y)) with ((x - y) * (x - y)) by (change (Rsqr (x - y) = Rsqr (Rabs (x - y))); apply Rsqr_abs). apply one_cos.
Qed.
Lemma norm_sum (u v : vec R) : vnorm (vadd u v) <= vnorm u + vnorm v.
Proof.
  assert (A0 : forall a : vec R, 0 <= vnorm a) by (intros a; unfold vnorm; unnum; apply sqrt_pos).
  apply Rsqr_incr_0; [|apply A0|pose proof (A0 u); pose proof (A0 v); lra]. unfold Rsqr. rewrite norm_sq.
  assert (CS : vdot u v <= vnorm u * vnorm v).
  { destruct (Rle_lt_dec (vdot u v) 0) as [L|L]; [pose proof (Rmult_le_pos _ _ (A0 u) (A0 v)); lra|]. apply Rsqr_incr_0; [|lra|apply Rmult_le_pos; apply A0]. unfold Rsqr.
    replace (vnorm u * vnorm v * (vnorm u * vnorm v)) with ((vnorm u * vnorm u) * (vnorm v * vnorm v)) by ring. rewrite !norm_sq. pose proof (abs2_pos (vcross u v)) as C. rewrite lagrange in C. lra. }
  apply Rle_trans with (vabs2 u + vabs2 v + 2 * (vnorm u * vnorm v)).
  - replace (vabs2 (vadd u v)) with (vabs2 u + vabs2 v + 2 * vdot u v) by (clear; destruct u, v; vunfold; unnum; ring). lra.
  - rewrite <- !norm_sq. right. ring.
Qed.
Lemma norm_scale (u : vec R) s : vnorm (vmul u s) = vnorm u * Rabs s.
Proof.
  unfold vnorm. unnum. rewrite <- sqrt_Rsqr_abs, <- sqrt_mult; [f_equal; unfold Rsqr; destruct u; vunfold; unnum; ring|apply abs2_pos|apply Rle_0_sqr].
Qed.
Lemma norm_cross (u v : vec R) : vnorm (vcross u v) <= vnorm u * vnorm v.
Proof.
  assert (A0 : forall a : vec R, 0 <= vnorm a) by (intros a; unfold vnorm; unnum; apply sqrt_pos).
  apply Rsqr_incr_0; [|apply A0|apply Rmult_le_pos; apply A0]. unfold Rsqr. replace (vnorm u * vnorm v * (vnorm u * vnorm v)) with ((vnorm u * vnorm u) * (vnorm v * vnorm v)) by ring. rewrite !norm_sq, lagrange. pose proof (Rle_0_sqr (vdot u v)) as Z. unfold Rsqr in Z. lra.
Qed.
Lemma helix_distance qm f f' a a' b x0 p0 : b <> vzero -> qm <> 0 ->
  vnorm (vsub (snd (helix qm f a b x0 p0)) (snd (helix qm f' a' b x0 p0))) <= vnorm (vcross p0 b) / vnorm b * Rabs (f - f') /\
  vnorm (vsub (fst (helix qm f a b x0 p0)) (fst (helix qm f' a' b x0 p0))) <= Rabs (a - a') + nc / (Rabs qm * vabs2 b) * vnorm (vcross p0 b) * Rabs (f - f').
Proof.
  intros Hb Hm. unfold helix. cbn [fst snd]. pose proof (turned_distance f f' b p0 Hb) as TD. split; [exact TD|].
  pose proof (norm_pos b Hb) as N. pose proof (norm_sq b) as N2. assert (B2 := abs2_nz b Hb). assert (NC := nc_pos). assert (Qm : 0 < Rabs qm) by (apply Rabs_pos_lt, Hm).
  apply Rle_trans with (vnorm (vadd (vmul b ((a - a') / vnorm b)) (vmul (vcross b (vsub (turned f b p0) (turned f' b p0))) (nc / (qm * vabs2 b))))).
  { right. f_equal. generalize (turned f b p0) (turned f' b p0) (centre_of qm b x0 p0) (nc / (qm * vabs2 b)). intros u v c s. clear - N. generalize dependent (vnorm b). intros n Hn. destruct u, v, c, b. vunfold. unnum. vsplit; field; lra. }
  eapply Rle_trans; [apply norm_sum|]. rewrite !norm_scale. apply Rplus_le_compat.
  - unfold Rdiv. rewrite Rabs_mult, (Rabs_pos_eq (/ vnorm b)) by (left; apply Rinv_0_lt_compat; lra). right. field. lra.
  - assert (0 < vabs2 b) by (rewrite <- N2; nra).
    eapply Rle_trans; [apply Rmult_le_compat_r; [apply Rabs_pos|]; eapply Rle_trans; [apply norm_cross|apply Rmult_le_compat_l; [lra|exact TD]]|].
    assert (K : Rabs (nc / (qm * vabs2 b)) = nc / (Rabs qm * vabs2 b)).
    { unfold Rdiv. rewrite Rabs_mult, Rabs_inv, Rabs_mult, (Rabs_pos_eq nc), (Rabs_pos_eq (vabs2 b)) by lra. reflexivity. }
    rewrite K. right. field. split; [exact B2|]. split; lra.
Qed.
(* tracked and exact orbit at the same time *)
Lemma helix_error dt qm b m0 g k : b <> vzero -> 
  1 <= g <= gamma_of m0 ->
  Rsqr (gamma_of m0) = Rsqr g + Rsqr (qm * dt / 2) * vabs2 (vcross m0 b) / (Rsqr g + Rsqr (qm * dt / 2) * vabs2 b) -> 0 <= k ->
  Rabs (k * (2 * atan (qm * dt * vnorm b / (2 * g))) - qm * vnorm b / gamma_of m0 * (k * dt)) <= k * Rabs dt * Rsqr dt * (Rabs qm * Rabs qm * Rabs qm / 8 * vnorm b * (vabs2 (vcross m0 b) + 2 / 3 * vabs2 b)) /\
  Rabs (k * dt * nc * (vdot m0 b / vnorm b) / g - k * dt * nc * (vdot m0 b / vnorm b) / gamma_of m0) <= k * Rabs dt * Rsqr dt * (nc * (Rabs (vdot m0 b) / vnorm b) * (qm * qm / 8) * vabs2 (vcross m0 b)).
Proof.
  intros Hb Hg E Hk. assert (G : 0 < g) by lra. assert (Ga : 0 < gamma_of m0) by lra. pose proof (abs2_pos (vcross m0 b)) as W. pose proof (norm_pos b Hb) as N. assert (NC := nc_pos).
  assert (G2 : 1 <= g * g) by nra. assert (G3 : 1 <= g * g * g) by nra. assert (G5 : 1 <= g * g * g * g * g) by nra.
  destruct (gamma_error _ _ _ _ _ Hg W (abs2_pos b) E) as (L & U). split.
  - rewrite <- (norm_sq b) in E |- *. pose proof (phase_error (qm * dt / 2) (vnorm b) g (gamma_of m0) _ Hg W (Rlt_le _ _ N) E) as A.
    replace (qm * dt * vnorm b / (2 * g)) with (qm * dt / 2 * vnorm b / g) by (field; lra).
    replace (k * (2 * atan (qm * dt / 2 * vnorm b / g)) - qm * vnorm b / gamma_of m0 * (k * dt)) with (k * (2 * atan (qm * dt / 2 * vnorm b / g) - 2 * (qm * dt / 2 * vnorm b / gamma_of m0))) by (field; lra).
    rewrite Rabs_mult, (Rabs_pos_eq k Hk). replace (k * Rabs dt * Rsqr dt * (Rabs qm * Rabs qm * Rabs qm / 8 * vnorm b * (vabs2 (vcross m0 b) + 2 / 3 * (vnorm b * vnorm b)))) with (k * (Rabs dt * Rsqr dt * (Rabs qm * Rabs qm * Rabs qm / 8 * vnorm b * (vabs2 (vcross m0 b) + 2 / 3 * (vnorm b * vnorm b))))) by ring.
    apply Rmult_le_compat_l; [exact Hk|]. eapply Rle_trans; [exact A|]. rewrite (Rsqr_abs dt). unfold Rsqr.
    assert (AB : Rabs (qm * dt / 2) = Rabs qm * Rabs dt / 2) by (unfold Rdiv; rewrite !Rabs_mult, (Rabs_pos_eq (/ 2)); lra). rewrite AB.
    assert (a0 := Rabs_pos qm). assert (d0 := Rabs_pos dt). set (a := Rabs qm) in *. set (d := Rabs dt) in *. clearbody a d. set (w := vabs2 (vcross m0 b)) in *. set (n := vnorm b) in *. clearbody w n. clear A AB E U L.
    apply Rle_trans with (d * (d * d) * (a * a * a / 8 * n) * ((w / (g * g) + 2 / 3 * (n * n)) * / (g * g * g))); [right; field; lra|].
    apply Rle_trans with (d * (d * d) * (a * a * a / 8 * n) * (w + 2 / 3 * (n * n))); [|right; ring]. apply Rmult_le_compat_l; [repeat apply Rmult_le_pos; lra|].
    assert (I2 : w / (g * g) <= w). { rewrite <- (Rmult_1_r w) at 2. apply Rmult_le_compat_l; [exact W|]. rewrite <- Rinv_1. apply Rinv_le_contravar; lra. }
    assert (I3 : 0 < / (g * g * g) <= 1). { split; [apply Rinv_0_lt_compat; lra|]. rewrite <- Rinv_1. apply Rinv_le_contravar; lra. }
    assert (0 <= w / (g * g)) by (apply Rmult_le_pos; [exact W|left; apply Rinv_0_lt_compat; lra]). assert (0 <= n * n) by nra. nra.
  - replace (k * dt * nc * (vdot m0 b / vnorm b) / g - k * dt * nc * (vdot m0 b / vnorm b) / gamma_of m0) with (k * (dt * nc * (vdot m0 b / vnorm b)) * (/ g - / gamma_of m0)) by (field; repeat split; lra).
    rewrite !Rabs_mult, (Rabs_pos_eq k Hk), (Rabs_pos_eq _ L), (Rabs_pos_eq nc) by lra.
    assert (AB : Rabs (vdot m0 b / vnorm b) = Rabs (vdot m0 b) / vnorm b) by (unfold Rdiv; rewrite Rabs_mult, (Rabs_pos_eq (/ vnorm b)); [reflexivity|left; apply Rinv_0_lt_compat; lra]). rewrite AB.
    assert (U' : / g - / gamma_of m0 <= Rsqr (qm * dt / 2) * vabs2 (vcross m0 b) / 2).
    { eapply Rle_trans; [exact U|]. unfold Rdiv. apply Rmult_le_compat_l; [apply Rmult_le_pos; [apply Rle_0_sqr|exact W]|]. apply Rinv_le_contravar; lra. }
    eapply Rle_trans; [apply Rmult_le_compat_l; [|exact U']|].
    + repeat apply Rmult_le_pos; try lra; try apply Rabs_pos. left. apply Rinv_0_lt_compat. lra.
    + right. unfold Rsqr. field. lra.
Qed.
Lemma orbit_error dt F b p i t0 x0 m0 a0 n : wf p -> homogeneous F vzero b -> b <> vzero -> trajectory p = i ++ [TP t0 x0 m0 a0] ->
  let qm := charge_over_mass (pCharge p) (pMass p) in qm <> 0 ->
  let A := Rabs qm * Rabs qm * Rabs qm / 8 * vnorm b * (vabs2 (vcross m0 b) + 2 / 3 * vabs2 b) in
  let B := nc * (Rabs (vdot m0 b) / vnorm b) * (qm * qm / 8) * vabs2 (vcross m0 b) in
  exists q, bind (InitVay dt F p) (StepsVay F n) = Ok q /\
    forall k, (k <= n)%nat ->
      let t := INR k * dt in
      let exact := helix qm (qm * vnorm b / gamma_of m0 * t) (t * nc * (vdot m0 b / vnorm b) / gamma_of m0) b x0 m0 in
      exists x m a, nth_error (trajectory q) (length i + k) = Some (TP (t0 + t) x m a) /\
        vnorm (vsub m (snd exact)) <= vnorm (vcross m0 b) / vnorm b * A * Rabs t * Rsqr dt /\
        vnorm (vsub x (fst exact)) <= (B + nc / (Rabs qm * vabs2 b) * vnorm (vcross m0 b) * A) * Rabs t * Rsqr dt.
Proof.
  intros Hw HF Hb HT qm Hm A B. destruct (orbit_helix dt F b p i t0 x0 m0 a0 n Hw HF Hb HT Hm) as (g & q & Hg & E & Hq & _ & R). fold qm in E, R. exists q. split; [exact Hq|].
  intros k Hk t ex. specialize (R k Hk). cbv zeta in R. fold t in R. eexists _, _, _. split; [exact R|]. clear R.
  pose proof (pos_INR k) as K0. destruct (helix_error dt qm b m0 g (INR k) Hb Hg E K0) as (E1 & E2). fold t in E1, E2. fold A in E1. fold B in E2.
  assert (T : INR k * Rabs dt = Rabs t) by (unfold t; rewrite Rabs_mult, (Rabs_pos_eq _ K0); reflexivity). rewrite T in E1, E2.
  destruct (helix_distance qm (INR k * (2 * atan (qm * dt * vnorm b / (2 * g)))) (qm * vnorm b / gamma_of m0 * t) (t * nc * (vdot m0 b / vnorm b) / g) (t * nc * (vdot m0 b / vnorm b) / gamma_of m0) b x0 m0 Hb Hm) as (D1 & D2). fold ex in D1, D2.
  pose proof (norm_pos b Hb) as N. assert (W0 : 0 <= vnorm (vcross m0 b)) by (unfold vnorm; unnum; apply sqrt_pos). assert (NC := nc_pos). split.
  - eapply Rle_trans; [exact D1|]. eapply Rle_trans; [apply Rmult_le_compat_l; [|exact E1]|right; ring]. apply Rmult_le_pos; [exact W0|left; apply Rinv_0_lt_compat; lra].
  - eapply Rle_trans; [exact D2|]. eapply Rle_trans; [apply Rplus_le_compat; [exact E2|apply Rmult_le_compat_l; [|exact E1]]|right; ring].
    apply Rmult_le_pos; [|exact W0]. apply Rmult_le_pos; [lra|]. left. apply Rinv_0_lt_compat. apply Rmult_lt_0_compat; [apply Rabs_pos_lt, Hm|rewrite <- norm_sq; nra].
Qed.
