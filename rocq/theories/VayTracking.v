(* Theorems about tracked particles over R (lemmas behind PropTracking.v). *)
From Coq Require Import ZArith Reals Lra Lia Psatz List.
From Verif Require Import Base BaseFacts Num VecModel VecFacts ParticleModel ParticleSpec
  ParticleProofs VaySpec VayProofs.
Import ListNotations.
Local Open Scope R_scope.

Definition tstate (dt : R) (p : particle R) : Prop :=
  wf p /\ pVg p = gamma_of (pVp p) /\ pdt p = dt /\
  pqm p = charge_over_mass (pCharge p) (pMass p) /\ pqmt2 p = pqm p * dt / 2 /\
  (0 < pNP p)%Z /\ synced p.

Lemma InitVay_tstate dt F p q : wf p -> InitVay dt F p = Ok q -> tstate dt q.
Proof.
  intros Hw H.
  assert (Hwq : wf q) by (apply (wf_apply p q (OpSetup dt F)); assumption).
  assert (Hsy : synced q).
  { (* set-up establishes sync whatever was before *)
    unfold InitVay in H. destruct (pNP p <? 1)%Z; [discriminate|].
    bget H as t Ht. bget H as x Hx. bget H as m Hm. bget H as eb Heb.
    destruct (vay_half _ _ _ _) as [p1 g]. bget H as acs Ha. okinj H.
    right. cbn. apply set_back_inv in Ha. destruct Ha as [i [b [Hi ->]]]. rewrite lback_app. auto. }
  unfold InitVay in H. destruct (Z.ltb_spec (pNP p) 1) as [Hn|Hn]; [discriminate|].
  bget H as t Ht. bget H as x Hx. bget H as m Hm. bget H as eb Heb.
  destruct (vay_half _ _ _ _) as [p1 g] eqn:E. bget H as acs Ha. okinj H.
  pose proof (vay_half_gamma (charge_over_mass (pCharge p) (pMass p) * (1 / 2) * dt) m (fE eb) (fB eb)) as Hg.
  change (charge_over_mass (pCharge p) (pMass p) * (1 / 2) * dt)
    with (nmul (nmul (pCharge p / pMass p * nirm)%num nhalf) dt) in Hg.
  rewrite E in Hg. cbn [fst snd] in Hg.
  unfold tstate. cbn [pVg pVp pdt pqm pqmt2 pNP pCharge pMass].
  split; [exact Hwq|]. split; [exact Hg|]. split; [reflexivity|]. split; [reflexivity|].
  split; [|split; [lia|exact Hsy]].
  unfold nhalf. unnum. unfold Rdiv. generalize (/ pMass p). intros k. field.
Qed.

Lemma StepVay_tstate dt F p q : tstate dt p -> StepVay F p = Ok q -> tstate dt q.
Proof.
  intros (Hw & Hg & Hd & Hq & Hq2 & Hn & Hs) H.
  pose proof (wf_apply p q (OpStep F) Hw H) as Hwq.
  pose proof (synced_apply p q (OpStep F) eq_refl Hs H) as Hsq.
  unfold StepVay in H. bget H as eb Heb.
  set (ph := vadd (pVp p) _) in H.
  destruct (vay_half _ _ _ _) as [p1 g] eqn:E. okinj H.
  pose proof (vay_half_gamma (pqmt2 p) ph (fE eb) (fB eb)) as Hg'. rewrite E in Hg'. cbn in Hg'.
  unfold tstate. cbn [pVg pVp pdt pqm pqmt2 pNP pCharge pMass storeTrajectoryPoint].
  repeat split; try apply Hwq; auto; lia.
Qed.

Lemma run_steps_tstate dt Fs p q : tstate dt p -> run_steps Fs p = Ok q -> tstate dt q.
Proof.
  revert p; induction Fs as [|F Fs IH]; intros p Hp H; cbn in H.
  - okinj H; exact Hp.
  - bget H as r Hr. eapply IH; [|exact H]. eapply StepVay_tstate; eauto.
Qed.

Lemma tracked_tstate dt p : tracked dt p -> tstate dt p.
Proof.
  intros (p0 & p1 & F0 & Fs & Hw & H0 & H1).
  eapply run_steps_tstate; [|exact H1]. eapply InitVay_tstate; eauto.
Qed.

Lemma tracked_step dt F p q : tracked dt p -> StepVay F p = Ok q -> tracked dt q.
Proof.
  intros (p0 & p1 & F0 & Fs & Hw & H0 & H1) H.
  exists p0, p1, F0, (Fs ++ [F]). repeat split; try apply Hw; auto.
  clear - H1 H. unfold run_steps in *. revert p1 H1; induction Fs as [|G Gs IH]; intros p1 H1; cbn in *.
  - injection H1 as <-. rewrite H. reflexivity.
  - bget H1 as r Hr. rewrite Hr. cbn. apply IH. exact H1.
Qed.

(* C01 *)
Lemma tracked_gamma dt p :
  tracked dt p ->
  pVg p * pVg p = 1 + vabs2 (pVp p) /\ 1 <= pVg p /\ vnorm (vdiv (pVp p) (pVg p)) < 1.
Proof.
  intros H. destruct (tracked_tstate _ _ H) as (Hw & Hg & _). rewrite Hg.
  split; [apply gamma_of_sq|]. split; [apply gamma_of_ge_1|]. apply beta_of_lt_1.
Qed.

(* C02: one step *)
Lemma step_equation dt F p q :
  tracked dt p -> StepVay F p = Ok q ->
  exists eb,
    F (pt q) (pX q) = Ok eb /\
    pt q = pt p + dt /\
    pX q = vadd (pX p) (vmul (beta_of (pVp p)) (nc * dt)) /\
    pP q = vadd (pVp p) (vmul (lorentz (beta_of (pVp p)) (fE eb) (fB eb))
                              (charge_over_mass (pCharge p) (pMass p) * dt / 2)) /\
    pVp q = vadd (pVp p)
              (vmul (lorentz (vmean (beta_of (pVp p)) (beta_of (pVp q))) (fE eb) (fB eb))
                    (charge_over_mass (pCharge p) (pMass p) * dt)) /\
    (forall u : vec R,
       u = vadd (pVp p)
              (vmul (lorentz (vmean (beta_of (pVp p)) (beta_of u)) (fE eb) (fB eb))
                    (charge_over_mass (pCharge p) (pMass p) * dt)) ->
       u = pVp q) /\
    pA q = vmul (lorentz (beta_of (pP q)) (fE eb) (fB eb))
                (charge_over_mass (pCharge p) (pMass p)).
Proof.
  intros Ht H. destruct (tracked_tstate _ _ Ht) as (Hw & Hg & Hd & Hq & Hq2 & _).
  unfold StepVay in H. bget H as eb Heb. exists eb.
  set (ph := vadd (pVp p) _) in H.
  destruct (vay_half _ _ _ _) as [p1 g] eqn:E. okinj H.
  cbn [pt pX pP pVp pA storeTrajectoryPoint].
  split; [exact Heb|]. split; [rewrite Hd; reflexivity|].
  split. { rewrite Hg, Hd. fold (beta_of (pVp p)). generalize (beta_of (pVp p)). intros bt.
           generalize (pX p). intros X. vring. }
  assert (Hph : ph = vadd (pVp p) (vmul (lorentz (beta_of (pVp p)) (fE eb) (fB eb)) (pqmt2 p))).
  { unfold ph, lorentz, beta_of. rewrite Hg. reflexivity. }
  rewrite <- Hq. rewrite <- Hq2.
  split; [exact Hph|].
  pose proof (vay_half_implicit (pqmt2 p) ph (fE eb) (fB eb)) as Hi.
  rewrite E in Hi. cbn in Hi.
  assert (Hlin : forall u, vadd ph (vmul (lorentz (beta_of u) (fE eb) (fB eb)) (pqmt2 p)) =
     vadd (pVp p) (vmul (lorentz (vmean (beta_of (pVp p)) (beta_of u)) (fE eb) (fB eb)) (pqm p * dt))).
  { intros u. rewrite Hph, Hq2. generalize (beta_of (pVp p)) (beta_of u) (pVp p) (fE eb) (fB eb) (pqm p).
    clear. intros b1 b2 v e b qm. unfold lorentz, vmean. generalize (vdiv e nc). clear e. intros e.
    vdestr. vunfold. unnum. vsplit; field. }
  split; [rewrite Hi at 1; apply Hlin|].
  split.
  { intros u Hu. rewrite <- Hlin in Hu. apply vay_half_unique in Hu. rewrite E in Hu. exact Hu. }
  unfold vay_accel, lorentz, beta_of, gamma_of. cbv zeta.
  change (nsqrt (nadd (vabs2 ph) (nZ 1))) with (sqrt (vabs2 ph + 1)).
  rewrite (Rplus_comm 1 (vabs2 ph)).
  generalize (vdiv ph (sqrt (vabs2 ph + 1))) (vdiv (fE eb) nc) (fB eb) (pqm p). vring.
Qed.

(* C02: the set-up does the same for the second half of the first step *)
Lemma setup_equation dt F p q :
  wf p -> InitVay dt F p = Ok q ->
  exists eb,
    F (pt q) (pX q) = Ok eb /\
    pVp q = vadd (pP q) (vmul (lorentz (beta_of (pVp q)) (fE eb) (fB eb))
                              (charge_over_mass (pCharge p) (pMass p) * dt / 2)) /\
    (forall u : vec R,
       u = vadd (pP q) (vmul (lorentz (beta_of u) (fE eb) (fB eb))
                              (charge_over_mass (pCharge p) (pMass p) * dt / 2)) -> u = pVp q).
Proof.
  intros Hw H. unfold InitVay in H. destruct (Z.ltb_spec (pNP p) 1) as [Hn|Hn]; [discriminate|].
  bget H as t Ht. bget H as x Hx. bget H as m Hm. bget H as eb Heb.
  set (q2 := nmul _ dt) in H.
  destruct (vay_half _ _ _ _) as [p1 g] eqn:E. bget H as acs Ha. okinj H.
  cbn [pt pX pP pVp]. exists eb. split; [exact Heb|].
  replace (charge_over_mass (pCharge p) (pMass p) * dt / 2) with q2.
  2:{ unfold q2, charge_over_mass, nhalf. unnum. unfold Rdiv. generalize (/ pMass p). intros k. field. }
  split.
  - pose proof (vay_half_implicit q2 m (fE eb) (fB eb)) as Hi. rewrite E in Hi. exact Hi.
  - intros u Hu. apply vay_half_unique in Hu. rewrite E in Hu. exact Hu.
Qed.

(* discrete work-energy relation *)
Lemma step_energy dt F p q :
  tracked dt p -> StepVay F p = Ok q ->
  exists eb, F (pt q) (pX q) = Ok eb /\
  (pVg q - pVg p) * (1 + (1 + vdot (pVp p) (pVp q)) / (pVg p * pVg q)) =
  charge_over_mass (pCharge p) (pMass p) * dt *
    vdot (vdiv (fE eb) nc) (vadd (beta_of (pVp p)) (beta_of (pVp q))).
Proof.
  intros Ht H. destruct (step_equation dt F p q Ht H) as (eb & HF & _ & _ & _ & He & _ & _).
  exists eb. split; [exact HF|].
  pose proof (tracked_tstate _ _ Ht) as (_ & Hg & _).
  pose proof (tracked_tstate _ _ (tracked_step _ _ _ _ Ht H)) as (_ & Hg' & _).
  rewrite Hg, Hg'.
  set (k := charge_over_mass _ _ * dt) in *.
  pose proof (gamma_of_ge_1 (pVp p)) as G0. pose proof (gamma_of_ge_1 (pVp q)) as G1.
  pose proof (gamma_of_sq (pVp p)) as S0. pose proof (gamma_of_sq (pVp q)) as S1.
  set (u0 := pVp p) in *. set (u1 := pVp q) in *.
  assert (Hdot : vdot (vsub u1 u0) (vadd (beta_of u0) (beta_of u1)) =
                 k * vdot (vdiv (fE eb) nc) (vadd (beta_of u0) (beta_of u1))).
  { unfold lorentz in He. revert He.
    generalize (beta_of u0) (beta_of u1) (vdiv (fE eb) nc) (fB eb). clearbody u0 u1 k. clear.
    intros b0 b1 e b He. rewrite He. clear He.
    unfold vmean. vdestr. vunfold. unnum. field. }
  rewrite <- Hdot. unfold beta_of.
  replace (vdot (vsub u1 u0) (vadd (vdiv u0 (gamma_of u0)) (vdiv u1 (gamma_of u1))))
    with ((vdot u0 u1 - vabs2 u0) / gamma_of u0 + (vabs2 u1 - vdot u0 u1) / gamma_of u1).
  2:{ generalize G0 G1. generalize (gamma_of u0) (gamma_of u1). clear. intros g0 g1 H0 H1.
      clearbody u0 u1. vdestr. vunfold. unnum. field. lra. }
  replace (vabs2 u0) with (gamma_of u0 * gamma_of u0 - 1) by lra.
  replace (vabs2 u1) with (gamma_of u1 * gamma_of u1 - 1) by lra.
  field. lra.
Qed.

(* C03 *)
Lemma pos_factor (u0 u1 : vec R) : 0 < 1 + (1 + vdot u0 u1) / (gamma_of u0 * gamma_of u1).
Proof.
  pose proof (gamma_of_ge_1 u0) as G0. pose proof (gamma_of_ge_1 u1) as G1.
  pose proof (gamma_of_sq u0) as S0. pose proof (gamma_of_sq u1) as S1.
  pose proof (cauchy_schwarz u0 u1) as C. pose proof (vnorm_sq u0) as N0. pose proof (vnorm_sq u1) as N1.
  pose proof (vnorm_nonneg u0) as P0. pose proof (vnorm_nonneg u1) as P1.
  assert (vnorm u0 < gamma_of u0) by nra. assert (vnorm u1 < gamma_of u1) by nra.
  assert (vnorm u0 * vnorm u1 < gamma_of u0 * gamma_of u1) by nra.
  assert (- (vnorm u0 * vnorm u1) <= vdot u0 u1).
  { pose proof (Rabs_def2 (vdot u0 u1) (vnorm u0 * vnorm u1 + 1)) as D.
    unfold Rabs in C. destruct (Rcase_abs (vdot u0 u1)); lra. }
  assert (Hp : 0 < gamma_of u0 * gamma_of u1) by nra.
  replace (1 + (1 + vdot u0 u1) / (gamma_of u0 * gamma_of u1))
    with ((gamma_of u0 * gamma_of u1 + 1 + vdot u0 u1) / (gamma_of u0 * gamma_of u1)) by (field; lra).
  apply Rmult_lt_0_compat; [lra|]. apply Rinv_0_lt_compat. exact Hp.
Qed.

Lemma step_no_work dt F p q :
  tracked dt p -> StepVay F p = Ok q ->
  (forall t x eb, F t x = Ok eb -> fE eb = vzero) ->
  pVg q = pVg p /\ vnorm (pVp q) = vnorm (pVp p).
Proof.
  intros Ht H HE. destruct (step_energy dt F p q Ht H) as (eb & HF & He).
  apply HE in HF. rewrite HF in He.
  replace (vdot (vdiv vzero nc) (vadd (beta_of (pVp p)) (beta_of (pVp q)))) with 0 in He.
  2:{ generalize (vadd (beta_of (pVp p)) (beta_of (pVp q))). intros v. vdestr. vunfold. unnum.
      unfold Rdiv. ring. }
  pose proof (tracked_tstate _ _ Ht) as (_ & Hg & _).
  pose proof (tracked_tstate _ _ (tracked_step _ _ _ _ Ht H)) as (_ & Hg' & _).
  rewrite Hg, Hg' in *. rewrite Rmult_0_r in He.
  apply Rmult_integral in He. pose proof (pos_factor (pVp p) (pVp q)).
  destruct He as [He|He]; [|lra].
  assert (Hgg : gamma_of (pVp q) = gamma_of (pVp p)) by lra. split; [exact Hgg|].
  rewrite !vnorm_sqrt. f_equal.
  pose proof (gamma_of_sq (pVp p)). pose proof (gamma_of_sq (pVp q)). rewrite Hgg in *. lra.
Qed.

Lemma run_no_work dt Fs p q :
  tracked dt p -> run_steps Fs p = Ok q ->
  (forall F, In F Fs -> forall t x eb, F t x = Ok eb -> fE eb = vzero) ->
  pVg q = pVg p /\ vnorm (pVp q) = vnorm (pVp p).
Proof.
  revert p; induction Fs as [|F Fs IH]; intros p Ht H HE; cbn in H.
  - okinj H. auto.
  - bget H as r Hr.
    destruct (step_no_work dt F p r Ht Hr) as [H1 H2]; [apply HE; left; reflexivity|].
    destruct (IH r) as [H3 H4]; [eapply tracked_step; eauto|exact H|intros; eapply HE; [right; eauto|eauto]|].
    split; congruence.
Qed.

(* times *)
Lemma StepsVay_time (F : field_fn R) n p q :
  StepsVay F n p = Ok q -> pt q = pt p + INR n * pdt p /\ pdt q = pdt p.
Proof.
  revert q; induction n as [|n IH]; intros q H.
  - cbn in H. okinj H. cbn. split; [ring|reflexivity].
  - unfold StepsVay in H. rewrite iter_res_S_r in H. bget H as r Hr.
    destruct (IH _ Hr) as [H1 H2]. unfold StepVay in H. bget H as eb Heb.
    destruct (vay_half _ _ _ _). okinj H. cbn [pt pdt storeTrajectoryPoint].
    rewrite H1, H2, S_INR. unnum. split; [ring|reflexivity].
Qed.
