(* The shape of the laser fields: C51, in addition to PropElement.v *)
From Coq Require Import ZArith List Bool Lia Reals Lra Psatz.
From Verif Require Import Base Num VecModel VecFacts ParticleModel BunchModel NumChecked
  ElementModel ElementSpec ElementProofs ElementProofs2 ElementProofs3 ElementProofs4.
Import ListNotations.
Local Open Scope R_scope.

(* The electric field of a Gaussian beam with the wave length lam, the Rayleigh range zR and
   the complex amplitude Ar + i Ai: real part of the amplitude times the complex density.
   The Gouy phase is not included. *)
Definition beam_size2 (lam zR z : R) : R := lam * zR / PI * (1 + (z / zR) * (z / zR)).
Definition beam_phase (lam zR t : R) (X : vec R) : R :=
  2 * PI / lam * (nc * t - vz X)
  - PI * (vx X * vx X + vy X * vy X) * vz X / (lam * (vz X * vz X + zR * zR)).
Definition gauss_field (lam zR Ar Ai t : R) (X : vec R) : R :=
  / sqrt (1 + (vz X / zR) * (vz X / zR)) *
  exp (- ((vx X * vx X + vy X * vy X) / beam_size2 lam zR (vz X))) *
  (Ar * cos (beam_phase lam zR t X) - Ai * sin (beam_phase lam zR t X)).
(* the envelope of a packet of duration tau moving with the speed of light *)
Definition envelope (tau t z : R) : R := exp (- (((t - z / nc) / tau) * ((t - z / nc) / tau))).

Lemma wave_phase (g : wave R) t X r : 0 < gwl g -> 0 < gwzR g -> r * r = vx X * vx X + vy X * vy X ->
  gw_phase g t X r = beam_phase (gwl g) (gwzR g) t X.
Proof.
  intros Hl Hz Hr. unfold gw_phase, beam_phase, gw_omega, gw_k. cbv zeta. rewrite <- Hr.
  generalize (@nc R NumR). intros c. change (@nPi R NumR) with PI. pose proof PI_RGT_0 as HP. generalize dependent PI. intros p Hp.
  generalize dependent (gwl g). generalize dependent (gwzR g). intros zr Hz l Hl. destruct X as [x y z]. cbn [vx vy vz] in *. unnum.
  assert (Hq : 0 < z * z + zr * zr) by nra.
  unfold Reqb'. destruct (Req_EM_T z 0) as [->|Nz].
  - field. split; [nra|lra].
  - field. repeat split; nra.
Qed.
Lemma wave_density (g : wave R) z : 0 < gwl g -> 0 < gwzR g ->
  0 < gw_w0 g /\ (gw_w0 g / gw_w g z)%num = / sqrt (1 + (z / gwzR g) * (z / gwzR g)) /\
  gw_w g z * gw_w g z = beam_size2 (gwl g) (gwzR g) z.
Proof.
  intros Hl Hz. unfold gw_w, gw_w0, beam_size2. change (@nPi R NumR) with PI. pose proof PI_RGT_0 as HP. unnum.
  assert (H0 : 0 < gwl g * gwzR g / PI).
  { apply Rdiv_lt_0_compat; [nra|exact HP]. }
  assert (H1 : 0 < 1 + z / gwzR g * (z / gwzR g)) by nra.
  pose proof (sqrt_lt_R0 _ H0) as S0. pose proof (sqrt_lt_R0 _ H1) as S1.
  split; [exact S0|]. split.
  - field. split; apply Rgt_not_eq; assumption.
  - replace (sqrt (gwl g * gwzR g / PI) * sqrt (1 + z / gwzR g * (z / gwzR g)) * (sqrt (gwl g * gwzR g / PI) * sqrt (1 + z / gwzR g * (z / gwzR g))))
      with ((sqrt (gwl g * gwzR g / PI) * sqrt (gwl g * gwzR g / PI)) * (sqrt (1 + z / gwzR g * (z / gwzR g)) * sqrt (1 + z / gwzR g * (z / gwzR g)))) by ring.
    rewrite !sqrt_sqrt by lra. reflexivity.
Qed.
Lemma radius2 (X : vec R) : vnorm (V (vx X) (vy X) (nZ 0)) * vnorm (V (vx X) (vy X) (nZ 0)) = vx X * vx X + vy X * vy X.
Proof.
  rewrite vnorm_sqrt. rewrite sqrt_sqrt.
  - vunfold. unnum. ring.
  - vunfold. unnum. nra.
Qed.
Lemma field_of_wave (g : wave R) t X e :  0 < gwl g -> 0 < gwzR g ->
  gw_field g (vz X) (- (vnorm (V (vx X) (vy X) (nZ 0)) / gw_w g (vz X) * (vnorm (V (vx X) (vy X) (nZ 0)) / gw_w g (vz X))) - e)%num
     (gw_phase g t X (vnorm (V (vx X) (vy X) (nZ 0)))) =
  let f := gauss_field (gwl g) (gwzR g) (gwAr g) (gwAi g) t X * exp (- e) in EB (V f 0 0) (V 0 (f / nc) 0).
Proof.
  intros Hl Hz. rewrite (wave_phase g t X _ Hl Hz (radius2 X)). pose proof (radius2 X) as Hr.
  destruct (wave_density g (vz X) Hl Hz) as (W0 & W1 & W2). revert Hr. generalize (vnorm (V (vx X) (vy X) (nZ 0))). intros r Hr.
  unfold gw_field, gauss_field. cbv zeta. rewrite <- W2, <- Hr. rewrite W1. clear W0.
  assert (Hw : gw_w g (vz X) <> 0).
  { intros E. rewrite E in W2. rewrite Rmult_0_l in W2. symmetry in W2. revert W2. apply Rgt_not_eq. unfold beam_size2.
    pose proof PI_RGT_0. apply Rmult_gt_0_compat; [apply Rdiv_lt_0_compat; nra|nra]. }
  clear W1 W2. revert Hw. generalize (gw_w g (vz X)). intros w Hw.
  assert (Ex : exp (- (r / w * (r / w)) - e) = exp (- (r * r / (w * w))) * exp (- e)).
  { rewrite <- exp_plus. f_equal. field. exact Hw. }
  generalize (beam_phase (gwl g) (gwzR g) t X). intros p. generalize (/ sqrt (1 + vz X / gwzR g * (vz X / gwzR g))). intros q.
  generalize (@nc R NumR). intros c. cbn [nexp nsin ncos TransR]. unnum. rewrite Ex. vsplit; try reflexivity; unfold Rdiv; ring.
Qed.

(* the field of the wave is the one of a Gaussian beam, linearly polarised along x *)
Theorem C51_profile : forall (g : wave R) t X, 0 < gwl g -> 0 < gwzR g ->
  let f := gauss_field (gwl g) (gwzR g) (gwAr g) (gwAi g) t X in
  wave_local g t X = Ok (EB (V f 0 0) (V 0 (f / nc) 0)).
Proof.
  intros g t X Hl Hz f. unfold wave_local. cbv zeta. pose proof (field_of_wave g t X 0 Hl Hz) as H. cbv zeta in H.
  rewrite Ropp_0, exp_0, Rmult_1_r in H. fold f in H. rewrite <- H. do 2 f_equal. unnum. ring.
Qed.
Print Assumptions C51_profile.
(* the field of the packet is that of the wave under an envelope which travels along z with
   the speed of light, with its maximum at z = ct *)
Theorem C51_envelope : forall (g : wave R) tau t X f, 0 < gwl g -> 0 < gwzR g -> wave_local g t X = Ok f ->
  packet_local g tau t X = Ok (emul f (envelope tau t (vz X))).
Proof.
  intros g tau t X f Hl Hz Hf. pose proof (C51_profile g t X Hl Hz) as P. cbv zeta in P. rewrite P in Hf.
  apply (f_equal (fun r => match r with Ok a => a | _ => f end)) in Hf. cbv beta iota in Hf. subst f.
  unfold packet_local. cbv zeta.
  pose proof (field_of_wave g t X ((t - vz X / nc) / tau * ((t - vz X / nc) / tau)) Hl Hz) as H. cbv zeta in H.
  f_equal. etransitivity; [etransitivity; [|exact H]|].
  - f_equal.
  - unfold envelope. generalize (gauss_field (gwl g) (gwzR g) (gwAr g) (gwAi g) t X) (exp (- ((t - vz X / nc) / tau * ((t - vz X / nc) / tau)))).
    generalize (@nc R NumR). intros c a b. unfold emul. vunfold. unnum. vsplit; unfold Rdiv; ring.
Qed.
Print Assumptions C51_envelope.
(* the same envelope is met again after any time s at the distance c s *)
Theorem C51_travels : forall tau t z s : R, envelope tau (t + s) (z + nc * s) = envelope tau t z.
Proof.
  intros tau t z s. unfold envelope. pose proof nc_pos as Hc. revert Hc. generalize (@nc R NumR). intros c Hc.
  replace (t + s - (z + c * s) / c) with (t - z / c) by (field; lra). reflexivity.
Qed.
Print Assumptions C51_travels.
(* field in the focus at the time 0 *)
Example C51_profile_ex : let g := GW 1 3 4 2 in 0 < gwl g /\ 0 < gwzR g /\ gauss_field 1 2 3 4 0 vzero = 3 /\ envelope 1 0 0 = 1.
Proof.
  cbv zeta. cbn [gwl gwzR]. split; [lra|]. split; [lra|]. split.
  - unfold gauss_field, beam_phase, beam_size2. cbn [vx vy vz vzero]. generalize (@nc R NumR). intros c. unnum.
    replace (2 * PI / 1 * (c * 0 - 0) - PI * (0 * 0 + 0 * 0) * 0 / (1 * (0 * 0 + 2 * 2))) with 0 by field.
    rewrite cos_0, sin_0. replace (1 + 0 / 2 * (0 / 2)) with 1 by field. rewrite sqrt_1.
    replace (- ((0 * 0 + 0 * 0) / (1 * 2 / PI * 1))) with 0 by (unfold Rdiv; ring). rewrite exp_0. lra.
  - unfold envelope. pose proof nc_pos as Hc. revert Hc. generalize (@nc R NumR). intros c Hc.
    replace (- ((0 - 0 / c) / 1 * ((0 - 0 / c) / 1))) with 0 by (field; lra). apply exp_0.
Qed.
