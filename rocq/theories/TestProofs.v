(* The test programs in exact arithmetic. *)
From Coq Require Import ZArith Reals Lra Lia List Bool.
From Verif Require Import Base BaseFacts Num VecModel VecFacts ParticleModel ParticleSpec ParticleProofs ParticleProofs2 VaySpec OrbitSpec
  VayTracking OrbitProofs ElementModel TestModel.
Import ListNotations.
Local Open Scope R_scope.

Lemma lit_R m k : (0 <= k)%Z -> lit m k = IZR m / IZR (10 ^ k).
Proof. reflexivity. Qed.
Lemma fails_not a b : a <= b -> fails (gtb a b) = 0%Z.
Proof. intros H. unfold fails, gtb. cbn. unfold Rltb. destruct (Rlt_dec b a); [lra|reflexivity]. Qed.
Lemma fails_and a b (c d : bool) : a <= b -> fails (gtb a b && c && d) = 0%Z.
Proof. intros H. unfold fails, gtb. cbn. unfold Rltb. destruct (Rlt_dec b a); [lra|reflexivity]. Qed.

Definition start (q m : R) (x p : vec R) : particle R := initTrajectory 0 x p vzero (new_particle q m).
Lemma start_wf q m x p : wf (start q m x p).
Proof. unfold wf, start. cbn. lia. Qed.
Lemma start_traj q m x p : trajectory (start q m x p) = [] ++ [TP 0 x p vzero].
Proof. reflexivity. Qed.

Lemma drift_states dt F e b q m x0 m0 : homogeneous F e b -> lorentz (beta_of m0) e b = vzero ->
  exists p1, InitVay dt F (start q m x0 m0) = Ok p1 /\
  forall k, exists r, StepsVay F k p1 = Ok r /\ pt r = INR k * dt /\
    pX r = vadd x0 (vmul (beta_of m0) (INR k * dt * nc)) /\ pP r = m0.
Proof.
  intros HF HL. set (p := start q m x0 m0).
  destruct (homogeneous_run dt F e b p [] 0 x0 m0 vzero 0 (start_wf q m x0 m0) HF (start_traj q m x0 m0)) as (p1 & _ & H1 & _).
  exists p1. split; [exact H1|]. intros k.
  destruct (homogeneous_run dt F e b p [] 0 x0 m0 vzero k (start_wf q m x0 m0) HF (start_traj q m x0 m0)) as (p1' & r & H1' & Hr & _ & _ & _ & _ & _ & HS).
  rewrite H1 in H1'. injection H1' as <-. exists r. split; [exact Hr|]. destruct (HS k (le_n k)) as (r' & Hr' & E). rewrite Hr in Hr'. injection Hr' as <-.
  destruct (orbit_drift dt F e b p [] 0 x0 m0 vzero k (start_wf q m x0 m0) HF (start_traj q m x0 m0) HL) as (r' & Hq & _ & N).
  rewrite H1 in Hq. cbn [bind] in Hq. rewrite Hr in Hq. injection Hq as <-. rewrite (N k (le_n k)) in E. unfold current in E. injection E as A B C D.
  rewrite <- A, <- B, <- C. split; [ring|]. split; reflexivity.
Qed.

Lemma helix_states dt F b q m x0 m0 : homogeneous F vzero b -> b <> vzero ->
  let qm := charge_over_mass q m in qm <> 0 ->
  exists p1, InitVay dt F (start q m x0 m0) = Ok p1 /\
  forall k, exists g r, 1 <= g <= gamma_of m0 /\
    Rsqr (gamma_of m0) = Rsqr g + Rsqr (qm * dt / 2) * vabs2 (vcross m0 b) / (Rsqr g + Rsqr (qm * dt / 2) * vabs2 b) /\
    StepsVay F k p1 = Ok r /\ pt r = INR k * dt /\
    let xp := helix qm (INR k * (2 * atan (qm * dt * vnorm b / (2 * g)))) (INR k * dt * nc * (vdot m0 b / vnorm b) / g) b x0 m0 in
    pX r = fst xp /\ pP r = snd xp.
Proof.
  intros HF Hb qm Hm. set (p := start q m x0 m0).
  destruct (homogeneous_run dt F vzero b p [] 0 x0 m0 vzero 0 (start_wf q m x0 m0) HF (start_traj q m x0 m0)) as (p1 & _ & H1 & _).
  exists p1. split; [exact H1|]. intros k.
  destruct (homogeneous_run dt F vzero b p [] 0 x0 m0 vzero k (start_wf q m x0 m0) HF (start_traj q m x0 m0)) as (p1' & r & H1' & Hr & _ & _ & _ & _ & _ & HS).
  rewrite H1 in H1'. injection H1' as <-. destruct (HS k (le_n k)) as (r' & Hr' & E). rewrite Hr in Hr'. injection Hr' as <-.
  destruct (orbit_helix dt F b p [] 0 x0 m0 vzero k (start_wf q m x0 m0) HF Hb (start_traj q m x0 m0) Hm) as (g & r' & G1 & G2 & Hq & _ & N).
  exists g, r. split; [exact G1|]. split; [exact G2|]. split; [exact Hr|].
  rewrite H1 in Hq. cbn [bind] in Hq. rewrite Hr in Hq. injection Hq as <-. rewrite (N k (le_n k)) in E. unfold current in E. injection E as A B C D.
  split; [rewrite <- A; apply Rplus_0_l|]. cbv zeta. unfold helix. cbv zeta. cbn [fst snd]. split; [symmetry; exact B|symmetry; exact C].
Qed.

(* ---- the crossed fields ---- *)
Lemma beta_gamma gamma : 1 <= gamma -> sqrt (1 - 1 / (gamma * gamma)) = sqrt (gamma * gamma - 1) / gamma.
Proof.
  intros H. replace (1 - 1 / (gamma * gamma)) with ((gamma * gamma - 1) / (gamma * gamma)) by (field; lra).
  rewrite sqrt_div_alt by nra. rewrite sqrt_square by lra. reflexivity.
Qed.
Lemma unit_abs2 (v : vec R) : v <> vzero -> vabs2 (vdiv v (vnorm v)) = 1.
Proof.
  intros H. pose proof (norm_pos v H) as N. pose proof (norm_sq v) as N2.
  replace (vabs2 (vdiv v (vnorm v))) with (vabs2 v / (vnorm v * vnorm v)).
  - rewrite N2. field. rewrite <- N2. nra.
  - revert N. generalize (vnorm v). intros n N. destruct v. vunfold. unnum. field. lra.
Qed.
Lemma abs2_vmul (v : vec R) s : vabs2 (vmul v s) = s * s * vabs2 v.
Proof. destruct v. vunfold. unnum. ring. Qed.
Lemma gamma_unit (u : vec R) gamma : vabs2 u = 1 -> 1 <= gamma -> gamma_of (vmul u (sqrt (gamma * gamma - 1))) = gamma.
Proof.
  intros U G. unfold gamma_of. rewrite abs2_vmul, U, Rmult_1_r, sqrt_sqrt by nra.
  replace (1 + (gamma * gamma - 1)) with (gamma * gamma) by ring. apply sqrt_square. lra.
Qed.
Lemma NOTS_INR n : @nZ R NumR (Z.of_nat n) = INR n.
Proof. cbn. symmetry. apply INR_IZR_INZ. Qed.

Lemma force_zero (u B : vec R) s c : c <> 0 -> vadd (vdiv (vcross B (vmul (vmul u s) c)) c) (vcross (vmul u s) B) = vzero.
Proof. intros NC. destruct u, B. vunfold. unnum. vsplit; field; exact NC. Qed.

Lemma EcrossB_passes (B Rand : vec R) gamma tau n : Rand <> vzero -> 1 <= gamma -> 0 <= tau -> (0 < n)%nat ->
  EcrossB B Rand gamma tau n = Ok 0%Z.
Proof.
  intros HR HG Ht Hn. unfold EcrossB. cbv zeta. rewrite NOTS_INR.
  assert (Nn : 0 < INR n) by (apply lt_0_INR; exact Hn).
  change (@nsqrt R NumR (nsub (nZ 1) (ndiv (nZ 1) (nmul gamma gamma)))) with (sqrt (1 - 1 / (gamma * gamma))).
  change (@nsqrt R NumR (nsub (nmul gamma gamma) (nZ 1))) with (sqrt (gamma * gamma - 1)).
  rewrite beta_gamma by exact HG. set (u := vdiv Rand (vnorm Rand)).
  assert (U : vabs2 u = 1) by (apply unit_abs2; exact HR).
  set (bg := sqrt (gamma * gamma - 1)).
  pose proof (gamma_unit u gamma U HG) as GG. fold bg in GG.
  assert (NC : (nc : R) <> 0) by (pose proof nc_pos; lra).
  assert (BO : beta_of (vmul u bg) = vmul u (bg / gamma)).
  { unfold beta_of. rewrite GG. clear. clearbody u. destruct u. vunfold. unnum. unfold Rdiv. vsplit; ring. }
  set (Vel := vmul (vmul u (bg / gamma)) nc). set (E := vcross B Vel).
  assert (LZ : lorentz (beta_of (vmul u bg)) E B = vzero).
  { rewrite BO. exact (force_zero u B (bg / gamma) nc NC). }
  destruct (drift_states (tau / INR n) (element_field (Homogeneous (EB E B))) E B (-1) 1 vzero (vmul u bg) ltac:(intros t x; reflexivity) LZ) as (p1 & H1 & HS).
  unfold start in H1. change (@nZ R NumR 0) with 0. change (@nZ R NumR (-1)) with (-1). change (@nZ R NumR 1) with 1.
  change (@ndiv R NumR tau (INR n)) with (tau / INR n). rewrite H1. cbn [bind].
  destruct (HS n) as (r & Hr & T & X & P). rewrite Hr. cbn [bind]. f_equal. unfold EcrossB_checks. cbv zeta. rewrite T, X, P, BO.
  assert (E0 : INR n * (tau / INR n) = tau) by (field; lra). rewrite E0.
  rewrite !fails_not, fails_and; [reflexivity| | |].
  - change (Rabs (vx (vadd vzero (vmul (vmul u (bg / gamma)) (tau * nc))) - vx Vel * tau) <= IZR 2 / IZR (10 ^ 6)).
    replace (vx (vadd vzero (vmul (vmul u (bg / gamma)) (tau * nc))) - vx Vel * tau) with 0.
    + rewrite Rabs_R0. cbn. lra.
    + unfold Vel. generalize (bg / gamma). generalize (@nc R NumR). clear. clearbody u. intros c s. destruct u. vunfold. unnum. ring.
  - change (vnorm (vmul u bg) - vnorm (vmul u bg) <= IZR 15 / IZR (10 ^ 4)). unfold Rminus. rewrite Rplus_opp_r. cbn. lra.
  - change (Rabs (tau - tau) <= tau / INR n). unfold Rminus. rewrite Rplus_opp_r, Rabs_R0. apply Rmult_le_pos; [exact Ht|left; apply Rinv_0_lt_compat; exact Nn].
Qed.

(* ---- the magnet ---- *)
Lemma PI_upper : PI <= 315 / 100.
Proof.
  destruct (PI_2_3_7_ineq 1) as [_ H]. unfold PI_2_3_7_tg, tg_alt in H. cbn [Nat.mul Nat.add sum_f_R0 pow] in H.
  unfold Ratan_seq in H. cbn [Nat.mul Nat.add pow INR] in H. lra.
Qed.
Lemma sin_abs_le x : Rabs (sin x) <= Rabs x.
Proof.
  pose proof (one_cos (2 * x)) as [_ H]. rewrite cos_2a_sin in H.
  apply Rsqr_le_abs_0. unfold Rsqr. lra.
Qed.
Lemma cos_lower x : 1 - x * x / 2 <= cos x.
Proof. pose proof (one_cos x). lra. Qed.

(* distance from the start after the angle phi on a circle *)
Lemma chord qm phi b m0 : b <> vzero -> qm <> 0 -> vdot m0 b = 0 ->
  vnorm (fst (helix qm phi 0 b vzero m0)) = 2 * (nc / (Rabs qm * vnorm b) * vnorm m0) * Rabs (sin (phi / 2)).
Proof.
  intros Hb Hm HD. pose proof (norm_pos b Hb) as N. pose proof (norm_sq b) as N2. pose proof nc_pos as NC.
  set (d := vsub (turned phi b m0) (turned 0 b m0)).
  assert (DB : vdot b d = 0).
  { pose proof (turned_dot phi b m0 Hb) as A. pose proof (turned_dot 0 b m0 Hb) as A0. rewrite HD in A, A0.
    unfold d. revert A A0. generalize (turned phi b m0) (turned 0 b m0). intros u v. clear. destruct u, v, b. vunfold. unnum. intros. lra. }
  assert (X : fst (helix qm phi 0 b vzero m0) = vmul (vcross b d) (nc / (qm * vabs2 b))).
  { unfold helix. cbv zeta. cbn [fst]. unfold centre_of, d. rewrite turned_0. generalize (turned phi b m0) (nc / (qm * vabs2 b)).
    intros u s. replace (0 / vnorm b) with 0 by (field; lra). clear. destruct u, m0, b. vunfold. unnum. vsplit; ring. }
  pose proof (turned_distance2 phi 0 b m0 Hb) as D2. fold d in D2. rewrite Rminus_0_r in D2.
  assert (C2 : vabs2 (vcross m0 b) = vabs2 m0 * vabs2 b) by (rewrite lagrange, HD; ring).
  assert (D3 : vabs2 d = vabs2 m0 * (2 - 2 * cos phi)).
  { apply Rmult_eq_reg_r with (vabs2 b); [|apply abs2_nz, Hb]. rewrite D2, C2. ring. }
  assert (S2 : 2 - 2 * cos phi = 4 * (sin (phi / 2) * sin (phi / 2))).
  { replace phi with (2 * (phi / 2)) at 1 by field. rewrite cos_2a_sin. ring. }
  rewrite X, norm_scale. apply Rsqr_inj.
  - apply Rmult_le_pos; [unfold vnorm; unnum; apply sqrt_pos|apply Rabs_pos].
  - apply Rmult_le_pos; [|apply Rabs_pos]. apply Rmult_le_pos; [lra|]. apply Rmult_le_pos; [|unfold vnorm; unnum; apply sqrt_pos].
    apply Rmult_le_pos; [lra|]. left. apply Rinv_0_lt_compat. apply Rmult_lt_0_compat; [apply Rabs_pos_lt, Hm|exact N].
  - rewrite !Rsqr_mult, <- !Rsqr_abs. unfold Rsqr at 1. rewrite norm_sq, lagrange, DB, D3, S2, <- N2.
    transitivity (vabs2 m0 * 4 * (nc * nc / (qm * qm * (vnorm b * vnorm b))) * (sin (phi / 2) * sin (phi / 2))).
    + unfold Rsqr. field. split; [lra|exact Hm].
    + rewrite <- (norm_sq m0). rewrite Rsqr_div', Rsqr_mult, <- Rsqr_abs. unfold Rsqr. field. split; [lra|exact Hm].
Qed.

(* the angle of one step *)
Lemma step_angle theta gamma g : 0 < theta <= / 4 -> 1 <= g <= gamma -> gamma * gamma * (1 - theta * theta / 4) <= g * g ->
  Rabs (2 * atan (theta * gamma / (2 * g)) - theta) <= theta * theta * theta / 7.
Proof.
  intros Ht Hg G. set (r := gamma / g). assert (R1 : 1 <= r).
  { unfold r. apply Rmult_le_reg_r with g; [lra|]. unfold Rdiv. rewrite Rmult_assoc, Rinv_l by lra. lra. }
  assert (R2 : r * r * (1 - theta * theta / 4) <= 1).
  { unfold r. replace (gamma / g * (gamma / g) * (1 - theta * theta / 4)) with (gamma * gamma * (1 - theta * theta / 4) / (g * g)) by (field; lra).
    apply Rmult_le_reg_r with (g * g); [nra|]. unfold Rdiv at 1. rewrite Rmult_assoc, Rinv_l by nra. lra. }
  set (x := theta * theta) in *. assert (X : 0 < x <= / 16) by (unfold x; split; nra).
  assert (R3 : r <= 1 + x / 7).
  { apply Rnot_lt_le. intros L. assert (Q : (1 + x / 7) * (1 + x / 7) < r * r) by nra.
    assert (Q2 : 1 <= (1 + x / 7) * (1 + x / 7) * (1 - x / 4)) by nra. nra. }
  replace (theta * gamma / (2 * g)) with (theta / 2 * r) by (unfold r; field; lra).
  set (s := theta / 2 * r). assert (S : theta / 2 <= s <= theta / 2 * (1 + x / 7)) by (unfold s; split; nra).
  destruct (atan_cubic s) as [L U]; [lra|].
  assert (S3 : s * s * s <= theta * x / 7).
  { assert (s <= theta * (517 / 1000)) by nra. assert (s * s <= x * (27 / 100)) by (unfold x; nra). assert (0 <= s) by lra. nra. }
  apply Rabs_le. unfold x in *. split; nra.
Qed.
(* the relativistic factor of the half steps *)
Lemma half_gamma tau g ga B W : 1 <= g -> 0 <= B -> W = (ga * ga - 1) * B ->
  Rsqr ga = Rsqr g + Rsqr tau * W / (Rsqr g + Rsqr tau * B) -> ga * ga - tau * tau * B <= g * g.
Proof.
  intros Hg HB -> E. unfold Rsqr in E. assert (TB : 0 <= tau * tau * B) by (apply Rmult_le_pos; [apply Rle_0_sqr|exact HB]).
  set (t := tau * tau * B) in *. set (u := g * g) in *. assert (U : 1 <= u) by (unfold u; nra).
  assert (E2 : ga * ga * (u + t) = u * (u + t) + t * (ga * ga - 1)).
  { rewrite E at 1. replace (tau * tau * ((ga * ga - 1) * B)) with (t * (ga * ga - 1)) by (unfold t; ring). field. lra. }
  apply Rnot_lt_le. intros L. nra.
Qed.

Definition kappa : R := IZR 5109989461 / IZR 10000 * IZR 175882002500 / (IZR 299792458 * IZR 299792458).
Lemma kappa_one : 1 < kappa <= 1 + 5 / 10000000000.
Proof. unfold kappa. lra. Qed.
Lemma mec2_kappa : mec2 * nirm = kappa * (nc * nc).
Proof. unfold kappa. change (mec2 : R) with (IZR 5109989461 / IZR 10000). change (@nirm R NumR) with (IZR 175882002500). change (@nc R NumR) with (IZR 299792458). lra. Qed.

Lemma magnet_field (B : vec R) : homogeneous (lat_field (lat_add [] (Homogeneous (EB (V (nZ 0) (nZ 0) (nZ 0)) B)))) vzero B.
Proof.
  intros t x. unfold lat_field, lat_add. cbn [app fold_res element_field bind]. do 2 f_equal. destruct B. unfold eadd, ezero. cbn [fE fB]. f_equal; vunfold; unnum; f_equal; lra.
Qed.

Section Magnet.
Variables (B n : vec R) (gamma : R) (N : nat).
Hypothesis HB : B <> vzero.
Hypothesis HP : vcross n B <> vzero.
Hypothesis HG : 1 < gamma.
Hypothesis HN : (13 <= N)%nat.
Let bg := sqrt (gamma * gamma - 1).
Let Rg := magnet_Rgyro B gamma.
Let tau := magnet_tau B gamma.
Let dt := lit 5 1 * tau / INR N.
Let m0 := magnet_P0 B n gamma.
Let theta := PI * kappa / INR N.

Lemma N_pos : 13 <= INR N.
Proof. apply le_INR in HN. cbn in HN. lra. Qed.
Lemma bg_pos : 0 < bg.
Proof. apply sqrt_lt_R0. nra. Qed.
Lemma m0_unit : m0 = vmul (vdiv (vcross n B) (vnorm (vcross n B))) bg.
Proof.
  unfold m0, magnet_P0. change (@nsqrt R NumR (nsub (nmul gamma gamma) (nZ 1))) with bg.
  generalize (vcross n B). intros v. generalize (vnorm v) bg. intros a c. destruct v. vunfold. unnum. unfold Rdiv. vsplit; ring.
Qed.
Lemma m0_abs : vabs2 m0 = bg * bg.
Proof. rewrite m0_unit, abs2_vmul, unit_abs2 by exact HP. ring. Qed.
Lemma m0_norm : vnorm m0 = bg.
Proof. change (vnorm m0) with (sqrt (vabs2 m0)). rewrite m0_abs. apply sqrt_square. left. exact bg_pos. Qed.
Lemma m0_gamma : gamma_of m0 = gamma.
Proof. rewrite m0_unit. apply gamma_unit; [apply unit_abs2, HP|lra]. Qed.
Lemma m0_dot : vdot m0 B = 0.
Proof.
  rewrite m0_unit. generalize (vnorm (vcross n B)) bg. intros a c. clear. destruct n, B. vunfold. unnum. unfold Rdiv. ring.
Qed.
Lemma Rg_def : Rg = bg * mec2 / nc / vnorm B.
Proof. reflexivity. Qed.
Lemma tau_def : tau = 2 * PI * gamma * mec2 / (nc * nc * vnorm B).
Proof.
  unfold tau, magnet_tau. cbv zeta. change (@nsqrt R NumR (nsub (nZ 1) (ndiv (nZ 1) (nmul gamma gamma)))) with (sqrt (1 - 1 / (gamma * gamma))).
  rewrite beta_gamma by lra. fold bg Rg. rewrite Rg_def. pose proof bg_pos. pose proof nc_pos. pose proof (norm_pos B HB).
  change (2 * PI * (bg * mec2 / nc / vnorm B) / (bg / gamma * nc) = 2 * PI * gamma * mec2 / (nc * nc * vnorm B)). field. repeat split; lra.
Qed.
Lemma theta_def : nirm * dt * vnorm B = theta * gamma.
Proof.
  unfold dt, theta. rewrite tau_def. pose proof N_pos. pose proof nc_pos as NC. pose proof (norm_pos B HB). pose proof mec2_kappa as K.
  change (lit 5 1 : R) with (5 / 10).
  transitivity (PI * gamma * (mec2 * nirm) / (nc * nc) / INR N).
  - change (@nmul R NumR) with Rmult. change (@ndiv R NumR) with Rdiv. field. repeat split; lra.
  - rewrite K. field. split; lra.
Qed.
Lemma theta_small : 0 < theta <= / 4.
Proof.
  pose proof N_pos. pose proof kappa_one. pose proof PI_upper. pose proof PI_RGT_0. unfold theta. split.
  - apply Rmult_lt_0_compat; [nra|apply Rinv_0_lt_compat; lra].
  - apply Rmult_le_reg_r with (INR N); [lra|]. unfold Rdiv. rewrite Rmult_assoc, Rinv_l by lra. nra.
Qed.
Let D := INR N * (theta * theta * theta / 7) + PI * (5 / 10000000000).
Lemma turn_error g : 1 <= g <= gamma ->
  Rsqr gamma = Rsqr g + Rsqr (- nirm * dt / 2) * vabs2 (vcross m0 B) / (Rsqr g + Rsqr (- nirm * dt / 2) * vabs2 B) ->
  Rabs (INR N * (2 * atan (- nirm * dt * vnorm B / (2 * g))) + PI) <= D.
Proof.
  intros Hg E. pose proof N_pos as HN'. pose proof theta_def as TD. pose proof theta_small as TS. pose proof kappa_one as K.
  assert (G : gamma * gamma * (1 - theta * theta / 4) <= g * g).
  { assert (W : vabs2 (vcross m0 B) = (gamma * gamma - 1) * vabs2 B).
    { rewrite lagrange, m0_dot, m0_abs. unfold bg. rewrite sqrt_sqrt by nra. ring. }
    pose proof (half_gamma _ _ _ _ _ (proj1 Hg) (abs2_pos B) W E) as H. eapply Rle_trans; [|exact H]. right.
    transitivity (gamma * gamma - (nirm * dt * vnorm B) * (nirm * dt * vnorm B) / 4); [rewrite TD; field|]. rewrite <- (norm_sq B). field. }
  pose proof (step_angle theta gamma g TS Hg G) as A.
  replace (- nirm * dt * vnorm B / (2 * g)) with (- (theta * gamma / (2 * g))) by (rewrite <- TD; field; lra).
  rewrite atan_opp. set (a := 2 * atan (theta * gamma / (2 * g))) in *.
  replace (INR N * (2 * - atan (theta * gamma / (2 * g))) + PI) with (- (INR N * (a - theta)) + - (INR N * theta - PI)) by (unfold a; ring).
  eapply Rle_trans; [apply Rabs_triang|]. rewrite !Rabs_Ropp. unfold D. apply Rplus_le_compat.
  - rewrite Rabs_mult, Rabs_pos_eq by lra. apply Rmult_le_compat_l; [lra|exact A].
  - replace (INR N * theta - PI) with (PI * (kappa - 1)) by (unfold theta; field; lra). pose proof PI_RGT_0.
    rewrite Rabs_mult, !Rabs_pos_eq by lra. apply Rmult_le_compat_l; lra.
Qed.
Lemma D_pos : 0 <= D.
Proof. pose proof N_pos. pose proof theta_small as TS. pose proof PI_RGT_0. unfold D. assert (0 <= theta * theta * theta) by (apply Rmult_le_pos; nra). nra. Qed.
Lemma D_small : D <= 4 / 100.
Proof.
  pose proof N_pos. pose proof theta_small as TS. pose proof PI_RGT_0. pose proof PI_upper. pose proof kappa_one. unfold D.
  assert (INR N * theta <= 316 / 100) by (unfold theta; replace (INR N * (PI * kappa / INR N)) with (PI * kappa) by (field; lra); nra).
  assert (theta * theta <= / 16) by nra. replace (INR N * (theta * theta * theta / 7)) with ((INR N * theta) * (theta * theta) / 7) by field.
  assert (0 <= INR N * theta) by (apply Rmult_le_pos; lra). nra.
Qed.
Lemma D_bound : 2 * D <= 9 / (INR N * INR N) + 4 / 1000000000.
Proof.
  pose proof N_pos. pose proof PI_RGT_0. pose proof PI_upper. pose proof kappa_one as K. unfold D, theta.
  replace (INR N * (PI * kappa / INR N * (PI * kappa / INR N) * (PI * kappa / INR N) / 7)) with (PI * kappa * (PI * kappa) * (PI * kappa) / 7 / (INR N * INR N)) by (field; lra).
  assert (A : PI * kappa <= 31501 / 10000) by nra. assert (A0 : 0 < PI * kappa) by nra. set (y := PI * kappa) in *.
  assert (A2 : y * y <= 993 / 100) by nra. assert (A3 : y * y * y <= 315 / 10) by nra.
  assert (V : 0 < / (INR N * INR N)) by (apply Rinv_0_lt_compat; nra). unfold Rdiv in *. nra.
Qed.
Definition radius : R := nc / (nirm * vnorm B) * bg.
Lemma radius_Rg : Rg = radius * kappa.
Proof.
  rewrite Rg_def. unfold radius. pose proof nc_pos. pose proof (norm_pos B HB). pose proof mec2_kappa as K.
  assert (I : 0 < (nirm : R)) by (change (@nirm R NumR) with (IZR 175882002500); lra).
  assert (M : mec2 = kappa * (nc * nc) / nirm) by (rewrite <- K; field; lra). rewrite M. field. repeat split; lra.
Qed.

Hypothesis Accurate : Rg * (9 / (INR N * INR N) + 1 / 100000000) <= 1 / 100000.
Lemma magnet_passes : magnet B n gamma N = Ok 0%Z.
Proof.
  unfold magnet. cbv zeta. rewrite NOTS_INR. fold Rg tau m0.
  change (@nsqrt R NumR (nsub (nmul gamma gamma) (nZ 1))) with bg.
  set (F := lat_field (lat_add [] (Homogeneous (EB (V (nZ 0) (nZ 0) (nZ 0)) B)))).
  assert (QM : charge_over_mass (-1) 1 = - nirm) by (unfold charge_over_mass; field).
  assert (I : 0 < (nirm : R)) by (change (@nirm R NumR) with (IZR 175882002500); lra).
  pose proof (helix_states dt F B (-1) 1 vzero m0 (magnet_field B) HB) as HS. cbv zeta in HS. rewrite QM, m0_gamma, m0_dot in HS.
  destruct HS as (p1 & H1 & HS); [lra|].
  change (@initTrajectory R (nZ 0) vzero m0 vzero (new_particle (nZ (-1)) (nZ 1))) with (start (-1) 1 vzero m0).
  change (@ndiv R NumR (nmul (lit 5 1) tau) (INR N)) with dt. rewrite H1. cbn [bind].
  destruct (HS N) as (g & r & G1 & G2 & Hr & T & X & P). rewrite Hr. cbn [bind].
  destruct (HS (N + N)%nat) as (g' & r' & G1' & G2' & Hr' & T' & X' & P').
  assert (Q : StepsVay F N r = Ok r').
  { unfold StepsVay in *. rewrite iter_res_plus, Hr in Hr'. exact Hr'. }
  rewrite Q. cbn [bind]. f_equal. pose proof N_pos as NP. pose proof bg_pos as BP.
  pose proof (norm_pos B HB) as NB. pose proof nc_pos as NC. pose proof D_pos as DP. pose proof D_small as DS. pose proof D_bound as DB. pose proof kappa_one as K. pose proof radius_Rg as RR.
  assert (RP : 0 < radius). { unfold radius. apply Rmult_lt_0_compat; [|exact BP]. apply Rmult_lt_0_compat; [lra|]. apply Rinv_0_lt_compat. apply Rmult_lt_0_compat; lra. }
  assert (AD : forall k h, INR k * dt * nc * (0 / vnorm B) / h = 0) by (intros; unfold Rdiv; ring). rewrite !AD in X, X', P, P'.
  assert (CH : forall phi, vnorm (fst (helix (- nirm) phi 0 B vzero m0)) = 2 * radius * Rabs (sin (phi / 2))).
  { intros phi. rewrite chord; [|exact HB|lra|exact m0_dot]. rewrite m0_norm, Rabs_Ropp, (Rabs_pos_eq nirm) by lra. unfold radius. ring. }
  assert (RD : radius * (2 * D) <= 1 / 100000).
  { assert (radius <= Rg) by nra. assert (0 < Rg) by nra.
    assert (radius * (2 * D) <= Rg * (2 * D)) by nra. assert (Rg * (2 * D) <= Rg * (9 / (INR N * INR N) + 1 / 100000000)) by (apply Rmult_le_compat_l; lra). lra. }
  rewrite !fails_not; [reflexivity| | | |].
  - rewrite P'. change (Rabs (vnorm (snd (helix (- nirm) (INR (N + N) * (2 * atan (- nirm * dt * vnorm B / (2 * g')))) 0 B vzero m0)) - bg) <= 1 / 10000).
    unfold helix. cbv zeta. cbn [snd]. set (v := turned _ B m0).
    assert (E : vnorm v = bg) by (change (vnorm v) with (sqrt (vabs2 v)); unfold v; rewrite turned_abs2, m0_abs by exact HB; apply sqrt_square; lra).
    rewrite E. unfold Rminus. rewrite Rplus_opp_r, Rabs_R0. lra.
  - rewrite X', CH. change (lit 1 5 : R) with (1 / 100000). pose proof (turn_error g' G1' G2') as TE. rewrite plus_INR.
    set (a := 2 * atan (- nirm * dt * vnorm B / (2 * g'))) in *.
    replace ((INR N + INR N) * a / 2) with (INR N * a + PI - PI) by field.
    assert (S1 : Rabs (sin (INR N * a + PI - PI)) <= D).
    { rewrite sin_minus, cos_PI, sin_PI. replace (sin (INR N * a + PI) * -1 - cos (INR N * a + PI) * 0) with (- sin (INR N * a + PI)) by ring.
      rewrite Rabs_Ropp. eapply Rle_trans; [apply sin_abs_le|exact TE]. }
    assert (radius * Rabs (sin (INR N * a + PI - PI)) <= radius * D) by (apply Rmult_le_compat_l; lra). lra.
  - rewrite T', plus_INR. change (IZR (10 ^ 12) * Rabs ((INR N + INR N) * dt - tau) <= 1 / 100).
    replace ((INR N + INR N) * dt - tau) with 0; [rewrite Rabs_R0, Rmult_0_r; lra|].
    unfold dt. change (lit 5 1 : R) with (5 / 10). change (@nmul R NumR) with Rmult. change (@ndiv R NumR) with Rdiv. field. lra.
  - rewrite X, CH. change (Rabs (5 / 10 * (2 * radius * Rabs (sin (INR N * (2 * atan (- nirm * dt * vnorm B / (2 * g))) / 2))) - Rg) <= 1 / 100000).
    pose proof (turn_error g G1 G2) as TE. set (a := 2 * atan (- nirm * dt * vnorm B / (2 * g))) in *. set (e := INR N * a + PI) in *.
    replace (INR N * a / 2) with (e / 2 - PI / 2) by (unfold e; field).
    rewrite sin_minus, cos_PI2, sin_PI2. replace (sin (e / 2) * 0 - cos (e / 2) * 1) with (- cos (e / 2)) by ring. rewrite Rabs_Ropp.
    pose proof (cos_lower (e / 2)) as CL. pose proof (COS_bound (e / 2)) as CB.
    assert (E2 : e * e <= D * D). { pose proof (Rsqr_abs e) as SA. unfold Rsqr in SA. pose proof (Rabs_pos e). rewrite SA. nra. }
    assert (C0 : 0 <= cos (e / 2)) by nra. rewrite (Rabs_pos_eq _ C0). rewrite RR.
    assert (Y1 : radius * (1 - cos (e / 2)) <= radius * (D * D / 8)) by (apply Rmult_le_compat_l; lra).
    assert (Y2 : radius * (D * D / 8) <= / 100 * (1 / 100000)) by nra.
    assert (Y3 : radius * (kappa - 1) <= / 10 * (1 / 100000)).
    { assert (V0 : 0 <= 9 / (INR N * INR N)) by (apply Rmult_le_pos; [lra|left; apply Rinv_0_lt_compat; nra]).
      assert (RG : Rg * (1 / 100000000) <= 1 / 100000) by (assert (0 < Rg) by nra; nra). rewrite RR in RG. nra. }
    assert (Y0 : 0 <= radius * (1 - cos (e / 2))) by (apply Rmult_le_pos; lra). assert (Y4 : 0 <= radius * (kappa - 1)) by (apply Rmult_le_pos; lra).
    apply Rabs_le. split; nra.
Qed.
End Magnet.

(* ---- the values used ---- *)
Lemma magnet_values N : INR N = 500 ->
  magnet (V (lit 33166247903554 15) (lit 5 2) (lit 8 2)) (V (lit 8 2) (lit 5 2) (lit 3 2)) (nZ 10) N = Ok 0%Z.
Proof.
  intros HN.
  assert (NB : vnorm (V (lit 33166247903554 15) (lit 5 2) (lit 8 2) : vec R) >= 9 / 100).
  { change (sqrt (IZR 33166247903554 / IZR (10 ^ 15) * (IZR 33166247903554 / IZR (10 ^ 15)) + IZR 5 / IZR (10 ^ 2) * (IZR 5 / IZR (10 ^ 2)) + IZR 8 / IZR (10 ^ 2) * (IZR 8 / IZR (10 ^ 2))) >= 9 / 100).
    apply Rle_ge. rewrite <- (sqrt_square (9 / 100)) by lra. apply sqrt_le_1_alt. lra. }
  apply magnet_passes; [| |change (1 < IZR 10); lra|apply INR_le; rewrite HN; cbn; lra|].
  - intros E. apply (f_equal vy) in E. change (IZR 5 / IZR (10 ^ 2) = 0) in E. lra.
  - intros E. apply (f_equal vx) in E. change (IZR 5 / IZR (10 ^ 2) * (IZR 8 / IZR (10 ^ 2)) - IZR 3 / IZR (10 ^ 2) * (IZR 5 / IZR (10 ^ 2)) = 0) in E. lra.
  - assert (S : sqrt (10 * 10 - 1) <= 10) by (rewrite <- (sqrt_square 10) at 3 by lra; apply sqrt_le_1_alt; lra).
    pose proof (sqrt_pos (10 * 10 - 1)) as S0.
    unfold magnet_Rgyro. rewrite HN. set (b := vnorm _) in *.
    change (sqrt (10 * 10 - 1) * (IZR 5109989461 / IZR (10 ^ 4)) / IZR 299792458 / b * (9 / (500 * 500) + 1 / 100000000) <= 1 / 100000).
    assert (I : / b <= 100 / 9). { replace (100 / 9) with (/ (9 / 100)) by field. apply Rinv_le_contravar; lra. }
    assert (I0 : 0 < / b) by (apply Rinv_0_lt_compat; lra).
    set (s := sqrt _) in *.
    assert (M : s * / b <= 10 * (100 / 9)) by (apply Rmult_le_compat; lra).
    replace (s * (IZR 5109989461 / IZR (10 ^ 4)) / IZR 299792458 / b * (9 / (500 * 500) + 1 / 100000000))
      with (s * / b * (IZR 5109989461 / IZR (10 ^ 4) / IZR 299792458 * (9 / (500 * 500) + 1 / 100000000))) by (unfold Rdiv; ring).
    lra.
Qed.
Lemma magnet_main_passes : magnet_main = Ok 0%Z.
Proof. unfold magnet_main. refine (magnet_values _ _). rewrite INR_IZR_INZ. reflexivity. Qed.
Lemma EcrossB_values n : (0 < n)%nat ->
  EcrossB (V (lit 12 2) (lit 52 2) (lit 45 2)) (V (nZ 2) (nZ 3) (nZ 5)) (lit 3035823388162631 14) (lit 10 9) n = Ok 0%Z.
Proof.
  intros Hn. refine (EcrossB_passes _ _ _ _ n _ _ _ Hn); [|change (1 <= IZR 3035823388162631 / IZR (10 ^ 14)); lra|change (0 <= IZR 10 / IZR (10 ^ 9)); lra].
  intros E. apply (f_equal vx) in E. change (2 = 0) in E. lra.
Qed.
Lemma EcrossB_main_passes : EcrossB_main = Ok 0%Z.
Proof. unfold EcrossB_main. refine (EcrossB_values _ _). lia. Qed.

(* ---- what the checks of the programs accept ---- *)
Lemma position_accepted (tau deltaT : R) (X P d : vec R) : 0 <= deltaT -> vx d = 0 \/ vy d = 0 \/ vz d = 0 ->
  EcrossB_checks tau deltaT tau X (vadd X d) P P = 0%Z.
Proof.
  intros HT HD. unfold EcrossB_checks. cbv zeta. rewrite fails_not.
  2:{ change (Rabs (tau - tau) <= deltaT). replace (tau - tau) with 0 by ring. rewrite Rabs_R0. exact HT. }
  rewrite (fails_not (nsub (vnorm P) (vnorm P))). 2:{ change (vnorm P - vnorm P <= 15 / 10000). lra. }
  assert (Z : forall a e, e = 0 -> Rabs (a + e - a) <= 2 / 1000000) by (intros a e ->; replace (a + 0 - a) with 0 by ring; rewrite Rabs_R0; lra).
  assert (A : forall a b, a <= b -> @gtb R NumR a b = false) by (intros a b L; unfold gtb; cbn; unfold Rltb; destruct (Rlt_dec b a); [lra|reflexivity]).
  destruct HD as [H|[H|H]].
  - rewrite (A (nabs (nsub (vx (vadd X d)) (vx X))) (lit 2 6)); [reflexivity|]. apply Z, H.
  - rewrite (A (nabs (nsub (vy (vadd X d)) (vy X))) (lit 2 6)); [rewrite andb_false_r; reflexivity|]. apply Z, H.
  - rewrite (A (nabs (nsub (vz (vadd X d)) (vz X))) (lit 2 6)); [rewrite andb_false_r; reflexivity|]. apply Z, H.
Qed.
Lemma momentum_accepted (tau deltaT : R) (X P P' : vec R) : 0 <= deltaT -> vnorm P <= vnorm P' ->
  EcrossB_checks tau deltaT tau X X P P' = 0%Z.
Proof.
  intros HT HP. unfold EcrossB_checks. cbv zeta. rewrite fails_not, fails_and, fails_not; [reflexivity| | |].
  - change (vnorm P - vnorm P' <= 15 / 10000). lra.
  - change (Rabs (vx X - vx X) <= 2 / 1000000). replace (vx X - vx X) with 0 by ring. rewrite Rabs_R0. lra.
  - change (Rabs (tau - tau) <= deltaT). replace (tau - tau) with 0 by ring. rewrite Rabs_R0. exact HT.
Qed.
Lemma add_zeros (l : list Z) z : Forall (eq 0%Z) l -> fold_left Z.add l z = z.
Proof. revert z. induction l as [|x l IH]; intros z H; [reflexivity|]. inversion H; subst. cbn. rewrite Z.add_0_r. apply IH. assumption. Qed.
Lemma lists_accepted (a b : list R) : Forall2 (fun x y => x / y <= 1) a b -> lists_check a b = 0%Z.
Proof.
  intros H. unfold lists_check. apply add_zeros. induction H as [|x y a b Hxy H IH]; [constructor|]. cbn [combine map]. constructor; [|exact IH].
  symmetry. apply fails_not. change ((x - y) / y <= 1 / 100000). destruct (Req_dec y 0) as [->|Y].
  - unfold Rdiv. rewrite Rinv_0. lra.
  - replace ((x - y) / y) with (x / y - 1) by (field; exact Y). lra.
Qed.
Lemma times_accepted (beta t1 t2 : R) : 1 / 10 <= beta -> Rabs t1 <= 10 / (beta * nc) -> Rabs t2 <= 10 / (beta * nc) ->
  screen_times beta t1 t2 = 0%Z.
Proof.
  intros HB H1 H2. unfold screen_times. cbv zeta.
  assert (P : 10 / (beta * nc) <= 5 / 10000000).
  { change (10 * / (beta * IZR 299792458) <= 5 / 10000000). replace (5 / 10000000) with (10 * / 20000000) by field.
    apply Rmult_le_compat_l; [lra|]. apply Rinv_le_contravar; lra. }
  rewrite !fails_not; [reflexivity| |].
  - change (Rabs (t2 - 10 / (beta * nc)) <= 1 / 1000000). unfold Rabs in *. repeat destruct Rcase_abs; lra.
  - change (Rabs (t1 + 10 / (beta * nc)) <= 1 / 1000000). unfold Rabs in *. repeat destruct Rcase_abs; lra.
Qed.
Lemma beta_z gamma : 1 <= gamma -> beta_of (V 0 0 (sqrt (gamma * gamma - 1))) = V 0 0 (sqrt (1 - 1 / (gamma * gamma))).
Proof.
  intros H. pose proof (gamma_unit (V 0 0 1) gamma ltac:(cbn; ring) H) as G.
  assert (E : vmul (V 0 0 1) (sqrt (gamma * gamma - 1)) = V 0 0 (sqrt (gamma * gamma - 1))) by (vunfold; unnum; vsplit; ring).
  rewrite E in G. unfold beta_of. rewrite G, beta_gamma by exact H. vunfold. unnum. unfold Rdiv. vsplit; ring.
Qed.
Lemma free_homogeneous : homogeneous (lat_field (T:=R) []) vzero vzero.
Proof. intros t x. reflexivity. Qed.
Lemma screen_passes charge gamma N : 1 < gamma -> (0 < N)%nat ->
  20 / (sqrt (1 - 1 / (gamma * gamma)) * nc) / INR N <= 1 / 1000000 -> DiffractionScreen_tracking charge gamma N = Ok 0%Z.
Proof.
  intros HG HN HD. unfold DiffractionScreen_tracking. cbv zeta. rewrite NOTS_INR.
  change (@nsqrt R NumR (nsub (nZ 1) (ndiv (nZ 1) (nmul gamma gamma)))) with (sqrt (1 - 1 / (gamma * gamma))).
  change (@nsqrt R NumR (nsub (nmul gamma gamma) (nZ 1))) with (sqrt (gamma * gamma - 1)).
  set (beta := sqrt (1 - 1 / (gamma * gamma))) in *.
  assert (BP : 0 < beta). { apply sqrt_lt_R0. assert (1 / (gamma * gamma) < 1) by (apply Rmult_lt_reg_r with (gamma * gamma); [nra|]; unfold Rdiv; rewrite Rmult_assoc, Rinv_l by nra; nra). lra. }
  assert (NP : 0 < INR N) by (apply lt_0_INR; exact HN). pose proof nc_pos as CP.
  set (F := lat_field []). set (t0 := ndiv (nopp (nZ 10)) (nmul beta nc)). set (dt := ndiv (ndiv (nZ 20) (nmul beta nc)) (INR N)).
  set (x0 := V (nZ 0) (nZ 0) (nZ (-10))). set (m0 := V (nZ 0) (nZ 0) (sqrt (gamma * gamma - 1))).
  set (p := initTrajectory t0 x0 m0 vzero _).
  assert (Hw : wf p) by (unfold wf, p; cbn; lia). assert (HT : trajectory p = [] ++ [TP t0 x0 m0 vzero]) by reflexivity.
  assert (BO : beta_of m0 = V 0 0 beta) by (apply beta_z; lra).
  assert (HL : lorentz (beta_of m0) vzero vzero = vzero).
  { unfold lorentz. generalize (beta_of m0). intros b. generalize (@nc R NumR) nc_pos. intros c Hc. destruct b. vunfold. unnum. vsplit; field; lra. }
  destruct (homogeneous_run dt F vzero vzero p [] t0 x0 m0 vzero N Hw free_homogeneous HT) as (p1 & q & H1 & Hq & _ & _ & _ & L & _ & HS).
  destruct (orbit_drift dt F vzero vzero p [] t0 x0 m0 vzero N Hw free_homogeneous HT HL) as (q' & Hq' & _ & NT).
  rewrite H1 in Hq'. cbn [bind] in Hq'. rewrite Hq in Hq'. injection Hq' as <-. rewrite H1. cbn [bind]. rewrite Hq. cbn [bind].
  destruct (HS N (le_n N)) as (r & Hr & E). rewrite Hq in Hr. injection Hr as <-. rewrite (NT N (le_n N)) in E. unfold current in E. injection E as _ EX _ _.
  assert (Hw1 : wf p1) by (apply (wf_apply p p1 (OpSetup dt F)); assumption). destruct (StepsVay_trajectory F N p1 q Hw1 Hq) as (Hwq & _).
  pose proof (trajectory_length q Hwq) as HL2. cbn [length Nat.add] in L. rewrite L in HL2.
  assert (TT : forall k, (k <= N)%nat -> TrajTime q (Z.of_nat k) = Ok (t0 + INR k * dt)).
  { intros k Hk. destruct (access_inside q (Z.of_nat k) Hwq ltac:(lia)) as (a & Ha & -> & _). rewrite Nat2Z.id in Ha. specialize (NT k Hk). cbn [length Nat.add] in NT. rewrite NT in Ha. injection Ha as <-. reflexivity. }
  change 0%Z with (Z.of_nat 0). rewrite TT by lia. cbn [bind]. replace (Z.of_nat N - 1)%Z with (Z.of_nat (N - 1)) by lia. rewrite TT by lia. cbn [bind]. f_equal.
  assert (Dt : INR N * dt = 20 / (beta * nc)) by (change dt with (20 / (beta * nc) / INR N); field; repeat split; lra).
  assert (T0 : t0 = - (10 / (beta * nc))) by (change t0 with (- 10 / (beta * nc)); field; repeat split; lra).
  assert (D0 : 0 <= dt). { change dt with (20 / (beta * nc) / INR N). apply Rmult_le_pos; [|left; apply Rinv_0_lt_compat; exact NP]. apply Rmult_le_pos; [lra|]. left. apply Rinv_0_lt_compat. apply Rmult_lt_0_compat; lra. }
  change (20 / (beta * nc) / INR N) with dt in HD.
  rewrite fails_not.
  2:{ rewrite <- EX, BO. change (Rabs (-10 + beta * (INR N * dt * nc) - 10) <= 1 / 1000000). rewrite Dt.
      replace (-10 + beta * (20 / (beta * nc) * nc) - 10) with 0 by (field; split; lra). rewrite Rabs_R0. lra. }
  unfold screen_times. cbv zeta. rewrite !fails_not; [reflexivity| |].
  - change (Rabs (t0 + INR (N - 1) * dt - 10 / (beta * nc)) <= 1 / 1000000). rewrite minus_INR by lia. change (INR 1) with 1.
    replace (t0 + (INR N - 1) * dt - 10 / (beta * nc)) with (- dt). 2:{ rewrite Rmult_minus_distr_r, Dt, T0. field. split; lra. }
    rewrite Rabs_Ropp, Rabs_pos_eq by exact D0. exact HD.
  - change (Rabs (t0 + INR 0 * dt + 10 / (beta * nc)) <= 1 / 1000000). change (INR 0) with 0. replace (t0 + 0 * dt + 10 / (beta * nc)) with 0 by (rewrite T0; ring).
    rewrite Rabs_R0. lra.
Qed.
Lemma screen_main_passes : DiffractionScreen_main = Ok 0%Z.
Proof.
  unfold DiffractionScreen_main. refine (screen_passes _ _ _ _ _ _); [change (1 < 20); lra|lia|].
  assert (NN : INR (20 * 1000) = 20000) by (rewrite mult_INR, !INR_IZR_INZ; change (20 * 1000 = 20000); lra). rewrite NN.
  assert (B : 1 / 2 <= sqrt (1 - 1 / (20 * 20))) by (rewrite <- (sqrt_square (1 / 2)) by lra; apply sqrt_le_1_alt; lra).
  change (20 * / (sqrt (1 - 1 / (20 * 20)) * 299792458) * / 20000 <= 1 / 1000000).
  assert (I : / (sqrt (1 - 1 / (20 * 20)) * 299792458) <= / 1000000) by (apply Rinv_le_contravar; lra). lra.
Qed.
