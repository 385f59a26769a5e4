(* The program teufel.electrostatic.cpp in exact arithmetic. *)
From Coq Require Import ZArith Reals Lra Lia List Bool.
From Verif Require Import Base BaseFacts Num VecModel VecFacts ParticleModel ParticleSpec ParticleSpec2 ParticleProofs ParticleProofs2 ParticleProofs3 VaySpec VayProofs OrbitSpec VayTracking OrbitProofs
  TraceModel TraceProofs2 RetardModel RetardSpec RetardProofs ElementModel BunchModel TestModel TestProofs TestProofs3 TestProofs5 PropRetard.
Import ListNotations.
Local Open Scope R_scope.

Lemma vacuum_constant : Rabs (1 - / (@nmu0 R NumR * neps0 * (nc * nc))) < 1 / 100000.
Proof.
  assert (PB : 3141588 / 1000000 <= PI <= 3141597 / 1000000).
  { destruct (PI_2_3_7_ineq 3) as [L H]. unfold PI_2_3_7_tg, tg_alt in L, H. cbn [Nat.mul Nat.add sum_f_R0 pow] in L, H.
    unfold Ratan_seq in L, H. cbn [Nat.mul Nat.add pow] in L, H. rewrite !INR_IZR_INZ in L, H. cbn in L, H. lra. }
  set (k := @nmu0 R NumR * neps0 * (nc * nc)).
  assert (KE : k = PI * (4 * 8854187817 * (299792458 * 299792458)) / 10000000000000000000000000000).
  { unfold k. cbn [nmu0 neps0 nc NumR]. change (10 ^ 7)%Z with 10000000%Z. change (10 ^ 21)%Z with 1000000000000000000000%Z. field. }
  assert (KB : 999998 / 1000000 <= k <= 1000002 / 1000000) by (rewrite KE; lra). clearbody k. clear KE PB.
  assert (E : (1 - / k) = (k - 1) / k) by (field; lra). rewrite E. unfold Rdiv at 1. rewrite Rabs_mult, (Rabs_pos_eq (/ k)) by (left; apply Rinv_0_lt_compat; lra).
  apply Rmult_lt_reg_r with k; [lra|]. rewrite Rmult_assoc, Rinv_l by lra. rewrite Rmult_1_r.
  apply Rle_lt_trans with (2 / 1000000); [|lra]. apply Rabs_le. lra.
Qed.
Lemma dot_abs2 (a : vec R) : vdot a a = vabs2 a.
Proof. destruct a. vunfold. unnum. ring. Qed.
(* ---- vectors ---- *)
Lemma cross_unit (u p : vec R) : vabs2 u = 1 -> vabs2 p = 1 -> vdot u p = 0 -> vabs2 (vcross u p) = 1.
Proof.
  intros A B C. assert (E : vabs2 (vcross u p) = vabs2 u * vabs2 p - vdot u p * vdot u p) by (destruct u, p; vunfold; unnum; ring).
  rewrite E, A, B, C. ring.
Qed.
Lemma norm_scaled (v : vec R) s : vabs2 v = 1 -> vnorm (vmul v s) = Rabs s.
Proof. intros H. rewrite vnorm_mul, vnorm_sqrt, H, sqrt_1. ring. Qed.
Lemma same_diff (a : vec R) : vsub a a = vzero.
Proof. destruct a. vunfold. unnum. vsplit; ring. Qed.
Lemma norm_0 : vnorm (@vzero R NumR) = 0.
Proof. apply vnorm_zero_iff. reflexivity. Qed.

(* ---- the charge at rest ---- *)
Lemma beta_0 : beta_of (@vzero R NumR) = vzero.
Proof.
  assert (G : gamma_of vzero = 1). { unfold gamma_of. replace (1 + vabs2 vzero) with 1 by (vunfold; unnum; ring). apply sqrt_1. }
  unfold beta_of. rewrite G. vunfold. unnum. vsplit; field.
Qed.
Lemma rest_field q w obs : obs <> vzero ->
  exists B, RetardedField_time (initTrajectory 0 vzero vzero vzero (new_particle q w)) 0 obs = Ok (EB (vmul obs (coulomb_const q / vnorm obs ^ 3)) B).
Proof.
  intros NZ. set (p := initTrajectory _ _ _ _ _). set (a := TP 0 vzero vzero (@vzero R NumR)).
  assert (PP : present_position a 0 = vzero). { unfold present_position, a. cbn [tpx tpp tpt]. rewrite beta_0. vunfold. unnum. vsplit; ring. }
  destruct (C11_uniform_motion_partial p 0 obs a) as [H _].
  - unfold wf, p. cbn. lia.
  - reflexivity.
  - reflexivity.
  - intros b [<-|[]]. unfold arrival. cbn [tpt tpx]. pose proof (vnorm_nonneg (vsub obs vzero)). assert (0 < @nc R NumR) by (cbn; lra).
    rewrite Rplus_0_l. apply Rmult_le_pos; [assumption|]. left. apply Rinv_0_lt_compat. assumption.
  - rewrite PP. exact NZ.
  - rewrite H. unfold uniform_motion_field. rewrite PP. cbn [tpp a]. rewrite beta_0. eexists. f_equal. f_equal. unfold heaviside.
    change (pCharge p) with q. clear. assert (E1 : vsub obs vzero = obs) by (destruct obs; vunfold; unnum; vsplit; ring). rewrite E1.
    assert (E2 : vabs2 obs - vabs2 (vcross vzero obs) = vabs2 obs) by (destruct obs; vunfold; unnum; ring). rewrite E2.
    assert (E3 : 1 - vabs2 (@vzero R NumR) = 1) by (vunfold; unnum; ring). rewrite E3, Rmult_1_r, vnorm_sqrt. reflexivity.
Qed.

(* ---- the charge in motion, at the time of the start ---- *)
Lemma moving_field (p : particle R) obs m a0 : wf p -> nth_error (trajectory p) 0 = Some (TP 0 vzero m a0) ->
  (forall b, In b (trajectory p) -> 0 <= tpt b) -> obs <> vzero ->
  RetardedField_time p 0 obs = Ok (EB (heaviside (pCharge p) vzero (beta_of m) obs) (vmul (vcross (beta_of m) (heaviside (pCharge p) vzero (beta_of m) obs)) (/ nc))).
Proof.
  intros Hw H0 HP NZ. set (a := TP 0 vzero m a0) in *.
  assert (PP : present_position a 0 = vzero). { unfold present_position, a. cbn [tpx tpp tpt]. generalize (beta_of m). intros b. destruct b. vunfold. unnum. vsplit; ring. }
  destruct (C11_uniform_motion_partial p 0 obs a Hw H0 eq_refl) as [H _].
  - intros b Hb. unfold arrival. pose proof (vnorm_nonneg (vsub obs (tpx b))). assert (0 < @nc R NumR) by (cbn; lra). specialize (HP b Hb).
    assert (0 <= vnorm (vsub obs (tpx b)) / nc) by (apply Rmult_le_pos; [assumption|left; apply Rinv_0_lt_compat; assumption]). lra.
  - rewrite PP. exact NZ.
  - rewrite H. unfold uniform_motion_field. rewrite PP. reflexivity.
Qed.
(* beside the charge *)
Lemma beside (u p : vec R) beta gamma q d : vabs2 u = 1 -> vabs2 p = 1 -> vdot u p = 0 -> 1 < gamma -> beta * beta = 1 - 1 / (gamma * gamma) -> 0 < d ->
  heaviside q vzero (vmul u beta) (vmul p d) = vmul p (coulomb_const q * gamma / (d * d)).
Proof.
  intros U P O G B D. unfold heaviside.
  assert (E1 : vsub (vmul p d) vzero = vmul p d) by (destruct p; vunfold; unnum; vsplit; ring). rewrite E1.
  assert (E2 : vabs2 (vmul u beta) = beta * beta) by (replace (beta * beta) with (vabs2 u * (beta * beta)) by (rewrite U; ring); destruct u; vunfold; unnum; ring).
  assert (E3 : vabs2 (vmul p d) = d * d) by (replace (d * d) with (vabs2 p * (d * d)) by (rewrite P; ring); destruct p; vunfold; unnum; ring).
  assert (E4 : vabs2 (vcross (vmul u beta) (vmul p d)) = beta * beta * (d * d)).
  { pose proof (cross_unit u p U P O) as C. replace (beta * beta * (d * d)) with (vabs2 (vcross u p) * (beta * beta * (d * d))) by (rewrite C; ring).
    destruct u, p; vunfold; unnum; ring. }
  rewrite E2, E3, E4, B.
  replace (d * d - (1 - 1 / (gamma * gamma)) * (d * d)) with ((d / gamma) * (d / gamma)) by (field; lra).
  rewrite sqrt_square by (apply Rmult_le_pos; [lra|left; apply Rinv_0_lt_compat; lra]).
  assert (E5 : d * (coulomb_const q * (1 - (1 - 1 / (gamma * gamma))) / (d / gamma) ^ 3) = coulomb_const q * gamma / (d * d)).
  { generalize (coulomb_const q). intros k. field. lra. }
  rewrite <- E5. generalize (coulomb_const q * (1 - (1 - 1 / (gamma * gamma))) / (d / gamma) ^ 3). intros k. destruct p. vunfold. unnum. vsplit; ring.
Qed.
Lemma find_step dt t : forall N, (0 < N)%nat -> 0 < dt -> 0 <= t <= INR N * dt -> exists k, (k < N)%nat /\ INR k * dt <= t <= INR (S k) * dt.
Proof.
  induction N as [|N IH]; intros HN HD [T0 T1]; [lia|]. destruct (Rle_dec (INR N * dt) t) as [H|H].
  - exists N. split; [lia|lra].
  - destruct N as [|N].
    + exists 0%nat. cbn [INR] in *. split; [lia|]. rewrite Rmult_0_l. lra.
    + destruct (IH ltac:(lia) HD ltac:(lra)) as (k & K1 & K2). exists k. split; [lia|exact K2].
Qed.
Lemma steps_charge (F : field_fn R) : forall n p q, StepsVay F n p = Ok q -> pCharge q = pCharge p.
Proof.
  induction n as [|n IH]; intros p q H.
  - cbn in H. apply Ok_inj in H. subst q. reflexivity.
  - unfold StepsVay in H. rewrite iter_res_S_r in H. bget H as r Hr. rewrite (proj1 (step_kept F r q H)). apply IH. exact Hr.
Qed.
Lemma unit_motion (u : vec R) gamma : vabs2 u = 1 -> 1 <= gamma -> beta_of (vmul u (sqrt (gamma * gamma - 1))) = vmul u (sqrt (1 - 1 / (gamma * gamma))).
Proof.
  intros U G. pose proof (gamma_unit u gamma U G) as GG. unfold beta_of. rewrite GG, beta_gamma by exact G. generalize (sqrt (gamma * gamma - 1)). intros s.
  destruct u. vunfold. unnum. unfold Rdiv. vsplit; ring.
Qed.
(* the tracked charge: uniform motion from the origin *)
Lemma static_track (u : vec R) gamma tau N q w : vabs2 u = 1 -> 1 < gamma -> 0 < tau -> (0 < N)%nat ->
  let F := element_field (T:=R) (Homogeneous ezero) in let v := sqrt (1 - 1 / (gamma * gamma)) * nc in
  exists e p, InitVay (tau / INR N) F (initTrajectory 0 vzero (vmul u (sqrt (gamma * gamma - 1))) vzero (initTrajectory 0 vzero vzero vzero (new_particle q w))) = Ok e /\
    StepsVay F N e = Ok p /\ wf p /\ pCharge p = q /\ length (trajectory p) = S N /\
    forall k, (k <= N)%nat -> nth_error (trajectory p) k =
      Some (TP (INR k * (tau / INR N)) (vmul u (v * (INR k * (tau / INR N)))) (vmul u (sqrt (gamma * gamma - 1))) vzero).
Proof.
  intros U G T0 HN F v. assert (NP : 0 < INR N) by (apply lt_0_INR; exact HN).
  set (m := vmul u (sqrt (gamma * gamma - 1))). set (p0 := initTrajectory 0 vzero m vzero _). set (dt := tau / INR N).
  assert (Hw : wf p0) by (unfold wf, p0; cbn; lia). assert (HT : trajectory p0 = [] ++ [TP 0 vzero m vzero]) by reflexivity.
  assert (HF : homogeneous F vzero vzero) by (intros t x; reflexivity).
  assert (BO : beta_of m = vmul u (sqrt (1 - 1 / (gamma * gamma)))) by (apply unit_motion; [exact U|lra]).
  assert (HL : lorentz (beta_of m) vzero vzero = vzero).
  { unfold lorentz. generalize (beta_of m). intros b. generalize (@nc R NumR) nc_pos. intros c Hc. destruct b. vunfold. unnum. vsplit; field; lra. }
  destruct (orbit_drift dt F vzero vzero p0 [] 0 vzero m vzero N Hw HF HT HL) as (p & Hp & L & NT).
  destruct (InitVay dt F p0) as [e| | |] eqn:He; try discriminate Hp. cbn [bind] in Hp. exists e, p. split; [reflexivity|]. split; [exact Hp|].
  assert (Hwe : wf e) by (apply (wf_apply p0 e (OpSetup dt F)); assumption). destruct (StepsVay_trajectory F N e p Hwe Hp) as (Hwp & _). split; [exact Hwp|].
  split. { rewrite (steps_charge F N e p Hp), (proj1 (setup_kept dt F p0 e He)). reflexivity. }
  split; [exact L|]. intros k Hk. pose proof (NT k Hk) as E. cbn [length Nat.add] in E. rewrite E. f_equal. rewrite BO. unfold v.
  rewrite Rplus_0_l. f_equal. clear. generalize (sqrt (1 - 1 / (gamma * gamma))). generalize (INR k * dt). generalize (@nc R NumR). intros c t s. destruct u. vunfold. unnum. vsplit; ring.
Qed.
(* its position at any time of the run *)
Lemma static_position (u : vec R) v dt m N p t : wf p -> (0 < N)%nat -> 0 < dt -> 0 <= t <= INR N * dt -> length (trajectory p) = S N ->
  (forall k, (k <= N)%nat -> nth_error (trajectory p) k = Some (TP (INR k * dt) (vmul u (v * (INR k * dt))) m vzero)) ->
  exists P, CoordinatesAtTime p t = Ok (vmul u (v * t), P).
Proof.
  intros Hw HN HD HT L NT.
  assert (INC : increasing (pTimes p)).
  { intros i j a b Hij Ha Hb. destruct (map_trajectory p Hw) as (E & _). rewrite <- E in Ha, Hb. rewrite nth_error_map in Ha, Hb.
    assert (i <= N)%nat. { destruct (nth_error (trajectory p) i) eqn:X; [|discriminate Ha]. assert (i < length (trajectory p))%nat by (apply nth_error_Some; congruence). lia. }
    assert (j <= N)%nat. { destruct (nth_error (trajectory p) j) eqn:X; [|discriminate Hb]. assert (j < length (trajectory p))%nat by (apply nth_error_Some; congruence). lia. }
    rewrite NT in Ha, Hb by assumption. cbn in Ha, Hb. injection Ha as <-. injection Hb as <-. apply Rmult_lt_compat_r; [exact HD|]. apply lt_INR. exact Hij. }
  destruct (CoordinatesAtTime_spec p t Hw INC) as (_ & _ & _ & C). destruct (find_step dt t N HN HD HT) as (k & K1 & K2).
  pose proof (NT k ltac:(lia)) as A. pose proof (NT (S k) ltac:(lia)) as B. eexists. rewrite (C k _ _ A B K2). cbn [tpt tpx tpp]. f_equal. f_equal.
  unfold lin_interp. rewrite S_INR. generalize (INR k). intros x. assert (D : (x + 1) * dt - x * dt = dt) by ring. rewrite D. clear - HD.
  destruct u. vunfold. unnum. vsplit; field; lra.
Qed.

Lemma cross_0 (v : vec R) : vcross vzero v = vzero.
Proof. destruct v. vunfold. unnum. vsplit; ring. Qed.
Lemma zero_mul (n : R) : vmul vzero n = vzero.
Proof. vunfold. unnum. vsplit; ring. Qed.
Lemma unit_back (D : vec R) : D <> vzero -> D = vmul (vnormalize D) (vnorm D).
Proof.
  intros ND. rewrite vnormalize_div. pose proof (vnorm_pos D ND) as P. generalize dependent (vnorm D). intros n Hn. destruct D. vunfold. unnum. vsplit; field; lra.
Qed.
Lemma cross_scaled (u w : vec R) n : vcross (vmul u n) w = vmul (vcross u w) n.
Proof. destruct u, w. vunfold. unnum. vsplit; ring. Qed.
Lemma cross_perp (u w : vec R) n : vdot u (vdiv (vcross u w) n) = 0.
Proof. destruct u, w. vunfold. unnum. unfold Rdiv. ring. Qed.
Lemma q_alg (a b pi : R) : a <> 0 -> b <> 0 -> 0 < pi ->
  - (1 / 1000000000000) / b * b / (4 * pi * a) = - (1 / 1000000000000 / (4 * pi * a * (1 / 1000) * (1 / 1000)) / 1000000).
Proof. intros. field. repeat split; lra. Qed.
Lemma B_alg1 (u w : vec R) b cc m pi g : 0 < pi ->
  vmul (vdiv (vdiv (vmul (vmul (vcross (vmul (vmul u b) cc) w) (- (1 / 1000000000000))) m) (4 * pi)) (1 / 1000 * (1 / 1000))) g =
  vmul (vcross u w) (b * cc * - (1 / 1000000000000) * m / (4 * pi) / (1 / 1000 * (1 / 1000)) * g).
Proof. intros P. destruct u, w. vunfold. unnum. vsplit; field; lra. Qed.
Lemma B_alg2 (u w : vec R) b pi m ep g : 0 < pi -> 0 < m -> 0 < ep ->
  vmul (vcross (vmul u b) (vmul w (- (1 / 1000000000000 / (4 * pi * ep * (1 / 1000) * (1 / 1000)) / 1000000) * g / (1 / 1000 * (1 / 1000))))) (/ 299792458) =
  vmul (vcross u w) (b * 299792458 * - (1 / 1000000000000) * m / (4 * pi) / (1 / 1000 * (1 / 1000)) * g * / (m * ep * (299792458 * 299792458))).
Proof. intros P1 P2 P3. destruct u, w. vunfold. unnum. vsplit; field; repeat split; lra. Qed.
Lemma eps0_pos : 0 < @neps0 R NumR.
Proof. cbn [neps0 NumR]. change (10 ^ 21)%Z with 1000000000000000000000%Z. lra. Qed.
Lemma qe_pos : 0 < @nqe R NumR.
Proof. cbn [nqe NumR]. change (10 ^ 29)%Z with 100000000000000000000000000000%Z. lra. Qed.
Lemma mu0_pos : 0 < @nmu0 R NumR.
Proof. cbn [nmu0 NumR]. change (10 ^ 7)%Z with 10000000%Z. pose proof PI_RGT_0. lra. Qed.
Lemma E0_alg (a pi : R) : 0 < a -> 0 < pi -> 0 < 1 / 1000000000000 / (4 * pi * a * (1 / 1000) * (1 / 1000)).
Proof. intros. apply Rmult_lt_0_compat; [lra|]. apply Rinv_0_lt_compat. repeat apply Rmult_lt_0_compat; lra. Qed.
Section Exact.
Context {TT : Trans R} (Dir : vec R) (gamma tau ObsTime : R) (N : nat).
Let c := 299792458.
Let u := vnormalize Dir.
Let perp := vnormalize (vcross u (V 1 0 0)).
Let beta := R_sqrt.sqrt (1 - 1 / (gamma * gamma)).
Let E0 := 1 / 1000000000000 / (4 * PI * neps0 * (1 / 1000) * (1 / 1000)).
Let Ev := vmul (vmul (vmul perp E0) (-1)) gamma.
Let Bv := vmul (vdiv (vdiv (vmul (vmul (vcross (vmul (vmul u beta) c) perp) (- (1 / 1000000000000))) nmu0) (4 * PI)) (1 / 1000 * (1 / 1000))) gamma.
Let place := vmul (vmul (vmul u ObsTime) beta) c.
Let F := element_field (T:=R) (Homogeneous ezero).
Let q := - (1 / 1000000000000) / nqe.
Let rest := initTrajectory 0 vzero vzero vzero (new_particle q 1).

Lemma q_const : coulomb_const q = - (E0 / 1000000).
Proof.
  pose proof qe_pos. pose proof eps0_pos. apply q_alg; [apply Rgt_not_eq; assumption|apply Rgt_not_eq; assumption|exact PI_RGT_0].
Qed.
Lemma E0_pos : 0 < E0.
Proof. apply E0_alg; [exact eps0_pos|exact PI_RGT_0]. Qed.
Lemma rest_at (d : vec R) : vabs2 d = 1 -> exists f, RetardedField_time rest 0 (vmul d (1 / 1000)) = Ok f /\ vsub (vmul d (- E0)) (fE f) = vzero.
Proof.
  intros D. assert (NZ : vmul d (1 / 1000) <> vzero).
  { intros H. apply (f_equal vnorm) in H. rewrite norm_scaled, norm_0, Rabs_pos_eq in H by (assumption || lra). lra. }
  destruct (rest_field q 1 _ NZ) as (B & H). eexists. split; [exact H|]. cbn [fE]. rewrite norm_scaled, Rabs_pos_eq, q_const by (assumption || lra).
  generalize E0. intros E. clear. destruct d. vunfold. unnum. vsplit; field.
Qed.

Hypothesis HD : vcross Dir (V 1 0 0) <> vzero.
Hypothesis HG : 1 < gamma.
Hypothesis HT : 0 < tau.
Hypothesis HO : 0 <= ObsTime <= tau.
Hypothesis HN : (0 < N)%nat.

Lemma dir_frame : vabs2 u = 1 /\ vabs2 perp = 1 /\ vdot u perp = 0.
Proof.
  assert (ND : Dir <> vzero) by (intros H; apply HD; rewrite H; apply cross_0).
  assert (U : vabs2 u = 1) by (apply vnormalize_abs2; exact ND).
  assert (NC : vcross u (V 1 0 0) <> vzero).
  { intros H. apply HD. rewrite (unit_back Dir ND), cross_scaled. fold u. rewrite H. apply zero_mul. }
  split; [exact U|]. split; [apply vnormalize_abs2; exact NC|]. unfold perp. rewrite vnormalize_div. apply cross_perp.
Qed.
Lemma beta_sq : beta * beta = 1 - 1 / (gamma * gamma) /\ 0 < beta.
Proof.
  assert (H : 0 < 1 - 1 / (gamma * gamma)).
  { assert (1 / (gamma * gamma) < 1) by (apply Rmult_lt_reg_r with (gamma * gamma); [nra|]; unfold Rdiv; rewrite Rmult_assoc, Rinv_l by nra; nra). lra. }
  split; [apply sqrt_sqrt; lra|apply sqrt_lt_R0; exact H].
Qed.

Lemma electrostatic_exact : exists e p,
  InitVay (tau / INR N) F (initTrajectory 0 vzero (vmul u (R_sqrt.sqrt (gamma * gamma - 1))) vzero rest) = Ok e /\ StepsVay F N e = Ok p /\
  (forall k, (k <= N)%nat -> nth_error (trajectory p) k =
      Some (TP (INR k * (tau / INR N)) (vmul u (beta * c * (INR k * (tau / INR N)))) (vmul u (R_sqrt.sqrt (gamma * gamma - 1))) vzero)) /\
  exists n f5 En Et,
    @electrostatic R NumR TT Dir gamma tau ObsTime N = Ok n /\
    RetardedField_time p ObsTime (vadd place (vmul perp (1 / 1000))) = Ok f5 /\
    Forall2 (fun i E => E = vdot (heaviside q vzero (vmul u beta) (vadd (vmul perp (1 / 1000)) (vmul u (- (5 / 1000) + IZR i * (1 / 1000))))) perp) (zseq 0 11) En /\
    Forall2 (fun i E => exists f, RetardedField_time p ObsTime (vadd (vadd place (vmul perp (1 / 1000))) (vmul u (- (5 / 1000) + IZR i * (1 / 1000)))) = Ok f /\ vdot (fE f) perp = E) (zseq 0 11) Et /\
    (n = 0%Z <-> vnorm (vsub Ev (fE f5)) / vnorm Ev < 1 / 1000 /\ vnorm (vsub Bv (fB f5)) / vnorm Bv < 1 / 1000 /\
      Forall2 (fun x y => (x - y) / y <= 1 / 100000) Et En).
Proof.
  destruct dir_frame as (U & P & O). destruct beta_sq as [B2 BP].
  destruct (static_track u gamma tau N q 1 U HG HT HN) as (e & p & He & Hp & Hw & Q & L & NT). exists e, p. split; [exact He|]. split; [exact Hp|]. split; [exact NT|].
  assert (NP : 0 < INR N) by (apply lt_0_INR; exact HN).
  assert (DT : 0 < tau / INR N) by (apply Rmult_lt_0_compat; [exact HT|apply Rinv_0_lt_compat; exact NP]).
  pose proof (NT 0%nat ltac:(lia)) as N0. cbn [INR] in N0.
  assert (N0' : nth_error (trajectory p) 0 = Some (TP 0 vzero (vmul u (R_sqrt.sqrt (gamma * gamma - 1))) vzero)).
  { rewrite N0. f_equal. f_equal; [ring|]. generalize u. clear. intros u. destruct u. vunfold. unnum. vsplit; ring. }
  assert (TB : forall b, In b (trajectory p) -> 0 <= tpt b).
  { intros b I. apply In_nth_error in I. destruct I as (k & Hk). assert (k < length (trajectory p))%nat by (apply nth_error_Some; congruence).
    rewrite NT in Hk by lia. injection Hk as <-. cbn [tpt]. apply Rmult_le_pos; [apply pos_INR|lra]. }
  assert (M : forall obs, obs <> vzero -> RetardedField_time p 0 obs = Ok (EB (heaviside q vzero (vmul u beta) obs) (vmul (vcross (vmul u beta) (heaviside q vzero (vmul u beta) obs)) (/ nc)))).
  { intros obs NZ. pose proof (moving_field p obs _ _ Hw N0' TB NZ) as H. rewrite Q in H. rewrite unit_motion in H by (assumption || lra). exact H. }
  assert (NP1 : forall x, vadd (vmul perp (1 / 1000)) (vmul u x) <> vzero).
  { intros x H. apply (f_equal (fun w => vdot w perp)) in H. assert (E : vdot (vadd (vmul perp (1 / 1000)) (vmul u x)) perp = vabs2 perp * (1 / 1000) + x * vdot u perp).
    { generalize u perp. clear. intros u p. destruct u, p. vunfold. unnum. ring. }
    rewrite E, P, O in H. assert (Z : vdot vzero perp = 0) by (generalize perp; clear; intros w; destruct w; vunfold; unnum; ring). rewrite Z in H. lra. }
  assert (NP0 : vmul perp (1 / 1000) <> vzero).
  { intros H. apply (f_equal vnorm) in H. rewrite norm_scaled, norm_0, Rabs_pos_eq in H by (assumption || lra). lra. }
  (* the fields at rest *)
  destruct (rest_at (V 1 0 0) ltac:(vunfold; unnum; ring)) as (f1 & H1 & D1).
  destruct (rest_at (V (-1) 0 0) ltac:(vunfold; unnum; ring)) as (f2 & H2 & D2).
  destruct (rest_at (V 0 0 1) ltac:(vunfold; unnum; ring)) as (f3 & H3 & D3).
  assert (X1 : vmul (V 1 0 0) (1 / 1000) = V (1 / 1000) 0 0) by (vunfold; unnum; vsplit; ring).
  assert (X2 : vmul (V (-1) 0 0) (1 / 1000) = V (- (1 / 1000)) 0 0) by (vunfold; unnum; vsplit; ring).
  assert (X3 : vmul (V 0 0 1) (1 / 1000) = V 0 0 (1 / 1000)) by (vunfold; unnum; vsplit; ring).
  rewrite X1 in H1. rewrite X2 in H2. rewrite X3 in H3.
  (* the field beside the charge *)
  pose proof (M _ NP0) as H4. rewrite (beside u perp beta gamma q (1 / 1000) U P O HG B2 ltac:(lra)) in H4.
  destruct (static_position u (beta * c) (tau / INR N) _ N p ObsTime Hw HN DT ltac:(split; [tauto|]; replace (INR N * (tau / INR N)) with tau by (field; lra); tauto) L NT) as (P7 & H7).
  assert (NE : trajectory p <> []) by (destruct (trajectory p); [discriminate L|discriminate]).
  destruct (C07_field_with_trajectory R NumR p ObsTime (vadd place (vmul perp (1 / 1000))) Hw NE) as (f5 & H5).
  set (obsN := fun i => vadd (vmul perp (1 / 1000)) (vmul u (- (5 / 1000) + IZR i * (1 / 1000)))).
  set (En := map (fun i => vdot (heaviside q vzero (vmul u beta) (obsN i)) perp) (zseq 0 11)).
  assert (HEn : forall l, Forall2 (fun i E => exists f, RetardedField_time p 0 (obsN i) = Ok f /\ vdot (fE f) perp = E) l (map (fun i => vdot (heaviside q vzero (vmul u beta) (obsN i)) perp) l)).
  { induction l as [|i l IH]; constructor; [|exact IH]. eexists. split; [apply M; apply NP1|reflexivity]. }
  assert (HEt : exists Et, Forall2 (fun i E => exists f, RetardedField_time p ObsTime (vadd (vadd place (vmul perp (1 / 1000))) (vmul u (- (5 / 1000) + IZR i * (1 / 1000)))) = Ok f /\ vdot (fE f) perp = E) (zseq 0 11) Et).
  { induction (zseq 0 11) as [|i l (Et & IH)]; [exists []; constructor|].
    destruct (C07_field_with_trajectory R NumR p ObsTime (vadd (vadd place (vmul perp (1 / 1000))) (vmul u (- (5 / 1000) + IZR i * (1 / 1000)))) Hw NE) as (f & Hf).
    exists (vdot (fE f) perp :: Et). constructor; [|exact IH]. exists f. auto. }
  destruct HEt as (Et & HEt).
  destruct (electrostatic_checks Dir gamma tau ObsTime N e p f1 f2 f3 _ f5 _ En Et H1 H2 H3 He Hp H4 H7 H5 (HEn _) HEt) as (n & A & _ & C).
  exists n, f5, En, Et. split; [exact A|]. split; [exact H5|]. split.
  { unfold En. generalize (zseq 0 11). induction l as [|i l IH]; constructor; [reflexivity|exact IH]. }
  split; [exact HEt|]. rewrite C. fold u perp beta c place E0 Ev Bv.
  assert (K1 : vsub (vmul (V (-1) 0 0) E0) (fE f1) = vzero) by (rewrite <- D1; generalize (fE f1) E0; clear; intros f E; destruct f; vunfold; unnum; vsplit; ring).
  assert (K2 : vsub (vmul (V 1 0 0) E0) (fE f2) = vzero) by (rewrite <- D2; generalize (fE f2) E0; clear; intros f E; destruct f; vunfold; unnum; vsplit; ring).
  assert (K3 : vsub (vmul (V 0 0 (-1)) E0) (fE f3) = vzero) by (rewrite <- D3; generalize (fE f3) E0; clear; intros f E; destruct f; vunfold; unnum; vsplit; ring).
  rewrite K1, K2, K3, norm_0. cbn [fE fB fst].
  set (X4 := vmul perp (coulomb_const q * gamma / (1 / 1000 * (1 / 1000)))).
  assert (K4 : vsub Ev X4 = vzero).
  { unfold X4, Ev. rewrite q_const. generalize perp E0. clear. intros w E. destruct w. vunfold. unnum. vsplit; field. }
  rewrite K4, norm_0.
  assert (K6 : vsub place (vmul u (beta * c * ObsTime)) = vzero).
  { unfold place. generalize u beta c. clear. intros w b cc. destruct w. vunfold. unnum. vsplit; ring. }
  rewrite K6, norm_0.
  assert (K5 : vnorm (vsub Bv (vmul (vcross (vmul u beta) X4) (/ nc))) / vnorm Bv < 1 / 100000).
  { set (s := beta * c * - (1 / 1000000000000) * nmu0 / (4 * PI) / (1 / 1000 * (1 / 1000)) * gamma).
    assert (SN : s <> 0).
    { unfold s. cbn [nmu0 NumR]. change (10 ^ 7)%Z with 10000000%Z. pose proof PI_RGT_0. unfold c.
      replace (beta * 299792458 * - (1 / 1000000000000) * (4 * PI / 10000000) / (4 * PI) / (1 / 1000 * (1 / 1000)) * gamma)
        with (- (beta * gamma * (299792458 * (1 / 1000000000000) / 10000000 * 1000000))) by (field; lra).
      assert (0 < beta * gamma) by (apply Rmult_lt_0_compat; lra). lra. }
    assert (EB1 : Bv = vmul (vcross u perp) s).
    { unfold Bv, s. apply B_alg1. exact PI_RGT_0. }
    assert (EB2 : vmul (vcross (vmul u beta) X4) (/ nc) = vmul (vcross u perp) (s * / (nmu0 * neps0 * (nc * nc)))).
    { unfold X4. rewrite q_const. unfold s, E0. change (@nc R NumR) with 299792458. unfold c. pose proof PI_RGT_0 as PP.
      apply B_alg2; [exact PI_RGT_0|exact mu0_pos|exact eps0_pos]. }
    rewrite EB2, EB1. pose proof (cross_unit u perp U P O) as CU.
    replace (vsub (vmul (vcross u perp) s) (vmul (vcross u perp) (s * / (nmu0 * neps0 * (nc * nc))))) with (vmul (vcross u perp) (s * (1 - / (nmu0 * neps0 * (nc * nc)))))
      by (generalize (vcross u perp) (/ (nmu0 * neps0 * (nc * nc))) s; clear; intros w k s; destruct w; vunfold; unnum; vsplit; ring).
    rewrite !norm_scaled by exact CU. rewrite Rabs_mult. replace (Rabs s * Rabs (1 - / (nmu0 * neps0 * (nc * nc))) / Rabs s) with (Rabs (1 - / (nmu0 * neps0 * (nc * nc)))).
    - exact vacuum_constant.
    - field. apply Rabs_no_R0. exact SN. }
  assert (Z0 : forall x, 0 / x = 0) by (intros x; unfold Rdiv; apply Rmult_0_l). rewrite !Z0. split; [tauto|]. intros (Y1 & Y2 & Y3). repeat split; try assumption; try lra.
Qed.
End Exact.
