(* The fields beside the moving charge of the program electrostatic at a time during the tracking. *)
From Coq Require Import ZArith Reals Lra Lia Psatz List Bool.
From Verif Require Import Base BaseFacts Num VecModel VecFacts ParticleModel ParticleSpec ParticleProofs ParticleProofs2 VaySpec VayProofs
  RetardModel RetardSpec RetardProofs RetardProofs2 PropRetard LightConeProofs PropLightCone2 ElementModel TestModel TestProofs5 TestProofs6.
Import ListNotations.
Local Open Scope R_scope.

(* ---- slopes of the distance near the point seen ---- *)
Lemma slope_behind rho beta gamma d : 0 < rho -> 1 < gamma -> 0 < beta -> beta * beta = 1 - 1 / (gamma * gamma) ->
  0 <= d <= 15 / 100 * (gamma * rho) ->
  let s := beta * (gamma * rho) - d in let r := sqrt (rho * rho + s * s) in 0 < r /\ 1 - beta * s / r <= 12 / 10 / (gamma * gamma).
Proof.
  intros Hr Hg Hb B Hd s r. set (R := gamma * rho) in *. assert (HR : 0 < R) by (apply Rmult_lt_0_compat; lra).
  assert (B1 : beta < 1). { assert (0 < 1 / (gamma * gamma)) by (apply Rdiv_lt_0_compat; nra). nra. }
  assert (G : gamma * gamma * (1 - beta * beta) = 1) by (rewrite B; field; lra).
  assert (E : rho * rho = (1 - beta * beta) * (R * R)). { unfold R. replace ((1 - beta * beta) * (gamma * rho * (gamma * rho))) with (gamma * gamma * (1 - beta * beta) * (rho * rho)) by ring. rewrite G. ring. }
  assert (E2 : rho * rho + s * s = R * R - 2 * beta * R * d + d * d) by (rewrite E; unfold s; ring).
  assert (Q : R - d <= r). { unfold r. rewrite E2. rewrite <- (sqrt_square (R - d)) by lra. apply sqrt_le_1_alt. assert (beta * (R * d) <= 1 * (R * d)) by (apply Rmult_le_compat_r; [apply Rmult_le_pos; lra|lra]). lra. }
  assert (P : 0 < r) by lra. split; [exact P|].
  set (r0 := R - beta * d). assert (H0 : 85 / 100 * R <= r0) by (unfold r0; assert (beta * d <= 1 * d) by (apply Rmult_le_compat_r; lra); lra).
  assert (U : r <= r0 + d * d * (1 - beta * beta) / (2 * r0)).
  { assert (K : 0 <= d * d * (1 - beta * beta) / (2 * r0)) by (apply Rmult_le_pos; [apply Rmult_le_pos; nra|left; apply Rinv_0_lt_compat; lra]).
    unfold r. rewrite E2. rewrite <- (sqrt_square (r0 + d * d * (1 - beta * beta) / (2 * r0))) by lra. apply sqrt_le_1_alt.
    replace ((r0 + d * d * (1 - beta * beta) / (2 * r0)) * (r0 + d * d * (1 - beta * beta) / (2 * r0))) with (r0 * r0 + d * d * (1 - beta * beta) + (d * d * (1 - beta * beta) / (2 * r0)) * (d * d * (1 - beta * beta) / (2 * r0))) by (field; lra).
    assert (0 <= (d * d * (1 - beta * beta) / (2 * r0)) * (d * d * (1 - beta * beta) / (2 * r0))) by (apply Rmult_le_pos; exact K).
    unfold r0 in *. lra. }
  assert (V : r - beta * s <= (1 - beta * beta) * (R + d * d / (2 * r0))).
  { replace ((1 - beta * beta) * (R + d * d / (2 * r0))) with ((1 - beta * beta) * R + d * d * (1 - beta * beta) / (2 * r0)) by (field; lra). unfold s, r0 in *. lra. }
  assert (W : d * d / (2 * r0) <= 14 / 1000 * R).
  { apply (Rmult_le_reg_r (2 * r0)); [lra|]. unfold Rdiv at 1. rewrite Rmult_assoc, Rinv_l by lra. assert (d * d <= (15 / 100 * R) * (15 / 100 * R)) by (apply Rmult_le_compat; lra).
    assert (R * (85 / 100 * R) <= R * r0) by (apply Rmult_le_compat_l; lra). assert (0 < R * R) by (apply Rmult_lt_0_compat; lra). lra. }
  replace (1 - beta * s / r) with ((r - beta * s) / r) by (field; lra).
  apply (Rmult_le_reg_r r); [exact P|]. unfold Rdiv at 1. rewrite Rmult_assoc, Rinv_l by lra. rewrite Rmult_1_r.
  assert (X : 12 / 10 / (gamma * gamma) = 12 / 10 * (1 - beta * beta)) by (rewrite B; field; lra). rewrite X.
  assert (Z : 0 < 1 - beta * beta) by nra.
  apply Rle_trans with (1 := V). replace (12 / 10 * (1 - beta * beta) * r) with ((1 - beta * beta) * (12 / 10 * r)) by ring. apply Rmult_le_compat_l; lra.
Qed.
Lemma slope_before rho beta gamma d : 0 < rho -> 1 < gamma -> 0 < beta -> beta * beta = 1 - 1 / (gamma * gamma) ->
  0 <= d <= 15 / 100 * (gamma * rho) ->
  let s := beta * (gamma * rho) + d in let r := sqrt (rho * rho + s * s) in 1 / (gamma * gamma) <= 115 / 100 * (1 - beta * s / r).
Proof.
  intros Hr Hg Hb B Hd s r. set (R := gamma * rho) in *. assert (HR : 0 < R) by (apply Rmult_lt_0_compat; lra).
  assert (B1 : beta < 1). { assert (0 < 1 / (gamma * gamma)) by (apply Rdiv_lt_0_compat; nra). nra. }
  assert (G : gamma * gamma * (1 - beta * beta) = 1) by (rewrite B; field; lra).
  assert (E : rho * rho = (1 - beta * beta) * (R * R)). { unfold R. replace ((1 - beta * beta) * (gamma * rho * (gamma * rho))) with (gamma * gamma * (1 - beta * beta) * (rho * rho)) by ring. rewrite G. ring. }
  assert (P : 0 < r). { apply sqrt_lt_R0. nra. }
  assert (Q : r <= 115 / 100 * R).
  { apply Rle_trans with (R + d); [|lra]. unfold r. rewrite <- (sqrt_square (R + d)) by lra. apply sqrt_le_1_alt. rewrite E. unfold s.
    assert (beta * (R * d) <= 1 * (R * d)) by (apply Rmult_le_compat_r; [apply Rmult_le_pos; lra|lra]). lra. }
  assert (U : beta * s + (1 - beta * beta) * R <= r).
  { assert (S0 : 0 <= s) by (unfold s; assert (0 <= beta * R) by (apply Rmult_le_pos; lra); lra).
    assert (Z : 0 < 1 - beta * beta) by nra.
    unfold r. rewrite <- (sqrt_square (beta * s + (1 - beta * beta) * R)) by (apply Rplus_le_le_0_compat; apply Rmult_le_pos; lra).
    apply sqrt_le_1_alt. rewrite E. assert (0 <= (1 - beta * beta) * ((s - beta * R) * (s - beta * R))) by (apply Rmult_le_pos; [lra|apply Rle_0_sqr]). 
    replace ((1 - beta * beta) * (R * R) + s * s) with ((beta * s + (1 - beta * beta) * R) * (beta * s + (1 - beta * beta) * R) + (1 - beta * beta) * ((s - beta * R) * (s - beta * R))) by ring. lra. }
  replace (1 - beta * s / r) with ((r - beta * s) / r) by (field; lra).
  replace (1 / (gamma * gamma)) with (1 - beta * beta) by (rewrite B; ring).
  apply (Rmult_le_reg_r r); [exact P|]. replace (115 / 100 * ((r - beta * s) / r) * r) with (115 / 100 * (r - beta * s)) by (field; lra).
  assert (Z : 0 < 1 - beta * beta) by nra. assert ((1 - beta * beta) * r <= (1 - beta * beta) * (115 / 100 * R)) by (apply Rmult_le_compat_l; lra). lra.
Qed.

(* ---- the field beside the charge, displaced by e ---- *)
Lemma frame_alg (w p : vec R) b c a1 a2 d : vsub (vadd (vmul w a1) (vmul p d)) (vmul (vmul w b) (c * a2)) = vadd (vmul p d) (vmul w (a1 - b * c * a2)).
Proof. revert w p b c a1 a2 d. vring. Qed.
Lemma frame_abs2 (w p : vec R) d e : vabs2 w = 1 -> vabs2 p = 1 -> vdot w p = 0 -> vabs2 (vadd (vmul p d) (vmul w e)) = d * d + e * e.
Proof.
  intros W P O. assert (E : vabs2 (vadd (vmul p d) (vmul w e)) = vabs2 p * (d * d) + vabs2 w * (e * e) + 2 * d * e * vdot w p) by (destruct w, p; vunfold; unnum; ring).
  rewrite E, W, P, O. ring.
Qed.
Lemma frame_cross (w p : vec R) b d e : vcross (vmul w b) (vadd (vmul p d) (vmul w e)) = vmul (vcross w p) (b * d).
Proof. revert w p b d e. vring. Qed.
Lemma abs2_mul (w : vec R) k : vabs2 (vmul w k) = vabs2 w * (k * k).
Proof. destruct w. vunfold. unnum. ring. Qed.

Lemma displaced (w p : vec R) beta gamma q d e X obs : vabs2 w = 1 -> vabs2 p = 1 -> vdot w p = 0 -> 1 < gamma -> beta * beta = 1 - 1 / (gamma * gamma) -> 0 < d ->
  vsub obs X = vadd (vmul p d) (vmul w e) -> Rabs e <= 1 / 10000 * (d / gamma) ->
  exists k, 1 - 1 / 10000000 <= k <= 1 /\
    heaviside q X (vmul w beta) obs = vmul (vadd p (vmul w (e / d))) (coulomb_const q * gamma / (d * d) * k) /\ Rabs (e / d) <= 1 / 10000.
Proof.
  intros W P O G B D EX HE. set (y := d / gamma). assert (Hy : 0 < y) by (apply Rdiv_lt_0_compat; lra). fold y in HE.
  set (S := sqrt (y * y + e * e)).
  assert (S1 : y <= S). { unfold S. rewrite <- (sqrt_square y) at 1 by lra. apply sqrt_le_1_alt. nra. }
  assert (EE : e * e <= 1 / 100000000 * (y * y)).
  { replace (e * e) with (Rabs e * Rabs e) by (rewrite <- Rabs_mult; apply Rabs_right; nra). pose proof (Rabs_pos e).
    apply Rle_trans with (1 / 10000 * y * (1 / 10000 * y)); [apply Rmult_le_compat; lra|lra]. }
  assert (S2 : S <= (1 + 1 / 100000000) * y). { unfold S. rewrite <- (sqrt_square ((1 + 1 / 100000000) * y)) by nra. apply sqrt_le_1_alt. nra. }
  assert (SP : 0 < S) by lra.
  set (k1 := y / S). assert (K1 : 1 - 1 / 100000000 <= k1 <= 1).
  { unfold k1. split; (apply (Rmult_le_reg_r S); [exact SP|]; unfold Rdiv; rewrite (Rmult_assoc y), Rinv_l by lra).
    - apply Rle_trans with ((1 - 1 / 100000000) * ((1 + 1 / 100000000) * y)); [apply Rmult_le_compat_l; lra|]. nra.
    - lra. }
  exists (k1 ^ 3). split; [|split].
  - assert (A : k1 * k1 <= 1) by nra. assert (A2 : 1 - 2 / 100000000 <= k1 * k1) by nra. replace (k1 ^ 3) with (k1 * k1 * k1) by ring. split; nra.
  - unfold heaviside. cbv zeta. rewrite EX, frame_abs2, frame_cross, !abs2_mul, (cross_unit w p W P O), W by assumption.
    replace (d * d + e * e - 1 * (beta * d * (beta * d))) with (y * y + e * e) by (unfold y; replace (beta * d * (beta * d)) with (beta * beta * (d * d)) by ring; rewrite B; field; lra).
    fold S. replace (1 - 1 * (beta * beta)) with (1 / (gamma * gamma)) by (rewrite B; ring).
    replace (coulomb_const q * (1 / (gamma * gamma)) / S ^ 3) with (coulomb_const q * gamma / (d * d) * k1 ^ 3 * / d) by (unfold k1, y; field; repeat split; lra).
    generalize (coulomb_const q * gamma / (d * d) * k1 ^ 3). intros K. clear - D. destruct w, p. vunfold. unnum. vsplit; field; lra.
  - unfold Rdiv at 1. rewrite Rabs_mult, (Rabs_right (/ d)) by (apply Rle_ge; left; apply Rinv_0_lt_compat; exact D). apply (Rmult_le_reg_r d); [exact D|]. rewrite Rmult_assoc, Rinv_l by lra. rewrite Rmult_1_r.
    apply Rle_trans with (1 := HE). apply Rmult_le_compat_l; [lra|]. unfold y. apply (Rmult_le_reg_r gamma); [lra|]. unfold Rdiv. rewrite Rmult_assoc, Rinv_l by lra. nra.
Qed.

(* ---- which points are seen ---- *)
Lemma seen_cone beta gamma d y : 0 < d -> 1 < gamma -> 0 < beta -> beta * beta = 1 - 1 / (gamma * gamma) ->
  (y <= sqrt (d * d + beta * y * (beta * y)) <-> y <= gamma * d).
Proof.
  intros Hd Hg Hb B. assert (Z : (1 - beta * beta) * (gamma * gamma) = 1) by (rewrite B; field; lra). assert (Z0 : 0 < 1 - beta * beta) by nra.
  assert (R0 : 0 < gamma * d) by (apply Rmult_lt_0_compat; lra).
  assert (EQ : d * d = (1 - beta * beta) * (gamma * d * (gamma * d))) by (replace ((1 - beta * beta) * (gamma * d * (gamma * d))) with ((1 - beta * beta) * (gamma * gamma) * (d * d)) by ring; rewrite Z; ring).
  pose proof (sqrt_pos (d * d + beta * y * (beta * y))) as SP.
  assert (SS : sqrt (d * d + beta * y * (beta * y)) * sqrt (d * d + beta * y * (beta * y)) = d * d + beta * y * (beta * y)) by (apply sqrt_sqrt; nra).
  destruct (Rle_dec y 0) as [Y|Y]; [split; intros; lra|]. split; intros H.
  - destruct (Rle_dec y (gamma * d)) as [K|K]; [exact K|exfalso].
    assert (y * y <= d * d + beta * y * (beta * y)) by (rewrite <- SS; apply Rmult_le_compat; lra).
    assert ((1 - beta * beta) * (gamma * d * (gamma * d)) < (1 - beta * beta) * (y * y)) by (apply Rmult_lt_compat_l; [exact Z0|]; apply Rmult_le_0_lt_compat; lra). lra.
  - rewrite <- (sqrt_square y) at 1 by lra. apply sqrt_le_1_alt.
    assert ((1 - beta * beta) * (y * y) <= (1 - beta * beta) * (gamma * d * (gamma * d))) by (apply Rmult_le_compat_l; [lra|]; apply Rmult_le_compat; lra). lra.
Qed.

Lemma some_inj {A} (a b : A) : Some a = Some b -> a = b.
Proof. intros H. injection H as H. exact H. Qed.
Lemma zero_add (v : vec R) : vadd vzero v = v.
Proof. destruct v. vunfold. unnum. vsplit; ring. Qed.
Lemma norm_frame (w p : vec R) d e : vabs2 w = 1 -> vabs2 p = 1 -> vdot w p = 0 -> vnorm (vadd (vmul p d) (vmul w e)) = sqrt (d * d + e * e).
Proof. intros W P O. rewrite vnorm_sqrt, frame_abs2 by assumption. reflexivity. Qed.
Lemma off_line (w p : vec R) a d s : vabs2 p = 1 -> vdot w p = 0 -> d <> 0 -> vadd (vmul w a) (vmul p d) <> vmul w s.
Proof.
  intros P O D E. apply (f_equal (fun x => vdot x p)) in E.
  assert (E1 : vdot (vadd (vmul w a) (vmul p d)) p = a * vdot w p + d * vabs2 p) by (destruct w, p; vunfold; unnum; ring).
  assert (E2 : vdot (vmul w s) p = s * vdot w p) by (destruct w, p; vunfold; unnum; ring).
  rewrite E1, E2, O, P in E. lra.
Qed.
Lemma step_dot (w p : vec R) b c t1 t2 d e : vabs2 w = 1 -> vdot w p = 0 ->
  vdot (vsub (vmul (vmul w b) (c * t2)) (vmul (vmul w b) (c * t1))) (vadd (vmul p d) (vmul w e)) = b * c * (t2 - t1) * e.
Proof.
  intros W O. assert (E : vdot (vsub (vmul (vmul w b) (c * t2)) (vmul (vmul w b) (c * t1))) (vadd (vmul p d) (vmul w e)) = b * c * (t2 - t1) * (d * vdot w p + e * vabs2 w)) by (destruct w, p; vunfold; unnum; ring).
  rewrite E, W, O. ring.
Qed.
Lemma between_alg (w : vec R) b c t1 t2 a : vadd (vmul (vmul (vmul w b) (c * t1)) (1 - a)) (vmul (vmul (vmul w b) (c * t2)) a) = vmul (vmul w b) (c * (t1 + a * (t2 - t1))).
Proof. revert w b c t1 t2 a. vring. Qed.

Lemma tracked_beside (w perp m : vec R) beta gamma h N p T d :
  vabs2 w = 1 -> vabs2 perp = 1 -> vdot w perp = 0 -> 1 < gamma -> 0 < beta -> beta * beta = 1 - 1 / (gamma * gamma) -> 0 < d ->
  0 < h -> (0 < N)%nat -> 0 <= T <= INR N * h -> beta * 299792458 * h <= gamma * d / 10 -> wf p -> length (trajectory p) = S N -> beta_of m = vmul w beta ->
  (forall k, (k <= N)%nat -> nth_error (trajectory p) k = Some (TP (INR k * h) (vmul w (beta * 299792458 * (INR k * h))) m vzero)) ->
  let obs := vadd (vmul w (beta * 299792458 * T)) (vmul perp d) in
  exists e X, Rabs e <= 1 / 10000 * (d / gamma) /\ vsub obs X = vadd (vmul perp d) (vmul w e) /\
    RetardedField_time p T obs = Ok (EB (heaviside (pCharge p) X (vmul w beta) obs) (vmul (vcross (vmul w beta) (heaviside (pCharge p) X (vmul w beta) obs)) (/ 299792458))).
Proof.
  intros W P O G BP B D H HN HT HH Hw L BM NT obs. assert (Hc : 0 < 299792458) by lra.
  assert (AT : forall s, vsub obs (vmul (vmul w beta) (299792458 * s)) = vadd (vmul perp d) (vmul w (beta * (299792458 * (T - s))))).
  { intros s. unfold obs. rewrite frame_alg. f_equal. f_equal. ring. }
  assert (DI : forall s, vnorm (vsub obs (vmul (vmul w beta) (299792458 * s))) = sqrt (d * d + beta * (299792458 * (T - s)) * (beta * (299792458 * (T - s))))).
  { intros s. rewrite AT. apply norm_frame; assumption. }
  assert (XW : forall s, vmul w (beta * 299792458 * s) = vmul (vmul w beta) (299792458 * s)) by (intros s; clear; revert w beta s; vring).
  assert (IN : forall b, In b (trajectory p) -> exists k, (k <= N)%nat /\ b = TP (INR k * h) (vmul (vmul w beta) (299792458 * (INR k * h))) m vzero).
  { intros b I. apply In_nth_error in I. destruct I as (k & Hk). assert (k < length (trajectory p))%nat by (apply nth_error_Some; congruence).
    exists k. split; [lia|]. rewrite NT in Hk by lia. injection Hk as <-. rewrite XW. reflexivity. }
  assert (SEEN : forall b s, tpt b = s -> tpx b = vmul (vmul w beta) (299792458 * s) -> (T <= arrival obs b <-> 299792458 * (T - s) <= gamma * d)).
  { intros b s E1 E2. unfold arrival. rewrite E1, E2, DI. rewrite <- (seen_cone beta gamma d (299792458 * (T - s)) D G BP B).
    change (@nc R NumR) with 299792458. generalize (sqrt (d * d + beta * (299792458 * (T - s)) * (beta * (299792458 * (T - s))))). intros r.
    split; intros K.
    - assert (299792458 * (T - s) <= 299792458 * (r / 299792458)) by (apply Rmult_le_compat_l; lra). replace (299792458 * (r / 299792458)) with r in * by field. lra.
    - apply (Rmult_le_reg_l 299792458); [exact Hc|]. replace (299792458 * (s + r / 299792458)) with (299792458 * s + r) by field. lra. }
  set (a := TP 0 vzero m (@vzero R NumR)).
  assert (Ha : nth_error (trajectory p) 0 = Some a).
  { rewrite NT by lia. cbn [INR]. rewrite Rmult_0_l, Rmult_0_r. unfold a. f_equal. f_equal. clear. revert w. vring. }
  assert (XA : tpx a = vmul (vmul w beta) (299792458 * 0)). { unfold a. cbn [tpx]. clear. rewrite Rmult_0_r. revert w beta. vring. }
  destruct (Rle_dec T (arrival obs a)) as [C|C].
  - (* before the start *)
    exists 0, (vmul (vmul w beta) (299792458 * T)). split; [rewrite Rabs_R0; apply Rmult_le_pos; [lra|]; apply Rlt_le, Rdiv_lt_0_compat; lra|].
    split; [rewrite AT; f_equal; f_equal; ring|].
    assert (PP : present_position a T = vmul (vmul w beta) (299792458 * T)).
    { unfold present_position, a. cbn [tpx tpp tpt]. rewrite BM. change (@nc R NumR) with 299792458. rewrite zero_add. f_equal. ring. }
    destruct (C11_uniform_motion_partial p T obs a Hw Ha eq_refl) as [E _].
    + intros b Hb. destruct (IN b Hb) as (k & K & ->). apply (SEEN _ (INR k * h)); [reflexivity|reflexivity|].
      apply (SEEN a 0 eq_refl XA) in C. assert (0 <= INR k * h) by (apply Rmult_le_pos; [apply pos_INR|lra]). lra.
    + rewrite PP. rewrite <- XW. apply off_line; [exact P|exact O|lra].
    + rewrite E. unfold uniform_motion_field. rewrite PP. change (tpp a) with m. rewrite BM. reflexivity.
  - (* between two points *)
    set (z := TP (INR N * h) (vmul w (beta * 299792458 * (INR N * h))) m (@vzero R NumR)).
    assert (Hz : nth_error (trajectory p) (length (trajectory p) - 1) = Some z) by (rewrite L; replace (S N - 1)%nat with N by lia; rewrite NT by lia; reflexivity).
    destruct (C94_uniform_motion p m vzero T obs a z Hw) as (j & b1 & b2 & t' & N1 & N2 & (M1 & M2) & E & GQ).
    { intros b Hb. destruct (IN b Hb) as (k & K & ->). cbn [tpp tpa tpx tpt]. rewrite BM, zero_add. auto. }
    { intros i b b' I1 I2. assert (S i < length (trajectory p))%nat by (apply nth_error_Some; congruence).
      rewrite NT in I1 by lia. rewrite NT in I2 by lia. apply some_inj in I1, I2. subst b b'. cbn [tpt]. rewrite S_INR. lra. }
    { intros s. rewrite BM, zero_add. replace (vmul (vmul w beta) s) with (vmul w (beta * s)) by (clear; revert w beta s; vring). apply off_line; [exact P|exact O|lra]. }
    { exact Ha. } { exact Hz. } { lra. }
    { apply (SEEN z (INR N * h) eq_refl); [unfold z; cbn [tpx]; apply XW|]. assert (0 < gamma * d) by (apply Rmult_lt_0_compat; lra). lra. }
    rewrite zero_add, BM in E. cbv zeta in E.
    assert (SJ : (S j < length (trajectory p))%nat) by (apply nth_error_Some; congruence).
    rewrite NT in N1 by lia. rewrite NT in N2 by lia. apply some_inj in N1, N2. subst b1 b2. rewrite S_INR in M2, GQ.
    set (t1 := INR j * h) in *. assert (T2 : (INR j + 1) * h = t1 + h) by (unfold t1; ring). rewrite T2 in M2, GQ.
    assert (Y1 : gamma * d < 299792458 * (T - t1)).
    { apply Rnot_le_lt. intros K. apply (SEEN (TP t1 (vmul w (beta * 299792458 * t1)) m vzero) t1 eq_refl (XW t1)) in K. lra. }
    assert (Y2 : 299792458 * (T - (t1 + h)) <= gamma * d).
    { apply (SEEN (TP (t1 + h) (vmul w (beta * 299792458 * (t1 + h))) m vzero) (t1 + h) eq_refl (XW (t1 + h))). exact M2. }
    cbn [tpt tpx] in GQ. cbv beta zeta in GQ. rewrite !XW in GQ. rewrite !between_alg in GQ. rewrite !DI in GQ. rewrite !AT in GQ. rewrite !step_dot in GQ by assumption.
    replace (t1 + h - t1) with h in GQ by ring.
    assert (SV : forall y, 299792458 * h - beta * 299792458 * h * (beta * y) / sqrt (d * d + beta * y * (beta * y)) = 299792458 * h * (1 - beta * (beta * y) / sqrt (d * d + beta * y * (beta * y)))) by (intros y; unfold Rdiv; ring).
    rewrite !SV in GQ.
    set (y1 := 299792458 * (T - (t1 + 3 / 2 * h))) in *. set (y2 := 299792458 * (T - (t1 + - (1 / 2) * h))) in *.
    pose proof (slope_behind d beta gamma (beta * (gamma * d) - beta * y1) D G BP B) as S1.
    pose proof (slope_before d beta gamma (beta * y2 - beta * (gamma * d)) D G BP B) as S2.
    replace (beta * (gamma * d) - (beta * (gamma * d) - beta * y1)) with (beta * y1) in S1 by ring.
    replace (beta * (gamma * d) + (beta * y2 - beta * (gamma * d))) with (beta * y2) in S2 by ring. cbv zeta in S1, S2.
    assert (D1 : 0 <= beta * (gamma * d) - beta * y1 <= 15 / 100 * (gamma * d)).
    { split.
      - assert (beta * y1 <= beta * (gamma * d)) by (apply Rmult_le_compat_l; [lra|]; unfold y1; lra). lra.
      - assert (beta * (gamma * d - 3 / 2 * (299792458 * h)) <= beta * y1) by (apply Rmult_le_compat_l; [lra|]; unfold y1; lra). lra. }
    assert (D2 : 0 <= beta * y2 - beta * (gamma * d) <= 15 / 100 * (gamma * d)).
    { split.
      - assert (beta * (gamma * d) <= beta * y2) by (apply Rmult_le_compat_l; [lra|]; unfold y2; lra). lra.
      - assert (beta * y2 <= beta * (gamma * d + 3 / 2 * (299792458 * h))) by (apply Rmult_le_compat_l; [lra|]; unfold y2; lra). lra. }
    destruct (S1 D1) as [_ S1']. specialize (S2 D2).
    set (g1 := 1 - beta * (beta * y1) / sqrt (d * d + beta * y1 * (beta * y1))) in *. set (g2 := 1 - beta * (beta * y2) / sqrt (d * d + beta * y2 * (beta * y2))) in *.
    replace (12 / 10 / (gamma * gamma)) with (12 / 10 * (1 / (gamma * gamma))) in S1' by (field; lra).
    assert (GG : 0 < 1 / (gamma * gamma)) by (apply Rdiv_lt_0_compat; nra). set (i2 := 1 / (gamma * gamma)) in *.
    specialize (GQ (1/2) ltac:(lra)).
    assert (CH : 0 < 299792458 * h) by (apply Rmult_lt_0_compat; lra).
    assert (Q0 : 299792458 * h * g1 <= (1 + 1 / 2) * (299792458 * h * g2)).
    { replace ((1 + 1 / 2) * (299792458 * h * g2)) with (299792458 * h * (3 / 2 * g2)) by field. apply Rmult_le_compat_l; lra. }
    specialize (GQ Q0).
    exists (beta * (299792458 * (T - t'))), (vmul (vmul w beta) (299792458 * t')). split; [|split; [apply AT|exact E]].
    replace (299792458 * h * g1 / 299792458) with (h * g1) in GQ by field.
    assert (N0 : 2 * (1 / 2) / 100000 + (1 / 2) ^ 11 <= 5 / 10000) by (cbn [pow]; lra).
    assert (Q1 : Rabs (t' - T) <= h * (12 / 10 * i2) * (5 / 10000)).
    { apply Rle_trans with (1 := GQ). assert (0 <= 2 * (1 / 2) / 100000 + (1 / 2) ^ 11) by (cbn [pow]; lra).
      apply Rle_trans with (h * (12 / 10 * i2) * (2 * (1 / 2) / 100000 + (1 / 2) ^ 11)).
      - apply Rmult_le_compat_r; [assumption|]. apply Rmult_le_compat_l; lra.
      - apply Rmult_le_compat_l; [apply Rmult_le_pos; lra|exact N0]. }
    rewrite !Rabs_mult, (Rabs_right beta), (Rabs_right 299792458), (Rabs_minus_sym T t') by lra.
    apply Rle_trans with (beta * (299792458 * (h * (12 / 10 * i2) * (5 / 10000)))).
    { apply Rmult_le_compat_l; [lra|]. apply Rmult_le_compat_l; lra. }
    replace (beta * (299792458 * (h * (12 / 10 * i2) * (5 / 10000)))) with (beta * 299792458 * h * (12 / 10 * i2 * (5 / 10000))) by ring.
    apply Rle_trans with (gamma * d / 10 * (12 / 10 * i2 * (5 / 10000))); [apply Rmult_le_compat_r; [lra|exact HH]|].
    replace (gamma * d / 10 * (12 / 10 * i2 * (5 / 10000))) with (6 / 100000 * (d / gamma)) by (unfold i2; field; lra).
    assert (0 < d / gamma) by (apply Rdiv_lt_0_compat; lra). lra.
Qed.


Lemma E_parts (p w : vec R) A de k : vsub (vmul p A) (vmul (vadd p (vmul w de)) (A * k)) = vadd (vmul p (A * (1 - k))) (vmul w (- (A * de * k))).
Proof. revert p w A de k. vring. Qed.
Lemma B_parts (p w : vec R) beta de K : vcross (vmul w beta) (vmul (vadd p (vmul w de)) K) = vcross (vmul w beta) (vmul p K).
Proof. revert p w beta de K. vring. Qed.
Lemma B_scale (p w : vec R) beta K k c : vmul (vcross (vmul w beta) (vmul p (K * k))) c = vmul (vmul (vcross (vmul w beta) (vmul p K)) c) k.
Proof. revert p w beta K k c. vring. Qed.
Lemma B_diff (w : vec R) s k0 k : vsub (vmul w s) (vmul (vmul w (s * k0)) k) = vmul w (s * (1 - k0 * k)).
Proof. revert w s k0 k. vring. Qed.

Lemma place_alg (u : vec R) (T b k : R) : vmul (vmul (vmul u T) b) k = vmul u (b * k * T).
Proof. destruct u. vunfold. unnum. vsplit; ring. Qed.

Lemma Ev_alg (p : vec R) (E g : R) : vmul (vmul (vmul p E) (-1)) g = vmul p (- E * g).
Proof. destruct p. vunfold. unnum. vsplit; ring. Qed.

Section Beside.
Context {TT : Trans R} (Dir : vec R) (gamma tau ObsTime : R) (N : nat).
Let c := 299792458.
Let u := vnormalize Dir.
Let perp := vnormalize (vcross u (V 1 0 0)).
Let beta := R_sqrt.sqrt (1 - 1 / (gamma * gamma)).
Let E0 := 1 / 1000000000000 / (4 * PI * neps0 * (1 / 1000) * (1 / 1000)).
Let Ev := vmul (vmul (vmul perp E0) (-1)) gamma.
Let Bv := vmul (vdiv (vdiv (vmul (vmul (vcross (vmul (vmul u beta) c) perp) (- (1 / 1000000000000))) nmu0) (4 * PI)) (1 / 1000 * (1 / 1000))) gamma.
Let place := vmul (vmul (vmul u ObsTime) beta) c.
Let F := element_field (T:=R) (Homogeneous ezero).
Let q := - (1 / 1000000000000) / nqe.
Let rest := initTrajectory 0 vzero vzero vzero (new_particle q 1).
Hypothesis HD : vcross Dir (V 1 0 0) <> vzero.
Hypothesis HG : 1 < gamma.
Hypothesis HT : 0 < tau.
Hypothesis HO : 0 <= ObsTime <= tau.
Hypothesis HN : (0 < N)%nat.
Hypothesis HH : beta * c * (tau / INR N) <= gamma / 10000.

Lemma beside_checks (e p : particle R) : InitVay (tau / INR N) F (initTrajectory 0 vzero (vmul u (R_sqrt.sqrt (gamma * gamma - 1))) vzero rest) = Ok e -> StepsVay F N e = Ok p ->
  exists f, RetardedField_time p ObsTime (vadd place (vmul perp (1 / 1000))) = Ok f /\
    vnorm (vsub Ev (fE f)) / vnorm Ev < 1 / 1000 /\ vnorm (vsub Bv (fB f)) / vnorm Bv < 1 / 1000.
Proof.
  intros He Hp. destruct (dir_frame Dir HD) as (U & P & O). fold u in U, O. fold perp in P, O. fold u in P, O.
  destruct (beta_sq gamma HG) as [B2 BP]. fold beta in B2, BP.
  destruct (static_track u gamma tau N q 1 U HG HT HN) as (e' & p' & He' & Hp' & Hw & Q & L & NT).
  assert (EE : e' = e). { apply Ok_inj. rewrite <- He', <- He. reflexivity. } subst e'.
  assert (PE : p' = p). { apply Ok_inj. rewrite <- Hp', <- Hp. reflexivity. } subst p'.
  assert (NP : 0 < INR N) by (apply lt_0_INR; exact HN).
  assert (DT : 0 < tau / INR N) by (apply Rmult_lt_0_compat; [exact HT|apply Rinv_0_lt_compat; exact NP]).
  destruct (tracked_beside u perp (vmul u (R_sqrt.sqrt (gamma * gamma - 1))) beta gamma (tau / INR N) N p ObsTime (1 / 1000) U P O HG BP B2) as (ep & X & HE & HX & HF); auto; try lra.
  { replace (INR N * (tau / INR N)) with tau by (field; lra). exact HO. }
  { fold c. lra. }
  { apply unit_motion; [exact U|lra]. }
  assert (PL : place = vmul u (beta * 299792458 * ObsTime)).
  { exact (place_alg u ObsTime beta 299792458). }
  rewrite PL. eexists. split; [exact HF|]. cbn [fE fB]. rewrite Q.
  destruct (displaced u perp beta gamma q (1 / 1000) ep X _ U P O HG B2 ltac:(lra) HX HE) as (k & HK & EQ & HDe).
  rewrite EQ. set (de := ep / (1 / 1000)) in *.
  pose proof (q_const) as QC. pose proof E0_pos as EP. fold E0 in EP.
  assert (CK : coulomb_const q * gamma / (1 / 1000 * (1 / 1000)) = - E0 * gamma). { unfold q. rewrite QC. fold E0. field. }
  split.
  - rewrite CK. assert (EV : Ev = vmul perp (- E0 * gamma)) by (exact (Ev_alg perp E0 gamma)).
    rewrite EV, E_parts, norm_scaled by exact P. set (A := - E0 * gamma). assert (AP : 0 < Rabs A) by (apply Rabs_pos_lt; unfold A; assert (0 < E0 * gamma) by (apply Rmult_lt_0_compat; lra); lra).
    apply (Rmult_lt_reg_r (Rabs A)); [exact AP|]. unfold Rdiv at 1. rewrite Rmult_assoc, Rinv_l by lra. rewrite Rmult_1_r.
    eapply Rle_lt_trans; [apply triangle|]. rewrite !norm_scaled by assumption. rewrite Rabs_Ropp, !Rabs_mult.
    rewrite (Rabs_right (1 - k)) by lra. rewrite (Rabs_right k) by lra.
    assert (Rabs de * k <= 1 / 10000 * 1) by (apply Rmult_le_compat; [apply Rabs_pos|lra|exact HDe|lra]).
    replace (Rabs A * (1 - k) + Rabs A * Rabs de * k) with (Rabs A * (1 - k + Rabs de * k)) by ring. rewrite (Rmult_comm (1 / 1000)). apply Rmult_lt_compat_l; [exact AP|lra].
  - rewrite B_parts, B_scale, CK. 
    set (s := beta * c * - (1 / 1000000000000) * nmu0 / (4 * PI) / (1 / 1000 * (1 / 1000)) * gamma).
    assert (SN : s <> 0).
    { unfold s. cbn [nmu0 NumR]. change (10 ^ 7)%Z with 10000000%Z. pose proof PI_RGT_0. unfold c.
      replace (beta * 299792458 * - (1 / 1000000000000) * (4 * PI / 10000000) / (4 * PI) / (1 / 1000 * (1 / 1000)) * gamma)
        with (- (beta * gamma * (299792458 * (1 / 1000000000000) / 10000000 * 1000000))) by (field; lra).
      assert (0 < beta * gamma) by (apply Rmult_lt_0_compat; lra). lra. }
    assert (EB1 : Bv = vmul (vcross u perp) s).
    { unfold Bv, s. apply B_alg1. exact PI_RGT_0. }
    assert (EB2 : vmul (vcross (vmul u beta) (vmul perp (- E0 * gamma))) (/ 299792458) = vmul (vcross u perp) (s * / (nmu0 * neps0 * (299792458 * 299792458)))).
    { replace (- E0 * gamma) with (- (1 / 1000000000000 / (4 * PI * neps0 * (1 / 1000) * (1 / 1000)) / 1000000) * gamma / (1 / 1000 * (1 / 1000))) by (fold E0; field).
      unfold s, c. apply B_alg2; [exact PI_RGT_0|exact mu0_pos|exact eps0_pos]. }
    pose proof vacuum_constant as VC. change (@nc R NumR) with 299792458 in VC.
    rewrite EB2, EB1. clear EB2 EB1. revert VC. generalize (/ (@nmu0 R NumR * neps0 * (299792458 * 299792458))). intros k0 VC.
    rewrite B_diff, !norm_scaled by (apply cross_unit; assumption). rewrite Rabs_mult.
    replace (Rabs s * Rabs (1 - k0 * k) / Rabs s) with (Rabs (1 - k0 * k)) by (field; apply Rabs_no_R0; exact SN).
    apply Rabs_def2 in VC. apply Rabs_def1; nra.
Qed.
End Beside.
