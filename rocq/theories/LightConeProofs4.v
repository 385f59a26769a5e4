(* A charge in uniform motion: the field found is its field at a time close to the time asked for. *)
From Coq Require Import ZArith Reals Lra Lia Psatz List Bool.
From Verif Require Import Base BaseFacts Num VecModel VecFacts ParticleModel ParticleSpec
  ParticleProofs ParticleProofs2 VaySpec VayProofs TraceModel RetardModel RetardSpec RetardProofs RetardProofs2 LightConeProofs LightConeProofs2 LightConeProofs3.
Import ListNotations.
Local Open Scope R_scope.

Lemma line_diff (obs x0 b : vec R) k s t : vsub (vsub obs (vadd x0 (vmul b (k * s)))) (vsub obs (vadd x0 (vmul b (k * t)))) = vmul b (k * (t - s)).
Proof. revert obs x0 b k s t. vring. Qed.
Lemma now_alg (x0 b : vec R) k s r : vadd x0 (vmul b (k * s + r)) = vadd (vadd x0 (vmul b (k * s))) (vmul b r).
Proof. revert x0 b k s r. vring. Qed.

Lemma vnorm_lt1 (b : vec R) : vabs2 b < 1 -> vnorm b < 1.
Proof. intros H. rewrite vnorm_sqrt, <- sqrt_1. apply sqrt_lt_1_alt. split; [apply vabs2_nonneg|exact H]. Qed.

(* the field emitted at time ts is that of the moving charge at the time of its arrival *)
Lemma lw_uniform charge x0 m ts obs :
  let b := beta_of m in let x := vadd x0 (vmul b (nc * ts)) in let t' := ts + vnorm (vsub obs x) / nc in
  let e := heaviside charge (vadd x0 (vmul b (nc * t'))) b obs in
  0 < vnorm (vsub obs x) ->
  with_magnetic x obs (lienard_wiechert charge x b vzero obs) = EB e (vmul (vcross b e) (/ nc)).
Proof.
  intros b x t' e Hr. pose proof nc_pos as Hc. pose proof (vnorm_lt1 _ (beta_abs2_lt m)) as Hb. fold b in Hb. pose proof (vnorm_nonneg b) as Hb0.
  assert (Hnow : obs <> vadd x0 (vmul b (nc * t'))).
  { intros E. assert (R : vsub obs x = vmul b (vnorm (vsub obs x))).
    { rewrite E at 1. unfold t'. replace (nc * (ts + vnorm (vsub obs x) / nc)) with (nc * ts + vnorm (vsub obs x)) by (field; lra).
      rewrite now_alg. fold x. generalize (vmul b (vnorm (vsub obs x))). generalize x. clear. vring. }
    apply (f_equal vnorm) in R. rewrite vnorm_mul, Rabs_right in R by lra. nra. }
  destruct (uniform_motion charge x0 m t' obs Hnow) as (A & B & C). fold b in A, B, C.
  set (T := emission b (vdiv (vsub obs x0) nc) t') in *.
  assert (ET : T = ts).
  { assert (E1 : vnorm (vsub obs x) = nc * (t' - ts)) by (unfold t'; field; lra).
    assert (D : forall s s', vnorm (vsub obs (vadd x0 (vmul b (nc * s)))) <= vnorm (vsub obs (vadd x0 (vmul b (nc * s')))) + vnorm b * (nc * Rabs (s' - s))).
    { intros s s'. pose proof (triangle (vsub obs (vadd x0 (vmul b (nc * s')))) (vsub (vsub obs (vadd x0 (vmul b (nc * s)))) (vsub obs (vadd x0 (vmul b (nc * s')))))) as K.
      rewrite <- (sub_add (vsub obs (vadd x0 (vmul b (nc * s')))) (vsub obs (vadd x0 (vmul b (nc * s))))) in K.
      rewrite line_diff, vnorm_mul, Rabs_mult, (Rabs_right nc) in K by lra. rewrite (Rmult_comm (vnorm b)). exact K. }
    pose proof (D T ts) as D1. pose proof (D ts T) as D2. fold x in D1, D2. rewrite E1, A in D1, D2.
    destruct (Rtotal_order T ts) as [L|[L|L]]; [|exact L|]; exfalso.
    - rewrite (Rabs_right (ts - T)) in D1 by lra. assert (vnorm b * (nc * (ts - T)) < 1 * (nc * (ts - T))) by (apply Rmult_lt_compat_r; [apply Rmult_lt_0_compat; lra|exact Hb]). lra.
    - rewrite (Rabs_right (T - ts)) in D2 by lra. assert (vnorm b * (nc * (T - ts)) < 1 * (nc * (T - ts))) by (apply Rmult_lt_compat_r; [apply Rmult_lt_0_compat; lra|exact Hb]). lra. }
  rewrite ET in C. exact C.
Qed.

Lemma mix_const (m : vec R) a : mix m m a = m.
Proof. unfold mix. revert m a. vring. Qed.
Lemma mix_line (x0 b : vec R) k s t a : mix (vadd x0 (vmul b (k * s))) (vadd x0 (vmul b (k * t))) a = vadd x0 (vmul b (k * (s + (t - s) * a))).
Proof. unfold mix. revert x0 b k s t a. vring. Qed.
Lemma mul_zero (k : R) : vmul vzero k = vzero.
Proof. revert k. vring. Qed.

Lemma uniform_point charge x0 m b1 b2 a obs :
  (forall b, b = b1 \/ b = b2 -> tpp b = m /\ tpa b = vzero /\ tpx b = vadd x0 (vmul (beta_of m) (nc * tpt b))) ->
  (forall s, obs <> vadd x0 (vmul (beta_of m) s)) ->
  let t' := arrival obs (mix_point b1 b2 a) in let e := heaviside charge (vadd x0 (vmul (beta_of m) (nc * t'))) (beta_of m) obs in
  point_field charge (mix_point b1 b2 a) obs = EB e (vmul (vcross (beta_of m) e) (/ nc)).
Proof.
  intros HU HO. destruct (HU b1 (or_introl eq_refl)) as (P1 & A1 & X1). destruct (HU b2 (or_intror eq_refl)) as (P2 & A2 & X2).
  cbv zeta. unfold point_field, arrival. cbn [mix_point tpt tpx tpp tpa]. rewrite P1, P2, A1, A2, X1, X2, !mix_const, mix_line, mul_zero.
  apply lw_uniform. apply vnorm_pos. intros E. apply (HO (nc * (tpt b1 + (tpt b2 - tpt b1) * a))).
  rewrite (sub_add (vadd x0 (vmul (beta_of m) (nc * (tpt b1 + (tpt b2 - tpt b1) * a)))) obs), E. generalize (vadd x0 (vmul (beta_of m) (nc * (tpt b1 + (tpt b2 - tpt b1) * a)))). clear. vring.
Qed.

(* the time of arrival, with the slope *)
Lemma found_time obs b1 b2 t q u : slower_than_light b1 b2 -> 0 <= q <= 1/2 ->
  0 < vnorm (vsub obs (tpx (mix_point b1 b2 (- (1/2))))) -> 0 < vnorm (vsub obs (tpx (mix_point b1 b2 (3/2)))) ->
  gain obs b1 b2 (3/2) <= (1 + q) * gain obs b1 b2 (- (1/2)) ->
  0 <= u <= 1 -> late obs b1 b2 t u = 0 ->
  Rabs (arrival obs (mix_point b1 b2 (found obs b1 b2 t)) - t) <= gain obs b1 b2 (3/2) / nc * (2 * q / 100000 + q ^ 11).
Proof.
  intros S Hq P1 P2 HG Hu Fu. pose proof nc_pos as Hc.
  pose proof (found_slopes obs b1 b2 t S q u Hq P1 P2 HG Hu Fu) as C. set (v := found obs b1 b2 t) in *.
  assert (Q : q ^ 11 <= 1/2 * (1/2)).
  { assert (q ^ 11 <= (1/2) ^ 11) by (apply pow_incr; exact Hq). assert ((1/2) ^ 11 <= 1/4) by (cbn [pow]; lra). lra. }
  assert (Hv : near v).
  { apply (close_near u ltac:(lra)). lra. }
  change (Rabs (late obs b1 b2 t v) <= gain obs b1 b2 (3/2) / nc * (2 * q / 100000 + q ^ 11)).
  assert (HI : forall a b, near a -> near b -> a <= b -> 0 <= late obs b1 b2 t b - late obs b1 b2 t a <= gain obs b1 b2 (3/2) / nc * (b - a)).
  { intros a b A B L. unfold near in A, B. rewrite (late_diff obs b1 b2 t). split.
    - pose proof (late_low obs b1 b2 t a b L) as K. rewrite late_diff in K. pose proof (low_pos b1 b2 S).
      eapply Rle_trans; [|exact K]. apply Rmult_le_pos; lra.
    - pose proof (dist_slope_high (tpx b1) (tpx b2) obs (3/2) a b P2 L ltac:(lra)) as S2.
      change (dist (tpx b1) (tpx b2) obs (3/2)) with (vnorm (vsub obs (tpx (mix_point b1 b2 (3/2))))) in S2.
      change (away (tpx b1) (tpx b2) obs (3/2)) with (vsub obs (tpx (mix_point b1 b2 (3/2)))) in S2.
      unfold gain. revert S2. 
      generalize (vdot (vsub (tpx b2) (tpx b1)) (vsub obs (tpx (mix_point b1 b2 (3/2)))) / vnorm (vsub obs (tpx (mix_point b1 b2 (3/2))))).
      generalize (dist (tpx b1) (tpx b2) obs b - dist (tpx b1) (tpx b2) obs a). intros y w2 S2.
      apply (Rmult_le_reg_r nc); [exact Hc|].
      replace ((nc * (tpt b2 - tpt b1) - w2) / nc * (b - a) * nc) with ((nc * (tpt b2 - tpt b1) - w2) * (b - a)) by (field; lra).
      replace (((tpt b2 - tpt b1) * (b - a) + y / nc) * nc) with (nc * (tpt b2 - tpt b1) * (b - a) + y) by (field; lra). lra. }
  assert (GP : 0 < gain obs b1 b2 (3/2) / nc) by (apply Rdiv_lt_0_compat; [apply (gain_pos obs b1 b2 S), P2|exact Hc]).
  assert (NU : near u) by (unfold near; lra).
  apply Rle_trans with (gain obs b1 b2 (3/2) / nc * Rabs (v - u)); [|apply Rmult_le_compat_l; lra].
  destruct (Rle_dec u v) as [L|L].
  - pose proof (HI u v NU Hv L) as K. rewrite Fu in K. rewrite !Rabs_right by lra. lra.
  - pose proof (HI v u Hv NU ltac:(lra)) as K. rewrite Fu in K. rewrite !Rabs_left1 by lra. lra.
Qed.
