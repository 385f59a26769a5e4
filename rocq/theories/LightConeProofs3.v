(* The emission point of RetardedField(time,observer): the slopes at the ends of the interval. *)
From Coq Require Import ZArith Reals Lra Lia Psatz List Bool.
From Verif Require Import Base BaseFacts Num VecModel VecFacts ParticleModel ParticleSpec
  ParticleProofs ParticleProofs2 VaySpec VayProofs TraceModel RetardModel RetardSpec RetardProofs RetardProofs2 LightConeProofs LightConeProofs2.
Import ListNotations.
Local Open Scope R_scope.

(* slopes between m and M *)
Lemma secant_between (f : R -> R) m M q u : 0 < m ->
  (forall a b, near a -> near b -> a <= b -> m * (b - a) <= f b - f a <= M * (b - a)) ->
  0 <= q <= 1/2 -> M <= (1 + q) * m -> 0 <= u <= 1 -> f u = 0 ->
  let k := f 1 - f 0 in let x := - f 0 / k in
  let '(x', e') := rounds f 9 x (f x) (f x / k) in
  Rabs (x' - e' - u) <= 2 * q / 100000 + q ^ 11.
Proof.
  intros Hm HS Hq HM Hu Fu.
  apply (secant_result f m ((m + M) / 2) ((M - m) / 2) q u Hm (fun a b A B L => proj1 (HS a b A B L))); auto; [|lra].
  assert (G : forall a b, near a -> near b -> a <= b -> Rabs (f b - f a - (b - a) * ((m + M) / 2)) <= (b - a) * ((M - m) / 2)).
  { intros a b A B L. pose proof (HS a b A B L) as H. apply Rabs_le. split; nra. }
  intros a b A B. destruct (Rle_dec a b) as [L|L].
  - rewrite (Rabs_right (b - a)) by lra. apply G; assumption.
  - rewrite (Rabs_left (b - a)) by lra. rewrite <- Rabs_Ropp.
    replace (- (f b - f a - (b - a) * ((m + M) / 2))) with (f a - f b - (a - b) * ((m + M) / 2)) by ring.
    replace (- (b - a)) with (a - b) by ring. apply G; [assumption|assumption|lra].
Qed.

Lemma away_dot x1 x2 obs a b : vdot (away x1 x2 obs b) (away x1 x2 obs a) =
  vabs2 (away x1 x2 obs a) - (b - a) * vdot (vsub x2 x1) (away x1 x2 obs a).
Proof. unfold away, mix. revert x1 x2 obs a b. intros. vdestr. vunfold. unnum. ring. Qed.
Lemma away_mix x1 x2 obs p a b : vmul (away x1 x2 obs a) (b - p) =
  vadd (vmul (away x1 x2 obs p) (b - a)) (vmul (away x1 x2 obs b) (a - p)).
Proof. unfold away, mix. revert x1 x2 obs p a b. vring. Qed.

Section Convex.
Variables (x1 x2 obs : vec R).
Notation D := (dist x1 x2 obs).
Notation W a := (vdot (vsub x2 x1) (away x1 x2 obs a)).
Lemma dist_tangent a b : 0 < D a -> - (b - a) * (W a / D a) <= D b - D a.
Proof.
  intros P. pose proof (away_dot x1 x2 obs a b) as E. rewrite <- vnorm_sq in E.
  change (vnorm (away x1 x2 obs a)) with (D a) in E.
  assert (C : vdot (away x1 x2 obs b) (away x1 x2 obs a) <= D b * D a).
  { pose proof (cauchy_schwarz (away x1 x2 obs b) (away x1 x2 obs a)) as K. pose proof (Rle_abs (vdot (away x1 x2 obs b) (away x1 x2 obs a))). unfold dist, at_. lra. }
  rewrite E in C. apply (Rmult_le_reg_r (D a)); [exact P|].
  replace (- (b - a) * (W a / D a) * D a) with (- (b - a) * W a) by (field; lra). lra.
Qed.
Lemma dist_convex p a b : p <= a -> a <= b -> (b - p) * D a <= (b - a) * D p + (a - p) * D b.
Proof.
  intros L1 L2. pose proof (f_equal vnorm (away_mix x1 x2 obs p a b)) as E.
  pose proof (triangle (vmul (away x1 x2 obs p) (b - a)) (vmul (away x1 x2 obs b) (a - p))) as T.
  rewrite <- E, !vnorm_mul, !Rabs_right in T by lra. unfold dist, at_. lra.
Qed.
Lemma dist_slope_low p a b : 0 < D p -> p <= a -> a <= b -> - (b - a) * (W p / D p) <= D b - D a.
Proof.
  intros P L1 L2. destruct (Req_dec a p) as [->|N]; [apply dist_tangent; exact P|].
  pose proof (dist_convex p a b L1 L2) as C. pose proof (dist_tangent p a P) as T.
  apply (Rmult_le_reg_r (a - p)); [lra|].
  assert ((b - a) * (- (a - p) * (W p / D p)) <= (b - a) * (D a - D p)) by (apply Rmult_le_compat_l; lra). lra.
Qed.
Lemma dist_slope_high z a b : 0 < D z -> a <= b -> b <= z -> D b - D a <= - (b - a) * (W z / D z).
Proof.
  intros P L1 L2. destruct (Req_dec b z) as [->|N].
  { pose proof (dist_tangent z a P) as T. lra. }
  pose proof (dist_convex a b z L1 L2) as C. pose proof (dist_tangent z b P) as T.
  apply (Rmult_le_reg_r (z - b)); [lra|].
  assert ((b - a) * (D z - D b) <= (b - a) * (- (z - b) * (W z / D z))) by (apply Rmult_le_compat_l; lra). lra.
Qed.
End Convex.

Section Slopes.
Variables (obs : vec R) (b1 b2 : tpoint R) (t : R).
Notation f := (late obs b1 b2 t).
Notation len := (vnorm (vsub (tpx b2) (tpx b1))).
Notation h := (tpt b2 - tpt b1).
Hypothesis slow : slower_than_light b1 b2.
(* light path gained per interval, for a source at fraction a *)
Definition gain (a : R) : R :=
  nc * h - vdot (vsub (tpx b2) (tpx b1)) (vsub obs (tpx (mix_point b1 b2 a))) / vnorm (vsub obs (tpx (mix_point b1 b2 a))).

Lemma gain_pos a : 0 < vnorm (vsub obs (tpx (mix_point b1 b2 a))) -> 0 < gain a.
Proof.
  intros P. unfold gain. pose proof (len_small b1 b2 slow) as L.
  pose proof (cauchy_schwarz (vsub (tpx b2) (tpx b1)) (vsub obs (tpx (mix_point b1 b2 a)))) as C.
  pose proof (Rle_abs (vdot (vsub (tpx b2) (tpx b1)) (vsub obs (tpx (mix_point b1 b2 a))))) as A.
  assert (vdot (vsub (tpx b2) (tpx b1)) (vsub obs (tpx (mix_point b1 b2 a))) / vnorm (vsub obs (tpx (mix_point b1 b2 a))) <= len).
  { apply (Rmult_le_reg_r (vnorm (vsub obs (tpx (mix_point b1 b2 a))))); [exact P|]. unfold Rdiv. rewrite Rmult_assoc, Rinv_l by lra. lra. }
  lra.
Qed.

Lemma found_slopes q u : 0 <= q <= 1/2 ->
  0 < vnorm (vsub obs (tpx (mix_point b1 b2 (- (1/2))))) -> 0 < vnorm (vsub obs (tpx (mix_point b1 b2 (3/2)))) ->
  gain (3/2) <= (1 + q) * gain (- (1/2)) ->
  0 <= u <= 1 -> f u = 0 -> Rabs (found obs b1 b2 t - u) <= 2 * q / 100000 + q ^ 11.
Proof.
  intros Hq P1 P2 HG Hu Fu. pose proof nc_pos as Hc. unfold found.
  pose proof (secant_between f (gain (- (1/2)) / nc) (gain (3/2) / nc) q u) as S.
  cbv zeta in S. destruct (rounds _ _ _ _ _) as [x' e']. apply S; clear S; auto.
  - apply Rdiv_lt_0_compat; [apply gain_pos, P1|exact Hc].
  - intros a b A B L. unfold near in A, B. rewrite (late_diff obs b1 b2 t).
    pose proof (dist_slope_low (tpx b1) (tpx b2) obs (- (1/2)) a b P1 ltac:(lra) L) as S1.
    pose proof (dist_slope_high (tpx b1) (tpx b2) obs (3/2) a b P2 L ltac:(lra)) as S2.
    change (dist (tpx b1) (tpx b2) obs (- (1/2))) with (vnorm (vsub obs (tpx (mix_point b1 b2 (- (1/2)))))) in S1.
    change (away (tpx b1) (tpx b2) obs (- (1/2))) with (vsub obs (tpx (mix_point b1 b2 (- (1/2))))) in S1.
    change (dist (tpx b1) (tpx b2) obs (3/2)) with (vnorm (vsub obs (tpx (mix_point b1 b2 (3/2))))) in S2.
    change (away (tpx b1) (tpx b2) obs (3/2)) with (vsub obs (tpx (mix_point b1 b2 (3/2)))) in S2.
    unfold gain. revert S1 S2. 
    generalize (vdot (vsub (tpx b2) (tpx b1)) (vsub obs (tpx (mix_point b1 b2 (- (1/2))))) / vnorm (vsub obs (tpx (mix_point b1 b2 (- (1/2)))))).
    generalize (vdot (vsub (tpx b2) (tpx b1)) (vsub obs (tpx (mix_point b1 b2 (3/2)))) / vnorm (vsub obs (tpx (mix_point b1 b2 (3/2))))).
    generalize (dist (tpx b1) (tpx b2) obs b - dist (tpx b1) (tpx b2) obs a). intros y w2 w1 S1 S2.
    split; (apply (Rmult_le_reg_r nc); [exact Hc|]).
    + replace ((nc * h - w1) / nc * (b - a) * nc) with ((nc * h - w1) * (b - a)) by (field; lra).
      replace ((h * (b - a) + y / nc) * nc) with (nc * h * (b - a) + y) by (field; lra). lra.
    + replace ((nc * h - w2) / nc * (b - a) * nc) with ((nc * h - w2) * (b - a)) by (field; lra).
      replace ((h * (b - a) + y / nc) * nc) with (nc * h * (b - a) + y) by (field; lra). lra.
  - unfold Rdiv. rewrite <- Rmult_assoc. apply Rmult_le_compat_r; [left; apply Rinv_0_lt_compat, Hc|exact HG].
Qed.

Lemma found_slow q u : 0 <= q <= 1/2 -> 2 * len <= q * (nc * h - len) ->
  0 <= u <= 1 -> f u = 0 -> Rabs (found obs b1 b2 t - u) <= 2 * q / 100000 + q ^ 11.
Proof.
  intros Hq HL Hu Fu. pose proof nc_pos as Hc. unfold found.
  pose proof (secant_between f (h - len / nc) (h + len / nc) q u (low_pos b1 b2 slow)) as S.
  cbv zeta in S. destruct (rounds _ _ _ _ _) as [x' e']. apply S; clear S; auto.
  - intros a b _ _ L. split; [apply late_low; exact L|].
    pose proof (late_high obs b1 b2 t slow a b) as H. rewrite (Rabs_right (b - a)) in H by lra.
    eapply Rle_trans; [apply Rle_abs|exact H].
  - apply (Rmult_le_reg_r nc); [exact Hc|].
    replace ((h + len / nc) * nc) with (nc * h + len) by (field; lra).
    replace ((1 + q) * (h - len / nc) * nc) with ((1 + q) * (nc * h - len)) by (field; lra). lra.
Qed.
End Slopes.
