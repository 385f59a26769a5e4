(* The emission point of RetardedField(time,observer) and the light cone. *)
From Coq Require Import ZArith Reals Lra Lia Psatz List Bool Ranalysis.
From Verif Require Import Base BaseFacts Num VecModel VecFacts ParticleModel ParticleSpec
  ParticleProofs ParticleProofs2 VaySpec VayProofs TraceModel RetardModel RetardSpec RetardProofs RetardProofs2 LightConeProofs.
Import ListNotations.
Local Open Scope R_scope.

(* time by which the signal of the interpolated point is late *)
Definition late (obs : vec R) (b1 b2 : tpoint R) (t a : R) : R := arrival obs (mix_point b1 b2 a) - t.

Lemma late_dist obs b1 b2 t a :
  late obs b1 b2 t a = tpt b1 + (tpt b2 - tpt b1) * a + dist (tpx b1) (tpx b2) obs a / nc - t.
Proof. reflexivity. Qed.

Lemma off_time_late obs b1 b2 t a : off_time t obs (tpt b1) (tpt b2) (tpx b1) (tpx b2) a = late obs b1 b2 t a.
Proof.
  unfold off_time, late, arrival. cbn [mix_point tpt tpx].
  change (nsub (nZ 1) a) with (1 - a). rewrite mix_code. unnum.
  change (nc (T := R)) with (@nc R NumR). f_equal. f_equal. ring.
Qed.

Lemma refine_rounds obs b1 b2 t k : forall x y e,
  refine k t obs (tpt b1) (tpt b2) (tpx b1) (tpx b2) x y e = rounds (late obs b1 b2 t) k x y e.
Proof.
  induction k as [|k IH]; intros x y e; [reflexivity|]. cbn [refine rounds].
  change (nltb (nZ 1 / nZ 100000)%num (nabs e)) with (Rltb (1 / 100000) (Rabs e)).
  destruct (Rltb (1 / 100000) (Rabs e)); [|reflexivity]. cbv zeta. rewrite IH, off_time_late. reflexivity.
Qed.

Lemma mix_0 (a b : vec R) : mix a b 0 = a.
Proof. unfold mix. revert a b. vring. Qed.
Lemma mix_1 (a b : vec R) : mix a b 1 = b.
Proof. unfold mix. revert a b. vring. Qed.
Lemma late_0 obs b1 b2 t : late obs b1 b2 t 0 = arrival obs b1 - t.
Proof. unfold late, arrival. cbn [mix_point tpt tpx]. rewrite mix_0. ring. Qed.
Lemma late_1 obs b1 b2 t : late obs b1 b2 t 1 = arrival obs b2 - t.
Proof. unfold late, arrival. cbn [mix_point tpt tpx]. rewrite mix_1. ring. Qed.

(* the fraction which the program uses *)
Definition found (obs : vec R) (b1 b2 : tpoint R) (t : R) : R :=
  let f := late obs b1 b2 t in
  let k := f 1 - f 0 in let x := - f 0 / k in
  let '(x', e') := rounds f 9 x (f x) (f x / k) in x' - e'.

(* inside the time range seen from the trajectory, with the fraction *)
Lemma light_cone_found (p : particle R) t obs a z :
  wf p -> nth_error (trajectory p) 0 = Some a ->
  nth_error (trajectory p) (length (trajectory p) - 1) = Some z ->
  arrival obs a < t -> t <= arrival obs z ->
  exists j b1 b2,
    nth_error (trajectory p) j = Some b1 /\ nth_error (trajectory p) (S j) = Some b2 /\
    arrival obs b1 < t /\ t <= arrival obs b2 /\
    RetardedField_time p t obs = Ok (point_field (pCharge p) (mix_point b1 b2 (found obs b1 b2 t)) obs).
Proof.
  intros Hw Ha Hz L1 L2. pose proof (trajectory_length p Hw) as HL.
  assert (Hl : (0 < length (trajectory p))%nat) by (apply nth_error_Some; congruence).
  assert (Hl2 : (1 < length (trajectory p))%nat).
  { destruct (Nat.eq_dec (length (trajectory p)) 1) as [E|]; [|lia].
    rewrite E in Hz. cbn [Nat.sub] in Hz. rewrite Ha in Hz. injection Hz as <-. lra. }
  assert (HN : (pNP p - 1)%Z = Z.of_nat (length (trajectory p) - 1)) by lia.
  unfold RetardedField_time. destruct (Z.ltb_spec (pNP p) 1); [lia|].
  rewrite (seen_arrival p 0 a obs t Ha : seen p t obs 0 = _). cbn [bind].
  rewrite HN, (seen_arrival p _ z obs t Hz). cbn [bind].
  change (nleb (t - arrival obs z) (nZ 0)) with (Rleb (t - arrival obs z) 0).
  destruct (Rleb_spec (t - arrival obs z) 0); [|lra].
  change (nleb (t - arrival obs a) (nZ 0)) with (Rleb (t - arrival obs a) 0).
  destruct (Rleb_spec (t - arrival obs a) 0); [lra|].
  destruct (bisect_seen_spec (Z.to_nat (pNP p)) p t obs 0 (length (trajectory p) - 1) a z
             (t - arrival obs a) (t - arrival obs z) Hw) as (j & b1 & b2 & B & N1 & N2 & M1 & M2);
    auto; try lia.
  change (Z.of_nat 0) with 0%Z in B. rewrite B. cbn [bind]. cbv iota.
  destruct (nth_trajectory p j b1 N1) as (A1 & A2 & A3 & A4).
  destruct (nth_trajectory p (S j) b2 N2) as (C1 & C2 & C3 & C4).
  rewrite (zget_nth _ _ _ A1), (zget_nth _ _ _ A2), (zget_nth _ _ _ C1), (zget_nth _ _ _ C2). cbn [bind].
  assert (K : forall k, k = late obs b1 b2 t 1 - late obs b1 b2 t 0 ->
     ndiv (t - arrival obs b1) (nsub (t - arrival obs b1) (t - arrival obs b2)) = - late obs b1 b2 t 0 / k).
  { intros k ->. rewrite late_0, late_1.
    change ((t - arrival obs b1) / ((t - arrival obs b1) - (t - arrival obs b2)) = - (arrival obs b1 - t) / (arrival obs b2 - t - (arrival obs b1 - t))).
    f_equal; ring. }
  assert (K2 : ((tpt b2 - tpt b1) + (vnorm (vsub obs (tpx b2)) - vnorm (vsub obs (tpx b1))) / nc)%num = late obs b1 b2 t 1 - late obs b1 b2 t 0).
  { rewrite late_0, late_1. unfold arrival.
    change ((tpt b2 - tpt b1) + (vnorm (vsub obs (tpx b2)) - vnorm (vsub obs (tpx b1))) / nc =
      tpt b2 + vnorm (vsub obs (tpx b2)) / nc - t - (tpt b1 + vnorm (vsub obs (tpx b1)) / nc - t)). unfold Rdiv. ring. }
  rewrite K2, (K _ eq_refl), refine_rounds, off_time_late.
  change (ndiv (late obs b1 b2 t (- late obs b1 b2 t 0 / (late obs b1 b2 t 1 - late obs b1 b2 t 0))) (late obs b1 b2 t 1 - late obs b1 b2 t 0))
    with (late obs b1 b2 t (- late obs b1 b2 t 0 / (late obs b1 b2 t 1 - late obs b1 b2 t 0)) / (late obs b1 b2 t 1 - late obs b1 b2 t 0)).
  exists j, b1, b2. repeat (split; [assumption|]). unfold found.
  destruct (rounds _ _ _ _ _) as [fr dfr].
  rewrite (zget_nth _ _ _ A3), (zget_nth _ _ _ A4), (zget_nth _ _ _ C3), (zget_nth _ _ _ C4). cbn [bind].
  f_equal. unfold point_field.
  change (nsub fr dfr) with (fr - dfr). generalize (fr - dfr). intros f.
  change (nsub (nZ 1) f) with (1 - f). rewrite !mix_code.
  change (vabs2 (mix (tpp b1) (tpp b2) f) + nZ 1)%num with (vabs2 (mix (tpp b1) (tpp b2) f) + 1).
  change (nsqrt (vabs2 (mix (tpp b1) (tpp b2) f) + 1)) with (sqrt (vabs2 (mix (tpp b1) (tpp b2) f) + 1)).
  rewrite code_gamma.
  change (vdiv (mix (tpp b1) (tpp b2) f) (gamma_of (mix (tpp b1) (tpp b2) f)))
    with (beta_of (mix (tpp b1) (tpp b2) f)).
  rewrite radiated_lw; [reflexivity|]. rewrite gamma_of_sq. apply Rplus_comm.
Qed.

(* ---- slopes ---- *)
Section Interval.
Variables (obs : vec R) (b1 b2 : tpoint R) (t : R).
Notation f := (late obs b1 b2 t).
Notation len := (vnorm (vsub (tpx b2) (tpx b1))).
Notation h := (tpt b2 - tpt b1).
Hypothesis slow : slower_than_light b1 b2.

Lemma len_small : len < nc * h.
Proof. exact slow. Qed.

Lemma late_diff a b : f b - f a = h * (b - a) + (dist (tpx b1) (tpx b2) obs b - dist (tpx b1) (tpx b2) obs a) / nc.
Proof. rewrite !late_dist. unfold Rdiv. ring. Qed.

Lemma late_low a b : a <= b -> (h - len / nc) * (b - a) <= f b - f a.
Proof.
  intros L. rewrite late_diff. pose proof nc_pos as Hc.
  pose proof (dist_lipschitz (tpx b1) (tpx b2) obs a b) as D.
  rewrite (Rabs_right (b - a)) in D by lra.
  assert (E : - ((b - a) * len) <= dist (tpx b1) (tpx b2) obs b - dist (tpx b1) (tpx b2) obs a).
  { pose proof (Rle_abs (- (dist (tpx b1) (tpx b2) obs b - dist (tpx b1) (tpx b2) obs a))) as K. rewrite Rabs_Ropp in K. lra. }
  apply (Rmult_le_compat_r (/ nc)) in E; [|left; apply Rinv_0_lt_compat, Hc]. unfold Rdiv in *. lra.
Qed.

Lemma late_high a b : Rabs (f b - f a) <= (h + len / nc) * Rabs (b - a).
Proof.
  rewrite late_diff. pose proof nc_pos as Hc. pose proof len_small as Hl. pose proof (vnorm_nonneg (vsub (tpx b2) (tpx b1))) as Pl.
  assert (Hh : 0 < h) by (apply (Rmult_lt_reg_l nc); lra).
  pose proof (dist_lipschitz (tpx b1) (tpx b2) obs a b) as D.
  eapply Rle_trans; [apply Rabs_triang|]. unfold Rdiv. rewrite !Rabs_mult, (Rabs_right h) by lra.
  rewrite (Rabs_right (/ nc)) by (left; apply Rinv_0_lt_compat, Hc).
  apply (Rmult_le_compat_r (/ nc)) in D; [|left; apply Rinv_0_lt_compat, Hc]. lra.
Qed.

Lemma low_pos : 0 < h - len / nc.
Proof.
  pose proof nc_pos as Hc. pose proof len_small as Hl. apply (Rmult_lt_reg_l nc); [exact Hc|].
  replace (nc * (h - len / nc)) with (nc * h - len) by (field; lra). lra.
Qed.

(* a point of the segment is on the light cone *)
Lemma cone_exists : arrival obs b1 < t -> t <= arrival obs b2 -> exists u, 0 < u <= 1 /\ f u = 0.
Proof.
  intros A B.
  assert (F0 : f 0 < 0) by (rewrite late_0; lra). assert (F1 : 0 <= f 1) by (rewrite late_1; lra).
  assert (C : continuity f).
  { intros x. unfold continuity_pt, continue_in, limit1_in, limit_in. intros eps He.
    pose proof low_pos as Lp. pose proof nc_pos as Hc. pose proof (vnorm_nonneg (vsub (tpx b2) (tpx b1))) as Pl.
    assert (Hh : 0 < h + len / nc) by (assert (0 <= len / nc) by (apply Rmult_le_pos; [exact Pl|left; apply Rinv_0_lt_compat, Hc]); lra).
    exists (eps / (h + len / nc)). split; [apply Rdiv_lt_0_compat; lra|]. intros y [_ Hy]. change (Rabs (y - x) < eps / (h + len / nc)) in Hy. change (Rabs (f y - f x) < eps).
    eapply Rle_lt_trans; [apply late_high|]. apply (Rmult_lt_compat_l (h + len / nc)) in Hy; [|exact Hh].
    replace ((h + len / nc) * (eps / (h + len / nc))) with eps in Hy by (revert Hh; generalize (h + len / nc); intros k Hk; field; lra). exact Hy. }
  destruct (Req_dec (f 1) 0) as [E|E]; [exists 1; split; [lra|exact E]|].
  destruct (IVT f 0 1 C ltac:(lra) F0 ltac:(lra)) as (u & Hu & Fu). exists u. split; [|exact Fu].
  split; [|tauto]. destruct Hu as [[Hu|Hu] _]; [exact Hu|]. subst u. lra.
Qed.

Lemma cone_unique u v : f u = 0 -> f v = 0 -> u = v.
Proof.
  intros A B. pose proof low_pos as P. destruct (Rtotal_order u v) as [L|[E|L]]; [|exact E|].
  - pose proof (late_low u v ltac:(lra)) as K. rewrite A, B in K. nra.
  - pose proof (late_low v u ltac:(lra)) as K. rewrite A, B in K. nra.
Qed.

Lemma found_close q u : 0 <= q <= 1/2 -> 0 < vnorm (vsub obs (tpx b1)) ->
  6 * (len * len) <= q * vnorm (vsub obs (tpx b1)) * (nc * h - len) ->
  0 <= u <= 1 -> f u = 0 -> Rabs (found obs b1 b2 t - u) <= 2 * q / 100000 + q ^ 11.
Proof.
  intros Hq Hr Hd Hu Fu. pose proof nc_pos as Hc. unfold found.
  assert (R0 : dist (tpx b1) (tpx b2) obs 0 = vnorm (vsub obs (tpx b1))) by (unfold dist, at_, away; rewrite mix_0; reflexivity).
  pose proof (secant_result f (h - len / nc)
    (h + (- (vdot (vsub (tpx b2) (tpx b1)) (at_ (tpx b1) (tpx b2) obs 0) / dist (tpx b1) (tpx b2) obs 0)) / nc)
    (3 * (len * len) / dist (tpx b1) (tpx b2) obs 0 / nc) q u low_pos (fun a b _ _ => late_low a b)) as S.
  cbv zeta in S. destruct (rounds _ _ _ _ _) as [x' e']. apply S; clear S.
  - intros a b Ha Hb. rewrite late_diff. unfold near in Ha, Hb.
    pose proof (dist_slope (tpx b1) (tpx b2) obs a b ltac:(rewrite R0; exact Hr) ltac:(apply Rabs_le; lra) ltac:(apply Rabs_le; lra)) as D.
    apply (Rmult_le_compat_r (/ nc)) in D; [|left; apply Rinv_0_lt_compat, Hc].
    rewrite <- (Rabs_right (/ nc)) in D at 1 by (left; apply Rinv_0_lt_compat, Hc). rewrite <- Rabs_mult in D.
    match goal with |- Rabs ?x <= ?y => match type of D with Rabs ?x' <= ?y' => replace x with x' by (unfold Rdiv; ring); replace y with y' by (unfold Rdiv; ring) end end.
    exact D.
  - exact Hq.
  - rewrite R0. apply (Rmult_le_reg_r (nc * vnorm (vsub obs (tpx b1)))); [apply Rmult_lt_0_compat; assumption|].
    replace (2 * (3 * (len * len) / vnorm (vsub obs (tpx b1)) / nc) * (nc * vnorm (vsub obs (tpx b1)))) with (6 * (len * len)) by (field; split; lra).
    replace (q * (h - len / nc) * (nc * vnorm (vsub obs (tpx b1)))) with (q * vnorm (vsub obs (tpx b1)) * (nc * h - len)) by (field; lra).
    exact Hd.
  - exact Hu.
  - exact Fu.
Qed.
End Interval.
