(* C94: observers close to the trajectory. *)
From Coq Require Import ZArith Reals Lra Lia Psatz List Bool.
From Verif Require Import Base BaseFacts Num VecModel VecFacts ParticleModel ParticleSpec
  ParticleProofs ParticleProofs2 VaySpec VayProofs TraceModel RetardModel RetardSpec RetardProofs RetardProofs2 LightConeProofs LightConeProofs2 LightConeProofs3 LightConeProofs4 PropLightCone.
Import ListNotations.
Local Open Scope R_scope.

(* As C94_light_cone, with a condition on the slopes instead of the distance.  G a is c times the derivative
   of the arrival time with respect to the fraction a: c h - (x2 - x1).n, n the direction from the point with fraction a to the
   observer.  The arrival time is convex, so it is enough that its slope half an interval behind the end
   is at most 1 + q times the slope half an interval before the start. *)
Theorem C94_slopes : forall (p : particle R) t obs a z,
  wf p -> subluminal (trajectory p) -> nth_error (trajectory p) 0 = Some a ->
  nth_error (trajectory p) (length (trajectory p) - 1) = Some z ->
  arrival obs a < t -> t <= arrival obs z ->
  exists j b1 b2 u v,
    nth_error (trajectory p) j = Some b1 /\ nth_error (trajectory p) (S j) = Some b2 /\
    0 < u <= 1 /\ arrival obs (mix_point b1 b2 u) = t /\
    RetardedField_time p t obs = Ok (point_field (pCharge p) (mix_point b1 b2 v) obs) /\
    let h := tpt b2 - tpt b1 in
    let X a := vadd (vmul (tpx b1) (1 - a)) (vmul (tpx b2) a) in
    let G a := 299792458 * h - vdot (vsub (tpx b2) (tpx b1)) (vsub obs (X a)) / vnorm (vsub obs (X a)) in
    forall q, 0 <= q <= 1/2 -> obs <> X (- (1/2)) -> obs <> X (3/2) -> G (3/2) <= (1 + q) * G (- (1/2)) ->
      Rabs (v - u) <= 2 * q / 100000 + q ^ 11.
Proof.
  intros p t obs a z Hw Hs Ha Hz L1 L2.
  destruct (light_cone_found p t obs a z Hw Ha Hz L1 L2) as (j & b1 & b2 & N1 & N2 & M1 & M2 & E).
  pose proof (Hs j b1 b2 N1 N2) as S. destruct (cone_exists obs b1 b2 t S M1 M2) as (u & Hu & Fu).
  assert (Au : arrival obs (mix_point b1 b2 u) = t) by (unfold late in Fu; lra).
  exists j, b1, b2, u, (found obs b1 b2 t). split; [exact N1|]. split; [exact N2|]. split; [exact Hu|].
  split; [exact Au|]. split; [exact E|]. cbv beta zeta. intros q Hq O1 O2 HG.
  assert (EX : forall a, vadd (vmul (tpx b1) (1 - a)) (vmul (tpx b2) a) = tpx (mix_point b1 b2 a)).
  { intros k. cbn [mix_point tpx]. unfold mix. generalize (tpx b1) (tpx b2). revert k. vring. }
  rewrite EX in O1, O2. rewrite !EX in HG.
  assert (NE : forall x y : vec R, x <> y -> 0 < vnorm (vsub x y)).
  { intros x y N. apply vnorm_pos. intros K. apply N. rewrite (sub_add y x), K. clear. revert y. vring. }
  apply (found_slopes obs b1 b2 t S q u Hq (NE _ _ O1) (NE _ _ O2)); [|lra|exact Fu].
  exact HG.
Qed.
Print Assumptions C94_slopes.

(* Intervals in which the particle has less than a fifth of the velocity of light: no condition on the observer, who
   may be anywhere, also on the trajectory. *)
Theorem C94_slow : forall (p : particle R) t obs a z,
  wf p -> subluminal (trajectory p) -> nth_error (trajectory p) 0 = Some a ->
  nth_error (trajectory p) (length (trajectory p) - 1) = Some z ->
  arrival obs a < t -> t <= arrival obs z ->
  exists j b1 b2 u v,
    nth_error (trajectory p) j = Some b1 /\ nth_error (trajectory p) (S j) = Some b2 /\
    0 < u <= 1 /\ arrival obs (mix_point b1 b2 u) = t /\
    RetardedField_time p t obs = Ok (point_field (pCharge p) (mix_point b1 b2 v) obs) /\
    let L := vnorm (vsub (tpx b2) (tpx b1)) in
    let h := tpt b2 - tpt b1 in
    forall q, 0 <= q <= 1/2 -> 2 * L <= q * (299792458 * h - L) -> Rabs (v - u) <= 2 * q / 100000 + q ^ 11.
Proof.
  intros p t obs a z Hw Hs Ha Hz L1 L2.
  destruct (light_cone_found p t obs a z Hw Ha Hz L1 L2) as (j & b1 & b2 & N1 & N2 & M1 & M2 & E).
  pose proof (Hs j b1 b2 N1 N2) as S. destruct (cone_exists obs b1 b2 t S M1 M2) as (u & Hu & Fu).
  assert (Au : arrival obs (mix_point b1 b2 u) = t) by (unfold late in Fu; lra).
  exists j, b1, b2, u, (found obs b1 b2 t). split; [exact N1|]. split; [exact N2|]. split; [exact Hu|].
  split; [exact Au|]. split; [exact E|]. cbv zeta. intros q Hq HL.
  apply (found_slow obs b1 b2 t S q u Hq); [exact HL|lra|exact Fu].
Qed.
Print Assumptions C94_slow.

(* A charge in uniform motion, seen from outside its line: the field returned is exactly the field of the moving charge
   (Heaviside) at a time t' close to the time asked for. *)
Theorem C94_uniform_motion : forall (p : particle R) m x0 t obs a z,
  wf p -> (forall b, In b (trajectory p) -> tpp b = m /\ tpa b = vzero /\ tpx b = vadd x0 (vmul (beta_of m) (299792458 * tpt b))) ->
  (forall i b b', nth_error (trajectory p) i = Some b -> nth_error (trajectory p) (S i) = Some b' -> tpt b < tpt b') ->
  (forall s, obs <> vadd x0 (vmul (beta_of m) s)) ->
  nth_error (trajectory p) 0 = Some a -> nth_error (trajectory p) (length (trajectory p) - 1) = Some z ->
  arrival obs a < t -> t <= arrival obs z ->
  exists j b1 b2 t', nth_error (trajectory p) j = Some b1 /\ nth_error (trajectory p) (S j) = Some b2 /\
    arrival obs b1 < t <= arrival obs b2 /\
    (let e := heaviside (pCharge p) (vadd x0 (vmul (beta_of m) (299792458 * t'))) (beta_of m) obs in
     RetardedField_time p t obs = Ok (EB e (vmul (vcross (beta_of m) e) (/ 299792458)))) /\
    let h := tpt b2 - tpt b1 in
    let X a := vadd (vmul (tpx b1) (1 - a)) (vmul (tpx b2) a) in
    let G a := 299792458 * h - vdot (vsub (tpx b2) (tpx b1)) (vsub obs (X a)) / vnorm (vsub obs (X a)) in
    forall q, 0 <= q <= 1/2 -> G (3/2) <= (1 + q) * G (- (1/2)) ->
      Rabs (t' - t) <= G (3/2) / 299792458 * (2 * q / 100000 + q ^ 11).
Proof.
  intros p m x0 t obs a z Hw HU HI HO Ha Hz L1 L2. change 299792458 with (@nc R NumR) in *.
  destruct (light_cone_found p t obs a z Hw Ha Hz L1 L2) as (j & b1 & b2 & N1 & N2 & M1 & M2 & E).
  assert (U : forall b, b = b1 \/ b = b2 -> tpp b = m /\ tpa b = vzero /\ tpx b = vadd x0 (vmul (beta_of m) (nc * tpt b))).
  { intros b [-> | ->]; apply HU; eapply nth_error_In; eassumption. }
  destruct (U b1 (or_introl eq_refl)) as (P1 & A1 & X1). destruct (U b2 (or_intror eq_refl)) as (P2 & A2 & X2).
  pose proof (HI j b1 b2 N1 N2) as HT. pose proof nc_pos as Hc.
  assert (S : slower_than_light b1 b2).
  { unfold slower_than_light. rewrite X1, X2.
    replace (vsub (vadd x0 (vmul (beta_of m) (nc * tpt b2))) (vadd x0 (vmul (beta_of m) (nc * tpt b1)))) with (vmul (beta_of m) (nc * (tpt b2 - tpt b1)))
      by (generalize (beta_of m) x0 (tpt b1) (tpt b2) (@nc R NumR); clear; vring).
    rewrite vnorm_mul, Rabs_right by (apply Rle_ge, Rmult_le_pos; lra). pose proof (vnorm_lt1 _ (beta_abs2_lt m)) as B.
    rewrite <- (Rmult_1_r (nc * (tpt b2 - tpt b1))) at 2. apply Rmult_lt_compat_l; [apply Rmult_lt_0_compat; lra|exact B]. }
  destruct (cone_exists obs b1 b2 t S M1 M2) as (u & Hu & Fu).
  exists j, b1, b2, (arrival obs (mix_point b1 b2 (found obs b1 b2 t))). split; [exact N1|]. split; [exact N2|]. split; [split; assumption|]. split.
  { cbv zeta. rewrite E. f_equal. apply uniform_point; assumption. }
  cbv beta zeta. intros q Hq HG.
  assert (EX : forall a, vadd (vmul (tpx b1) (1 - a)) (vmul (tpx b2) a) = tpx (mix_point b1 b2 a)).
  { intros k. cbn [mix_point tpx]. unfold mix. generalize (tpx b1) (tpx b2). revert k. vring. }
  rewrite !EX in HG. rewrite !EX.
  assert (NE : forall a, 0 < vnorm (vsub obs (tpx (mix_point b1 b2 a)))).
  { intros k. apply vnorm_pos. intros K. apply (HO (nc * (tpt b1 + (tpt b2 - tpt b1) * k))). rewrite <- mix_line, <- X1, <- X2.
    change (mix (tpx b1) (tpx b2) k) with (tpx (mix_point b1 b2 k)). rewrite (sub_add (tpx (mix_point b1 b2 k)) obs), K. generalize (tpx (mix_point b1 b2 k)). clear. vring. }
  exact (found_time obs b1 b2 t q u S Hq (NE _) (NE _) HG ltac:(lra) Fu).
Qed.
Print Assumptions C94_uniform_motion.

(* a particle with a tenth of the velocity of light which runs over the observer *)
Example C94_slow_ex : let p := passing (1/10) in let obs := V 0 0 (nc / 20) in
  exists a z, wf p /\ trajectory p = [a; z] /\ subluminal (trajectory p) /\ arrival obs a < 1/2 /\ 1/2 <= arrival obs z /\
    2 * vnorm (vsub (tpx z) (tpx a)) <= 2/9 * (299792458 * (tpt z - tpt a) - vnorm (vsub (tpx z) (tpx a))).
Proof.
  cbv zeta. assert (Hn : @nc R NumR = 299792458) by reflexivity. set (g := 1/10 / sqrt (1 - 1/10 * (1/10))).
  exists (TP 0 vzero (V 0 0 g) (@vzero R _)), (TP 1 (V 0 0 (1/10 * nc)) (V 0 0 g) (@vzero R _)).
  pose proof nc_pos as Hc.
  assert (E : vnorm (vsub (V 0 0 (1/10 * nc)) (@vzero R _)) = nc / 10).
  { replace (vsub (V 0 0 (1/10 * nc)) vzero) with (V 0 0 (nc / 10)) by (vunfold; unnum; f_equal; field). rewrite axis_norm, Rabs_right by lra. reflexivity. }
  assert (A : vnorm (vsub (V 0 0 (nc / 20)) (@vzero R _)) = nc / 20).
  { replace (vsub (V 0 0 (nc / 20)) vzero) with (V 0 0 (nc / 20)) by (vunfold; unnum; f_equal; field). rewrite axis_norm, Rabs_right by lra. reflexivity. }
  assert (B : vnorm (vsub (V 0 0 (nc / 20)) (V 0 0 (1/10 * nc))) = nc / 20).
  { replace (vsub (V 0 0 (nc / 20)) (V 0 0 (1/10 * nc))) with (V 0 0 (- (nc / 20))) by (vunfold; unnum; f_equal; field). rewrite axis_norm, Rabs_left by lra. ring. }
  split; [unfold wf; cbn; lia|]. split; [reflexivity|]. split.
  { change (trajectory (passing (1/10))) with [TP 0 vzero (V 0 0 g) (@vzero R _); TP 1 (V 0 0 (1/10 * nc)) (V 0 0 g) (@vzero R _)].
    intros i x y H1 H2. destruct i as [|[|i]]; cbn [nth_error] in H1, H2; [|discriminate|destruct i; discriminate].
    injection H1 as <-. injection H2 as <-.
    change (vnorm (vsub (V 0 0 (1/10 * nc)) (@vzero R _)) < nc * (1 - 0)). rewrite E. lra. }
  unfold arrival. cbn [tpx tpt]. rewrite A, B, E. split; [|split].
  - replace (nc / 20 / nc) with (1/20) by (field; lra). lra.
  - replace (nc / 20 / nc) with (1/20) by (field; lra). lra.
  - rewrite <- Hn. lra.
Qed.
(* a fast particle which flies towards the observer: with q = 0 the point is exact *)
Example C94_slopes_ex : let obs := V 0 0 (2 * nc) in let x1 := @vzero R _ in let x2 := V 0 0 (9/10 * nc) in
  let X a := vadd (vmul x1 (1 - a)) (vmul x2 a) in
  let G a := 299792458 * 1 - vdot (vsub x2 x1) (vsub obs (X a)) / vnorm (vsub obs (X a)) in
  obs <> X (- (1/2)) /\ obs <> X (3/2) /\ G (3/2) <= (1 + 0) * G (- (1/2)).
Proof.
  cbv beta zeta. pose proof nc_pos as Hc.
  assert (K : forall a, a < 2 -> vdot (vsub (V 0 0 (9/10 * nc)) vzero) (vsub (V 0 0 (2 * nc)) (vadd (vmul vzero (1 - a)) (vmul (V 0 0 (9/10 * nc)) a))) /
     vnorm (vsub (V 0 0 (2 * nc)) (vadd (vmul (@vzero R _) (1 - a)) (vmul (V 0 0 (9/10 * nc)) a))) = 9/10 * nc).
  { intros a Ha. replace (vsub (V 0 0 (2 * nc)) (vadd (vmul vzero (1 - a)) (vmul (V 0 0 (9/10 * nc)) a))) with (V 0 0 ((2 - 9/10 * a) * nc)) by (vunfold; unnum; f_equal; ring).
    rewrite axis_norm, Rabs_right by nra.
    replace (vdot (vsub (V 0 0 (9/10 * nc)) vzero) (V 0 0 ((2 - 9/10 * a) * nc))) with (9/10 * nc * ((2 - 9/10 * a) * nc)) by (vunfold; unnum; ring).
    field. nra. }
  rewrite !K by lra. split; [|split].
  - intros E. apply (f_equal vz) in E. cbn in E. unfold nc in Hc. cbn in Hc. lra.
  - intros E. apply (f_equal vz) in E. cbn in E. unfold nc in Hc. cbn in Hc. lra.
  - lra.
Qed.
(* half the velocity of light, seen from the side *)
Example C94_uniform_motion_ex : let p := passing (1/2) in let m := V 0 0 (1/2 / sqrt (1 - 1/2 * (1/2))) in let obs := V nc 0 0 in
  wf p /\ (forall b, In b (trajectory p) -> tpp b = m /\ tpa b = vzero /\ tpx b = vadd vzero (vmul (beta_of m) (299792458 * tpt b))) /\
  (forall s, obs <> vadd vzero (vmul (beta_of m) s)) /\
  exists a z, trajectory p = [a; z] /\ tpt a < tpt z /\ arrival obs a < 3/2 /\ 3/2 <= arrival obs z.
Proof.
  cbv zeta. set (m := V 0 0 (1/2 / sqrt (1 - 1/2 * (1/2)))). assert (B : beta_of m = V 0 0 (1/2)) by (apply passing_beta; lra). rewrite B.
  pose proof nc_pos as Hc.
  split; [unfold wf; cbn; lia|]. split; [|split].
  - change (trajectory (passing (1/2))) with [TP 0 vzero m (@vzero R _); TP 1 (V 0 0 (1/2 * nc)) m (@vzero R _)].
    change 299792458 with (@nc R NumR). intros b [<-|[<-|[]]]; cbn [tpp tpa tpx tpt]; (split; [reflexivity|]; split; [reflexivity|]); vunfold; unnum; vsplit; ring.
  - intros s E. apply (f_equal vx) in E. revert Hc E. vunfold. unnum. generalize (@nc R NumR). intros c Hc E. lra.
  - exists (TP 0 vzero m (@vzero R _)), (TP 1 (V 0 0 (1/2 * nc)) m (@vzero R _)). split; [reflexivity|]. unfold arrival. cbn [tpt tpx]. split; [lra|].
    assert (E : vnorm (vsub (V nc 0 0) (@vzero R _)) = nc).
    { rewrite vnorm_sqrt. replace (vabs2 (vsub (V nc 0 0) (@vzero R _))) with (nc * nc) by (vunfold; unnum; ring). apply sqrt_square. lra. }
    split; [rewrite E; replace (nc / nc) with 1 by (field; lra); lra|].
    assert (F : nc <= vnorm (vsub (V nc 0 0) (V 0 0 (1/2 * nc)))).
    { rewrite vnorm_sqrt. rewrite <- (sqrt_square nc) at 1 by lra. apply sqrt_le_1_alt. vunfold. unnum. generalize (@nc R NumR). intros c. nra. }
    assert (1 <= vnorm (vsub (V nc 0 0) (V 0 0 (1/2 * nc))) / nc) by (apply (Rmult_le_reg_r nc); [exact Hc|]; unfold Rdiv; rewrite Rmult_assoc, Rinv_l by lra; lra). lra.
Qed.
