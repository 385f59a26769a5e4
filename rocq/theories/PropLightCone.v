(* C94: the emission point used for an observation lies on the backward light cone. *)
From Coq Require Import ZArith Reals Lra Lia Psatz List Bool.
From Verif Require Import Base BaseFacts Num VecModel VecFacts ParticleModel ParticleSpec
  ParticleProofs ParticleProofs2 VaySpec VayProofs TraceModel RetardModel RetardSpec RetardProofs RetardProofs2 LightConeProofs LightConeProofs2.
Import ListNotations.
Local Open Scope R_scope.

(* Real arithmetic.  Every trajectory whose points are connected with less than light velocity (C13), every
   observer and every time at which the trajectory can be seen.  Exactly one point of the
   interval is seen at this time (fraction u).  The program takes the point with fraction v.
   If the length of the interval is small compared with the distance of the observer, v is
   close to u; q measures this: 6 L^2 <= q r (c h - L), L the length and h the duration of the interval. *)
Theorem C94_light_cone : forall (p : particle R) t obs a z,
  wf p -> subluminal (trajectory p) -> nth_error (trajectory p) 0 = Some a ->
  nth_error (trajectory p) (length (trajectory p) - 1) = Some z ->
  arrival obs a < t -> t <= arrival obs z ->
  exists j b1 b2 u v,
    nth_error (trajectory p) j = Some b1 /\ nth_error (trajectory p) (S j) = Some b2 /\
    0 < u <= 1 /\ arrival obs (mix_point b1 b2 u) = t /\
    (forall u', arrival obs (mix_point b1 b2 u') = t -> u' = u) /\
    RetardedField_time p t obs = Ok (point_field (pCharge p) (mix_point b1 b2 v) obs) /\
    let L := vnorm (vsub (tpx b2) (tpx b1)) in
    let h := tpt b2 - tpt b1 in
    forall q, 0 <= q <= 1/2 -> 0 < vnorm (vsub obs (tpx b1)) ->
      6 * L ^ 2 <= q * vnorm (vsub obs (tpx b1)) * (nc * h - L) ->
      Rabs (v - u) <= 2 * q / 100000 + q ^ 11 /\
      Rabs (arrival obs (mix_point b1 b2 v) - t) <= 2 * h * (2 * q / 100000 + q ^ 11).
Proof.
  intros p t obs a z Hw Hs Ha Hz L1 L2.
  destruct (light_cone_found p t obs a z Hw Ha Hz L1 L2) as (j & b1 & b2 & N1 & N2 & M1 & M2 & E).
  pose proof (Hs j b1 b2 N1 N2) as S. destruct (cone_exists obs b1 b2 t S M1 M2) as (u & Hu & Fu).
  assert (Au : arrival obs (mix_point b1 b2 u) = t) by (unfold late in Fu; lra).
  exists j, b1, b2, u, (found obs b1 b2 t). split; [exact N1|]. split; [exact N2|]. split; [exact Hu|].
  split; [exact Au|]. split.
  { intros u' A'. apply (cone_unique obs b1 b2 t S); unfold late; lra. }
  split; [exact E|]. cbv zeta. intros q Hq Hr Hd.
  replace (vnorm (vsub (tpx b2) (tpx b1)) ^ 2) with (vnorm (vsub (tpx b2) (tpx b1)) * vnorm (vsub (tpx b2) (tpx b1))) in Hd by ring.
  pose proof (found_close obs b1 b2 t S q u Hq Hr Hd ltac:(lra) Fu) as C. split; [exact C|].
  pose proof (late_high obs b1 b2 t S u (found obs b1 b2 t)) as B. unfold late in B at 1 2. rewrite Au in B.
  replace (arrival obs (mix_point b1 b2 (found obs b1 b2 t)) - t - (t - t)) with (arrival obs (mix_point b1 b2 (found obs b1 b2 t)) - t) in B by ring.
  pose proof (low_pos b1 b2 S) as P.
  apply Rle_trans with (1 := B). pose proof (Rabs_pos (found obs b1 b2 t - u)) as P1.
  apply Rle_trans with (2 * (tpt b2 - tpt b1) * Rabs (found obs b1 b2 t - u)).
  - apply Rmult_le_compat_r; lra.
  - apply Rmult_le_compat_l; [|exact C].
    assert (0 <= vnorm (vsub (tpx b2) (tpx b1)) / nc) by (apply Rmult_le_pos; [apply vnorm_nonneg|left; apply Rinv_0_lt_compat, nc_pos]). lra.
Qed.
Print Assumptions C94_light_cone.

(* A particle at rest during the interval: the emission point is exact. *)
Theorem C94_at_rest : forall (p : particle R) t obs b1 b2,
  wf p -> trajectory p = [b1; b2] -> tpx b1 = tpx b2 -> tpt b1 < tpt b2 -> obs <> tpx b1 ->
  arrival obs b1 < t -> t <= arrival obs b2 ->
  exists u, arrival obs (mix_point b1 b2 u) = t /\
    RetardedField_time p t obs = Ok (point_field (pCharge p) (mix_point b1 b2 u) obs).
Proof.
  intros p t obs b1 b2 Hw Ht Hx Hh Ho L1 L2. pose proof nc_pos as Hc.
  assert (Z : vnorm (vsub (tpx b2) (tpx b1)) = 0).
  { rewrite Hx. apply vnorm_zero_iff. generalize (tpx b2). vring. }
  destruct (C94_light_cone p t obs b1 b2 Hw) as (j & c1 & c2 & u & v & N1 & N2 & Hu & Au & _ & E & Q); auto.
  - rewrite Ht. intros i a b A B. destruct i as [|[|i]]; cbn in A, B; [|discriminate|destruct i; discriminate].
    injection A as <-. injection B as <-. unfold slower_than_light. rewrite Z. apply Rmult_lt_0_compat; lra.
  - rewrite Ht. reflexivity.
  - rewrite Ht. reflexivity.
  - rewrite Ht in N1, N2. destruct j as [|[|j]]; cbn in N1, N2; [|discriminate|destruct j; discriminate].
    injection N1 as <-. injection N2 as <-. exists u. split; [exact Au|].
    destruct (Q 0) as [K _]; [lra| | |].
    + apply vnorm_pos. intros K. apply Ho. revert K. generalize obs (tpx b1). clear. intros x y K.
      destruct x, y. vunfold_in K. unnum_in K. injection K as K1 K2 K3. f_equal; lra.
    + rewrite Z. lra.
    + replace (2 * 0 / 100000 + 0 ^ 11) with 0 in K by (rewrite pow_i by lia; field).
      assert (v = u) by (pose proof (Rabs_pos (v - u)); destruct (Req_dec (v - u) 0) as [D|D]; [lra|apply Rabs_pos_lt in D; lra]).
      subst v. exact E.
Qed.
Print Assumptions C94_at_rest.

(* A fast particle which passes the observer within one interval: the search stops after the
   first correction (which is below 10^-5), although the point seen is a quarter of the interval
   away; the field is less than a third of the right one. *)
Definition passing (b : R) : particle R :=
  storeTrajectoryPoint 1 (V 0 0 (b * nc)) (V 0 0 (b / sqrt (1 - b * b))) vzero
    (initTrajectory 0 vzero (V 0 0 (b / sqrt (1 - b * b))) vzero (new_particle (-1) 1)).
Lemma passing_gamma b : 0 <= b < 1 -> gamma_of (V 0 0 (b / sqrt (1 - b * b))) = / sqrt (1 - b * b).
Proof.
  intros Hb. assert (P : 0 < 1 - b * b) by nra. pose proof (sqrt_lt_R0 _ P) as Q. pose proof (sqrt_sqrt _ (Rlt_le _ _ P)) as S.
  unfold gamma_of. vunfold. unnum. apply sqrt_lem_1; [|left; apply Rinv_0_lt_compat, Q|].
  - pose proof (Rle_0_sqr (b / sqrt (1 - b * b))) as K. unfold Rsqr in K. lra.
  - revert S. generalize dependent (sqrt (1 - b * b)). intros s Hs S. 
    apply (Rmult_eq_reg_r (s * s)); [|nra].
    transitivity 1; [field; lra|].
    transitivity (s * s + b * b); [rewrite S; ring|]. field. lra.
Qed.
Lemma passing_beta b : 0 <= b < 1 -> beta_of (V 0 0 (b / sqrt (1 - b * b))) = V 0 0 b.
Proof.
  intros Hb. assert (P : 0 < 1 - b * b) by nra. pose proof (sqrt_lt_R0 _ P) as Q.
  unfold beta_of. rewrite passing_gamma by exact Hb. vunfold. unnum. f_equal; field; lra.
Qed.
Lemma axis_norm (z : R) : vnorm (V 0 0 z) = Rabs z.
Proof.
  rewrite vnorm_sqrt. replace (vabs2 (V 0 0 z)) with (Rsqr z) by (vunfold; unnum; unfold Rsqr; ring). apply sqrt_Rsqr_abs.
Qed.
Lemma axis_field q x b o : x < o -> 0 < 1 - b ->
  fE (with_magnetic (V 0 0 x) (V 0 0 o) (lienard_wiechert q (V 0 0 x) (V 0 0 b) (vmul vzero 0) (V 0 0 o))) =
  V 0 0 (coulomb_const q * ((1 + b) / (1 - b)) / (o - x) ^ 2).
Proof.
  intros H Hb. unfold with_magnetic. cbn [fE]. unfold lienard_wiechert. 
  replace (vsub (V 0 0 o) (V 0 0 x)) with (V 0 0 (o - x)) by (vunfold; unnum; f_equal; ring).
  assert (D : direction (V 0 0 (o - x)) = V 0 0 1).
  { unfold direction. rewrite axis_norm, Rabs_right by lra. vunfold; unnum; f_equal; field; lra. }
  rewrite D, axis_norm, Rabs_right by lra.
  pose proof nc_pos as Hc. revert Hc. generalize (coulomb_const q) (nc (T:=R)). intros k c Hc.
  vunfold; unnum; f_equal; field; repeat split; lra.
Qed.
Lemma rounds_stop f k x y e : ~ 1 / 100000 < Rabs e -> rounds f (S k) x y e = (x, e).
Proof. intros H. cbn [rounds]. destruct (Rltb_spec (1 / 100000) (Rabs e)) as [K|K]; [contradiction|reflexivity]. Qed.
Lemma inverse_squares w a b : 0 < b -> 0 < a -> 3 * b ^ 2 <= a ^ 2 -> Rabs (w / a ^ 2) <= 1/3 * Rabs (w / b ^ 2).
Proof.
  intros B A H. assert (PA : 0 < a ^ 2) by (apply pow_lt; exact A). assert (PB : 0 < b ^ 2) by (apply pow_lt; exact B).
  unfold Rdiv at 1 3. rewrite !Rabs_mult, (Rabs_right (/ a ^ 2)), (Rabs_right (/ b ^ 2)) by (left; apply Rinv_0_lt_compat; assumption).
  replace (1 / 3 * (Rabs w * / b ^ 2)) with (Rabs w * (/ (3 * b ^ 2))) by (field; lra).
  apply Rmult_le_compat_l; [apply Rabs_pos|]. apply Rinv_le_contravar; lra.
Qed.
Theorem C94_close_refuted : forall b, 24999/25000 <= b < 1 ->
  exists (p : particle R) t obs b1 b2 f,
    wf p /\ trajectory p = [b1; b2] /\ subluminal (trajectory p) /\
    (* uniform motion with velocity b *)
    tpp b1 = tpp b2 /\ vnorm (beta_of (tpp b1)) = b /\ tpx b2 = vadd (tpx b1) (vmul (beta_of (tpp b1)) (nc * (tpt b2 - tpt b1))) /\
    arrival obs (mix_point b1 b2 (1/4)) = t /\
    RetardedField_time p t obs = Ok f /\
    exists v, 0 < v < 1/10000 /\ f = point_field (pCharge p) (mix_point b1 b2 v) obs /\
      vnorm (fE f) <= 1/3 * vnorm (fE (point_field (pCharge p) (mix_point b1 b2 (1/4)) obs)).
Proof.
  intros b Hb. pose proof nc_pos as Hc. assert (Hb1 : 0 <= b < 1) by lra.
  set (g := b / sqrt (1 - b * b)).
  set (b1 := TP 0 vzero (V 0 0 g) (@vzero R _)). set (b2 := TP 1 (V 0 0 (b * nc)) (V 0 0 g) (@vzero R _)).
  set (obs := V 0 0 (b * nc / 2) : vec R). set (t := 1/4 + b/4).
  assert (Hw : wf (passing b)) by (unfold wf; cbn; lia).
  assert (Ht : trajectory (passing b) = [b1; b2]) by reflexivity.
  assert (Hsl : slower_than_light b1 b2).
  { unfold slower_than_light, b1, b2. cbn [tpx tpt]. replace (vsub (V 0 0 (b * nc)) vzero) with (V 0 0 (b * nc)) by (vunfold; unnum; f_equal; ring).
    rewrite axis_norm, Rabs_right by nra. nra. }
  assert (Hsub : subluminal (trajectory (passing b))).
  { rewrite Ht. intros i x y A B. destruct i as [|[|i]]; cbn in A, B; [|discriminate|destruct i; discriminate].
    injection A as <-. injection B as <-. exact Hsl. }
  assert (Hm : forall a, mix_point b1 b2 a = TP a (V 0 0 (a * (b * nc))) (V 0 0 g) vzero).
  { intros a. unfold mix_point, b1, b2, mix. cbn [tpt tpx tpp tpa]. f_equal; [ring| | |]; vunfold; unnum; f_equal; ring. }
  assert (Hd : forall a, vnorm (vsub obs (V 0 0 (a * (b * nc)))) / nc = b * Rabs (1/2 - a)).
  { intros a. unfold obs. replace (vsub (V 0 0 (b * nc / 2)) (V 0 0 (a * (b * nc)))) with (V 0 0 (nc * b * (1/2 - a))) by (vunfold; unnum; f_equal; field).
    rewrite axis_norm, !Rabs_mult, (Rabs_right nc), (Rabs_right b) by lra. field. lra. }
  assert (Hl : forall a, late obs b1 b2 t a = a + b * Rabs (1/2 - a) - (1/4 + b/4)).
  { intros a. unfold late, arrival. rewrite Hm. cbn [tpt tpx]. rewrite Hd. reflexivity. }
  assert (Hl1 : forall a, a <= 1/2 -> late obs b1 b2 t a = (1 - b) * (a - 1/4)).
  { intros a Ha. rewrite Hl, Rabs_right by lra. field. }
  assert (F0 : late obs b1 b2 t 0 = - (1 - b) / 4) by (rewrite Hl1 by lra; field).
  assert (F1 : late obs b1 b2 t 1 = 3/4 + b/4) by (rewrite Hl, Rabs_left by lra; field).
  assert (Fv : found obs b1 b2 t = (1 - b) * (1 + b) / 4).
  { unfold found. rewrite F0, F1. replace (3/4 + b/4 - - (1 - b) / 4) with 1 by field.
    replace (- (- (1 - b) / 4) / 1) with ((1 - b) / 4) by field. rewrite Hl1 by lra.
    rewrite rounds_stop.
    - field.
    - intros K. replace ((1 - b) * ((1 - b) / 4 - 1 / 4) / 1) with (- ((1 - b) * b / 4)) in K by field.
      rewrite Rabs_Ropp, Rabs_right in K by nra. nra. }
  assert (A4 : arrival obs (mix_point b1 b2 (1/4)) = t).
  { pose proof (Hl1 (1/4) ltac:(lra)) as K. unfold late in K. lra. }
  assert (A1 : arrival obs b1 < t) by (rewrite late_0 in F0; lra).
  assert (A2 : t <= arrival obs b2) by (rewrite late_1 in F1; lra).
  destruct (light_cone_found (passing b) t obs b1 b2 Hw) as (j & c1 & c2 & N1 & N2 & _ & _ & E); auto; try (rewrite Ht; reflexivity).
  rewrite Ht in N1, N2. destruct j as [|[|j]]; cbn in N1, N2; [|discriminate|destruct j; discriminate].
  injection N1 as <-. injection N2 as <-. rewrite Fv in E. set (v := (1 - b) * (1 + b) / 4) in *.
  assert (Hv : 0 < v < 1/10000) by (unfold v; nra).
  exists (passing b), t, obs, b1, b2. eexists. split; [exact Hw|]. split; [exact Ht|]. split; [exact Hsub|]. split; [reflexivity|].
  assert (Hbeta : beta_of (tpp b1) = V 0 0 b) by (apply passing_beta; exact Hb1).
  split; [rewrite Hbeta, axis_norm; apply Rabs_right; lra|]. split.
  { rewrite Hbeta. unfold b1, b2. cbn [tpx tpt]. vunfold. unnum. f_equal; ring. }
  split; [exact A4|]. split; [exact E|]. exists v. split; [exact Hv|]. split; [reflexivity|].
  assert (Q : forall a, a < 1/2 -> fE (point_field (pCharge (passing b)) (mix_point b1 b2 a) obs) =
    V 0 0 (coulomb_const (pCharge (passing b)) * ((1 + b) / (1 - b)) / (b * nc / 2 - a * (b * nc)) ^ 2)).
  { intros a Ha. rewrite Hm. unfold point_field. cbn [tpx tpp tpa]. unfold g. rewrite passing_beta by exact Hb1.
    replace (vmul vzero (/ gamma_of (V 0 0 (b / sqrt (1 - b * b))))) with (vmul (@vzero R _) 0) by (vunfold; unnum; f_equal; ring).
    unfold obs. apply axis_field; [|lra]. assert (0 < b * nc) by (apply Rmult_lt_0_compat; lra). nra. }
  assert (Hbc : 0 < b * nc) by (apply Rmult_lt_0_compat; lra).
  rewrite !Q by lra. rewrite !axis_norm. revert Hbc. generalize (b * nc). intros l Hbc. apply inverse_squares; [lra| |].
  - nra.
  - replace (l / 2 - 1 / 4 * l) with (l * (1/4)) by field. replace (l / 2 - v * l) with (l * (1/2 - v)) by field.
    rewrite !Rpow_mult_distr, <- Rmult_assoc, (Rmult_comm 3), Rmult_assoc. apply Rmult_le_compat_l; [left; apply pow_lt, Hbc|]. nra.
Qed.
Print Assumptions C94_close_refuted.
(* a particle with half the velocity of light, seen from a distance of 100 light seconds *)
Example C94_ex : let p := passing (1/2) in let obs := V 0 0 (100 * nc) in let t := 100 + 1/4 in
  exists a z, wf p /\ trajectory p = [a; z] /\ subluminal (trajectory p) /\ arrival obs a < t /\ t <= arrival obs z /\
    6 * vnorm (vsub (tpx z) (tpx a)) ^ 2 <= 1/30 * vnorm (vsub obs (tpx a)) * (nc * (tpt z - tpt a) - vnorm (vsub (tpx z) (tpx a))).
Proof.
  cbv zeta. pose proof nc_pos as Hc. set (g := 1/2 / sqrt (1 - 1/2 * (1/2))).
  exists (TP 0 vzero (V 0 0 g) (@vzero R _)), (TP 1 (V 0 0 (1/2 * nc)) (V 0 0 g) (@vzero R _)).
  assert (E : vnorm (vsub (V 0 0 (1/2 * nc)) (@vzero R _)) = nc / 2).
  { replace (vsub (V 0 0 (1/2 * nc)) vzero) with (V 0 0 (nc / 2)) by (vunfold; unnum; f_equal; field). rewrite axis_norm, Rabs_right by lra. reflexivity. }
  assert (A : vnorm (vsub (V 0 0 (100 * nc)) (@vzero R _)) = 100 * nc).
  { replace (vsub (V 0 0 (100 * nc)) vzero) with (V 0 0 (100 * nc)) by (vunfold; unnum; f_equal; field). rewrite axis_norm, Rabs_right by lra. reflexivity. }
  assert (B : vnorm (vsub (V 0 0 (100 * nc)) (V 0 0 (1/2 * nc))) = (100 - 1/2) * nc).
  { replace (vsub (V 0 0 (100 * nc)) (V 0 0 (1/2 * nc))) with (V 0 0 ((100 - 1/2) * nc)) by (vunfold; unnum; f_equal; field). rewrite axis_norm, Rabs_right by lra. reflexivity. }
  split; [unfold wf; cbn; lia|]. split; [reflexivity|]. split.
  { change (trajectory (passing (1/2))) with [TP 0 vzero (V 0 0 g) (@vzero R _); TP 1 (V 0 0 (1/2 * nc)) (V 0 0 g) (@vzero R _)].
    intros i x y H1 H2. destruct i as [|[|i]]; cbn [nth_error] in H1, H2; [|discriminate|destruct i; discriminate].
    injection H1 as <-. injection H2 as <-.
    change (vnorm (vsub (V 0 0 (1/2 * nc)) (@vzero R _)) < nc * (1 - 0)). rewrite E. lra. }
  unfold arrival. cbn [tpx tpt]. rewrite A, B, E. split; [|split].
  - replace (100 * nc / nc) with 100 by (field; lra). lra.
  - replace ((100 - 1/2) * nc / nc) with (100 - 1/2) by (field; lra). lra.
  - nra.
Qed.
