(* Facts about retarded times and fields. *)
From Coq Require Import ZArith Reals Lra Lia Psatz List Bool.
From Verif Require Import Base BaseFacts Num VecModel VecFacts ParticleModel ParticleSpec
  ParticleProofs ParticleProofs2 VaySpec VayProofs TraceModel RetardModel RetardSpec.
Import ListNotations.
Local Open Scope R_scope.

(* ---- definedness, for every arithmetic ---- *)
Section Gen.
Context {T : Type} {NT : Num T}.
Local Open Scope Z_scope.
Implicit Types p : particle T.

Lemma seen_defined p t obs i : wf p -> 0 <= i < pNP p -> exists s, seen p t obs i = Ok s.
Proof.
  intros (H0 & Ht & Hx & _) Hi. unfold seen.
  destruct (zget_ok (pXs p) i) as (x & -> & _); [lia|].
  destruct (zget_ok (pTimes p) i) as (u & -> & _); [lia|]. cbn [bind]. eexists; reflexivity.
Qed.

Lemma bisect_seen_defined f p t obs i1 i2 t1 t2 :
  wf p -> 0 <= i1 <= i2 -> i2 < pNP p -> (Z.to_nat (i2 - i1) <= f)%nat ->
  exists j1 j2 s1 s2, bisect_seen f p t obs i1 i2 t1 t2 = Ok (j1, j2, s1, s2) /\
    0 <= j1 <= j2 /\ j2 < pNP p.
Proof.
  intros Hw. revert i1 i2 t1 t2; induction f as [|f IH]; intros i1 i2 t1 t2 H1 H2 Hf; cbn [bisect_seen].
  - destruct (Z.ltb_spec 1 (i2 - i1)); [lia|]. do 4 eexists. split; [reflexivity|lia].
  - destruct (Z.ltb_spec 1 (i2 - i1)); [|do 4 eexists; split; [reflexivity|lia]].
    assert (Hm : i1 < (i2 + i1) / 2 < i2).
    { split; [apply Z.lt_le_trans with (i1 + 1); [lia|]; apply Z.div_le_lower_bound; lia|].
      apply Z.div_lt_upper_bound; lia. }
    destruct (seen_defined p t obs ((i2 + i1) / 2) Hw) as [s ->]; [lia|]. cbn [bind].
    destruct (_ <? _)%num; apply IH; lia.
Qed.

Lemma RetardedField_time_defined p t obs :
  wf p -> trajectory p <> [] -> exists f, RetardedField_time p t obs = Ok f.
Proof.
  intros Hw Hne. pose proof Hw as (H0 & Ht & Hx & Hp & Ha).
  pose proof (trajectory_length p Hw) as HL.
  assert (HN : 1 <= pNP p) by (destruct (trajectory p); [congruence|cbn [length] in HL; lia]).
  unfold RetardedField_time. destruct (Z.ltb_spec (pNP p) 1); [lia|].
  destruct (seen_defined p t obs 0 Hw) as [t1 ->]; [lia|]. cbn [bind].
  destruct (seen_defined p t obs (pNP p - 1) Hw) as [t2 ->]; [lia|]. cbn [bind].
  destruct (t2 <=? nZ 0)%num; [|eexists; reflexivity].
  destruct (t1 <=? nZ 0)%num.
  - destruct (zget_ok (pXs p) 0) as (x & -> & _); [lia|].
    destruct (zget_ok (pPs p) 0) as (m & -> & _); [lia|]. cbn [bind]. eexists; reflexivity.
  - destruct (bisect_seen_defined (Z.to_nat (pNP p)) p t obs 0 (pNP p - 1) t1 t2 Hw)
      as (j1 & j2 & s1 & s2 & -> & A & B); [lia..|]. cbn [bind].
    destruct (zget_ok (pTimes p) j1) as (? & -> & _); [lia|].
    destruct (zget_ok (pTimes p) j2) as (? & -> & _); [lia|].
    destruct (zget_ok (pXs p) j1) as (? & -> & _); [lia|].
    destruct (zget_ok (pXs p) j2) as (? & -> & _); [lia|]. cbn [bind].
    destruct (refine _ _ _ _ _ _ _ _ _ _) as [fr dfr].
    destruct (zget_ok (pPs p) j1) as (? & -> & _); [lia|].
    destruct (zget_ok (pPs p) j2) as (? & -> & _); [lia|].
    destruct (zget_ok (pAs p) j1) as (? & -> & _); [lia|].
    destruct (zget_ok (pAs p) j2) as (? & -> & _); [lia|]. cbn [bind]. eexists; reflexivity.
Qed.

Lemma RetardedField_time_empty p t obs :
  wf p -> trajectory p = [] -> RetardedField_time p t obs = Throw RANGEexc.
Proof.
  intros Hw H. pose proof (trajectory_length p Hw) as HL. rewrite H in HL. cbn in HL.
  unfold RetardedField_time. rewrite <- HL. reflexivity.
Qed.

Lemma Retarded_outside p i obs : (i < 0 \/ pNP p <= i) ->
  RetardedTime p i obs = Throw IOexc /\ RetardedField_index p i obs = Throw IOexc.
Proof.
  intros H. destruct (access_outside p i H) as (A & B & _).
  unfold RetardedTime, RetardedField_index. rewrite A, B. auto.
Qed.
Lemma Retarded_inside p i a obs : wf p -> nth_error (trajectory p) i = Some a ->
  RetardedTime p (Z.of_nat i) obs = Ok (tpt a + vnorm (vsub obs (tpx a)) / nc)%num /\
  RetardedField_index p (Z.of_nat i) obs =
    Ok (let g2 := (vabs2 (tpp a) + nZ 1)%num in
        radiated (pCharge p) (tpx a) (vdiv (tpp a) (nsqrt g2)) (vdiv (tpa a) (nsqrt g2)) g2 obs).
Proof.
  intros Hw Ha. pose proof (trajectory_length p Hw) as HL.
  assert (i < length (trajectory p))%nat by (apply nth_error_Some; congruence).
  destruct (access_inside p (Z.of_nat i) Hw) as (b & Hb & A & B & C & D); [lia|].
  rewrite Nat2Z.id, Ha in Hb. injection Hb as <-.
  unfold RetardedTime, RetardedField_index. rewrite A, B, C, D. cbn [bind]. auto.
Qed.
End Gen.

(* ---- the radiated field over the reals ---- *)
Lemma gamma_of_pos m : 0 < gamma_of m.
Proof. unfold gamma_of. apply sqrt_lt_R0. pose proof (vabs2_nonneg m). lra. Qed.
Lemma gamma_of_sq m : gamma_of m * gamma_of m = 1 + vabs2 m.
Proof. unfold gamma_of. apply sqrt_sqrt. pose proof (vabs2_nonneg m). lra. Qed.
Lemma code_gamma m : sqrt (vabs2 m + 1) = gamma_of m.
Proof. unfold gamma_of. f_equal. lra. Qed.
Lemma beta_abs2 m : 1 - vabs2 (beta_of m) = / (gamma_of m * gamma_of m).
Proof.
  pose proof (gamma_of_pos m). pose proof (gamma_of_sq m) as H1. unfold beta_of.
  replace (vabs2 (vdiv m (gamma_of m))) with (vabs2 m / (gamma_of m * gamma_of m)).
  2:{ generalize dependent (gamma_of m). intros g Hg _. vdestr; vunfold; unnum; field; lra. }
  rewrite H1. pose proof (vabs2_nonneg m). field. lra.
Qed.
Lemma direction_normalize v : vnormalize v = direction v.
Proof. reflexivity. Qed.
Lemma direction_abs2 v : v <> vzero -> vabs2 (direction v) = 1.
Proof. apply vnormalize_abs2. Qed.

Lemma radiated_lw charge x m bd obs g2 :
  g2 = gamma_of m * gamma_of m ->
  radiated charge x (beta_of m) bd g2 obs =
  with_magnetic x obs (lienard_wiechert charge x (beta_of m) bd obs).
Proof.
  intros ->. pose proof (gamma_of_pos m) as Hg.
  assert (E : fE (radiated charge x (beta_of m) bd (gamma_of m * gamma_of m) obs)
              = lienard_wiechert charge x (beta_of m) bd obs).
  2:{ unfold with_magnetic. rewrite <- E. reflexivity. }
  unfold radiated, lienard_wiechert. cbv zeta. cbn [fE]. rewrite direction_normalize, beta_abs2.
  generalize (beta_of m). intros b. revert Hg. generalize (gamma_of m). intros g Hg.
  rewrite (vdot_comm b). generalize (direction (vsub obs x)). intros n.
  generalize (vnorm (vsub obs x)). intros r. unfold coulomb_const.
  change (nadd (Num:=NumR)) with Rplus. change (nsub (Num:=NumR)) with Rminus.
  change (nmul (Num:=NumR)) with Rmult. change (ndiv (Num:=NumR)) with Rdiv.
  change (nZ (Num:=NumR)) with IZR. change (nPi (Num:=NumR)) with PI.
  generalize (charge * nqe / (4 * PI * neps0)). intros s.
  generalize (vcross n (vcross (vsub n b) bd)). intros w.
  generalize (1 - vdot n b). intros k.
  replace (k * k * k) with (k ^ 3) by ring. generalize (k ^ 3). intros k3.
  assert (I1 : / (r * r * k3 * (g * g)) = / (g * g) / (k3 * r ^ 2)).
  { unfold Rdiv. rewrite !Rinv_mult. replace (r ^ 2) with (r * r) by ring. rewrite Rinv_mult. ring. }
  assert (I2 : / (r * k3 * nc) = / (nc * k3 * r)) by (rewrite !Rinv_mult; ring).
  rewrite !vdiv_mul, I1, I2. reflexivity.
Qed.

Lemma RetardedField_index_point (p : particle R) i a obs :
  wf p -> nth_error (trajectory p) i = Some a ->
  RetardedField_index p (Z.of_nat i) obs = Ok (point_field (pCharge p) a obs) /\
  RetardedTime p (Z.of_nat i) obs = Ok (arrival obs a).
Proof.
  intros Hw Ha. destruct (Retarded_inside p i a obs Hw Ha) as [A B]. split; [|exact A].
  rewrite B. cbv zeta. f_equal. change (vabs2 (tpp a) + nZ 1)%num with (vabs2 (tpp a) + 1).
  change (nsqrt (vabs2 (tpp a) + 1)) with (sqrt (vabs2 (tpp a) + 1)).
  rewrite code_gamma. change (vdiv (tpp a) (gamma_of (tpp a))) with (beta_of (tpp a)).
  rewrite radiated_lw; [reflexivity|]. rewrite gamma_of_sq. apply Rplus_comm.
Qed.

Lemma with_magnetic_geometry x obs e :
  obs <> x ->
  let n := direction (vsub obs x) in
  let f := with_magnetic x obs e in
  fB f = vmul (vcross n (fE f)) (/ nc) /\ vdot (fE f) (fB f) = 0 /\ vdot n (fB f) = 0 /\
  vnorm (fB f) <= vnorm (fE f) / nc.
Proof.
  intros Hne n f. subst f. unfold with_magnetic. cbn [fE fB]. fold n.
  split; [reflexivity|]. split; [generalize n; vring|]. split; [generalize n; vring|].
  assert (Hn : vabs2 n = 1).
  { apply direction_abs2. intros H. apply Hne. rewrite <- (vadd_0_l x), <- H.
    clear. vring. }
  pose proof nc_pos as Hc. rewrite vnorm_mul, Rabs_pos_eq by (left; apply Rinv_0_lt_compat, Hc).
  unfold Rdiv. rewrite Rmult_comm. apply Rmult_le_compat_r; [left; apply Rinv_0_lt_compat, Hc|].
  rewrite !vnorm_sqrt. apply sqrt_le_1_alt. rewrite lagrange, Hn. nra.
Qed.

Lemma coulomb_at_rest charge x obs :
  obs <> x ->
  with_magnetic x obs (lienard_wiechert charge x vzero vzero obs) =
  EB (vmul (vsub obs x) (coulomb_const charge / vnorm (vsub obs x) ^ 3)) vzero.
Proof.
  intros Hne.
  assert (Hr : vsub obs x <> vzero).
  { intros H. apply Hne. rewrite <- (vadd_0_l x), <- H. clear. vring. }
  pose proof (vnorm_pos _ Hr) as Hp.
  assert (E : lienard_wiechert charge x vzero vzero obs =
              vmul (vsub obs x) (coulomb_const charge / vnorm (vsub obs x) ^ 3)).
  { unfold lienard_wiechert. cbv zeta. unfold direction.
    revert Hp. generalize (vnorm (vsub obs x)). intros r Hp.
    generalize (coulomb_const charge). intros s. generalize (vsub obs x). intros v.
    pose proof nc_pos as Hc. revert Hc. generalize (nc (T:=R)). intros c Hc.
    clear -Hp Hc. destruct v as [a b d]. vunfold; unnum. vsplit; field; repeat split; lra. }
  unfold with_magnetic. rewrite E. f_equal. unfold direction.
  generalize (/ vnorm (vsub obs x)) (coulomb_const charge / vnorm (vsub obs x) ^ 3) (vsub obs x).
  generalize (/ nc). vring.
Qed.

(* ---- arrival order ---- *)
Lemma arrival_order obs a b : slower_than_light a b -> arrival obs a < arrival obs b.
Proof.
  unfold slower_than_light, arrival. intros H. pose proof nc_pos as Hc.
  assert (Ht : vnorm (vsub obs (tpx a)) <= vnorm (vsub obs (tpx b)) + vnorm (vsub (tpx b) (tpx a))).
  { replace (vsub obs (tpx a)) with (vadd (vsub obs (tpx b)) (vsub (tpx b) (tpx a))).
    - apply triangle.
    - generalize (tpx a) (tpx b). vring. }
  apply Rmult_lt_reg_l with nc; [exact Hc|].
  rewrite !Rmult_plus_distr_l. unfold Rdiv.
  replace (nc * (vnorm (vsub obs (tpx a)) * / nc)) with (vnorm (vsub obs (tpx a))) by (field; lra).
  replace (nc * (vnorm (vsub obs (tpx b)) * / nc)) with (vnorm (vsub obs (tpx b))) by (field; lra).
  lra.
Qed.

Lemma nqe_pos : 0 < nqe (T:=R).
Proof. cbv [nqe NumR]. apply Rdiv_lt_0_compat; apply (IZR_lt 0); reflexivity. Qed.
Lemma neps0_pos : 0 < neps0 (T:=R).
Proof. cbv [neps0 NumR]. apply Rdiv_lt_0_compat; apply (IZR_lt 0); reflexivity. Qed.
Lemma coulomb_const_neq0 charge : charge <> 0 -> coulomb_const charge <> 0.
Proof.
  intros H. unfold coulomb_const. pose proof PI_RGT_0 as Hp. pose proof nqe_pos. pose proof neps0_pos.
  unfold Rdiv. apply Rmult_integral_contrapositive_currified.
  - apply Rmult_integral_contrapositive_currified; lra.
  - apply Rinv_neq_0_compat. nra.
Qed.
