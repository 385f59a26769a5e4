(* Light-cone search and extrapolation before the start of the trajectory. *)
From Coq Require Import ZArith Reals Lra Lia Psatz List Bool.
From Verif Require Import Base BaseFacts Num VecModel VecFacts ParticleModel ParticleSpec
  ParticleProofs ParticleProofs2 VaySpec VayProofs TraceModel RetardModel RetardSpec RetardProofs.
Import ListNotations.
Local Open Scope R_scope.

Lemma seen_arrival (p : particle R) i a obs t :
  nth_error (trajectory p) i = Some a -> seen p t obs (Z.of_nat i) = Ok (t - arrival obs a).
Proof.
  intros Ha. destruct (nth_trajectory p i a Ha) as (A & B & _). unfold seen.
  rewrite (zget_nth _ _ _ A), (zget_nth _ _ _ B). reflexivity.
Qed.

Lemma bisect_seen_spec f (p : particle R) t obs i1 i2 a1 a2 t1 t2 :
  wf p -> (i1 < i2)%nat -> (i2 - i1 <= f)%nat ->
  nth_error (trajectory p) i1 = Some a1 -> nth_error (trajectory p) i2 = Some a2 ->
  t1 = t - arrival obs a1 -> t2 = t - arrival obs a2 -> arrival obs a1 < t -> t <= arrival obs a2 ->
  exists j b1 b2,
    bisect_seen f p t obs (Z.of_nat i1) (Z.of_nat i2) t1 t2 =
      Ok (Z.of_nat j, Z.of_nat (S j), t - arrival obs b1, t - arrival obs b2) /\
    nth_error (trajectory p) j = Some b1 /\ nth_error (trajectory p) (S j) = Some b2 /\
    arrival obs b1 < t /\ t <= arrival obs b2.
Proof.
  intros Hw. revert i1 i2 a1 a2 t1 t2. induction f as [|f IH]; intros i1 i2 a1 a2 t1 t2 Hi Hf H1 H2 E1 E2 L1 L2.
  - lia.
  - cbn [bisect_seen]. destruct (Z.ltb_spec 1 (Z.of_nat i2 - Z.of_nat i1)).
    + assert (Hm : ((Z.of_nat i2 + Z.of_nat i1) / 2 = Z.of_nat ((i2 + i1) / 2))%Z)
        by (rewrite <- Nat2Z.inj_add; symmetry; apply (Nat2Z.inj_div _ 2)).
      rewrite Hm. set (m := ((i2 + i1) / 2)%nat) in *.
      assert (Hm2 : (i1 < m < i2)%nat).
      { unfold m. split; [apply Nat.div_le_lower_bound with (q := S i1); lia|].
        apply Nat.div_lt_upper_bound; lia. }
      assert (Hl : (i2 < length (trajectory p))%nat) by (apply nth_error_Some; congruence).
      destruct (nth_trajectory_inv p m Hw) as [b Hb]; [lia|].
      rewrite (seen_arrival p m b obs t Hb). cbn [bind].
      change (nltb (nZ 0) (t - arrival obs b)) with (Rltb 0 (t - arrival obs b)).
      destruct (Rltb_spec 0 (t - arrival obs b)).
      * destruct (IH m i2 b a2 (t - arrival obs b) t2) as (j & b1 & b2 & A); auto; try lia; try lra.
        exists j, b1, b2. exact A.
      * destruct (IH i1 m a1 b t1 (t - arrival obs b)) as (j & b1 & b2 & A); auto; try lia; try lra.
        exists j, b1, b2. exact A.
    + assert (i2 = S i1) by lia. subst i2. exists i1, a1, a2. subst t1 t2. auto.
Qed.

Lemma mix_code (a b : vec R) f : vadd (vmul a (1 - f)) (vmul b f) = mix a b f.
Proof. unfold mix. vring. Qed.

(* inside the time range seen from the trajectory *)
Lemma light_cone_search (p : particle R) t obs a z :
  wf p -> nth_error (trajectory p) 0 = Some a ->
  nth_error (trajectory p) (length (trajectory p) - 1) = Some z ->
  arrival obs a < t -> t <= arrival obs z ->
  exists j b1 b2 frac,
    nth_error (trajectory p) j = Some b1 /\ nth_error (trajectory p) (S j) = Some b2 /\
    arrival obs b1 < t /\ t <= arrival obs b2 /\
    RetardedField_time p t obs = Ok (point_field (pCharge p) (mix_point b1 b2 frac) obs).
Proof.
  intros Hw Ha Hz L1 L2. pose proof (trajectory_length p Hw) as HL.
  assert (Hl : (0 < length (trajectory p))%nat) by (apply nth_error_Some; congruence).
  assert (Hl2 : (1 < length (trajectory p))%nat).
  { destruct (Nat.eq_dec (length (trajectory p)) 1) as [E|]; [|lia].
    rewrite E in Hz. cbn [Nat.sub] in Hz. rewrite Ha in Hz. injection Hz as <-. lra. }
  assert (HN : (pNP p - 1)%Z = Z.of_nat (length (trajectory p) - 1)) by lia.
  unfold RetardedField_time. destruct (Z.ltb_spec (pNP p) 1); [lia|].
  rewrite (seen_arrival p 0 a obs t Ha : seen p t obs 0 = _). cbn [bind].
  rewrite HN, (seen_arrival p _ z obs t Hz). cbn [bind].
  change (nleb (t - arrival obs z) (nZ 0)) with (Rleb (t - arrival obs z) 0).
  destruct (Rleb_spec (t - arrival obs z) 0); [|lra].
  change (nleb (t - arrival obs a) (nZ 0)) with (Rleb (t - arrival obs a) 0).
  destruct (Rleb_spec (t - arrival obs a) 0); [lra|].
  destruct (bisect_seen_spec (Z.to_nat (pNP p)) p t obs 0 (length (trajectory p) - 1) a z
             (t - arrival obs a) (t - arrival obs z) Hw) as (j & b1 & b2 & B & N1 & N2 & M1 & M2);
    auto; try lia.
  change (Z.of_nat 0) with 0%Z in B. rewrite B. cbn [bind]. cbv iota.
  destruct (nth_trajectory p j b1 N1) as (A1 & A2 & A3 & A4).
  destruct (nth_trajectory p (S j) b2 N2) as (C1 & C2 & C3 & C4).
  rewrite (zget_nth _ _ _ A1), (zget_nth _ _ _ A2), (zget_nth _ _ _ C1), (zget_nth _ _ _ C2). cbn [bind].
  destruct (refine _ _ _ _ _ _ _ _ _ _) as [fr dfr].
  rewrite (zget_nth _ _ _ A3), (zget_nth _ _ _ A4), (zget_nth _ _ _ C3), (zget_nth _ _ _ C4). cbn [bind].
  exists j, b1, b2, (fr - dfr). repeat (split; [assumption|]).
  f_equal. unfold point_field.
  change (nsub fr dfr) with (fr - dfr). generalize (fr - dfr). intros f.
  change (nsub (nZ 1) f) with (1 - f). rewrite !mix_code.
  change (vabs2 (mix (tpp b1) (tpp b2) f) + nZ 1)%num with (vabs2 (mix (tpp b1) (tpp b2) f) + 1).
  change (nsqrt (vabs2 (mix (tpp b1) (tpp b2) f) + 1)) with (sqrt (vabs2 (mix (tpp b1) (tpp b2) f) + 1)).
  rewrite code_gamma.
  change (vdiv (mix (tpp b1) (tpp b2) f) (gamma_of (mix (tpp b1) (tpp b2) f)))
    with (beta_of (mix (tpp b1) (tpp b2) f)).
  rewrite radiated_lw; [reflexivity|]. rewrite gamma_of_sq. apply Rplus_comm.
Qed.

(* everything was seen earlier *)
Lemma seen_earlier (p : particle R) t obs z :
  wf p -> nth_error (trajectory p) (length (trajectory p) - 1) = Some z ->
  arrival obs z < t -> RetardedField_time p t obs = Ok ezero.
Proof.
  intros Hw Hz L. pose proof (trajectory_length p Hw) as HL.
  assert (Hl : (length (trajectory p) - 1 < length (trajectory p))%nat) by (apply nth_error_Some; congruence).
  assert (HN : (pNP p - 1)%Z = Z.of_nat (length (trajectory p) - 1)) by lia.
  destruct (nth_trajectory_inv p 0 Hw) as [a Ha]; [lia|].
  unfold RetardedField_time. destruct (Z.ltb_spec (pNP p) 1); [lia|].
  rewrite (seen_arrival p 0 a obs t Ha : seen p t obs 0 = _). cbn [bind].
  rewrite HN, (seen_arrival p _ z obs t Hz). cbn [bind].
  change (nleb (t - arrival obs z) (nZ 0)) with (Rleb (t - arrival obs z) 0).
  destruct (Rleb_spec (t - arrival obs z) 0); [lra|reflexivity].
Qed.

(* ---- extrapolation before the start ---- *)
Lemma beta_abs2_lt m : vabs2 (beta_of m) < 1.
Proof.
  pose proof (beta_abs2 m) as H. pose proof (gamma_of_pos m) as Hg.
  assert (0 < / (gamma_of m * gamma_of m)) by (apply Rinv_0_lt_compat; nra). lra.
Qed.

(* emission time for a charge in uniform motion through x0 at time 0 *)
Definition emission (b rc : vec R) (t : R) : R :=
  (t - vdot b rc - sqrt ((t - vdot b rc) * (t - vdot b rc) - (1 - vdot b b) * (t * t - vdot rc rc)))
  / (1 - vdot b b).

Lemma emission_facts b rc t :
  vabs2 b < 1 ->
  let w := vsub (vmul b t) rc in
  let D := (t - vdot b rc) * (t - vdot b rc) - (1 - vdot b b) * (t * t - vdot rc rc) in
  let T := emission b rc t in
  D = (1 - vabs2 b) * vabs2 w + vdot b w * vdot b w /\
  0 <= t - T /\ vnorm (vsub rc (vmul b T)) = t - T /\
  (t - T) - vdot b (vsub rc (vmul b T)) = sqrt D /\
  (w <> vzero -> 0 < sqrt D /\ 0 < t - T) /\
  (t <= vnorm rc -> T <= 0).
Proof.
  intros Hb w D T.
  assert (HD : D = (1 - vabs2 b) * vabs2 w + vdot b w * vdot b w) by (unfold D, w; clear; vring).
  pose proof (vabs2_nonneg w) as Hw. pose proof (vabs2_nonneg b) as Hb0.
  assert (HDw : vdot b w * vdot b w <= D) by (rewrite HD; nra).
  assert (HD0 : 0 <= D) by nra.
  pose proof (sqrt_pos D) as Hs. pose proof (sqrt_sqrt D HD0) as Hss.
  assert (HT : (1 - vabs2 b) * T = t - vdot b rc - sqrt D).
  { unfold T, emission. fold D. change (vdot b b) with (vabs2 b). field. lra. }
  assert (Hbw : vdot b w = vabs2 b * t - vdot b rc) by (unfold w; clear; vring).
  assert (Hdiff : (1 - vabs2 b) * (t - T) = sqrt D - vdot b w) by (rewrite Hbw; lra).
  assert (Hle : vdot b w <= sqrt D).
  { destruct (Rle_dec (vdot b w) (sqrt D)); [assumption|exfalso; nra]. }
  assert (Ht : 0 <= t - T).
  { apply Rmult_le_reg_l with (1 - vabs2 b); [lra|]. rewrite Hdiff. lra. }
  split; [exact HD|]. split; [exact Ht|].
  assert (Hq : (1 - vabs2 b) * T * T - 2 * (t - vdot b rc) * T + (t * t - vdot rc rc) = 0).
  { apply Rmult_eq_reg_l with (1 - vabs2 b); [|lra]. rewrite Rmult_0_r.
    replace ((1 - vabs2 b) * ((1 - vabs2 b) * T * T - 2 * (t - vdot b rc) * T + (t * t - vdot rc rc)))
      with (((1 - vabs2 b) * T - (t - vdot b rc)) * ((1 - vabs2 b) * T - (t - vdot b rc)) - D)
      by (unfold D; change (vdot b b) with (vabs2 b); ring).
    rewrite HT. nra. }
  split; [|split; [|split]].
  - apply Rsqr_inj; [apply vnorm_nonneg|exact Ht|]. unfold Rsqr. rewrite vnorm_sq.
    replace (vabs2 (vsub rc (vmul b T))) with (vabs2 b * T * T - 2 * vdot b rc * T + vdot rc rc)
      by (clear; vring). nra.
  - replace (vdot b (vsub rc (vmul b T))) with (vdot b rc - vabs2 b * T) by (clear; vring). lra.
  - intros Hne.
    assert (Hwp : 0 < vabs2 w).
    { destruct Hw as [Hw|Hw]; [exact Hw|]. exfalso. apply Hne, vabs2_zero_iff. auto. }
    assert (HDp : vdot b w * vdot b w < D) by (rewrite HD; nra).
    assert (Hsp : 0 < sqrt D) by (apply sqrt_lt_R0; nra).
    split; [exact Hsp|]. apply Rmult_lt_reg_l with (1 - vabs2 b); [lra|]. rewrite Hdiff.
    destruct (Rlt_dec (vdot b w) (sqrt D)); [lra|exfalso; nra].
  - intros Htn. apply Rmult_le_reg_l with (1 - vabs2 b); [lra|]. rewrite HT, Rmult_0_r.
    pose proof (vnorm_nonneg rc) as Hr. pose proof (vnorm_sq rc) as Hr2.
    pose proof (cauchy_schwarz b rc) as Hcs.
    assert (Hb1 : vnorm b <= 1).
    { pose proof (vnorm_nonneg b). pose proof (vnorm_sq b). nra. }
    apply Flocq.Core.Raux.Rabs_le_inv in Hcs.
    destruct (Rle_dec (- vnorm rc) t) as [Hge|Hlt].
    + assert (t * t <= vdot rc rc) by (change (vdot rc rc) with (vabs2 rc); nra).
      assert ((t - vdot b rc) * (t - vdot b rc) <= D).
      { unfold D. change (vdot b b) with (vabs2 b). nra. }
      destruct (Rle_dec (t - vdot b rc) (sqrt D)); [lra|exfalso; nra].
    + assert (t - vdot b rc <= 0) by nra. lra.
Qed.

Lemma uniform_motion charge x0 m t obs :
  let b := beta_of m in
  let T := emission b (vdiv (vsub obs x0) nc) t in
  let now := vadd x0 (vmul b (nc * t)) in
  let src := vadd x0 (vmul b (nc * T)) in
  obs <> now ->
  let e := heaviside charge now b obs in
  vnorm (vsub obs src) = nc * (t - T) /\ 0 < t - T /\
  with_magnetic src obs (lienard_wiechert charge src b vzero obs) =
    EB e (vmul (vcross b e) (/ nc)).
Proof.
  intros b T now src Hne e. pose proof nc_pos as Hc. pose proof (beta_abs2_lt m) as Hb. fold b in Hb.
  set (rc := vdiv (vsub obs x0) nc) in *.
  destruct (emission_facts b rc t Hb) as (HD & H0 & Hn & Hs & Hp & _).
  set (w := vsub (vmul b t) rc) in *.
  set (D := (t - vdot b rc) * (t - vdot b rc) - (1 - vdot b b) * (t * t - vdot rc rc)) in *.
  fold T in H0, Hn, Hs, Hp.
  assert (Hrc : vsub obs x0 = vmul rc nc).
  { unfold rc. revert Hc. generalize (nc (T:=R)). intros c Hc. clear -Hc. vdestr; vunfold; unnum; vsplit; field; lra. }
  assert (Hsrc : vsub obs src = vmul (vsub rc (vmul b T)) nc).
  { unfold src. replace (vsub obs (vadd x0 (vmul b (nc * T)))) with (vsub (vsub obs x0) (vmul b (nc * T)))
      by (clear; generalize (nc (T:=R)); vring). rewrite Hrc. clear; generalize (nc (T:=R)); vring. }
  assert (Hnow : vsub obs now = vmul w (- nc)).
  { unfold now. replace (vsub obs (vadd x0 (vmul b (nc * t)))) with (vsub (vsub obs x0) (vmul b (nc * t)))
      by (clear; generalize (nc (T:=R)); vring). rewrite Hrc. unfold w. clear; generalize (nc (T:=R)); vring. }
  assert (Hw0 : w <> vzero).
  { intros Hz. apply Hne. rewrite <- (vadd_0_l now). 
    replace obs with (vadd (vsub obs now) now) by (clear; vring). f_equal.
    rewrite Hnow, Hz. clear; generalize (nc (T:=R)); vring. }
  destruct (Hp Hw0) as [Hsp Htp].
  assert (HR : vnorm (vsub obs src) = nc * (t - T)).
  { rewrite Hsrc, vnorm_mul, Hn, Rabs_pos_eq by lra. reflexivity. }
  split; [exact HR|]. split; [exact Htp|].
  assert (Hdir : direction (vsub obs src) = vmul (vsub rc (vmul b T)) (/ (t - T))).
  { unfold direction. rewrite HR, Hsrc. revert Hc. generalize (nc (T:=R)). intros c Hc.
    generalize (vsub rc (vmul b T)). intros v. clear -Hc Htp. vdestr; vunfold; unnum; vsplit; field; lra. }
  assert (Hk : 1 - vdot (direction (vsub obs src)) b = sqrt D / (t - T)).
  { rewrite Hdir. rewrite <- Hs. rewrite vdot_mul_l, (vdot_comm _ b). field. lra. }
  assert (Hnb : vsub (direction (vsub obs src)) b = vmul w (- / (t - T))).
  { rewrite Hdir. unfold w. clear -Htp. vdestr; vunfold; unnum; vsplit; field; lra. }
  assert (HE : lienard_wiechert charge src b vzero obs = e).
  { unfold lienard_wiechert. cbv zeta. rewrite Hk, Hnb, HR.
    unfold e, heaviside. cbv zeta. rewrite Hnow.
    assert (HQ : sqrt (vabs2 (vmul w (- nc)) - vabs2 (vcross b (vmul w (- nc)))) = nc * sqrt D).
    { rewrite HD. replace (vabs2 (vmul w (- nc)) - vabs2 (vcross b (vmul w (- nc))))
        with (nc * nc * ((1 - vabs2 b) * vabs2 w + vdot b w * vdot b w))
        by (clear; generalize (nc (T:=R)); vring).
      rewrite sqrt_mult; [|nra|].
      - rewrite sqrt_square by lra. reflexivity.
      - rewrite <- HD. destruct (Rle_dec 0 D); [assumption|]. exfalso.
        rewrite (sqrt_neg_0 D) in Hsp by lra. lra. }
    rewrite HQ. revert Hc. generalize (nc (T:=R)). intros c Hc.
    generalize (coulomb_const charge). intros q. revert Hsp. generalize (sqrt D). intros s Hsp.
    generalize (1 - vabs2 b). intros g. generalize (t - T) Htp. intros u Hu.
    clear -Hsp Hu Hc. destruct (vmul w (- / u)) as [a1 a2 a3] eqn:Ew.
    assert (E1 : a1 = vx w * (- / u)) by (apply (f_equal vx) in Ew; cbn in Ew; auto).
    assert (E2 : a2 = vy w * (- / u)) by (apply (f_equal vy) in Ew; cbn in Ew; auto).
    assert (E3 : a3 = vz w * (- / u)) by (apply (f_equal vz) in Ew; cbn in Ew; auto).
    subst. clear Ew. vdestr. vunfold; unnum; vsplit; field; repeat split; lra. }
  unfold with_magnetic. rewrite HE. f_equal. f_equal.
  unfold e, heaviside. cbv zeta. generalize (coulomb_const charge * (1 - vabs2 b) /
     sqrt (vabs2 (vsub obs now) - vabs2 (vcross b (vsub obs now))) ^ 3). intros k.
  rewrite Hnow, Hdir. unfold w. clear -Htp. generalize (nc (T:=R)). intros c.
  vdestr; vunfold; unnum; vsplit; field; lra.
Qed.

(* no signal from the trajectory has arrived yet: what the code computes *)
Lemma before_start (p : particle R) t obs a :
  wf p -> nth_error (trajectory p) 0 = Some a ->
  (forall b, In b (trajectory p) -> t <= arrival obs b) ->
  let b := beta_of (tpp a) in
  let T := emission b (vdiv (vsub obs (tpx a)) nc) t in
  let src := vadd (tpx a) (vmul b (nc * T)) in
  RetardedField_time p t obs =
    Ok (with_magnetic src obs (lienard_wiechert (pCharge p) src b vzero obs)).
Proof.
  intros Hw Ha Hall b T src. pose proof (trajectory_length p Hw) as HL.
  assert (Hl : (0 < length (trajectory p))%nat) by (apply nth_error_Some; congruence).
  assert (HN : (pNP p - 1)%Z = Z.of_nat (length (trajectory p) - 1)) by lia.
  destruct (nth_trajectory_inv p (length (trajectory p) - 1) Hw) as [z Hz]; [lia|].
  unfold RetardedField_time. destruct (Z.ltb_spec (pNP p) 1); [lia|].
  rewrite (seen_arrival p 0 a obs t Ha : seen p t obs 0 = _). cbn [bind].
  rewrite HN, (seen_arrival p _ z obs t Hz). cbn [bind].
  pose proof (Hall a (nth_error_In _ _ Ha)). pose proof (Hall z (nth_error_In _ _ Hz)).
  change (nleb (t - arrival obs z) (nZ 0)) with (Rleb (t - arrival obs z) 0).
  destruct (Rleb_spec (t - arrival obs z) 0); [|lra].
  change (nleb (t - arrival obs a) (nZ 0)) with (Rleb (t - arrival obs a) 0).
  destruct (Rleb_spec (t - arrival obs a) 0); [|lra].
  destruct (nth_trajectory p 0 a Ha) as (A1 & A2 & A3 & A4).
  rewrite (zget_nth _ _ _ A2 : zget (pXs p) 0 = _), (zget_nth _ _ _ A3 : zget (pPs p) 0 = _). cbn [bind].
  f_equal.
  change (vabs2 (tpp a) + nZ 1)%num with (vabs2 (tpp a) + 1).
  change (nsqrt (vabs2 (tpp a) + 1)) with (sqrt (vabs2 (tpp a) + 1)). rewrite code_gamma.
  change (vdiv (tpp a) (gamma_of (tpp a))) with b.
  match goal with |- radiated _ (vadd _ (vmul (vmul _ _) ?T0)) _ _ _ _ = _ => change T0 with T end.
  replace (vmul (vmul b nc) T) with (vmul b (nc * T)) by (generalize (nc (T:=R)) T b; vring).
  fold src. unfold b. rewrite radiated_lw; [reflexivity|]. rewrite gamma_of_sq. apply Rplus_comm.
Qed.
