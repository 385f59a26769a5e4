(* Convergence of the tracking to the motion it approximates: the whole run. *)
From Coq Require Import ZArith Reals Lra Lia Psatz List.
From Verif Require Import Base BaseFacts Num VecModel VecFacts ParticleModel ParticleSpec ParticleProofs ParticleProofs2 VaySpec OrbitSpec
  VayProofs VayTracking VayTracking2 OrbitProofs ConvergeProofs ConvergeProofs2.
Import ListNotations.
Local Open Scope R_scope.

(* errors of position and momentum together *)
Lemma combine_errors h a L K C1 C2 T e d e' d' : 0 < h <= T -> 0 <= a -> 0 <= L -> 0 <= K -> 0 <= C1 -> 0 <= C2 -> h * a * K <= 1 / 2 -> 0 <= e -> 0 <= d -> 0 <= e' -> 0 <= d' ->
  e' <= e + 2 * h * d + C1 * (h * h * h) -> d' <= d + h * a * (L * e') + h * a * K * (d + d') + C2 * (h * h * h) ->
  e' + d' <= (1 + h * (4 * a * K + 2 * a * L + 4 + 4 * T * a * L)) * (e + d) + h * h * h * (2 * ((1 + T * a * L) * C1 + C2)).
Proof.
  intros Hh Ha HL HK H1 H2 Hy He Hd He' Hd' E1 E2. set (y := h * a * K) in *. set (l := h * a * L).
  assert (y0 : 0 <= y) by (unfold y; repeat apply Rmult_le_pos; lra). assert (l0 : 0 <= l) by (unfold l; repeat apply Rmult_le_pos; lra).
  assert (aL : 0 <= a * L) by (apply Rmult_le_pos; lra). assert (lT : l <= T * a * L) by (unfold l; replace (h * a * L) with (h * (a * L)) by ring; replace (T * a * L) with (T * (a * L)) by ring; apply Rmult_le_compat_r; lra).
  replace (h * a * (L * e')) with (l * e') in E2 by (unfold l; ring).
  set (h3 := h * h * h) in *. assert (h30 : 0 <= h3) by (unfold h3; repeat apply Rmult_le_pos; lra).
  set (z := l + 2 * h * (1 + l)). assert (z0 : 0 <= z) by (unfold z; assert (0 <= h * (1 + l)) by (apply Rmult_le_pos; lra); lra).
  assert (A : (1 - y) * (e' + d') <= (1 + y + z) * (e + d) + ((1 + l) * C1 + C2) * h3).
  { assert (X1 : (1 + l) * e' <= (1 + l) * (e + 2 * h * d + C1 * h3)) by (apply Rmult_le_compat_l; lra).
    assert (X2 : 0 <= y * e') by (apply Rmult_le_pos; lra). assert (X3 : 0 <= 2 * h * (1 + l) * e) by (repeat apply Rmult_le_pos; lra). assert (X4 : 0 <= l * d) by (apply Rmult_le_pos; lra). assert (X5 : 0 <= y * e) by (apply Rmult_le_pos; lra).
    unfold z. nra. }
  assert (B : e' + d' <= (1 + 2 * y) * ((1 - y) * (e' + d'))).
  { assert (0 <= (y - 2 * y * y) * (e' + d')) by (apply Rmult_le_pos; nra). nra. }
  assert (S0 : 0 <= e + d) by lra. assert (Q0 : 0 <= ((1 + l) * C1 + C2) * h3) by (apply Rmult_le_pos; [|lra]; assert (0 <= (1 + l) * C1) by (apply Rmult_le_pos; lra); lra).
  eapply Rle_trans; [exact B|]. eapply Rle_trans; [apply Rmult_le_compat_l; [lra|exact A]|]. rewrite Rmult_plus_distr_l. apply Rplus_le_compat.
  - rewrite <- Rmult_assoc. apply Rmult_le_compat_r; [exact S0|].
    assert (Y : (1 + 2 * y) * (1 + y + z) <= 1 + 4 * y + 2 * z) by nra. eapply Rle_trans; [exact Y|].
    assert (4 * y + 2 * z <= h * (4 * a * K + 2 * a * L + 4 + 4 * T * a * L)); [|lra].
    unfold z. replace (h * (4 * a * K + 2 * a * L + 4 + 4 * T * a * L)) with (4 * y + 2 * l + 4 * h + 4 * h * (T * a * L)) by (unfold y, l; ring).
    assert (h * l <= h * (T * a * L)) by (apply Rmult_le_compat_l; lra). lra.
  - apply Rle_trans with (2 * (((1 + l) * C1 + C2) * h3)); [apply Rmult_le_compat_r; lra|]. replace (h3 * (2 * ((1 + T * a * L) * C1 + C2))) with (2 * (((1 + T * a * L) * C1 + C2) * h3)) by ring.
    apply Rmult_le_compat_l; [lra|]. apply Rmult_le_compat_r; [lra|]. apply Rplus_le_compat_r. apply Rmult_le_compat_r; lra.
Qed.
Lemma exp_ge x : 0 <= x -> 1 + x <= exp x.
Proof. intros [H| <-]; [left; apply exp_ineq1; lra|rewrite exp_0; lra]. Qed.
Lemma exp_le x y : x <= y -> exp x <= exp y.
Proof. intros [H| ->]; [left; apply exp_increasing, H|lra]. Qed.
Definition bound (h G S0 c : R) (k : nat) : R := exp (INR k * h * G) * (S0 + INR k * c).
Lemma bound_step h G S0 c k : 0 <= h -> 0 <= G -> 0 <= S0 -> 0 <= c -> (1 + h * G) * bound h G S0 c k + c <= bound h G S0 c (S k).
Proof.
  intros Hh HG HS Hc. unfold bound. rewrite S_INR. pose proof (pos_INR k) as K0. assert (g0 : 0 <= h * G) by (apply Rmult_le_pos; lra). pose proof (exp_ge (h * G) g0) as E. pose proof (exp_pos (INR k * h * G)) as P.
  replace ((INR k + 1) * h * G) with (INR k * h * G + h * G) by ring. rewrite exp_plus. set (x := exp (INR k * h * G)) in *. set (y := exp (h * G)) in *.
  assert (k0 : 0 <= INR k * c) by (apply Rmult_le_pos; lra). assert (X1 : 1 <= x).
  { unfold x. rewrite <- exp_0. apply exp_le. rewrite Rmult_assoc. apply Rmult_le_pos; lra. }
  assert (A : (1 + h * G) * (x * (S0 + INR k * c)) <= y * (x * (S0 + INR k * c))) by (apply Rmult_le_compat_r; [apply Rmult_le_pos; lra|exact E]).
  assert (B : 1 * c <= (x * y) * c) by (apply Rmult_le_compat_r; [exact Hc|]; replace 1 with (1 * 1) by ring; apply Rmult_le_compat; lra).
  replace (x * y * (S0 + (INR k + 1) * c)) with (y * (x * (S0 + INR k * c)) + x * y * c) by ring. lra.
Qed.
Lemma bound_top h G S0 c k T : 0 <= h -> 0 <= G -> 0 <= S0 -> 0 <= c -> INR k * h <= T -> bound h G (h * h * S0) (h * h * h * c) k <= exp (T * G) * (S0 + T * c) * (h * h).
Proof.
  intros Hh HG HS Hc HT. unfold bound. pose proof (pos_INR k) as K0. assert (T0 : 0 <= T) by (assert (0 <= INR k * h) by (apply Rmult_le_pos; lra); lra).
  replace (exp (T * G) * (S0 + T * c) * (h * h)) with (exp (T * G) * ((S0 + T * c) * (h * h))) by ring. apply Rmult_le_compat.
  - left. apply exp_pos.
  - apply Rplus_le_le_0_compat; repeat apply Rmult_le_pos; lra.
  - apply exp_le. apply Rmult_le_compat_r; lra.
  - replace (h * h * S0 + INR k * (h * h * h * c)) with ((S0 + INR k * h * c) * (h * h)) by ring. apply Rmult_le_compat_r; [apply Rmult_le_pos; lra|]. apply Rplus_le_compat_l. apply Rmult_le_compat_r; lra.
Qed.
Lemma bound_mono h G S0 c k n : 0 <= h -> 0 <= G -> 0 <= S0 -> 0 <= c -> (k <= n)%nat -> bound h G S0 c k <= bound h G S0 c n.
Proof.
  intros Hh HG HS Hc H. induction H as [|n H IH]; [lra|]. eapply Rle_trans; [exact IH|]. pose proof (bound_step h G S0 c n Hh HG HS Hc).
  assert (0 <= bound h G S0 c n) by (unfold bound; apply Rmult_le_pos; [left; apply exp_pos|]; apply Rplus_le_le_0_compat; [exact HS|apply Rmult_le_pos; [apply pos_INR|exact Hc]]).
  assert (0 <= h * G * bound h G S0 c n) by (apply Rmult_le_pos; [apply Rmult_le_pos; assumption|assumption]). lra.
Qed.

Lemma accel_diff (u v : vec R) k : vnorm (vsub (vmul u k) (vmul v k)) = Rabs k * vnorm (vsub u v).
Proof. replace (vsub (vmul u k) (vmul v k)) with (vmul (vsub u v) k) by (clear; vring). rewrite norm_scale. apply Rmult_comm. Qed.
Lemma setup_accel dt (F : field_fn R) p q eb : InitVay dt F p = Ok q -> F (pt q) (pX q) = Ok eb -> pA q = vmul (lorentz (beta_of (pP q)) (fE eb) (fB eb)) (charge_over_mass (pCharge p) (pMass p)).
Proof.
  intros H Hf. unfold InitVay in H. destruct (Z.ltb_spec (pNP p) 1) as [Hn|Hn]; [discriminate|]. bget H as t Ht'. bget H as x Hx. bget H as m Hm. bget H as eb' Heb.
  set (q2 := nmul _ dt) in H. destruct (vay_half _ _ _ _) as [v g] eqn:E. bget H as acs Ha. okinj H. cbn [pt pX pP pA] in *. rewrite Heb in Hf. okinj Hf.
  unfold vay_accel, lorentz, beta_of, gamma_of. cbv zeta. change (nsqrt (nadd (vabs2 m) (nZ 1))) with (sqrt (vabs2 m + 1)). rewrite (Rplus_comm 1 (vabs2 m)).
  change (nmul (ndiv (pCharge p) (pMass p)) nirm) with (charge_over_mass (pCharge p) (pMass p)). generalize (vdiv m (sqrt (vabs2 m + 1))) (vdiv (fE eb') nc) (fB eb') (charge_over_mass (pCharge p) (pMass p)). clear. intros. vring.
Qed.

Section Run.
Variables (F : field_fn R) (p : particle R) (Ef Bf : R -> vec R -> vec R) (X P : R -> vec R) (t0 t1 rho M L K : R) (b1 f1 : R -> vec R) (Lb Lf : R).
Let qm := charge_over_mass (pCharge p) (pMass p).
Let a := Rabs qm.
Hypothesis Hw : wf p.
Hypothesis HS : solves qm Ef Bf X P t0 t1.
Hypothesis Ht : t0 < t1.
Hypothesis Hr : 0 < rho.
Hypothesis HR : regular F Ef Bf X P t0 t1 rho M L K.
Hypothesis Sb : smooth (fun t => beta_of (P t)) b1 Lb t0 t1.
Hypothesis Sf : smooth (fun t => lorentz (beta_of (P t)) (Ef t (X t)) (Bf t (X t))) f1 Lf t0 t1.
Hypothesis Lb0 : 0 <= Lb.
Hypothesis Lf0 : 0 <= Lf.
Hypothesis L0 : 0 <= L.
Hypothesis K0 : 0 <= K.
Let T := t1 - t0.
Let D := vnorm (f1 t0) + Lf * T.
Let S0 := a * a * K * M / 2 + a * D / 4.
Let G := 4 * a * K + 2 * a * L + 4 + 4 * T * a * L.
Let C1 := Lb / 4.
Let C2 := a * (K * Lb / 4) + a * Lf / 4.
Let C := 2 * ((1 + T * a * L) * C1 + C2).
Definition top : R := exp (T * G) * (S0 + T * C).
Definition mtop : R := (3 / 2 + T * a * L / 2) * top + S0.
Definition atop : R := a * (L * top + K * (2 * mtop)).
Definition accel (t : R) : vec R := vmul (lorentz (beta_of (P t)) (Ef t (X t)) (Bf t (X t))) qm.

Lemma at_orbit t : t0 <= t <= t1 -> vnorm (vsub (X t) (X t)) <= rho.
Proof. intros _. replace (vsub (X t) (X t)) with (vzero : vec R) by (generalize (X t); clear; intros; vring). rewrite norm_zero. lra. Qed.
Lemma M_bound t : t0 <= t <= t1 -> vnorm (lorentz (beta_of (P t)) (Ef t (X t)) (Bf t (X t))) <= M.
Proof. intros H. destruct (HR t (X t) H (at_orbit t H)) as (_ & Q). destruct (Q (beta_of (P t)) (beta_norm _)) as (Q1 & _). exact Q1. Qed.
Lemma M_pos : 0 <= M.
Proof. pose proof (M_bound t0 ltac:(lra)). pose proof (norm_nonneg (lorentz (beta_of (P t0)) (Ef t0 (X t0)) (Bf t0 (X t0)))). lra. Qed.
Lemma D_bound t : t0 <= t <= t1 -> vnorm (f1 t) <= D.
Proof.
  intros H. destruct Sf as (_ & Lg). pose proof (Lg t t0 H ltac:(lra)) as Q. rewrite Rabs_pos_eq in Q by lra. pose proof (norm_sum (vsub (f1 t) (f1 t0)) (f1 t0)) as N.
  replace (vadd (vsub (f1 t) (f1 t0)) (f1 t0)) with (f1 t) in N by (generalize (f1 t) (f1 t0); clear; intros; vring). unfold D. assert (Lf * (t - t0) <= Lf * T) by (apply Rmult_le_compat_l; unfold T; lra). lra.
Qed.
Lemma consts_pos : 0 <= a /\ 0 <= D /\ 0 <= S0 /\ 0 <= G /\ 0 <= C1 /\ 0 <= C2 /\ 0 <= C /\ 0 < T.
Proof.
  assert (a0 : 0 <= a) by apply Rabs_pos. pose proof M_pos as m0. assert (T0 : 0 < T) by (unfold T; lra). assert (d0 : 0 <= D) by (pose proof (norm_nonneg (f1 t0)); pose proof (Rmult_le_pos Lf T Lf0 ltac:(lra)); unfold D; lra).
  assert (0 <= a * a * K * M) by (repeat apply Rmult_le_pos; lra). assert (0 <= a * D) by (apply Rmult_le_pos; lra). assert (0 <= a * K) by (apply Rmult_le_pos; lra). assert (0 <= a * L) by (apply Rmult_le_pos; lra).
  assert (0 <= T * a * L) by (repeat apply Rmult_le_pos; lra). assert (c1 : 0 <= C1) by (unfold C1; lra). assert (c2 : 0 <= C2) by (assert (0 <= K * Lb) by (apply Rmult_le_pos; lra); assert (0 <= a * (K * Lb / 4)) by (apply Rmult_le_pos; lra); assert (0 <= a * Lf) by (apply Rmult_le_pos; lra); unfold C2; lra).
  split; [exact a0|]. split; [exact d0|]. split; [unfold S0; lra|]. split; [unfold G; lra|]. split; [exact c1|]. split; [exact c2|]. split; [|exact T0].
  unfold C. apply Rmult_le_pos; [lra|]. apply Rplus_le_le_0_compat; [apply Rmult_le_pos; lra|exact c2].
Qed.

Section Step.
Variables (h : R) (p1 : particle R) (x0 m0 : vec R) (n : nat).
Hypothesis h0 : 0 < h.
Hypothesis hy : h * a * K <= 1 / 2.
Hypothesis ht : (INR n + 1 / 2) * h <= T.
Hypothesis hr : nc * (top * (h * h)) <= rho.
Hypothesis HX0 : X t0 = x0.
Hypothesis HP0 : P t0 = m0.
Hypothesis H1 : InitVay h F p = Ok p1.
Hypothesis Hp1 : pt p1 = t0 /\ pX p1 = x0 /\ pP p1 = m0.

Definition good (k : nat) (r : particle R) : Prop :=
  tracked h r /\ pCharge r = pCharge p /\ pMass r = pMass p /\ pt r = t0 + INR k * h /\
  vnorm (vsub (pX r) (X (pt r))) / nc + vnorm (vsub (pVp r) (P (pt r + h / 2))) <= bound h G (h * h * S0) (h * h * h * C) k /\
  vnorm (vsub (pP r) (P (pt r))) <= mtop * (h * h) /\ vnorm (vsub (pA r) (accel (pt r))) <= atop * (h * h).

Lemma h_T k : (k <= n)%nat -> 0 <= INR k * h /\ INR k * h + h / 2 <= T /\ INR k * h <= T.
Proof. intros H. apply le_INR in H. pose proof (pos_INR k). assert (INR k * h <= INR n * h) by (apply Rmult_le_compat_r; lra). assert (0 <= INR k * h) by (apply Rmult_le_pos; lra). lra. Qed.
Lemma top_pos : 0 <= top /\ 0 <= mtop /\ 0 <= atop.
Proof.
  destruct consts_pos as (a0 & d0 & s0 & g0 & c1 & c2 & c0 & T0).
  assert (t00 : 0 <= top) by (unfold top; apply Rmult_le_pos; [left; apply exp_pos|]; pose proof (Rmult_le_pos T C ltac:(lra) c0); lra). split; [exact t00|].
  assert (m00 : 0 <= mtop) by (unfold mtop; apply Rplus_le_le_0_compat; [|exact s0]; apply Rmult_le_pos; [|exact t00]; assert (0 <= T * a * L) by (repeat apply Rmult_le_pos; lra); lra). split; [exact m00|].
  unfold atop. apply Rmult_le_pos; [exact a0|]. apply Rplus_le_le_0_compat; apply Rmult_le_pos; lra.
Qed.
Lemma accel_setup : pA p1 = accel t0.
Proof.
  destruct Hp1 as (E1 & E2 & E3). destruct (HR t0 x0 ltac:(lra)) as (HF & _); [rewrite <- HX0; apply at_orbit; lra|].
  rewrite (setup_accel h F p p1 (EB (Ef t0 x0) (Bf t0 x0)) H1) by (rewrite E1, E2; exact HF). rewrite E3. unfold accel. rewrite HX0, HP0. reflexivity.
Qed.
Lemma good_setup : good 0 p1.
Proof.
  destruct consts_pos as (a0 & d0 & s0 & g0 & c1 & c2 & c0 & T0). destruct Hp1 as (E1 & E2 & E3). destruct (setup_kept h F p p1 H1) as (Kc & Km).
  split; [exists p, p1, F, []; repeat split; auto; apply Hw|]. split; [exact Kc|]. split; [exact Km|]. split; [rewrite E1; cbn [INR]; ring|].
  rewrite E1, E2, E3, HX0, HP0. assert (Z : forall u : vec R, vnorm (vsub u u) = 0) by (intros u; replace (vsub u u) with (vzero : vec R) by (clear; vring); apply norm_zero). split.
  - assert (Zx : vnorm (vsub x0 (X t0)) = 0) by (rewrite HX0; apply Z). destruct (h_T 0 ltac:(lia)) as (_ & U & _). cbn [INR] in U. assert (It : t0 <= t0 <= t1) by lra.
    destruct (HR t0 x0 It) as (HF & Q); [rewrite Zx; lra|].
    destruct (setup_equation h F p p1 Hw H1) as (eb & Eb & V1 & _). rewrite E1, E2, HF in Eb. okinj Eb. cbn [fE fB] in V1. fold qm in V1. rewrite E3, <- HP0 in V1.
    pose proof (momentum_setup qm Ef Bf X P t0 t1 f1 Lf M L K D h) as MS. 
    specialize (MS (fun t H => proj2 (HS t H)) Sf). 
    rewrite Z. unfold bound. cbn [INR]. rewrite !Rmult_0_l, exp_0. replace (0 / nc) with 0 by (field; pose proof nc_pos; lra). 
    fold a in MS. rewrite Rplus_0_l, Rmult_1_l, Rplus_0_r.
    apply (MS K0 D_bound h0 x0 (pVp p1) Zx).
    + unfold T in U. lra.
    + intros b Hb. destruct (Q b Hb) as (_ & Q2). exact Q2.
    + destruct (Q _ (beta_norm (pVp p1))) as (Q1 & _). exact Q1.
    + exact V1.
  - rewrite Z. split; [apply Rmult_le_pos; [apply top_pos|apply Rmult_le_pos; lra]|]. rewrite accel_setup, Z. apply Rmult_le_pos; [apply top_pos|apply Rmult_le_pos; lra].
Qed.

(* the errors are small enough *)
Lemma bound_small k : (k <= n)%nat -> bound h G (h * h * S0) (h * h * h * C) k <= top * (h * h).
Proof.
  intros Hk. destruct consts_pos as (a0 & d0 & s0 & g0 & c1 & c2 & c0 & T0). unfold top. apply bound_top; try lra. apply h_T, Hk.
Qed.
Lemma good_step k r : (S k <= n)%nat -> good k r -> exists q, StepVay F r = Ok q /\ good (S k) q.
Proof.
  intros Hk (Tr & Kc & Km & Et & EB & _). destruct consts_pos as (a0 & d0 & s0 & g0 & c1 & c2 & c0 & T0). assert (m0' := M_pos). assert (NC := nc_pos).
  destruct (h_T (S k) Hk) as (U0 & U1 & U2). destruct (h_T k ltac:(lia)) as (V0 & _ & _). rewrite S_INR in U0, U1, U2.
  set (t := pt r) in *. assert (It : t0 <= t) by (rewrite Et; lra). assert (It' : t + h + h / 2 <= t1) by (rewrite Et; unfold T in *; lra).
  assert (hT : 0 < h <= T) by (unfold T in *; lra).
  (* position *)
  pose proof (position_step X P t0 t1 b1 Lb h (fun t H => proj1 (HS t H)) Sb Lb0 h0 t (pX r) (pVp r) It ltac:(lra)) as E1. fold C1 in E1.
  set (x' := vadd (pX r) (vmul (beta_of (pVp r)) (nc * h))) in *. set (e := vnorm (vsub (pX r) (X t)) / nc) in *. set (d := vnorm (vsub (pVp r) (P (t + h / 2)))) in *. set (e' := vnorm (vsub x' (X (t + h))) / nc) in *.
  assert (Dv : forall u : vec R, 0 <= vnorm u / nc) by (intros u; apply Rmult_le_pos; [apply norm_nonneg|left; apply Rinv_0_lt_compat; exact NC]).
  assert (e0 : 0 <= e) by apply Dv. assert (e0' : 0 <= e') by apply Dv. assert (d0' : 0 <= d) by apply norm_nonneg.
  set (h3 := h * h * h) in *. assert (h30 : 0 < h3) by (unfold h3; repeat apply Rmult_lt_0_compat; lra).
  pose proof (bound_step h G (h * h * S0) (h3 * C) k ltac:(lra) g0 ltac:(repeat apply Rmult_le_pos; lra) ltac:(apply Rmult_le_pos; lra)) as BS.
  assert (CC : C1 <= C). { unfold C. assert (0 <= T * a * L) by (repeat apply Rmult_le_pos; lra). assert (0 <= T * a * L * C1) by (apply Rmult_le_pos; lra). lra. }
  assert (GG : 2 <= G). { unfold G. assert (0 <= a * K) by (apply Rmult_le_pos; lra). assert (0 <= a * L) by (apply Rmult_le_pos; lra). assert (0 <= T * a * L) by (repeat apply Rmult_le_pos; lra). lra. }
  assert (Sum : (1 + h * G) * (e + d) + h3 * C <= bound h G (h * h * S0) (h3 * C) (S k)).
  { eapply Rle_trans; [|exact BS]. apply Rplus_le_compat_r. apply Rmult_le_compat_l; [assert (0 <= h * G) by (apply Rmult_le_pos; lra); lra|exact EB]. }
  assert (Ee : e' <= (1 + h * G) * (e + d) + h3 * C).
  { assert (2 * h * d <= h * G * d) by (apply Rmult_le_compat_r; [exact d0'|]; rewrite (Rmult_comm 2 h); apply Rmult_le_compat_l; lra). assert (0 <= h * G * e) by (apply Rmult_le_pos; [apply Rmult_le_pos; lra|exact e0]). assert (C1 * h3 <= h3 * C) by (rewrite Rmult_comm; apply Rmult_le_compat_l; lra). lra. }
  pose proof (bound_small (S k) Hk) as BT. fold h3 in BT.
  assert (Tube : vnorm (vsub x' (X (t + h))) <= rho).
  { eapply Rle_trans; [|exact hr]. assert (Q : e' <= top * (h * h)) by lra. unfold e' in Q. apply (Rmult_le_compat_l nc) in Q; [|lra]. replace (nc * (vnorm (vsub x' (X (t + h))) / nc)) with (vnorm (vsub x' (X (t + h)))) in Q by (field; lra). exact Q. }
  destruct (HR (t + h) x' ltac:(lra) Tube) as (HF & Q).
  assert (LF : forall b, vnorm b <= 1 -> vnorm (vsub (lorentz b (Ef (t + h) x') (Bf (t + h) x')) (lorentz (beta_of (P (t + h))) (Ef (t + h) (X (t + h))) (Bf (t + h) (X (t + h))))) <= L * (vnorm (vsub x' (X (t + h))) / nc) + K * vnorm (vsub b (beta_of (P (t + h))))).
  { intros b Hb. destruct (Q b Hb) as (_ & Q2). exact Q2. }
  (* the step is made *)
  assert (Ex : exists q, StepVay F r = Ok q).
  { destruct (tracked_tstate _ _ Tr) as (_ & Hg & Hd & _). unfold StepVay.
    assert (Xe : vadd (pX r) (vmul (vmul (vdiv (pVp r) (pVg r)) nc) (pdt r)) = x').
    { unfold x'. rewrite Hg, Hd. fold (beta_of (pVp r)). generalize (beta_of (pVp r)) (pX r) (nc : R). clear. intros. vring. }
    rewrite Xe, Hd. change (nadd (pt r) h) with (t + h). rewrite HF. cbn [bind]. destruct (vay_half _ _ _ _). eexists. reflexivity. }
  destruct Ex as (q & Hq). exists q. split; [exact Hq|].
  destruct (step_equation h F r q Tr Hq) as (eb & Eb & T1 & X1 & P1 & V1 & _ & A1). destruct (step_kept F r q Hq) as (Kc' & Km').
  fold t in T1. fold x' in X1. rewrite T1, X1, HF in Eb. okinj Eb. cbn [fE fB] in P1, V1, A1. rewrite Kc, Km in P1, V1, A1. fold qm in P1, V1, A1.
  split; [eapply tracked_step; eauto|]. split; [congruence|]. split; [congruence|]. split; [rewrite T1, Et, S_INR; ring|]. rewrite T1, X1.
  pose proof (momentum_step qm Ef Bf X P t0 t1 b1 f1 Lb Lf L K h (fun t H => proj2 (HS t H)) Sb Sf Lb0 Lf0 K0 h0 t x' (pVp r) (pVp q) It It' LF V1) as E2. cbv zeta in E2. fold a e' d h3 in E2.
  set (d' := vnorm (vsub (pVp q) (P (t + h + h / 2)))) in *. assert (d0'' : 0 <= d') by apply norm_nonneg.
  assert (E2' : d' <= d + h * a * (L * e') + h * a * K * (d + d') + C2 * (h * h * h)).
  { eapply Rle_trans; [exact E2|]. right. unfold C2, h3. field. }
  pose proof (combine_errors h a L K C1 C2 T e d e' d' hT a0 L0 K0 c1 c2 hy e0 d0' e0' d0'' E1 E2') as CE. fold G in CE. fold C in CE. fold h3 in CE.
  split; [exact (Rle_trans _ _ _ CE Sum)|].
  pose proof (momentum_recorded qm Ef Bf X P t0 t1 f1 Lf M L K D h (fun t H => proj2 (HS t H)) Sf K0 M_bound D_bound h0 t x' (pVp r) (pP q) It It' LF P1) as R1. cbv zeta in R1. fold a e' d S0 in R1.
  assert (MB : vnorm (vsub (pP q) (P (t + h))) <= mtop * (h * h)).
  { eapply Rle_trans; [exact R1|]. unfold mtop.
  assert (Bk : d <= top * (h * h)). { pose proof (bound_small k ltac:(lia)) as BT'. fold h3 in BT'. lra. } assert (Be : e' <= top * (h * h)) by lra.
  set (w := top * (h * h)) in *.
  assert (Q1 : h * a * K * d <= 1 / 2 * w) by (apply Rmult_le_compat; [repeat apply Rmult_le_pos; lra|exact d0'|exact hy|exact Bk]).
  assert (Q2 : h * a * L * e' / 2 <= T * a * L / 2 * w).
  { assert (al : 0 <= a * L) by (apply Rmult_le_pos; lra). replace (h * a * L * e' / 2) with (h * (a * L) / 2 * e') by field. replace (T * a * L / 2) with (T * (a * L) / 2) by field.
    apply Rmult_le_compat; [assert (0 <= h * (a * L)) by (apply Rmult_le_pos; lra); lra|exact e0'| |exact Be]. assert (h * (a * L) <= T * (a * L)) by (apply Rmult_le_compat_r; lra). lra. }
  replace (((3 / 2 + T * a * L / 2) * top + S0) * (h * h)) with (3 / 2 * w + T * a * L / 2 * w + h * h * S0) by (unfold w; ring). lra. }
  split; [exact MB|]. rewrite A1. unfold accel. rewrite accel_diff. fold a. unfold atop. rewrite Rmult_assoc. apply Rmult_le_compat_l; [exact a0|].
  eapply Rle_trans; [apply LF, beta_norm|]. fold e'. pose proof (beta_lip (pP q) (P (t + h))) as BL.
  assert (Be : e' <= top * (h * h)) by lra. apply (Rmult_le_compat_l L) in Be; [|exact L0].
  assert (Bq : vnorm (vsub (beta_of (pP q)) (beta_of (P (t + h)))) <= 2 * mtop * (h * h)) by lra. apply (Rmult_le_compat_l K) in Bq; [|exact K0]. lra.
Qed.
Lemma good_run k : (k <= n)%nat -> exists r, StepsVay F k p1 = Ok r /\ good k r.
Proof.
  induction k as [|k IH]; intros Hk; [exists p1; split; [reflexivity|apply good_setup]|].
  destruct (IH ltac:(lia)) as (r & Hr' & Gr). destruct (good_step k r Hk Gr) as (q & Hq & Gq). exists q. split; [|exact Gq]. unfold StepsVay in *. rewrite iter_res_S_r, Hr'. exact Hq.
Qed.
End Step.

Lemma converges i x0 m0 a0 : trajectory p = i ++ [TP t0 x0 m0 a0] -> X t0 = x0 -> P t0 = m0 ->
  exists Cst delta, 0 < delta /\ forall dt n, 0 < dt < delta -> (INR n + 1 / 2) * dt <= t1 - t0 ->
    exists q, bind (InitVay dt F p) (StepsVay F n) = Ok q /\ length (trajectory q) = (length i + S n)%nat /\
      forall k, (k <= n)%nat -> exists x m acc,
        nth_error (trajectory q) (length i + k) = Some (TP (t0 + INR k * dt) x m acc) /\
        vnorm (vsub x (X (t0 + INR k * dt))) <= Cst * Rsqr dt /\ vnorm (vsub m (P (t0 + INR k * dt))) <= Cst * Rsqr dt /\
        vnorm (vsub acc (accel (t0 + INR k * dt))) <= Cst * Rsqr dt.
Proof.
  intros HT HX HP. destruct consts_pos as (ca & cd & s0 & g0 & c1 & c2 & c0 & T0). destruct top_pos as (tp & mp & ap). assert (NC := nc_pos).
  exists ((nc : R) * top + mtop + atop). assert (nt : 0 <= nc * top) by (apply Rmult_le_pos; [left; exact NC|exact tp]). set (u := nc * top + 1). assert (u1 : 1 <= u) by (unfold u; lra).
  set (w := 2 * (a * K) + 1). assert (w1 : 1 <= w) by (unfold w; pose proof (Rmult_le_pos a K ca K0); lra).
  exists (Rmin 1 (Rmin (rho / u) (/ w))).
  assert (P1 : 0 < rho / u) by (apply Rdiv_lt_0_compat; lra). assert (P2 : 0 < / w) by (apply Rinv_0_lt_compat; lra).
  split; [apply Rmin_pos; [lra|apply Rmin_pos; assumption]|]. intros dt n (h0 & hd) hn.
  pose proof (Rmin_l 1 (Rmin (rho / u) (/ w))) as M1. pose proof (Rmin_r 1 (Rmin (rho / u) (/ w))) as M2. pose proof (Rmin_l (rho / u) (/ w)) as M3. pose proof (Rmin_r (rho / u) (/ w)) as M4.
  assert (A1 : dt < 1) by lra. assert (A2 : dt < rho / u) by lra. assert (A3 : dt < / w) by lra. clear M1 M2 M3 M4 hd.
  assert (hy : dt * a * K <= 1 / 2).
  { apply (Rmult_lt_compat_r w) in A3; [|lra]. rewrite Rinv_l in A3 by lra. unfold w in A3. replace (dt * a * K) with (dt * (a * K)) by ring. lra. }
  assert (hr : nc * (top * (dt * dt)) <= rho).
  { apply (Rmult_lt_compat_r u) in A2; [|lra]. replace (rho / u * u) with rho in A2 by (field; lra). assert (Q : dt * dt <= dt) by nra. 
    replace (nc * (top * (dt * dt))) with (nc * top * (dt * dt)) by ring. apply Rle_trans with (nc * top * dt); [apply Rmult_le_compat_l; lra|]. unfold u in A2. lra. }
  pose proof (setup_nonempty p dt F t0 x0 m0 a0 i Hw HT) as S. destruct (HR t0 x0 ltac:(lra)) as (HF & _); [rewrite <- HX; apply at_orbit; lra|]. rewrite HF in S. destruct S as (p1 & H1).
  destruct (InitVay_trajectory dt F p p1 Hw H1) as (i' & l & a' & A & B & E & _). rewrite HT in A. apply app_inj_tail in A. destruct A as (<- & <-). cbn [tpt tpx tpp] in *. injection E as Ct Cx Cp Ca.
  pose proof (good_run dt p1 x0 m0 n h0 hy hn hr HX HP H1 (conj Ct (conj Cx Cp))) as GR. destruct (GR n (le_n n)) as (q & Hq & _). exists q. rewrite H1. split; [exact Hq|].
  assert (Hw1 : wf p1) by (apply (wf_apply p p1 (OpSetup dt F)); assumption). destruct (StepsVay_trajectory F n p1 q Hw1 Hq) as (_ & pts & Hl & Htq & _ & _).
  split; [rewrite Htq, B, !app_length, Hl; cbn [length]; lia|].
  intros k Hk. destruct (recorded dt F p p1 n k q Hw H1 Hq Hk) as (r & Hr' & En). destruct (GR k Hk) as (r' & Hr'' & Gr). assert (r' = r) as -> by congruence.
  destruct Gr as (_ & _ & _ & Et & EB & EM & EA). exists (pX r), (pP r), (pA r). rewrite <- Et.
  split; [rewrite HT, app_length in En; cbn [length] in En; replace (length i + 1 - 1 + k)%nat with (length i + k)%nat in En by lia; exact En|].
  pose proof (bound_small dt n h0 hn k Hk) as BT. pose proof (norm_nonneg (vsub (pVp r) (P (pt r + dt / 2)))) as N0. unfold Rsqr.
  assert (Sq : 0 <= dt * dt) by (apply Rmult_le_pos; lra). assert (S1 : 0 <= mtop * (dt * dt)) by (apply Rmult_le_pos; lra). assert (S2 : 0 <= nc * top * (dt * dt)) by (apply Rmult_le_pos; assumption). assert (S3 : 0 <= atop * (dt * dt)) by (apply Rmult_le_pos; lra). split; [|split].
  - assert (Q : vnorm (vsub (pX r) (X (pt r))) / nc <= top * (dt * dt)) by lra. apply (Rmult_le_compat_l nc) in Q; [|lra]. replace (nc * (vnorm (vsub (pX r) (X (pt r))) / nc)) with (vnorm (vsub (pX r) (X (pt r)))) in Q by (field; lra).
    lra.
  - lra.
  - lra.
Qed.
End Run.
