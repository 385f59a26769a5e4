(* Energy and momentum of a tracked particle in double precision. *)
From Coq Require Import ZArith Reals List Bool Lia Lra Psatz Floats.
From Flocq Require Import Core.
From Verif Require Import Base BaseFacts Num NumFloat VecModel VecFacts ParticleModel VaySpec VayProofs FloatFacts FloatFacts2 FloatErr FloatTrack FloatStep.
Import ListNotations.
Local Open Scope R_scope.

(* ---- the exact values as functions of the momentum ---- *)
Definition near (d : R) (a b : vec R) : Prop := Rabs (vx a - vx b) <= d /\ Rabs (vy a - vy b) <= d /\ Rabs (vz a - vz b) <= d.
Lemma near_abs2 d a b : near d a b -> 0 <= vabs2 (vsub a b) <= 3 * (d * d).
Proof.
  intros (A & B & C). split; [apply vabs2_nonneg|]. apply sq_of_abs in A, B, C. unfold vabs2, vsub. cbn [vx vy vz]. unnum. lra.
Qed.
Lemma dot_le (a b : vec R) : Rabs (vdot a b) <= gamma_of a * gamma_of b.
Proof.
  pose proof (cauchy a b) as C. pose proof (gamma_of_sq a) as A. pose proof (gamma_of_sq b) as B. pose proof (gamma_of_ge_1 a). pose proof (gamma_of_ge_1 b).
  pose proof (vabs2_nonneg a). pose proof (vabs2_nonneg b). apply abs_of_sq; [nra|].
  replace (gamma_of a * gamma_of b * (gamma_of a * gamma_of b)) with ((gamma_of a * gamma_of a) * (gamma_of b * gamma_of b)) by ring. rewrite A, B. nra.
Qed.
Lemma sum_abs2 (a b : vec R) : vabs2 (vadd a b) <= (gamma_of a + gamma_of b) * (gamma_of a + gamma_of b).
Proof.
  pose proof (dot_le a b) as D. pose proof (gamma_of_sq a) as A. pose proof (gamma_of_sq b) as B. pose proof (Rle_abs (vdot a b)).
  replace (vabs2 (vadd a b)) with (vabs2 a + vabs2 b + 2 * vdot a b) by (destruct a as [x y z], b as [x' y' z']; unfold vabs2, vdot, vadd; cbn [vx vy vz]; unnum; ring). nra.
Qed.
Lemma abs_sqrt3 x d s : 0 <= d -> 0 <= s -> x * x <= 3 * (d * d) * (s * s) -> Rabs x <= 17321 / 10000 * d * s.
Proof. intros D S H. apply abs_of_sq; [apply Rmult_le_pos; lra|]. nra. Qed.
Lemma diff_abs2 d a b : 0 <= d -> near d a b -> Rabs (vabs2 a - vabs2 b) <= 17321 / 10000 * d * (gamma_of a + gamma_of b).
Proof.
  intros D N. pose proof (near_abs2 _ _ _ N) as [N0 N1]. pose proof (sum_abs2 a b) as S. pose proof (gamma_of_ge_1 a). pose proof (gamma_of_ge_1 b). pose proof (vabs2_nonneg (vadd a b)) as S0.
  replace (vabs2 a - vabs2 b) with (vdot (vsub a b) (vadd a b)) by (destruct a as [x y z], b as [x' y' z']; unfold vabs2, vdot, vadd, vsub; cbn [vx vy vz]; unnum; ring).
  apply abs_sqrt3; [exact D|lra|]. eapply Rle_trans; [apply cauchy|]. apply Rmult_le_compat; assumption.
Qed.
Lemma gamma_lip d a b : 0 <= d -> near d a b -> Rabs (gamma_of a - gamma_of b) <= 17321 / 10000 * d.
Proof.
  intros D N. pose proof (diff_abs2 d a b D N) as H. pose proof (gamma_of_sq a) as A. pose proof (gamma_of_sq b) as B. pose proof (gamma_of_ge_1 a). pose proof (gamma_of_ge_1 b).
  replace (vabs2 a - vabs2 b) with ((gamma_of a - gamma_of b) * (gamma_of a + gamma_of b)) in H by (ring_simplify; nra).
  rewrite Rabs_mult, (Rabs_pos_eq (gamma_of a + gamma_of b)) in H by lra. apply Rmult_le_reg_r in H; [exact H|lra].
Qed.
Lemma turn_dot d a b T : 0 <= d -> small_turn T -> near d a b ->
  Rabs (vdot a T * vdot a T - vdot b T * vdot b T) <= 3 / 16 * (17321 / 10000 * d * (gamma_of a + gamma_of b)).
Proof.
  intros D St N. pose proof (near_abs2 _ _ _ N) as [N0 N1]. pose proof (sum_abs2 a b) as S. pose proof (gamma_of_ge_1 a). pose proof (gamma_of_ge_1 b). pose proof (vabs2_nonneg (vadd a b)) as S0.
  pose proof (turn_abs2 T St) as TT. pose proof (cauchy (vsub a b) T) as C1. pose proof (cauchy (vadd a b) T) as C2.
  replace (vdot a T * vdot a T - vdot b T * vdot b T) with (vdot (vsub a b) T * vdot (vadd a b) T)
    by (destruct a as [x y z], b as [x' y' z'], T as [x2 y2 z2]; unfold vabs2, vdot, vadd, vsub; cbn [vx vy vz]; unnum; ring).
  set (u := vdot (vsub a b) T) in *. set (v := vdot (vadd a b) T) in *. set (s := gamma_of a + gamma_of b) in *.
  assert (A1 : Rabs u <= 17321 / 10000 * d * R_sqrt.sqrt (vabs2 T)). { apply abs_sqrt3; [exact D|apply sqrt_pos|]. rewrite sqrt_sqrt by lra. eapply Rle_trans; [exact C1|]. apply Rmult_le_compat_r; lra. }
  assert (A2 : Rabs v <= s * R_sqrt.sqrt (vabs2 T)). { pose proof (sqrt_pos (vabs2 T)). apply abs_of_sq; [apply Rmult_le_pos; unfold s; lra|].
    replace (s * R_sqrt.sqrt (vabs2 T) * (s * R_sqrt.sqrt (vabs2 T))) with (s * s * (R_sqrt.sqrt (vabs2 T) * R_sqrt.sqrt (vabs2 T))) by ring. rewrite sqrt_sqrt by lra.
    eapply Rle_trans; [exact C2|]. apply Rmult_le_compat_r; lra. }
  rewrite Rabs_mult. apply Rle_trans with ((17321 / 10000 * d * R_sqrt.sqrt (vabs2 T)) * (s * R_sqrt.sqrt (vabs2 T))); [apply Rmult_le_compat; auto using Rabs_pos|].
  replace ((17321 / 10000 * d * R_sqrt.sqrt (vabs2 T)) * (s * R_sqrt.sqrt (vabs2 T))) with ((R_sqrt.sqrt (vabs2 T) * R_sqrt.sqrt (vabs2 T)) * (17321 / 10000 * d * s)) by ring.
  rewrite sqrt_sqrt by lra. apply Rmult_le_compat_r; [apply Rmult_le_pos; unfold s; lra|lra].
Qed.
Lemma gam_lip d a b T : 0 <= d -> small_turn T -> near d a b -> Rabs (gam a T - gam b T) <= 23 / 10 * d.
Proof.
  intros D St N. pose proof (diff_abs2 d a b D N) as H1. pose proof (turn_dot d a b T D St N) as H2. set (K := 17321 / 10000 * d * (gamma_of a + gamma_of b)) in *.
  destruct (exact_gam a T) as (Ea & a1 & _). destruct (exact_gam b T) as (Eb & b1 & _).
  pose proof (quad_root a T) as Qa. pose proof (quad_root b T) as Qb.
  change (/ 2 * (vabs2 a + 1 - vabs2 T + R_sqrt.sqrt ((vabs2 a + 1 - vabs2 T) * (vabs2 a + 1 - vabs2 T) + 4 * (vabs2 T + vdot a T * vdot a T)))) with (gam2 a T) in Qa.
  change (/ 2 * (vabs2 b + 1 - vabs2 T + R_sqrt.sqrt ((vabs2 b + 1 - vabs2 T) * (vabs2 b + 1 - vabs2 T) + 4 * (vabs2 T + vdot b T * vdot b T)))) with (gam2 b T) in Qb.
  pose proof (exact_range a T St) as Ra. pose proof (exact_range b T St) as Rb. cbn zeta in Ra, Rb. destruct Ra as (_ & _ & _ & _ & _ & Ra). destruct Rb as (_ & _ & _ & _ & _ & Rb).
  pose proof (gamma_of_sq a) as Sa. pose proof (gamma_of_sq b) as Sb. pose proof (gamma_of_ge_1 a) as Ga. pose proof (gamma_of_ge_1 b) as Gb.
  assert (x1 : 1 <= gam2 a T) by (rewrite <- Ea; nra). assert (y1 : 1 <= gam2 b T) by (rewrite <- Eb; nra).
  pose proof (quad_w_nonneg b T) as W0. set (x := gam2 a T) in *. set (y := gam2 b T) in *. set (w := vabs2 T + vdot b T * vdot b T) in *.
  assert (K0 : 0 <= K) by (unfold K; apply Rmult_le_pos; lra).
  (* (x-y)(1+w/(xy)) = |a|^2-|b|^2 + ((aT)^2-(bT)^2)/x *)
  assert (E : (x - y) * (1 + w / (x * y)) = (vabs2 a - vabs2 b) + (vdot a T * vdot a T - vdot b T * vdot b T) / x).
  { assert (Xa : x = vabs2 a + 1 - vabs2 T + (vabs2 T + vdot a T * vdot a T) / x) by (apply (Rmult_eq_reg_r x); [field_simplify; lra|lra]).
    assert (Xb : y = vabs2 b + 1 - vabs2 T + w / y) by (apply (Rmult_eq_reg_r y); [field_simplify; unfold w in *; lra|lra]).
    transitivity ((x - (vabs2 T + vdot a T * vdot a T) / x) - (y - w / y) + (vdot a T * vdot a T - vdot b T * vdot b T) / x).
    - unfold w. field. lra.
    - lra. }
  assert (L : Rabs (x - y) <= 19 / 16 * K).
  { assert (Q : 0 <= w / (x * y)) by (apply Rmult_le_pos; [exact W0|]; apply Rlt_le, Rinv_0_lt_compat; nra).
    assert (Rabs (x - y) <= Rabs ((x - y) * (1 + w / (x * y)))) by (rewrite Rabs_mult, (Rabs_pos_eq (1 + w / (x * y))) by lra; pose proof (Rabs_pos (x - y)); nra).
    eapply Rle_trans; [eassumption|]. rewrite E. eapply Rle_trans; [apply Rabs_triang|].
    assert (Rabs ((vdot a T * vdot a T - vdot b T * vdot b T) / x) <= 3 / 16 * K).
    { unfold Rdiv. rewrite Rabs_mult, Rabs_inv, (Rabs_pos_eq x) by lra. apply Rle_trans with (3 / 16 * K * 1); [|lra]. apply Rmult_le_compat; [apply Rabs_pos|apply Rlt_le, Rinv_0_lt_compat; lra|exact H2|]. rewrite <- Rinv_1. apply Rinv_le_contravar; lra. }
    lra. }
  assert (g1 : 9 / 10 * gamma_of a <= gam a T) by nra. assert (g2 : 9 / 10 * gamma_of b <= gam b T) by nra.
  replace (x - y) with ((gam a T - gam b T) * (gam a T + gam b T)) in L by (rewrite <- Ea, <- Eb; ring).
  rewrite Rabs_mult, (Rabs_pos_eq (gam a T + gam b T)) in L by lra. pose proof (Rabs_pos (gam a T - gam b T)) as AP.
  assert (L2 : Rabs (gam a T - gam b T) * (9 / 10 * (gamma_of a + gamma_of b)) <= 23 / 10 * d * (9 / 10 * (gamma_of a + gamma_of b))).
  { eapply Rle_trans; [apply Rmult_le_compat_l; [exact AP|]|]. 2:{ eapply Rle_trans; [exact L|]. unfold K. nra. } lra. }
  apply Rmult_le_reg_r in L2; [exact L2|lra].
Qed.
(* half a step with the old velocity and half a step with the new one in a magnetic field *)
Lemma gam_conserved (P T : vec R) : gam (vadd P (vcross (beta_of P) T)) T = gamma_of P.
Proof.
  pose proof (gamma_of_sq P) as G. pose proof (gamma_of_ge_1 P) as G1. set (g := gamma_of P) in *. set (Q := vadd P (vcross (beta_of P) T)).
  assert (E : g * g = gam2 Q T).
  { apply (quad_unique Q T (g * g)); [nra|].
    assert (D : vdot Q T = vdot P T) by (unfold Q; generalize (beta_of P); intros [x y z]; destruct P as [a b c], T as [d e f]; unfold vdot, vadd, vcross; cbn [vx vy vz]; unnum; ring).
    assert (A : g * g * vabs2 Q = g * g * vabs2 P + (vabs2 P * vabs2 T - vdot P T * vdot P T)).
    { unfold Q, beta_of. fold g. destruct P as [a b c], T as [d e f]; unfold vabs2, vdot, vadd, vcross, vdiv; cbn [vx vy vz]; unnum. field. lra. }
    rewrite D. replace (g * g * (g * g) - (vabs2 Q + 1 - vabs2 T) * (g * g) - (vabs2 T + vdot P T * vdot P T))
      with (g * g * (g * g) - g * g * vabs2 Q - g * g + vabs2 T * (g * g) - vabs2 T - vdot P T * vdot P T) by ring.
    rewrite A, G. ring. }
  unfold gam. rewrite <- E. apply sqrt_square. lra.
Qed.

(* ---- the second half of a step ---- *)
Definition p_prime (q : flt) (ph e : vec flt) : vec flt := vadd ph (vmul (vdiv e nc) q).
Lemma near_of_ap d k G (a : vec flt) (A : vec R) : k * ur * G <= d -> ap k G (vx a) (vx A) /\ ap k G (vy a) (vy A) /\ ap k G (vz a) (vz A) -> finv a /\ near d (FV a) A.
Proof.
  intros D ((F1 & _ & E1) & (F2 & _ & E2) & (F3 & _ & E3)). split; [split; auto|]. unfold FV. repeat split; cbn [vx vy vz]; lra.
Qed.
Lemma half_double (q : flt) ph e b : finv (p_prime q ph e) -> below 240 (p_prime q ph e) -> finv (vmul b q) -> small_turn (FV (vmul b q)) ->
  let r := vay_half q ph e b in let G := gamma_of (FV (p_prime q ph e)) in let g := gam (FV (p_prime q ph e)) (FV (vmul b q)) in let G1 := gamma_of (FV (fst r)) in
  finv (fst r) /\ fin (snd r) /\ 9 / 10 * G <= g <= G /\ 1 <= g /\ Rabs (FR (snd r) - g) <= 102 / 10 * ur * G /\ Rabs (G1 - g) <= 555 / 10 * ur * G /\
  Rabs (FR (snd r) - G1) <= 74 * ur * G1.
Proof.
  intros Fp Bp Ft St. set (pp := p_prime q ph e) in *. set (tau := vmul b q) in *. cbn zeta. set (G := gamma_of (FV pp)).
  assert (E1 : fst (vay_half q ph e b) = mfl pp tau) by reflexivity. assert (E2 : snd (vay_half q ph e b) = gfl pp tau) by reflexivity. rewrite E1, E2.
  pose proof (p_g pp tau G Fp Bp Ft St eq_refl) as PG. pose proof (p_mom pp tau G Fp Bp Ft St eq_refl) as PM. pose proof (gam_range pp tau G St eq_refl) as R.
  destruct (exact_gam (FV pp) (FV tau)) as (E & g1 & EG). set (g := gam (FV pp) (FV tau)) in *.
  pose proof ur_gt0 as U0. assert (U1 : ur <= / 1000000) by (rewrite ur_eq; lra). assert (G0 : 1 <= G) by apply gamma_of_ge_1.
  destruct (near_of_ap (32 * ur * G) _ _ _ _ (Rle_refl _) PM) as [FM NM]. destruct PG as (Fg & _ & Eg).
  assert (D0 : 0 <= 32 * ur * G) by (apply Rmult_le_pos; lra).
  pose proof (gamma_lip _ _ _ D0 NM) as L. assert (GM : gamma_of (mom (FV pp) (FV tau)) = g). { unfold gamma_of. rewrite <- EG. apply sqrt_square. lra. } rewrite GM in L.
  set (G1 := gamma_of (FV (mfl pp tau))) in *. assert (L1 : Rabs (G1 - g) <= 555 / 10 * ur * G). { eapply Rle_trans; [exact L|]. assert (0 < ur * G) by (apply Rmult_lt_0_compat; lra). lra. }
  split; [exact FM|]. split; [exact Fg|]. split; [exact R|]. split; [exact g1|]. split; [exact Eg|]. split; [exact L1|].
  replace (FR (gfl pp tau) - G1) with ((FR (gfl pp tau) - g) - (G1 - g)) by ring.
  eapply Rle_trans; [apply Rabs_triang|]. rewrite Rabs_Ropp.
  assert (X : 999 / 1000 * G <= 10 / 9 * G1). { apply Rabs_le_inv in L1. assert (ur * G <= / 1000000 * G) by (apply Rmult_le_compat_r; lra). lra. }
  assert (ur * G <= ur * (10 / 9 * (1000 / 999) * G1)) by (apply Rmult_le_compat_l; lra). lra.
Qed.

(* ---- the state after the set-up and after a step ---- *)
Definition fell (p : particle flt) : Prop := (pVp p, pVg p) = vay_half (pqmt2 p) (pP p) (pE p) (pB p).
Lemma init_fell dt F (p q : particle flt) : InitVay dt F p = Ok q -> fell q.
Proof. intros H. unfold InitVay in H. destruct (pNP p <? 1)%Z; [discriminate|]. bget H as t Ht. bget H as x Hx. bget H as m Hm. bget H as eb Heb. destruct (vay_half _ _ _ _) as [p1 g] eqn:E. bget H as acs Ha. okinj H. unfold fell. cbn. symmetry. exact E. Qed.
Lemma step_fell F (p q : particle flt) : StepVay F p = Ok q -> fell q.
Proof. intros H. unfold StepVay in H. bget H as eb Heb. destruct (vay_half _ _ _ _) as [p1 g] eqn:E. okinj H. unfold fell. cbn. symmetry. exact E. Qed.
Lemma fell_gamma (q : particle flt) : fell q -> finv (p_prime (pqmt2 q) (pP q) (pE q)) -> below 240 (p_prime (pqmt2 q) (pP q) (pE q)) ->
  finv (vmul (pB q) (pqmt2 q)) -> small_turn (FV (vmul (pB q) (pqmt2 q))) ->
  finv (pVp q) /\ fin (pVg q) /\ Rabs (FR (pVg q) - gamma_of (FV (pVp q))) <= 74 * ur * gamma_of (FV (pVp q)).
Proof.
  intros H F1 B1 F2 S. pose proof (half_double _ _ _ _ F1 B1 F2 S) as D. cbn zeta in D. rewrite <- H in D. cbn [fst snd] in D. tauto.
Qed.
Lemma gamma_square (g G : R) : 1 <= G -> Rabs (g - G) <= 74 * ur * G -> 
  Rabs (g * g - G * G) <= bpow radix2 (-45) * (g * g) /\ 1 - bpow radix2 (-45) <= g /\ (g <= bpow radix2 22 -> G * G - 1 < g * g).
Proof.
  intros G1 H. assert (U : ur = / 9007199254740992) by (rewrite ur_eq; reflexivity). assert (B : bpow radix2 (-45) = 256 * ur) by (rewrite U; change (bpow radix2 (-45)) with (/ 35184372088832); lra).
  assert (B2 : bpow radix2 22 = 4194304) by reflexivity. rewrite B, B2. apply Rabs_le_inv in H. pose proof ur_gt0 as U0. assert (UG : 0 < ur * G) by (apply Rmult_lt_0_compat; lra).
  assert (US : ur <= / 1000000) by (rewrite U; lra). assert (USG : ur * G <= / 1000000 * G) by (apply Rmult_le_compat_r; lra).
  assert (G2 : 999 / 1000 * G <= g) by lra. assert (X : Rabs (g * g - G * G) <= 256 * ur * (g * g)).
  { replace (g * g - G * G) with ((g - G) * (g + G)) by ring. rewrite Rabs_mult, (Rabs_pos_eq (g + G)) by lra.
    assert (A : Rabs (g - G) <= 74 * ur * (1000 / 999 * g)). { apply Rabs_le. assert (ur * G <= ur * (1000 / 999 * g)) by (apply Rmult_le_compat_l; lra). lra. }
    apply Rle_trans with (74 * ur * (1000 / 999 * g) * (21 / 10 * g)); [apply Rmult_le_compat; [apply Rabs_pos|lra|exact A|lra]|].
    assert (0 <= ur * (g * g)) by (apply Rmult_le_pos; nra). nra. }
  split; [exact X|]. split.
  - assert (74 * ur * G <= 256 * ur * G) by lra. assert ((1 - 74 * ur) * 1 <= (1 - 74 * ur) * G) by (apply Rmult_le_compat_l; lra). lra.
  - intros L. apply Rabs_le_inv in X. assert (g * g <= 4194304 * 4194304) by (apply Rmult_le_compat; lra).
    assert (256 * ur * (g * g) <= 256 * ur * (4194304 * 4194304)) by (apply Rmult_le_compat_l; lra). rewrite U in *. lra.
Qed.

(* ---- a step in a magnetic field ---- *)
Section Magnet.
Variables (pi e0 b : vec flt) (gi q : flt) (e : Z) (G : R).
Hypothesis Fpi : finv pi.
Hypothesis Fgi : fin gi.
Hypothesis HG : G = gamma_of (FV pi).
Hypothesis GB : G <= bpow radix2 230.
Hypothesis Egi : Rabs (FR gi - G) <= 74 * ur * G.
Hypothesis Ze : zerov e0.
Hypothesis Fb : finv b.
Hypothesis Bb : below e b.
Hypothesis Fq : fin q.
Hypothesis Bq : Rabs (FR q) <= bpow radix2 (-2 - e).
Hypothesis He : (-900 <= e <= 900)%Z.
Let Tr := FV (vmul b q).
Lemma Gge1 : 1 <= G. Proof. rewrite HG. apply gamma_of_ge_1. Qed.
Lemma mg_sc c n : / 1024 <= c <= 1024 -> (n <= 1)%nat -> sc (c * G ^ n).
Proof.
  intros [C1 C2] N. pose proof Gge1 as G1. assert (X : 1 <= G ^ n <= bpow radix2 230). { destruct n as [|[|n]]; [|rewrite pow_1; lra|lia]. cbn [pow]. split; [lra|]. change 1 with (bpow radix2 0). apply bp_le. lia. }
  apply (sc_of (-10) 240); [|lia|lia]. change (-10)%Z with (Z.opp 10). rewrite bpow_opp. change (bpow radix2 10) with 1024. split; [nra|].
  replace 240%Z with (10 + 230)%Z by reflexivity. rewrite bpow_plus. change (bpow radix2 10) with 1024. apply Rmult_le_compat; lra.
Qed.
Lemma mg_pi : ap 0 G (vx pi) (FR (vx pi)) /\ ap 0 G (vy pi) (FR (vy pi)) /\ ap 0 G (vz pi) (FR (vz pi)).
Proof.
  pose proof Gge1. destruct (abs_comp_le (FV pi) G ltac:(lra) ltac:(rewrite HG; apply gamma_of_sq)) as (A & B & C). destruct Fpi as (F1 & F2 & F3). repeat split; try assumption;
  rewrite Rminus_diag_eq by reflexivity; rewrite Rabs_R0; lra.
Qed.
Lemma mg_gi : ap (741 / 10) (1001 / 1000 * G) gi G.
Proof.
  pose proof Gge1. pose proof ur_gt0. split; [exact Fgi|]. split; [rewrite Rabs_pos_eq; lra|]. eapply Rle_trans; [exact Egi|]. assert (0 < ur * G) by (apply Rmult_lt_0_compat; lra). lra.
Qed.
Lemma mg_beta x : ap 0 G x (FR x) -> ap (755 / 10) 1 (x / gi)%float (FR x / G).
Proof.
  pose proof Gge1 as G1. intros H. replace 1 with (G / G) by (field; lra).
  assert (Q : ap (743 / 10 + 11 / 10) (G / G) (x / gi)%float (FR x / G)).
  { apply (ap_div 0 (741 / 10) _ _ (1001 / 1000 * G) G); [dkk|dkk|dkk| |lra|lra|lra|lra| |exact H|exact mg_gi].
    - apply (sc_eq _ (1 * G ^ 0)); [cbn [pow]; field; lra|apply mg_sc; [lra|lia]].
    - replace (1001 / 1000 * G / G) with (1001 / 1000) by (field; lra). lra. }
  destruct Q as (F & B & E). apply (ap_re (743 / 10 + 11 / 10) _ (G / G)); [exact B| |split; [exact F|split; [exact B|exact E]]]. replace (G / G) with 1 by (field; lra). lra.
Qed.
Lemma be_sc c d : / 1024 <= c <= 1024 -> (-900 <= d <= 900)%Z -> sc (c * bpow radix2 d).
Proof.
  intros [C1 C2] D. pose proof (bpow_gt_0 radix2 d). pose proof (bpow_opp radix2 10) as I. change (bpow radix2 10) with 1024 in I.
  apply (sc_of (-10 + d) (10 + d)); [|lia|lia]. rewrite !bpow_plus. change (-10)%Z with (Z.opp 10). rewrite I. change (bpow radix2 10) with 1024. split; apply Rmult_le_compat_r; lra.
Qed.
Lemma be_q : bpow radix2 e * bpow radix2 (-2 - e) = / 4.
Proof. rewrite <- bpow_plus. replace (e + (-2 - e))%Z with (-2)%Z by lia. reflexivity. Qed.
Lemma mg_b x : fin x -> Rabs (FR x) <= bpow radix2 e -> ap 0 (bpow radix2 e) x (FR x).
Proof. intros F H. apply ap_exact; assumption. Qed.
Lemma mg_q : ap 0 (bpow radix2 (-2 - e)) q (FR q).
Proof. apply ap_exact; assumption. Qed.
(* one component of the momentum at the centre of the step *)
Lemma mg_half x y z z0 c d : ap 0 G x (FR x) -> ap 0 G y (FR y) -> ap 0 G z (FR z) -> fin z0 -> FR z0 = 0 -> fin c -> Rabs (FR c) <= bpow radix2 e -> fin d -> Rabs (FR d) <= bpow radix2 e ->
  ap (2764 / 100) (3 / 2 * G) (x + (z0 + (y / gi * d - z / gi * c)) * q)%float (FR x + (FR y / G * FR d - FR z / G * FR c) * FR q).
Proof.
  intros HX HY HZ Z0 Z0' Fc Bc Fd Bd. pose proof Gge1 as G1. pose proof (mg_beta _ HY) as BY. pose proof (mg_beta _ HZ) as BZ. pose proof (mg_b _ Fc Bc) as HC. pose proof (mg_b _ Fd Bd) as HD.
  set (Be := bpow radix2 e) in *. assert (B0 : 0 < Be) by apply bpow_gt_0. set (Bq' := bpow radix2 (-2 - e)) in *. assert (Q0 : 0 < Bq') by apply bpow_gt_0. pose proof be_q as BQ. fold Be Bq' in BQ.
  assert (M : forall u v, ap (755 / 10) 1 u v -> forall w, ap 0 Be w (FR w) -> ap (767 / 10) (1 * Be) (u * w)%float (v * FR w)).
  { intros u v Hu w Hw. assert (Q : ap (75501 / 1000 + 11 / 10) (1 * Be) (u * w)%float (v * FR w)) by (apply (ap_mul (755 / 10) 0); [dkk|dkk|dkk|apply be_sc; [lra|lia]|lra|lra|lra|exact Hu|exact Hw]).
    destruct Q as (F & B & E). apply (ap_re (75501 / 1000 + 11 / 10) _ (1 * Be)); [exact B|lra|split; [exact F|split; [exact B|exact E]]]. }
  pose proof (M _ _ BY d HD) as M1. pose proof (M _ _ BZ c HC) as M2.
  assert (S : ap (767 / 10 + 11 / 10) (1 * Be + 1 * Be) (y / gi * d - z / gi * c)%float (FR y / G * FR d - FR z / G * FR c)).
  { apply (ap_sub (767 / 10) (767 / 10)); [dkk| |lra|exact M1|exact M2]. apply (sc_eq _ (2 * Be)); [ring|]. apply be_sc; [lra|lia]. }
  assert (S' : ap (778 / 10) (2 * Be) (z0 + (y / gi * d - z / gi * c))%float (FR y / G * FR d - FR z / G * FR c)).
  { set (s := (y / gi * d - z / gi * c)%float) in *. destruct S as (F & B & E). assert (A : fin (z0 + s)%float /\ FR (z0 + s)%float = FR s).
    { destruct (add_ok z0 s Z0 F) as [F' V']. - rewrite Z0', Rplus_0_l, rn_FR. apply BinarySingleNaN.abs_B2R_lt_emax. - split; [exact F'|]. rewrite V', Z0', Rplus_0_l. apply rn_FR. }
    destruct A as [A1 A2]. split; [exact A1|]. split; [lra|]. rewrite A2. lra. }
  assert (W : ap (7781 / 100 + 11 / 10) (2 * Be * Bq') ((z0 + (y / gi * d - z / gi * c)) * q)%float ((FR y / G * FR d - FR z / G * FR c) * FR q)).
  { apply (ap_mul (778 / 10) 0); [dkk|dkk|dkk| |lra|lra|lra|exact S'|exact mg_q]. apply (sc_eq _ (/ 2 * G ^ 0)); [cbn [pow]; lra|]. apply mg_sc; [lra|lia]. }
  assert (W' : ap (7891 / 100) (/ 2 * G) ((z0 + (y / gi * d - z / gi * c)) * q)%float ((FR y / G * FR d - FR z / G * FR c) * FR q)).
  { apply (ap_re (7781 / 100 + 11 / 10) _ (2 * Be * Bq')); [destruct W as (_ & W & _); nra|nra|exact W]. }
  assert (Q : ap (2631 / 100 + 11 / 10) (G + / 2 * G) (x + (z0 + (y / gi * d - z / gi * c)) * q)%float (FR x + (FR y / G * FR d - FR z / G * FR c) * FR q)).
  { apply (ap_add 0 (7891 / 100)); [dkk| |lra|exact HX|exact W']. apply (sc_eq _ (3 / 2 * G ^ 1)); [cbn [pow]; lra|]. apply mg_sc; [lra|lia]. }
  apply (ap_re (2631 / 100 + 11 / 10) _ (G + / 2 * G)); [destruct Q as (_ & Q & _); lra|lra|exact Q].
Qed.
(* the rotation *)
Lemma mg_tau x : fin x -> Rabs (FR x) <= bpow radix2 e -> fin (x * q)%float /\ Rabs (FR (x * q)%float) <= / 4 /\ Rabs (FR x * FR q - FR (x * q)%float) <= 1102 / 4000 * ur.
Proof.
  intros F B. pose proof be_q as BQ. pose proof (bpow_gt_0 radix2 e) as B0. pose proof (bpow_gt_0 radix2 (-2 - e)) as B1.
  assert (X : Rabs (FR x * FR q) <= / 4). { rewrite Rabs_mult, <- BQ. apply Rmult_le_compat; auto using Rabs_pos. }
  assert (Q : ap (2 / 1000 + 11 / 10) (bpow radix2 e * bpow radix2 (-2 - e)) (x * q)%float (FR x * FR q)).
  { apply (ap_mul 0 0); [dkk|dkk|dkk| |lra|lra|lra|exact (mg_b _ F B)|exact mg_q]. rewrite BQ. apply (sc_eq _ (/ 4 * G ^ 0)); [cbn [pow]; lra|]. apply mg_sc; [lra|lia]. }
  rewrite BQ in Q. destruct Q as (Fx & _ & E). split; [exact Fx|]. split.
  - destruct (mul_ok x q F Fq) as [_ V'].
    + apply small_ok. eapply Rle_trans; [exact X|]. unfold big. apply Rle_trans with (bpow radix2 0); [change (bpow radix2 0) with 1; lra|apply bp_le; lia].
    + rewrite V'. change (/ 4) with (bpow radix2 (-2)). apply rn_below; [lia|]. exact X.
  - rewrite <- Rabs_Ropp. replace (- (FR x * FR q - FR (x * q)%float)) with (FR (x * q)%float - FR x * FR q) by ring. lra.
Qed.
Lemma mg_turn : finv (vmul b q) /\ small_turn Tr.
Proof. destruct Fb as (F1 & F2 & F3). destruct Bb as (B1 & B2 & B3). destruct (mg_tau _ F1 B1) as (A1 & A2 & _), (mg_tau _ F2 B2) as (C1 & C2 & _), (mg_tau _ F3 B3) as (D1 & D2 & _). split; split; auto. Qed.
Definition ph_fl : vec flt := vadd pi (vmul (vadd (vdiv e0 nc) (vcross (vdiv pi gi) b)) q).
Let Pstar := vadd (FV pi) (vcross (beta_of (FV pi)) Tr).
Lemma mg_shift x y z c d C D : Rabs y <= G -> Rabs z <= G -> Rabs (d - D) <= 1102 / 4000 * ur -> Rabs (c - C) <= 1102 / 4000 * ur ->
  Rabs ((x + (y / G * d - z / G * c)) - (x + (y / G * D - z / G * C))) <= 6 / 10 * ur * G.
Proof.
  intros Y Z H1 H2. pose proof Gge1 as G1. pose proof ur_gt0 as U. replace ((x + (y / G * d - z / G * c)) - (x + (y / G * D - z / G * C))) with (y / G * (d - D) - z / G * (c - C)) by ring.
  assert (A : forall w, Rabs w <= G -> Rabs (w / G) <= 1). { intros w W. unfold Rdiv. rewrite Rabs_mult, Rabs_inv, (Rabs_pos_eq G) by lra. apply Rmult_le_reg_r with G; [lra|]. rewrite Rmult_assoc, Rinv_l by lra. lra. }
  unfold Rminus at 1. eapply Rle_trans; [apply Rabs_triang|]. rewrite Rabs_Ropp, !Rabs_mult. apply A in Y, Z. pose proof (Rabs_pos (y / G)). pose proof (Rabs_pos (z / G)). pose proof (Rabs_pos (d - D)). pose proof (Rabs_pos (c - C)).
  assert (ur <= ur * G) by nra. nra.
Qed.
Lemma mg_ph : finv ph_fl /\ near (43 * ur * G) (FV ph_fl) Pstar.
Proof.
  destruct mg_pi as (X & Y & Z). destruct Fb as (F1 & F2 & F3). destruct Bb as (B1 & B2 & B3). pose proof Gge1 as G1. pose proof ur_gt0 as U0. assert (UG : 0 < ur * G) by (apply Rmult_lt_0_compat; lra).
  destruct (mg_tau _ F1 B1) as (_ & _ & A1), (mg_tau _ F2 B2) as (_ & _ & A2), (mg_tau _ F3 B3) as (_ & _ & A3).
  assert (Zc : zerov (vdiv e0 nc)). { apply zerov_div; [|exact Ze]. destruct c_ok as [_ V']. rewrite V'. lra. }
  apply zerov_parts in Zc. destruct Zc as ((Z1 & Z1') & (Z2 & Z2') & (Z3 & Z3')).
  pose proof (mg_half _ _ _ _ _ _ X Y Z Z1 Z1' F2 B2 F3 B3) as H1. pose proof (mg_half _ _ _ _ _ _ Y Z X Z2 Z2' F3 B3 F1 B1) as H2. pose proof (mg_half _ _ _ _ _ _ Z X Y Z3 Z3' F1 B1 F2 B2) as H3.
  destruct H1 as (I1 & _ & E1), H2 as (I2 & _ & E2), H3 as (I3 & _ & E3). split; [split; [exact I1|split; [exact I2|exact I3]]|].
  destruct X as (_ & X & _), Y as (_ & Y & _), Z as (_ & Z & _).
  assert (K : forall f x y z c d C D, Rabs y <= G -> Rabs z <= G -> Rabs (d * FR q - D) <= 1102 / 4000 * ur -> Rabs (c * FR q - C) <= 1102 / 4000 * ur ->
    Rabs (f - (x + (y / G * d - z / G * c) * FR q)) <= 2764 / 100 * ur * (3 / 2 * G) -> Rabs (f - (x + (y / G * D - z / G * C))) <= 43 * ur * G).
  { intros f x y z c d C D HY HZ HD HC E. pose proof (mg_shift x y z _ _ _ _ HY HZ HD HC) as SH.
    replace (f - (x + (y / G * D - z / G * C))) with ((f - (x + (y / G * d - z / G * c) * FR q)) + ((x + (y / G * (d * FR q) - z / G * (c * FR q))) - (x + (y / G * D - z / G * C)))) by ring.
    eapply Rle_trans; [apply Rabs_triang|]. lra. }
  unfold near, Pstar, Tr, beta_of. rewrite <- HG. unfold FV. cbn [vx vy vz].
  split; [|split].
  - exact (K _ _ _ _ _ _ _ _ Y Z A3 A2 E1).
  - exact (K _ _ _ _ _ _ _ _ Z X A1 A3 E2).
  - exact (K _ _ _ _ _ _ _ _ X Y A2 A1 E3).
Qed.
End Magnet.

Definition magnetic (e : Z) (F : field_fn flt) : Prop := forall t x eb, F t x = Ok eb -> zerov (fE eb) /\ finv (fB eb) /\ below e (fB eb).
(* momentum and relativistic factor carried between the steps *)
Definition paired (p : particle flt) : Prop :=
  finv (pVp p) /\ fin (pVg p) /\ Rabs (FR (pVg p) - gamma_of (FV (pVp p))) <= 74 * ur * gamma_of (FV (pVp p)).
Lemma below_gamma (v : vec flt) e : gamma_of (FV v) <= bpow radix2 e -> below e v.
Proof.
  intros H. pose proof (gamma_of_ge_1 (FV v)). destruct (abs_comp_le (FV v) (gamma_of (FV v)) ltac:(lra) (gamma_of_sq _)) as (A & B & C).
  unfold FV in A, B, C. cbn [vx vy vz] in A, B, C. unfold FV in H. repeat split; lra.
Qed.
Lemma kick_free q ph e0 : fin q -> zerov e0 -> finv ph -> finv (p_prime q ph e0) /\ FV (p_prime q ph e0) = FV ph.
Proof.
  intros Fq Z F. unfold p_prime. apply add_zerov; [exact F|]. apply zerov_mul; [exact Fq|]. apply zerov_div; [|exact Z]. destruct c_ok as [_ V']. rewrite V'. lra.
Qed.
Lemma magnet_step e F (p q : particle flt) : (-900 <= e <= 900)%Z -> magnetic e F -> paired p -> fin (pqmt2 p) -> Rabs (FR (pqmt2 p)) <= bpow radix2 (-2 - e) ->
  gamma_of (FV (pVp p)) <= bpow radix2 230 -> StepVay F p = Ok q ->
  paired q /\ pqmt2 q = pqmt2 p /\ Rabs (gamma_of (FV (pVp q)) - gamma_of (FV (pVp p))) <= 256 * ur * gamma_of (FV (pVp p)).
Proof.
  intros He HF (Fp & Fg & Eg) Fq Bq GB H. unfold StepVay in H. bget H as eb Heb. destruct (HF _ _ _ Heb) as (Ze & Fb & Bb).
  set (ph := vadd (pVp p) (vmul (vadd (vdiv (fE eb) nc) (vcross (vdiv (pVp p) (pVg p)) (fB eb))) (pqmt2 p))) in *.
  destruct (vay_half (pqmt2 p) ph (fE eb) (fB eb)) as [p1 g] eqn:EV. okinj H. cbn [pVp pVg pqmt2 storeTrajectoryPoint]. set (G := gamma_of (FV (pVp p))) in *.
  destruct (mg_turn (pVp p) (fB eb) (pqmt2 p) e G eq_refl GB Fb Bb Fq Bq) as [FT ST].
  destruct (mg_ph (pVp p) (fE eb) (fB eb) (pVg p) (pqmt2 p) e G Fp Fg eq_refl GB Eg Ze Fb Bb Fq Bq He) as [FP NP]. change (ph_fl (pVp p) (fE eb) (fB eb) (pVg p) (pqmt2 p)) with ph in FP, NP.
  destruct (kick_free (pqmt2 p) ph (fE eb) Fq Ze FP) as [FK EK].
  set (T := FV (vmul (fB eb) (pqmt2 p))) in *. pose proof ur_gt0 as U0. assert (U1 : ur <= / 1000000) by (rewrite ur_eq; lra). assert (G0 : 1 <= G) by apply gamma_of_ge_1. assert (UG : 0 < ur * G) by (apply Rmult_lt_0_compat; lra).
  assert (D0 : 0 <= 43 * ur * G) by lra. pose proof (gam_lip _ _ _ T D0 ST NP) as L. fold (beta_of (FV (pVp p))) in L. rewrite gam_conserved in L. fold G in L.
  pose proof (exact_range (FV ph) T ST) as R. cbn zeta in R. destruct R as (_ & _ & _ & _ & _ & R). rewrite <- gamma_of_sq in R. destruct (exact_gam (FV ph) T) as (EG & g1 & _). rewrite <- EG in R.
  assert (G'1 : 1 <= gamma_of (FV ph)) by apply gamma_of_ge_1. assert (G' : 9 / 10 * gamma_of (FV ph) <= gam (FV ph) T) by nra.
  assert (USG : ur * G <= / 1000000 * G) by (apply Rmult_le_compat_r; lra). apply Rabs_le_inv in L.
  assert (G'2 : gamma_of (FV ph) <= 112 / 100 * G) by lra.
  assert (BK : below 240 (p_prime (pqmt2 p) ph (fE eb))). { apply below_gamma. rewrite EK. eapply Rle_trans; [exact G'2|]. pose proof (bp_le 231 240 ltac:(lia)). pose proof (bpow_dbl 230) as B2. change (230 + 1)%Z with 231%Z in B2. lra. }
  pose proof (half_double _ _ _ _ FK BK FT ST) as HD. cbn zeta in HD. rewrite EV, EK in HD. cbn [fst snd] in HD. fold T in HD. destruct HD as (H1 & H2 & H3 & H4 & H5 & H6 & H7).
  split; [split; [exact H1|split; [exact H2|exact H7]]|]. split; [reflexivity|]. apply Rabs_le_inv in H6. assert (ur * gamma_of (FV ph) <= ur * (112 / 100 * G)) by (apply Rmult_le_compat_l; lra). apply Rabs_le. lra.
Qed.
Lemma magnet_run e Fs : (-900 <= e <= 900)%Z -> forall (p q : particle flt), (forall F, In F Fs -> magnetic e F) -> paired p -> fin (pqmt2 p) -> Rabs (FR (pqmt2 p)) <= bpow radix2 (-2 - e) ->
  (1 + 256 * ur) ^ length Fs * gamma_of (FV (pVp p)) <= bpow radix2 230 -> fold_res (fun q F => StepVay F q) Fs p = Ok q ->
  paired q /\ Rabs (gamma_of (FV (pVp q)) - gamma_of (FV (pVp p))) <= ((1 + 256 * ur) ^ length Fs - 1) * gamma_of (FV (pVp p)).
Proof.
  intros He. induction Fs as [|F Fs IH]; intros p q HF Hp Fq Bq GB H; cbn in H.
  - okinj H. split; [exact Hp|]. cbn [length pow]. rewrite Rminus_diag_eq by reflexivity. rewrite Rabs_R0. lra.
  - bget H as r Hr. pose proof ur_gt0 as U0. set (u := 256 * ur) in *. assert (Up : 0 < u) by (unfold u; lra). cbn [length pow] in *. set (K := (1 + u) ^ length Fs) in *. assert (K1 : 1 <= K) by (apply pow_R1_Rle; lra).
    pose proof (gamma_of_ge_1 (FV (pVp p))) as G1. set (G := gamma_of (FV (pVp p))) in *.
    assert (GB' : G <= bpow radix2 230) by (eapply Rle_trans; [|exact GB]; assert (1 <= (1 + u) * K) by nra; nra).
    destruct (magnet_step e F p r He (HF F (or_introl eq_refl)) Hp Fq Bq GB' Hr) as (P & E & L). fold u G in L. apply Rabs_le_inv in L. set (Gr := gamma_of (FV (pVp r))) in *.
    destruct (IH r q) as [Pq Lq]; [intros; apply HF; right; assumption|exact P|rewrite E; exact Fq|rewrite E; exact Bq| |exact H|].
    { fold Gr. eapply Rle_trans; [|exact GB]. replace ((1 + u) * K * G) with (K * ((1 + u) * G)) by ring. apply Rmult_le_compat_l; lra. }
    split; [exact Pq|]. fold Gr in Lq. apply Rabs_le_inv in Lq. assert ((K - 1) * Gr <= (K - 1) * ((1 + u) * G)) by (apply Rmult_le_compat_l; lra). apply Rabs_le. lra.
Qed.
Lemma pow_lin u n : 0 < u -> INR n * u <= / 2 -> (1 + u) ^ n <= 1 + 2 * (INR n * u).
Proof.
  intros U H. assert (A : (1 + u) ^ n * (1 - INR n * u) <= 1).
  { clear H. induction n as [|n IH]; [cbn; lra|]. rewrite S_INR. cbn [pow]. pose proof (pos_INR n) as N. assert (P : 0 < (1 + u) ^ n) by (apply pow_lt; lra).
    destruct (Rle_lt_dec (1 - (INR n + 1) * u) 0) as [L|L].
    - apply Rle_trans with 0; [|lra]. assert (0 < (1 + u) * (1 + u) ^ n) by (apply Rmult_lt_0_compat; lra). nra.
    - assert ((1 + u) * (1 - (INR n + 1) * u) <= 1 - INR n * u) by nra. replace ((1 + u) * (1 + u) ^ n * (1 - (INR n + 1) * u)) with ((1 + u) ^ n * ((1 + u) * (1 - (INR n + 1) * u))) by ring.
      eapply Rle_trans; [apply Rmult_le_compat_l; [lra|eassumption]|exact IH]. }
  assert (P : 0 < (1 + u) ^ n) by (apply pow_lt; lra). set (x := INR n * u) in *. assert (X : 0 <= x) by (unfold x; apply Rmult_le_pos; [apply pos_INR|lra]).
  apply Rmult_le_reg_r with (1 - x); [lra|]. eapply Rle_trans; [exact A|]. nra.
Qed.
Lemma magnet_energy e dt F Fs (p p1 q : particle flt) : (-900 <= e <= 900)%Z -> InitVay dt F p = Ok p1 -> fold_res (fun q F => StepVay F q) Fs p1 = Ok q ->
  (forall F', In F' (F :: Fs) -> magnetic e F') -> fin (pqmt2 p1) -> Rabs (FR (pqmt2 p1)) <= bpow radix2 (-2 - e) -> finv (pP p1) -> below 220 (pP p1) -> INR (length Fs) <= bpow radix2 44 ->
  fin (pVg p1) /\ fin (pVg q) /\ finv (pVp q) /\
  Rabs (FR (pVg q) - FR (pVg p1)) <= (INR (length Fs) + 1) * bpow radix2 (-44) * FR (pVg p1) /\
  Rabs (gamma_of (FV (pVp q)) - gamma_of (FV (pVp p1))) <= INR (length Fs) * bpow radix2 (-44) * gamma_of (FV (pVp p1)).
Proof.
  intros He HI HR HF Fq Bq Fp Bp HN. pose proof (init_fell _ _ _ _ HI) as FL.
  assert (HE : exists t x eb, F t x = Ok eb /\ pE p1 = fE eb /\ pB p1 = fB eb).
  { unfold InitVay in HI. destruct (pNP p <? 1)%Z; [discriminate|]. bget HI as t Ht. bget HI as x Hx. bget HI as m Hm. bget HI as eb Heb. destruct (vay_half _ _ _ _) as [p' g'] eqn:E. bget HI as acs Ha. okinj HI. exists t, x, eb. cbn. auto. }
  destruct HE as (t & x & eb & Heb & E1 & E2). destruct (HF F (or_introl eq_refl) _ _ _ Heb) as (Ze & Fb & Bb). rewrite <- E1 in Ze. rewrite <- E2 in Fb, Bb.
  destruct (kick_free _ (pP p1) (pE p1) Fq Ze Fp) as [FK EK].
  assert (G230 : gamma_of (FV (pP p1)) <= bpow radix2 223).
  { pose proof (gamma_of_sq (FV (pP p1))) as S. pose proof (gamma_of_ge_1 (FV (pP p1))). apply Rsqr_incr_0; [|lra|apply bpow_ge_0]. unfold Rsqr. rewrite S, <- bpow_plus. change (223 + 223)%Z with 446%Z.
    destruct Bp as (B1 & B2 & B3). unfold FV, vabs2. cbn [vx vy vz]. unnum. apply sq_below in B1, B2, B3. change (220 + 220)%Z with 440%Z in *.
    assert (1 <= bpow radix2 440) by (change 1 with (bpow radix2 0); apply bp_le; lia). pose proof (bpow_dbl 440) as D1. pose proof (bpow_dbl 441) as D2. change (440 + 1)%Z with 441%Z in *. change (441 + 1)%Z with 442%Z in *. pose proof (bp_le 442 446 ltac:(lia)). lra. }
  assert (BK : below 240 (p_prime (pqmt2 p1) (pP p1) (pE p1))). { apply below_gamma. rewrite EK. pose proof (bp_le 223 240 ltac:(lia)). lra. }
  destruct (mg_turn (pP p1) (pB p1) (pqmt2 p1) e (gamma_of (FV (pP p1))) eq_refl ltac:(pose proof (bp_le 223 230 ltac:(lia)); lra) Fb Bb Fq Bq) as [FT ST].
  pose proof (fell_gamma p1 FL FK BK FT ST) as PA. pose proof (half_double _ _ _ _ FK BK FT ST) as HD. cbn zeta in HD. rewrite <- FL in HD. cbn [fst snd] in HD. rewrite EK in HD. destruct HD as (_ & _ & H3 & _ & _ & H6 & _).
  set (G0 := gamma_of (FV (pP p1))) in *. set (G1 := gamma_of (FV (pVp p1))) in *. pose proof ur_gt0 as U0. assert (UE : ur = / 9007199254740992) by (rewrite ur_eq; reflexivity).
  assert (g0 : 1 <= G0) by apply gamma_of_ge_1. assert (g1 : 1 <= G1) by apply gamma_of_ge_1.
  assert (US : ur * G0 <= / 1000000 * G0) by (apply Rmult_le_compat_r; rewrite ?UE; lra). apply Rabs_le_inv in H6.
  assert (BN : bpow radix2 44 = 17592186044416) by reflexivity. rewrite BN in HN. assert (BM : bpow radix2 (-44) = 512 * ur) by (rewrite UE; change (bpow radix2 (-44)) with (/ 17592186044416); lra). rewrite BM.
  set (n := length Fs) in *. assert (N0 : 0 <= INR n) by apply pos_INR. assert (NU : INR n * (256 * ur) <= / 2) by (rewrite UE; lra).
  pose proof (pow_lin (256 * ur) n ltac:(lra) NU) as PL.
  destruct (magnet_run e Fs He p1 q) as [(Q1 & Q2 & Q3) RQ]; [intros; apply HF; right; assumption|exact PA|exact Fq|exact Bq| |exact HR|].
  { fold n G1. apply Rle_trans with (2 * (2 * bpow radix2 223)); [apply Rmult_le_compat; [apply pow_le; lra|lra|lra|lra]|].
    pose proof (bpow_dbl 223) as D1. pose proof (bpow_dbl 224) as D2. change (223 + 1)%Z with 224%Z in *. change (224 + 1)%Z with 225%Z in *. pose proof (bp_le 225 230 ltac:(lia)). lra. }
  fold n G1 in RQ. set (Gq := gamma_of (FV (pVp q))) in *. destruct PA as (P1 & P2 & P3). fold G1 in P3.
  assert (RQ' : Rabs (Gq - G1) <= INR n * (512 * ur) * G1). { eapply Rle_trans; [exact RQ|]. apply Rmult_le_compat_r; lra. }
  split; [exact P2|]. split; [exact Q2|]. split; [exact Q1|]. split; [|exact RQ'].
  apply Rabs_le_inv in RQ'. apply Rabs_le_inv in Q3. apply Rabs_le_inv in P3.
  assert (UG1 : 0 < ur * G1) by (apply Rmult_lt_0_compat; lra). assert (GQ2 : Gq <= 2 * G1). { assert (INR n * (512 * ur) * G1 <= 1 * G1) by (apply Rmult_le_compat_r; lra). lra. }
  assert (ur * Gq <= ur * (2 * G1)) by (apply Rmult_le_compat_l; lra).
  assert (A : Rabs (FR (pVg q) - FR (pVg p1)) <= (INR n * (512 * ur) + 222 * ur) * G1) by (apply Rabs_le; lra).
  eapply Rle_trans; [exact A|]. assert (GG : (1 - 74 * ur) * G1 <= FR (pVg p1)) by lra.
  assert (X : INR n * (512 * ur) + 222 * ur <= (INR n + 1) * (512 * ur) * (1 - 74 * ur)). { assert (INR n * (512 * ur) * (74 * ur) <= 1 * (74 * ur)) by (apply Rmult_le_compat_r; lra). assert (512 * ur * (74 * ur) <= ur) by (rewrite UE; lra). lra. }
  apply Rle_trans with ((INR n + 1) * (512 * ur) * (1 - 74 * ur) * G1); [apply Rmult_le_compat_r; lra|]. rewrite Rmult_assoc. apply Rmult_le_compat_l; [apply Rmult_le_pos; lra|exact GG].
Qed.
Lemma double_gamma dt F (p q : particle flt) :
  InitVay dt F p = Ok q \/ StepVay F p = Ok q ->
  let p' := vadd (pP q) (vmul (vdiv (pE q) nc) (pqmt2 q)) in let tau := vmul (pB q) (pqmt2 q) in
  finv p' -> below 240 p' -> finv tau ->
  Rabs (FR (vx tau)) <= / 4 -> Rabs (FR (vy tau)) <= / 4 -> Rabs (FR (vz tau)) <= / 4 ->
  finv (pVp q) /\ fin (pVg q) /\
  Rabs (FR (pVg q) * FR (pVg q) - (1 + vabs2 (FV (pVp q)))) <= bpow radix2 (-45) * (FR (pVg q) * FR (pVg q)) /\
  1 - bpow radix2 (-45) <= FR (pVg q) /\
  (FR (pVg q) <= bpow radix2 22 -> vnorm (FV (pVp q)) < FR (pVg q)).
Proof.
  intros H p' tau F1 B1 F2 S1 S2 S3. assert (FL : fell q) by (destruct H; [eapply init_fell|eapply step_fell]; eassumption).
  destruct (fell_gamma q FL F1 B1 F2 (conj S1 (conj S2 S3))) as (A & B & C). split; [exact A|]. split; [exact B|].
  pose proof (gamma_of_ge_1 (FV (pVp q))) as G1. destruct (gamma_square _ _ G1 C) as (D1 & D2 & D3). rewrite gamma_of_sq in D1, D3. split; [exact D1|]. split; [exact D2|].
  intros L. specialize (D3 L). assert (bpow radix2 (-45) <= / 2) by (change (/ 2) with (bpow radix2 (-1)); apply bp_le; lia).
  rewrite vnorm_sqrt. rewrite <- (sqrt_square (FR (pVg q))) by lra. apply sqrt_lt_1_alt. pose proof (vabs2_nonneg (FV (pVp q))). lra.
Qed.
