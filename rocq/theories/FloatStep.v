(* The rounding errors of the second half of a tracking step. *)
From Coq Require Import ZArith Reals List Bool Lia Lra Psatz Floats.
From Flocq Require Import Core.
From Verif Require Import Base Num NumFloat VecModel VecFacts ParticleModel VaySpec VayProofs FloatFacts FloatFacts2 FloatErr FloatTrack.
Local Open Scope R_scope.

(* ---- the exact values ---- *)
Definition sigma_of (P T : vec R) : R := vabs2 P + 1 - vabs2 T.
Definition disc_of (P T : vec R) : R := sigma_of P T * sigma_of P T + 4 * (vabs2 T + vdot P T * vdot P T).
Definition gam2 (P T : vec R) : R := / 2 * (sigma_of P T + R_sqrt.sqrt (disc_of P T)).
Definition gam (P T : vec R) : R := R_sqrt.sqrt (gam2 P T).
Definition mom (P T : vec R) : vec R :=
  let t := vdiv T (gam P T) in vdiv (vadd (vadd P (vmul t (vdot P t))) (vcross P t)) (1 + vabs2 t).
Definition small_turn (T : vec R) : Prop := Rabs (vx T) <= / 4 /\ Rabs (vy T) <= / 4 /\ Rabs (vz T) <= / 4.

Lemma sq_of_abs x b : Rabs x <= b -> x * x <= b * b.
Proof. intros H. rewrite <- (Rabs_pos_eq (x * x)) by nra. rewrite Rabs_mult. pose proof (Rabs_pos x). nra. Qed.
Lemma abs_of_sq x b : 0 <= b -> x * x <= b * b -> Rabs x <= b.
Proof. intros B H. apply Rsqr_le_abs_0 in H. rewrite (Rabs_pos_eq b) in H by lra. exact H. Qed.
Lemma cauchy (P T : vec R) : vdot P T * vdot P T <= vabs2 P * vabs2 T.
Proof.
  destruct P as [a b c], T as [x y z]. unfold vdot, vabs2. cbn [vx vy vz]. unnum.
  pose proof (Rle_0_sqr (a * y - b * x)) as H1. pose proof (Rle_0_sqr (a * z - c * x)) as H2. pose proof (Rle_0_sqr (b * z - c * y)) as H3. unfold Rsqr in *.
  replace ((a * a + b * b + c * c) * (x * x + y * y + z * z)) with ((a * x + b * y + c * z) * (a * x + b * y + c * z) +
    ((a * y - b * x) * (a * y - b * x) + (a * z - c * x) * (a * z - c * x) + (b * z - c * y) * (b * z - c * y))) by ring. lra.
Qed.
Lemma turn_abs2 T : small_turn T -> 0 <= vabs2 T <= 3 / 16.
Proof.
  intros (A & B & C). split; [apply vabs2_nonneg|]. destruct T as [x y z]. unfold vabs2. cbn [vx vy vz] in *. unnum.
  apply sq_of_abs in A, B, C. lra.
Qed.
Lemma exact_gam (P T : vec R) : gam P T * gam P T = gam2 P T /\ 1 <= gam P T /\ gam P T * gam P T = 1 + vabs2 (mom P T).
Proof.
  assert (H1 : 1 <= gam2 P T) by apply (quad_ge_1 P T). assert (E : gam P T * gam P T = gam2 P T) by (apply sqrt_sqrt; lra).
  assert (G1 : 1 <= gam P T) by (unfold gam; rewrite <- sqrt_1; apply sqrt_le_1_alt; exact H1). split; [exact E|]. split; [exact G1|].
  pose proof (vay_half_spec 1 P vzero T) as S. pose proof (vay_half_gamma 1 P vzero T) as VG. destruct (vay_half 1 P vzero T) as [p1 g]. cbn [fst snd] in VG.
  assert (EP : vadd P (vmul (vdiv vzero nc) 1) = P) by (destruct P as [a b c]; unfold vadd, vmul, vdiv, vzero; cbn [vx vy vz]; unnum; f_equal; unfold Rdiv; ring).
  assert (ET : vmul T 1 = T) by (destruct T as [a b c]; unfold vmul; cbn [vx vy vz]; unnum; f_equal; ring).
  cbv zeta in S. rewrite EP, ET in S. destruct S as (S1 & S2 & S3).
  assert (Eg : g = gam P T). { assert (g * g = gam P T * gam P T) by (rewrite S1, E; reflexivity). nra. }
  rewrite Eg in S3. change p1 with p1 in S3. assert (Ep : p1 = mom P T) by exact S3. rewrite <- Ep, <- Eg, VG. apply gamma_of_sq.
Qed.
(* ranges, with G*G = 1+|P|^2 *)
Lemma exact_range (P T : vec R) : small_turn T -> let G2 := 1 + vabs2 P in
  13 / 16 * G2 <= sigma_of P T <= G2 /\ vabs2 T + vdot P T * vdot P T <= 3 / 16 * G2 /\ vdot P T * vdot P T <= 3 / 16 * G2 /\
  sigma_of P T * sigma_of P T <= disc_of P T /\ sigma_of P T <= R_sqrt.sqrt (disc_of P T) <= 19 / 16 * G2 /\ 13 / 16 * G2 <= gam2 P T <= G2.
Proof.
  intros H. cbn zeta. pose proof (turn_abs2 T H) as [T0 T1]. pose proof (vabs2_nonneg P) as P0. pose proof (cauchy P T) as C. set (p2 := vabs2 P) in *. set (t2 := vabs2 T) in *.
  assert (U0 : 0 <= vdot P T * vdot P T) by nra. set (u2 := vdot P T * vdot P T) in *.
  assert (S : sigma_of P T = 1 + p2 - t2) by (unfold sigma_of; fold p2 t2; ring). assert (D : disc_of P T = (1 + p2 - t2) * (1 + p2 - t2) + 4 * (t2 + u2)) by (unfold disc_of; rewrite S; reflexivity).
  assert (W : t2 + u2 <= t2 * (1 + p2)) by nra. assert (W2 : t2 * (1 + p2) <= 3 / 16 * (1 + p2)) by (apply Rmult_le_compat_r; lra).
  assert (Q1 : sigma_of P T <= R_sqrt.sqrt (disc_of P T)). { rewrite <- (sqrt_square (sigma_of P T)) at 1 by lra. apply sqrt_le_1_alt. rewrite D, S. lra. }
  assert (Q2 : R_sqrt.sqrt (disc_of P T) <= 1 + p2 + t2). { rewrite <- (sqrt_square (1 + p2 + t2)) by lra. apply sqrt_le_1_alt. rewrite D. nra. }
  split; [lra|]. split; [lra|]. split; [lra|]. split; [rewrite D, S; lra|]. split; [lra|]. unfold gam2. lra.
Qed.

(* ---- the values in double precision ---- *)
Lemma sc_of a b S : bpow radix2 a <= S <= bpow radix2 b -> (-1000 <= a)%Z -> (b <= 1000)%Z -> sc S.
Proof. intros [H1 H2] A B. pose proof (bp_le _ _ A). pose proof (bp_le _ _ B). split; lra. Qed.
Lemma abs_comp_le (P : vec R) G : 0 < G -> G * G = 1 + vabs2 P -> Rabs (vx P) <= G /\ Rabs (vy P) <= G /\ Rabs (vz P) <= G.
Proof.
  intros G0 E. destruct P as [a b c]. unfold vabs2 in E. cbn [vx vy vz] in *. revert E. unnum. intros E.
  repeat split; apply abs_of_sq; nra.
Qed.
Ltac dkk := unfold kk; lra.
Section Half.
Variables (p tau : vec flt) (G : R).
Hypothesis Fp : finv p.
Hypothesis Bp : below 240 p.
Hypothesis Ft : finv tau.
Hypothesis St : small_turn (FV tau).
Hypothesis HG : G = gamma_of (FV p).
Let P := FV p.
Let T := FV tau.
Lemma Bp250 : below 250 p.
Proof. destruct Bp as (A & B & C). pose proof (bp_le 240 250 ltac:(lia)). repeat split; lra. Qed.
Lemma G_sq : G * G = 1 + vabs2 P. Proof. rewrite HG. apply gamma_of_sq. Qed.
Lemma G_ge1 : 1 <= G. Proof. rewrite HG. apply gamma_of_ge_1. Qed.
Lemma G_le : G <= bpow radix2 242.
Proof.
  assert (G * G <= bpow radix2 484).
  { rewrite G_sq. destruct Bp as (B1 & B2 & B3). unfold P, FV, vabs2. cbn [vx vy vz]. unnum. apply sq_below in B1, B2, B3. change (240 + 240)%Z with 480%Z in *.
    assert (1 <= bpow radix2 480) by (change 1 with (bpow radix2 0); apply bp_le; lia). pose proof (bpow_dbl 480) as D1. pose proof (bpow_dbl 481) as D2. change (480 + 1)%Z with 481%Z in *. change (481 + 1)%Z with 482%Z in *. pose proof (bp_le 482 484 ltac:(lia)). lra. }
  pose proof G_ge1. apply Rsqr_incr_0; [|lra|apply bpow_ge_0]. unfold Rsqr. rewrite <- bpow_plus. exact H.
Qed.
(* scales: a constant times a power of G *)
Lemma scG c n : / 1024 <= c <= 1024 -> (n <= 4)%nat -> sc (c * G ^ n).
Proof.
  intros [C1 C2] N. pose proof G_ge1. pose proof G_le. assert (1 <= G ^ n) by (apply pow_R1_Rle; lra).
  assert (B : G ^ n <= bpow radix2 242 ^ 4). { apply Rle_trans with (G ^ 4); [apply Rle_pow; [lra|exact N]|]. apply pow_incr. lra. }
  cbn [pow] in B. rewrite Rmult_1_r in B. rewrite <- !bpow_plus in B. change (242 + (242 + (242 + 242)))%Z with 968%Z in B.
  apply (sc_of (-10) 978); [|lia|lia]. change (-10)%Z with (Z.opp 10). rewrite bpow_opp. change (bpow radix2 10) with 1024. split; [nra|].
  replace 978%Z with (10 + 968)%Z by reflexivity. rewrite bpow_plus. change (bpow radix2 10) with 1024. apply Rmult_le_compat; lra.
Qed.
Lemma scGi c n : / 1024 <= c <= 1024 -> (n <= 4)%nat -> sc (c * / G ^ n).
Proof.
  intros [C1 C2] N. pose proof G_ge1. pose proof G_le. assert (1 <= G ^ n) by (apply pow_R1_Rle; lra).
  assert (B : G ^ n <= bpow radix2 242 ^ 4). { apply Rle_trans with (G ^ 4); [apply Rle_pow; [lra|exact N]|]. apply pow_incr. lra. }
  cbn [pow] in B. rewrite Rmult_1_r in B. rewrite <- !bpow_plus in B. change (242 + (242 + (242 + 242)))%Z with 968%Z in B.
  assert (I1 : / G ^ n <= 1) by (rewrite <- Rinv_1; apply Rinv_le_contravar; lra).
  assert (I2 : bpow radix2 (-968) <= / G ^ n) by (change (-968)%Z with (Z.opp 968); rewrite bpow_opp; apply Rinv_le_contravar; lra).
  pose proof (bpow_gt_0 radix2 (-968)).
  apply (sc_of (-978) 10); [|lia|lia]. change (bpow radix2 10) with 1024. split; [|nra].
  replace (-978)%Z with (-10 + -968)%Z by reflexivity. rewrite bpow_plus. change (bpow radix2 (-10)) with (/ 1024). apply Rmult_le_compat; lra.
Qed.
Lemma sc_eq S S' : S = S' -> sc S' -> sc S. Proof. intros ->. auto. Qed.
Lemma ap_P : ap 0 G (vx p) (vx P) /\ ap 0 G (vy p) (vy P) /\ ap 0 G (vz p) (vz P).
Proof.
  destruct (abs_comp_le P G ltac:(pose proof G_ge1; lra) G_sq) as (A & B & C). destruct Fp as (F1 & F2 & F3). repeat split; try assumption; unfold P, FV; cbn [vx vy vz];
  rewrite Rminus_diag_eq by reflexivity; rewrite Rabs_R0; lra.
Qed.
Lemma ap_T : ap 0 (/ 4) (vx tau) (vx T) /\ ap 0 (/ 4) (vy tau) (vy T) /\ ap 0 (/ 4) (vz tau) (vz T).
Proof.
  destruct St as (A & B & C). destruct Ft as (F1 & F2 & F3). repeat split; try assumption; unfold T, FV; cbn [vx vy vz];
  rewrite Rminus_diag_eq by reflexivity; rewrite Rabs_R0; lra.
Qed.
Ltac s0 c := apply (sc_eq _ (c * G ^ 0)); [cbn [pow]; lra|apply scG; [lra|lia]].
Ltac s1 c := apply (sc_eq _ (c * G ^ 1)); [cbn [pow]; lra|apply scG; [lra|lia]].
Ltac s2 c := apply (sc_eq _ (c * G ^ 2)); [cbn [pow]; lra|apply scG; [lra|lia]].

Lemma p_tau2 : ap (332 / 100) (3 / 16) (vabs2 tau) (vabs2 T).
Proof.
  destruct ap_T as (A & B & C). unfold vabs2. unF. unnum.
  assert (M : forall x X, ap 0 (/ 4) x X -> ap (1102 / 1000) (/ 16) (x * x)%float (X * X)).
  { intros x X H. apply (ap_re (1 / 500 + 11 / 10) _ (/ 4 * / 4)); [|lra|]. 2:{ apply (ap_mul 0 0); try dkk; try assumption. s0 (/ 16). }
    destruct H as (_ & H & _). apply sq_of_abs in H. rewrite Rabs_pos_eq; nra. }
  apply M in A, B, C.
  apply (ap_re (2206 / 1000 + 11 / 10) _ (/ 16 + / 16 + / 16)); [|lra|].
  { pose proof (turn_abs2 T St) as [X Y]. unfold vabs2 in X, Y. revert X Y. unnum. intros X Y. rewrite Rabs_pos_eq; lra. }
  apply (ap_add (1102 / 1000 + 11 / 10) (1102 / 1000)); [dkk|s0 (3 / 16)|lra| |exact C].
  apply (ap_add (1102 / 1000) (1102 / 1000)); [dkk|s0 (/ 8)|lra|exact A|exact B].
Qed.
Lemma p_g2 : ap (51 / 10) (G * G) (vabs2 p + f_ofZ 1)%float (1 + vabs2 P).
Proof.
  destruct (g2_ok p Fp Bp250) as (F & V & R & W). rewrite G_sq. split; [exact F|]. pose proof (vabs2_nonneg P). split; [rewrite Rabs_pos_eq; lra|]. rewrite V. fold P in W, R |- *.
  destruct W as (W0 & W1 & W2 & W3). pose proof (bernoulli 5) as B. assert (I : INR 5 = 5) by (cbn; lra). rewrite I in B. pose proof ur_gt0. set (x := g2f P) in *. set (X := 1 + vabs2 P) in *.
  assert (A1 : (1 - 5 * ur) * X <= x) by (eapply Rle_trans; [apply Rmult_le_compat_r; [lra|exact B]|exact W2]).
  assert (A2 : (1 - 5 * ur) * x <= X) by (eapply Rle_trans; [apply Rmult_le_compat_r; [lra|exact B]|exact W3]).
  assert (U : ur <= / 1000000) by (rewrite ur_eq; lra). apply Rabs_le. split; nra.
Qed.
Lemma G2pos : 1 <= G * G. Proof. pose proof G_ge1. nra. Qed.
Lemma p_u : ap (505 / 100) (7 / 16 * G) (vdot p tau) (vdot P T).
Proof.
  destruct ap_T as (A & B & C). destruct ap_P as (A' & B' & C'). pose proof G_ge1 as G1.
  assert (BD : Rabs (vdot P T) <= 7 / 16 * G).
  { apply abs_of_sq; [lra|]. pose proof (exact_range P T St) as X. cbn zeta in X. rewrite <- G_sq in X. nra. }
  unfold vdot in *. revert BD. unF. unnum. intros BD.
  assert (M : forall x X y Y, ap 0 G y Y -> ap 0 (/ 4) x X -> ap (1102 / 1000) (G * / 4) (y * x)%float (Y * X)).
  { intros x X y Y H1 H2. apply (ap_re (1 / 500 + 11 / 10) _ (G * / 4)); [|lra|]. 2:{ apply (ap_mul 0 0); try dkk; try assumption. s1 (/ 4). }
    destruct H1 as (_ & H1 & _), H2 as (_ & H2 & _). rewrite Rabs_mult. apply Rmult_le_compat; auto using Rabs_pos. }
  pose proof (M _ _ _ _ A' A) as X1. pose proof (M _ _ _ _ B' B) as X2. pose proof (M _ _ _ _ C' C) as X3. clear M.
  apply (ap_re (1836 / 1000 + 11 / 10) _ (G * / 4 + G * / 4 + G * / 4)); [exact BD|lra|].
  apply (ap_add (1102 / 1000 + 11 / 10) (1102 / 1000)); [dkk|s1 (3 / 4)|lra| |exact X3].
  apply (ap_add (1102 / 1000) (1102 / 1000)); [dkk|s1 (/ 2)|lra|exact X1|exact X2].
Qed.
Lemma p_w : ap (171 / 10) (3 / 16 * (G * G)) (vabs2 tau + vdot p tau * vdot p tau)%float (vabs2 T + vdot P T * vdot P T).
Proof.
  pose proof G_ge1 as G1. pose proof G2pos as G2. pose proof (exact_range P T St) as X. cbn zeta in X. rewrite <- G_sq in X. destruct X as (_ & X1 & X2 & _).
  pose proof (turn_abs2 T St) as TT.
  assert (A : ap (332 / 100) (3 / 16 * (G * G)) (vabs2 tau) (vabs2 T)) by (apply (ap_re (332 / 100) _ (3 / 16)); [rewrite Rabs_pos_eq; nra|nra|exact p_tau2]).
  assert (B : ap (1021 / 100 + 11 / 10) (7 / 16 * G * (7 / 16 * G)) (vdot p tau * vdot p tau)%float (vdot P T * vdot P T)).
  { apply (ap_mul (505 / 100) (505 / 100)); try dkk; try apply p_u; try lra. s2 (49 / 256). }
  apply (ap_re (736 / 100 + 11 / 10) _ (3 / 16 * (G * G) + 7 / 16 * G * (7 / 16 * G))); [rewrite Rabs_pos_eq; nra|lra|].
  apply (ap_add (332 / 100) (1021 / 100 + 11 / 10)); [dkk|s2 (97 / 256)|lra|exact A|exact B].
Qed.
Lemma p_4w : ap (1821 / 100) (3 / 4 * (G * G)) (f_ofZ 4 * (vabs2 tau + vdot p tau * vdot p tau))%float (4 * (vabs2 T + vdot P T * vdot P T)).
Proof.
  pose proof G_ge1 as G1. pose proof G2pos as G2. pose proof p_w as (F & B & E). destruct (ofZ_ok 4 ltac:(lia)) as [F4 V4].
  apply (ap_re (17105 / 1000 + 11 / 10) _ (4 * (3 / 16 * (G * G)))); [rewrite Rabs_mult, (Rabs_pos_eq 4) by lra; lra|lra|].
  apply (ap_mul 0 (171 / 10)); try dkk; [s2 (3 / 4)| |split; [exact F|split; [exact B|exact E]]]. rewrite <- V4. apply ap_exact; [exact F4|]. rewrite V4, Rabs_pos_eq; lra.
Qed.
Lemma p_sigma : ap (704 / 100) (G * G) ((vabs2 p + f_ofZ 1) - vabs2 tau)%float (sigma_of P T).
Proof.
  pose proof G_ge1 as G1. pose proof G2pos as G2. pose proof (exact_range P T St) as X. cbn zeta in X. rewrite <- G_sq in X. destruct X as (X & _).
  pose proof (turn_abs2 T St) as TT.
  assert (A : ap (332 / 100) (3 / 16 * (G * G)) (vabs2 tau) (vabs2 T)) by (apply (ap_re (332 / 100) _ (3 / 16)); [rewrite Rabs_pos_eq; nra|nra|exact p_tau2]).
  apply (ap_re (482 / 100 + 11 / 10) _ (G * G + 3 / 16 * (G * G))); [rewrite Rabs_pos_eq; lra|lra|].
  unfold sigma_of. rewrite (Rplus_comm (vabs2 P) 1). apply (ap_sub (51 / 10) (332 / 100)); [dkk|s2 (19 / 16)|lra|exact p_g2|exact A].
Qed.
Ltac s4 c := apply (sc_eq _ (c * G ^ 4)); [cbn [pow]; lra|apply scG; [lra|lia]].
Lemma p_disc : ap (1762 / 100) (7 / 4 * (G * G * (G * G)))
  ((vabs2 p + f_ofZ 1 - vabs2 tau) * (vabs2 p + f_ofZ 1 - vabs2 tau) + f_ofZ 4 * (vabs2 tau + vdot p tau * vdot p tau))%float (disc_of P T).
Proof.
  pose proof G_ge1 as G1. pose proof G2pos as G2. pose proof (exact_range P T St) as X. cbn zeta in X. rewrite <- G_sq in X. destruct X as ((X0 & X1) & X2 & _).
  assert (G4 : G * G <= G * G * (G * G)) by nra. pose proof (quad_w_nonneg P T) as W0.
  assert (A : ap (1409 / 100 + 11 / 10) (G * G * (G * G)) ((vabs2 p + f_ofZ 1 - vabs2 tau) * (vabs2 p + f_ofZ 1 - vabs2 tau))%float (sigma_of P T * sigma_of P T)).
  { pose proof p_sigma as Q. apply (ap_re (14081 / 1000 + 11 / 10) _ (G * G * (G * G))); [|lra|].
    - destruct Q as (_ & Q & _). rewrite Rabs_mult. apply Rmult_le_compat; auto using Rabs_pos.
    - apply (ap_mul (704 / 100) (704 / 100)); try dkk; try exact Q; try lra. s4 1. }
  assert (B : ap (1821 / 100) (3 / 4 * (G * G * (G * G))) (f_ofZ 4 * (vabs2 tau + vdot p tau * vdot p tau))%float (4 * (vabs2 T + vdot P T * vdot P T))).
  { apply (ap_re (1821 / 100) _ (3 / 4 * (G * G))); [rewrite Rabs_pos_eq; lra|lra|exact p_4w]. }
  apply (ap_re (1652 / 100 + 11 / 10) _ (G * G * (G * G) + 3 / 4 * (G * G * (G * G)))); [|lra|].
  - unfold disc_of. rewrite Rabs_pos_eq; [|nra]. assert (sigma_of P T * sigma_of P T <= G * G * (G * G)) by (apply Rmult_le_compat; lra). lra.
  - unfold disc_of. apply (ap_add (1409 / 100 + 11 / 10) (1821 / 100)); [dkk|s4 (7 / 4)|lra|exact A|exact B].
Qed.
Lemma p_root : ap (1712 / 100) (19 / 16 * (G * G)) (Coq.Floats.PrimFloat.sqrt
  ((vabs2 p + f_ofZ 1 - vabs2 tau) * (vabs2 p + f_ofZ 1 - vabs2 tau) + f_ofZ 4 * (vabs2 tau + vdot p tau * vdot p tau))%float) (R_sqrt.sqrt (disc_of P T)).
Proof.
  pose proof G_ge1 as G1. pose proof G2pos as G2. pose proof (exact_range P T St) as X. cbn zeta in X. rewrite <- G_sq in X. destruct X as ((X0 & X1) & X2 & X3 & X4 & X5 & X6).
  assert (0 < G * G * (G * G)) by nra.
  apply (ap_re (1601 / 100 + 11 / 10) _ (19 / 16 * (G * G))); [rewrite Rabs_pos_eq; [lra|apply sqrt_pos]|lra|].
  apply (ap_sqrt (1762 / 100) _ (7 / 4 * (G * G * (G * G))) (13 / 16 * (G * G))); [dkk|dkk|s2 (19 / 16)|nra| | |apply X5|nra|exact p_disc].
  - apply Rle_trans with (sigma_of P T * sigma_of P T); [apply Rmult_le_compat; lra|exact X4].
  - nra.
Qed.
Lemma p_gam2 : ap (1618 / 100) (G * G) (nhalf * ((vabs2 p + f_ofZ 1 - vabs2 tau) + Coq.Floats.PrimFloat.sqrt
  ((vabs2 p + f_ofZ 1 - vabs2 tau) * (vabs2 p + f_ofZ 1 - vabs2 tau) + f_ofZ 4 * (vabs2 tau + vdot p tau * vdot p tau))))%float (gam2 P T).
Proof.
  pose proof G_ge1 as G1. pose proof G2pos as G2. pose proof (exact_range P T St) as X. cbn zeta in X. rewrite <- G_sq in X. destruct X as ((X0 & X1) & X2 & X3 & X4 & X5 & X6).
  destruct half_ok as [Fh Vh].
  apply (ap_re (1367 / 100 + 11 / 10) _ (/ 2 * (35 / 16 * (G * G)))); [rewrite Rabs_pos_eq; lra|lra|].
  unfold gam2. apply (ap_mul 0 (1362 / 100)); try dkk; [s2 (35 / 32)| |].
  - rewrite <- Vh. apply ap_exact; [exact Fh|]. rewrite Vh, Rabs_pos_eq; lra.
  - apply (ap_re (1252 / 100 + 11 / 10) _ (G * G + 19 / 16 * (G * G))); [rewrite Rabs_pos_eq; lra|lra|].
    apply (ap_add (704 / 100) (1712 / 100)); [dkk|s2 (35 / 16)|lra|exact p_sigma|exact p_root].
Qed.
Definition gfl : flt := Coq.Floats.PrimFloat.sqrt (nhalf * ((vabs2 p + f_ofZ 1 - vabs2 tau) + Coq.Floats.PrimFloat.sqrt
  ((vabs2 p + f_ofZ 1 - vabs2 tau) * (vabs2 p + f_ofZ 1 - vabs2 tau) + f_ofZ 4 * (vabs2 tau + vdot p tau * vdot p tau))))%float.
Lemma gam_range : 9 / 10 * G <= gam P T <= G.
Proof.
  pose proof G_ge1 as G1. pose proof (exact_range P T St) as X. cbn zeta in X. rewrite <- G_sq in X. destruct X as (_ & _ & _ & _ & _ & X6).
  destruct (exact_gam P T) as (E & E1 & _). rewrite <- E in X6. split; nra.
Qed.
Lemma p_g : ap (102 / 10) G gfl (gam P T).
Proof.
  pose proof G_ge1 as G1. pose proof G2pos as G2. pose proof (exact_range P T St) as X. cbn zeta in X. rewrite <- G_sq in X. destruct X as (_ & _ & _ & _ & _ & X6). pose proof gam_range as R.
  apply (ap_re (905 / 100 + 11 / 10) _ G); [rewrite Rabs_pos_eq; lra|lra|]. unfold gfl, gam.
  apply (ap_sqrt (1618 / 100) _ (G * G) (9 / 10 * G)); [dkk|dkk|s1 1|nra|nra|nra|apply R|nra|exact p_gam2].
Qed.
Ltac i1 c := apply (sc_eq _ (c * / G ^ 1)); [cbn [pow]; field; lra|apply scGi; [lra|lia]].
Ltac i2 c := apply (sc_eq _ (c * / G ^ 2)); [cbn [pow]; field; lra|apply scGi; [lra|lia]].
Let t := vdiv tau gfl.
Let t' := vdiv T (gam P T).
Lemma p_t : ap (125 / 10) (5 / 18 * / G) (vx t) (vx t') /\ ap (125 / 10) (5 / 18 * / G) (vy t) (vy t') /\ ap (125 / 10) (5 / 18 * / G) (vz t) (vz t').
Proof.
  pose proof G_ge1 as G1. pose proof gam_range as R.
  assert (M : forall x X, ap 0 (/ 4) x X -> ap (125 / 10) (5 / 18 * / G) (x / gfl)%float (X / gam P T)).
  { intros x X H. pose proof (ap_div 0 (102 / 10) (1136 / 100) (/ 4) G (9 / 10 * G) x gfl X (gam P T)) as D.
    replace (5 / 18 * / G) with (/ 4 / (9 / 10 * G)) by (field; lra).
    assert (Q : ap (1136 / 100 + 11 / 10) (/ 4 / (9 / 10 * G)) (x / gfl)%float (X / gam P T)).
    { apply D; try dkk; try lra; try exact H; try exact p_g; [i1 (5 / 18)|]. replace (G / (9 / 10 * G)) with (10 / 9) by (field; lra). lra. }
    destruct Q as (F & B & E). assert (0 < / G) by (apply Rinv_0_lt_compat; lra).
    apply (ap_re (1136 / 100 + 11 / 10) _ (/ 4 / (9 / 10 * G))); [exact B| |split; [exact F|split; [exact B|exact E]]].
    apply Rmult_le_compat_r; [replace (/ 4 / (9 / 10 * G)) with (5 / 18 * / G) by (field; lra)|]; lra. }
  destruct ap_T as (A & B & C). repeat split; [apply M in A|apply M in A|apply M in A|apply M in B|apply M in B|apply M in B|apply M in C|apply M in C|apply M in C];
  [apply A|apply A|apply A|apply B|apply B|apply B|apply C|apply C|apply C].
Qed.
Lemma t_bounds : Rabs (vdot P t') <= 35 / 72 /\ 0 <= vabs2 t' <= 25 / 108.
Proof.
  pose proof G_ge1 as G1. pose proof gam_range as R. destruct (exact_gam P T) as (_ & g1 & _). set (g := gam P T) in *.
  pose proof (exact_range P T St) as X. cbn zeta in X. rewrite <- G_sq in X. destruct X as (_ & _ & X2 & _). pose proof (turn_abs2 T St) as TT.
  assert (I0 : 0 < / g) by (apply Rinv_0_lt_compat; lra). assert (I1 : / g <= 10 / 9 * / G).
  { replace (10 / 9 * / G) with (/ (9 / 10 * G)) by (field; lra). apply Rinv_le_contravar; lra. }
  split.
  - replace (vdot P t') with (vdot P T * / g) by (unfold t', vdot, vdiv; cbn [vx vy vz]; unnum; unfold Rdiv; fold g; ring).
    assert (D : Rabs (vdot P T) <= 7 / 16 * G) by (apply abs_of_sq; nra).
    rewrite Rabs_mult, (Rabs_pos_eq (/ g)) by lra. apply Rle_trans with (7 / 16 * G * (10 / 9 * / G)); [apply Rmult_le_compat; [apply Rabs_pos|lra|exact D|exact I1]|].
    apply Req_le. field. lra.
  - replace (vabs2 t') with (vabs2 T * (/ g * / g)) by (unfold t', vabs2, vdiv; cbn [vx vy vz]; unnum; unfold Rdiv; fold g; ring).
    destruct (exact_gam P T) as (E & _ & _). pose proof (exact_range P T St) as X. cbn zeta in X. rewrite <- G_sq in X. destruct X as (_ & _ & _ & _ & _ & X6). fold g in E.
    assert (G2 : 81 / 100 <= g * g) by nra. assert (I2 : / g * / g <= 100 / 81). { rewrite <- Rinv_mult. replace (100 / 81) with (/ (81 / 100)) by lra. apply Rinv_le_contravar; lra. }
    split; [apply Rmult_le_pos; [lra|nra]|]. apply Rle_trans with (3 / 16 * (100 / 81)); [apply Rmult_le_compat; [lra|nra|lra|exact I2]|lra].
Qed.
Lemma p_pt : forall y Y x X, ap 0 G y Y -> ap (125 / 10) (5 / 18 * / G) x X -> ap (1361 / 100) (5 / 18) (y * x)%float (Y * X).
Proof.
  pose proof G_ge1 as G1. assert (IG : 0 < / G) by (apply Rinv_0_lt_compat; lra). intros y Y x X H1 H2. assert (E : G * (5 / 18 * / G) = 5 / 18) by (field; lra).
  apply (ap_re (12501 / 1000 + 11 / 10) _ (G * (5 / 18 * / G))); [|rewrite E; lra|].
  - destruct H1 as (_ & H1 & _), H2 as (_ & H2 & _). rewrite <- E, Rabs_mult. apply Rmult_le_compat; auto using Rabs_pos.
  - apply (ap_mul 0 (125 / 10)); [dkk|dkk|dkk|rewrite E; s0 (5 / 18)|lra|lra|lra|exact H1|exact H2].
Qed.
Lemma p_dot : ap (265 / 10) (35 / 72) (vdot p t) (vdot P t').
Proof.
  destruct p_t as (A & B & C). destruct ap_P as (A' & B' & C'). destruct t_bounds as [TB _]. pose proof (p_pt _ _ _ _ A' A) as X. pose proof (p_pt _ _ _ _ B' B) as Y. pose proof (p_pt _ _ _ _ C' C) as Z.
  apply (ap_re (1435 / 100 + 11 / 10) _ (5 / 18 + 5 / 18 + 5 / 18)); [exact TB|lra|]. unfold vdot. unF. unnum.
  apply (ap_add (1361 / 100 + 11 / 10) (1361 / 100)); [dkk|s0 (5 / 6)|lra| |exact Z].
  apply (ap_add (1361 / 100) (1361 / 100)); [dkk|s0 (5 / 9)|lra|exact X|exact Y].
Qed.
Lemma p_den : ap (637 / 100) (133 / 108) (f_ofZ 1 + vabs2 t)%float (1 + vabs2 t').
Proof.
  pose proof G_ge1 as G1. destruct p_t as (A & B & C). destruct t_bounds as [_ TB]. destruct one_ok as [F1 V1].
  assert (IG : 0 < / G <= 1) by (split; [apply Rinv_0_lt_compat; lra|rewrite <- Rinv_1; apply Rinv_le_contravar; lra]).
  assert (M : forall x X, ap (125 / 10) (5 / 18 * / G) x X -> ap (2611 / 100) (25 / 324) (x * x)%float (X * X)).
  { intros x X H. apply (ap_re (25001 / 1000 + 11 / 10) _ (5 / 18 * / G * (5 / 18 * / G))); [|nra|].
    - destruct H as (_ & H & _). apply sq_of_abs in H. rewrite Rabs_pos_eq; nra.
    - apply (ap_mul (125 / 10) (125 / 10)); [dkk|dkk|dkk|i2 (25 / 324)|lra|lra|lra|exact H|exact H]. }
  apply M in A, B, C. unfold vabs2 at 1. unF.
  apply (ap_re (526 / 100 + 11 / 10) _ (1 + 25 / 108)); [rewrite Rabs_pos_eq; lra|lra|].
  apply (ap_add 0 (2795 / 100)); [dkk|s0 (133 / 108)|lra| |].
  - rewrite <- V1. apply ap_exact; [exact F1|]. rewrite V1, Rabs_pos_eq; lra.
  - apply (ap_re (26845 / 1000 + 11 / 10) _ (25 / 324 + 25 / 324 + 25 / 324)); [rewrite Rabs_pos_eq; lra|lra|]. unfold vabs2. unnum.
    apply (ap_add (2611 / 100 + 11 / 10) (2611 / 100)); [dkk|s0 (25 / 108)|lra| |exact C].
    apply (ap_add (2611 / 100) (2611 / 100)); [dkk|s0 (25 / 162)|lra|exact A|exact B].
Qed.
Lemma p_num (x y z a b c : flt) (X Y Z A B C : R) : ap 0 G x X -> ap 0 G y Y -> ap 0 G z Z ->
  ap (125 / 10) (5 / 18 * / G) a A -> ap (125 / 10) (5 / 18 * / G) b B -> ap (125 / 10) (5 / 18 * / G) c C ->
  ap (99 / 10) (2191 / 1296 * G) (x + a * vdot p t + (y * c - z * b))%float (X + A * vdot P t' + (Y * C - Z * B)).
Proof.
  pose proof G_ge1 as G1. pose proof p_dot as PD. intros HX HY HZ HA HB HC.
  assert (IG : 0 < / G <= 1) by (split; [apply Rinv_0_lt_compat; lra|rewrite <- Rinv_1; apply Rinv_le_contravar; lra]).
  assert (M1 : ap (4012 / 100) (175 / 1296 * G) (a * vdot p t)%float (A * vdot P t')).
  { assert (Q : ap (39001 / 1000 + 11 / 10) (5 / 18 * / G * (35 / 72)) (a * vdot p t)%float (A * vdot P t'))
      by (apply (ap_mul (125 / 10) (265 / 10)); [dkk|dkk|dkk|i1 (175 / 1296)|lra|lra|lra|exact HA|exact PD]).
    apply (ap_re (39001 / 1000 + 11 / 10) _ (5 / 18 * / G * (35 / 72))); [|nra|exact Q]. destruct Q as (_ & Q & _). nra. }
  assert (M2 : ap (588 / 100) (1471 / 1296 * G) (x + a * vdot p t)%float (X + A * vdot P t')).
  { assert (Q : ap (478 / 100 + 11 / 10) (G + 175 / 1296 * G) (x + a * vdot p t)%float (X + A * vdot P t'))
      by (apply (ap_add 0 (4012 / 100)); [dkk|s1 (1471 / 1296)|lra|exact HX|exact M1]).
    apply (ap_re (478 / 100 + 11 / 10) _ (G + 175 / 1296 * G)); [|lra|exact Q]. destruct Q as (_ & Q & _). lra. }
  assert (M3 : ap (1471 / 100) (5 / 9 * G) (y * c - z * b)%float (Y * C - Z * B)).
  { assert (Q : ap (1361 / 100 + 11 / 10) (5 / 18 + 5 / 18) (y * c - z * b)%float (Y * C - Z * B))
      by (apply (ap_sub (1361 / 100) (1361 / 100)); [dkk|s0 (5 / 9)|lra|exact (p_pt _ _ _ _ HY HC)|exact (p_pt _ _ _ _ HZ HB)]).
    apply (ap_re (1361 / 100 + 11 / 10) _ (5 / 18 + 5 / 18)); [|lra|exact Q]. destruct Q as (_ & Q & _). lra. }
  assert (Q : ap (879 / 100 + 11 / 10) (1471 / 1296 * G + 5 / 9 * G) (x + a * vdot p t + (y * c - z * b))%float (X + A * vdot P t' + (Y * C - Z * B)))
      by (apply (ap_add (588 / 100) (1471 / 100)); [dkk|s1 (2191 / 1296)|lra|exact M2|exact M3]).
  apply (ap_re (879 / 100 + 11 / 10) _ (1471 / 1296 * G + 5 / 9 * G)); [|lra|exact Q]. destruct Q as (_ & Q & _). lra.
Qed.
Definition mfl : vec flt := vdiv (vadd (vadd p (vmul t (vdot p t))) (vcross p t)) (f_ofZ 1 + vabs2 t)%float.
Lemma p_mom : ap 32 G (vx mfl) (vx (mom P T)) /\ ap 32 G (vy mfl) (vy (mom P T)) /\ ap 32 G (vz mfl) (vz (mom P T)).
Proof.
  pose proof G_ge1 as G1. pose proof gam_range as R. destruct (exact_gam P T) as (_ & _ & E). destruct (abs_comp_le (mom P T) (gam P T) ltac:(lra) E) as (L1 & L2 & L3).
  destruct p_t as (A & B & C). destruct ap_P as (A' & B' & C'). pose proof p_den as D. destruct t_bounds as [_ TB].
  assert (M : forall x X, ap (99 / 10) (2191 / 1296 * G) x X -> Rabs (X / (1 + vabs2 t')) <= G -> ap 32 G (x / (f_ofZ 1 + vabs2 t))%float (X / (1 + vabs2 t'))).
  { intros x X H L. apply (ap_re (1777 / 100 + 11 / 10) _ (2191 / 1296 * G / 1)); [exact L|lra|].
    apply (ap_div (99 / 10) (637 / 100) _ _ (133 / 108) 1); [dkk|dkk|dkk|s1 (2191 / 1296)|lra|lra|lra|lra|lra|exact H|exact D]. }
  pose proof (p_num _ _ _ _ _ _ _ _ _ _ _ _ A' B' C' A B C) as N1. pose proof (p_num _ _ _ _ _ _ _ _ _ _ _ _ B' C' A' B C A) as N2. pose proof (p_num _ _ _ _ _ _ _ _ _ _ _ _ C' A' B' C A B) as N3.
  split; [|split]; [apply M in N1; [exact N1|]|apply M in N2; [exact N2|]|apply M in N3; [exact N3|]].
  - eapply Rle_trans; [exact L1|apply R].
  - eapply Rle_trans; [exact L2|apply R].
  - eapply Rle_trans; [exact L3|apply R].
Qed.
End Half.
