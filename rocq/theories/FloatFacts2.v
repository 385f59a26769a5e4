(* Rounding errors of the operations on doubles. *)
From Coq Require Import ZArith Reals List Bool Lia Lra Psatz Floats.
From Flocq Require Import Core Relative Plus_error.
From Flocq Require Import IEEE754.BinarySingleNaN IEEE754.PrimFloat.
From Verif Require Import Base Num NumFloat FloatFacts.
Local Open Scope R_scope.

(* half of the smallest positive double *)
Definition eta : R := bpow radix2 (-1075).
Lemma eta_pos : 0 < eta. Proof. apply bpow_gt_0. Qed.
Lemma ur_gt0 : 0 < ur. Proof. apply bpow_gt_0. Qed.
Lemma ur_eq : ur = / 9007199254740992.
Proof. reflexivity. Qed.
Lemma eta_small : eta <= ur * ur * ur.
Proof. unfold eta, ur. rewrite <- !bpow_plus. apply bpow_le. lia. Qed.
Lemma bp_le a b : (a <= b)%Z -> bpow radix2 a <= bpow radix2 b.
Proof. apply bpow_le. Qed.
(* with underflow *)
Lemma rn_near x : Rabs (rn x - x) <= ur * Rabs x + eta.
Proof.
  destruct (error_N_FLT radix2 (-1074) 53 ltac:(lia) (fun x => negb (Z.even x)) x) as (e & n & He & Hn & _ & E).
  change (/ 2 * bpow radix2 (- (53) + 1)) with (/ 2 * bpow radix2 (-52)) in He.
  assert (U : / 2 * bpow radix2 (-52) = ur) by (unfold ur; change (/ 2) with (bpow radix2 (-1)); rewrite <- bpow_plus; reflexivity).
  assert (Q : / 2 * bpow radix2 (-1074) = eta) by (unfold eta; change (/ 2) with (bpow radix2 (-1)); rewrite <- bpow_plus; reflexivity).
  rewrite U in He. rewrite Q in Hn. unfold rn. rewrite E.
  replace (x * (1 + e) + n - x) with (e * x + n) by ring. eapply Rle_trans; [apply Rabs_triang|]. rewrite Rabs_mult.
  apply Rplus_le_compat; [apply Rmult_le_compat_r; [apply Rabs_pos|exact He]|exact Hn].
Qed.
(* sums of doubles do not underflow *)
Lemma rn_plus x y : Rabs (rn (FR x + FR y) - (FR x + FR y)) <= ur * Rabs (FR x + FR y).
Proof.
  destruct (@FLT_plus_error_N_ex radix2 (-1074) 53 ltac:(reflexivity) (fun x => negb (Z.even x)) (FR x) (FR y)) as (e & He & E).
  - apply generic_format_B2R.
  - apply generic_format_B2R.
  - assert (U : u_ro radix2 53 = ur).
    { unfold u_ro, ur. change (/ 2 * bpow radix2 (- (53) + 1)) with (/ 2 * bpow radix2 (-52)). change (/ 2) with (bpow radix2 (-1)). rewrite <- bpow_plus. reflexivity. }
    rewrite U in He. unfold rn. rewrite E. replace ((FR x + FR y) * (1 + e) - (FR x + FR y)) with (e * (FR x + FR y)) by ring.
    rewrite Rabs_mult. apply Rmult_le_compat_r; [apply Rabs_pos|]. eapply Rle_trans; [exact He|]. pose proof ur_gt0.
    apply Rmult_le_reg_r with (1 + ur); [lra|]. unfold Rdiv. rewrite Rmult_assoc, Rinv_l by lra. nra.
Qed.

Definition big : R := bpow radix2 1023.
Lemma add_e x y : fin x -> fin y -> Rabs (FR x + FR y) <= big ->
  fin (x + y)%float /\ Rabs (FR (x + y)%float - (FR x + FR y)) <= ur * Rabs (FR x + FR y).
Proof. intros Fx Fy H. destruct (add_ok x y Fx Fy (small_ok _ H)) as [F V]. split; [exact F|]. rewrite V. apply rn_plus. Qed.
Lemma sub_e x y : fin x -> fin y -> Rabs (FR x - FR y) <= big ->
  fin (x - y)%float /\ Rabs (FR (x - y)%float - (FR x - FR y)) <= ur * Rabs (FR x - FR y).
Proof.
  intros Fx Fy H. destruct (sub_ok x y Fx Fy (small_ok _ H)) as [F V]. split; [exact F|]. rewrite V.
  destruct (opp_ok y Fy) as [Fo Vo]. pose proof (rn_plus x (- y)%float) as E. rewrite Vo in E. exact E.
Qed.
Lemma mul_e x y : fin x -> fin y -> Rabs (FR x * FR y) <= big ->
  fin (x * y)%float /\ Rabs (FR (x * y)%float - FR x * FR y) <= ur * Rabs (FR x * FR y) + eta.
Proof. intros Fx Fy H. destruct (mul_ok x y Fx Fy (small_ok _ H)) as [F V]. split; [exact F|]. rewrite V. apply rn_near. Qed.
Lemma div_e x y : fin x -> FR y <> 0 -> Rabs (FR x / FR y) <= big ->
  fin (x / y)%float /\ Rabs (FR (x / y)%float - FR x / FR y) <= ur * Rabs (FR x / FR y) + eta.
Proof. intros Fx Ny H. destruct (div_ok x y Fx Ny (small_ok _ H)) as [F V]. split; [exact F|]. rewrite V. apply rn_near. Qed.
Lemma sqrt_e x : fin x -> 0 <= FR x -> fin (Coq.Floats.PrimFloat.sqrt x) /\
  Rabs (FR (Coq.Floats.PrimFloat.sqrt x) - R_sqrt.sqrt (FR x)) <= ur * R_sqrt.sqrt (FR x) + eta.
Proof.
  intros Fx Hx. destruct (sqrt_ok x Fx Hx) as [F V]. split; [exact F|]. rewrite V.
  rewrite <- (Rabs_pos_eq (R_sqrt.sqrt (FR x))) at 3 by apply sqrt_pos. apply rn_near.
Qed.
(* a finite sum has finite terms and the other way round for the exact operations *)
Lemma add_0 x y : fin x -> fin y -> FR y = 0 -> fin (x + y)%float /\ FR (x + y)%float = FR x.
Proof.
  intros Fx Fy H. destruct (add_ok x y Fx Fy) as [F V].
  - rewrite H, Rplus_0_r, rn_FR. apply abs_B2R_lt_emax.
  - split; [exact F|]. rewrite V, H, Rplus_0_r. apply rn_FR.
Qed.
Lemma mul_0 x y : fin x -> fin y -> FR x = 0 \/ FR y = 0 -> fin (x * y)%float /\ FR (x * y)%float = 0.
Proof.
  intros Fx Fy H. assert (Z : FR x * FR y = 0) by (destruct H as [-> | ->]; ring). destruct (mul_ok x y Fx Fy) as [F V].
  - rewrite Z, rn_0, Rabs_R0. apply bpow_gt_0.
  - split; [exact F|]. rewrite V, Z. apply rn_0.
Qed.
Lemma div_0 x y : fin x -> FR x = 0 -> FR y <> 0 -> fin (x / y)%float /\ FR (x / y)%float = 0.
Proof.
  intros Fx H N. assert (Z : FR x / FR y = 0) by (rewrite H; unfold Rdiv; ring). destruct (div_ok x y Fx N) as [F V].
  - rewrite Z, rn_0, Rabs_R0. apply bpow_gt_0.
  - split; [exact F|]. rewrite V, Z. apply rn_0.
Qed.
Lemma div_1 x y : fin x -> FR y = 1 -> fin (x / y)%float /\ FR (x / y)%float = FR x.
Proof.
  intros Fx H. assert (Z : FR x / FR y = FR x) by (rewrite H; unfold Rdiv; field). destruct (div_ok x y Fx) as [F V].
  - rewrite H; lra.
  - rewrite Z, rn_FR. apply abs_B2R_lt_emax.
  - split; [exact F|]. rewrite V, Z. apply rn_FR.
Qed.
Lemma sub_0 x y : fin x -> fin y -> FR y = 0 -> fin (x - y)%float /\ FR (x - y)%float = FR x.
Proof.
  intros Fx Fy H. destruct (sub_ok x y Fx Fy) as [F V].
  - rewrite H, Rminus_0_r, rn_FR. apply abs_B2R_lt_emax.
  - split; [exact F|]. rewrite V, H, Rminus_0_r. apply rn_FR.
Qed.
(* sums are monotone *)
Lemma add_up x d : fin x -> fin d -> 0 <= FR d -> Rabs (FR x + FR d) <= big -> FR x <= FR (x + d)%float.
Proof.
  intros Fx Fd H B. destruct (add_ok x d Fx Fd (small_ok _ B)) as [_ V]. rewrite V. pose proof (rn_le (FR x) (FR x + FR d) ltac:(lra)) as L. rewrite rn_FR in L. exact L.
Qed.

(* repeated addition of (nearly) the same number *)
Lemma sums_ok (x d : nat -> flt) D n k : fin (x O) -> (forall i, (i < n)%nat -> x (S i) = (x i + d i)%float /\ fin (d i) /\ FR (d i) = D) ->
  INR n * ur <= / 4 -> Rabs (FR (x O)) + INR n * Rabs D <= bpow radix2 1022 -> (k <= n)%nat ->
  fin (x k) /\ Rabs (FR (x k) - (FR (x O) + INR k * D)) <= INR k * (2 * ur) * (Rabs (FR (x O)) + INR n * Rabs D).
Proof.
  intros Fx Hd Hn HM. pose proof ur_gt0 as U. set (M := Rabs (FR (x O)) + INR n * Rabs D) in *.
  assert (M0 : 0 <= M) by (unfold M; pose proof (Rabs_pos (FR (x O))); pose proof (Rabs_pos D); pose proof (pos_INR n); nra).
  induction k as [|k IH]; intros Hk.
  - cbn [INR]. split; [exact Fx|]. rewrite Rmult_0_l, Rplus_0_r, Rminus_eq_0, Rabs_R0. nra.
  - destruct IH as [F E]; [lia|]. destruct (Hd k ltac:(lia)) as (Es & Fd & Vd). rewrite Es. set (y := x k) in *. set (dk := d k) in *.
    assert (K : INR k + 1 <= INR n) by (rewrite <- S_INR; apply le_INR; exact Hk). pose proof (pos_INR k) as K0.
    assert (KU : INR k * ur <= / 4) by nra.
    assert (B : Rabs (FR y + FR dk) <= 2 * M).
    { rewrite Vd. replace (FR y + D) with ((FR y - (FR (x O) + INR k * D)) + (FR (x O) + (INR k + 1) * D)) by ring.
      eapply Rle_trans; [apply Rabs_triang|]. assert (A : Rabs (FR (x O) + (INR k + 1) * D) <= M).
      { eapply Rle_trans; [apply Rabs_triang|]. rewrite Rabs_mult, (Rabs_pos_eq (INR k + 1)) by lra. unfold M. pose proof (Rabs_pos D). nra. }
      assert (C : INR k * (2 * ur) * M <= M) by nra. lra. }
    destruct (add_e y dk F Fd) as [F' E'].
    { eapply Rle_trans; [exact B|]. unfold big. replace (bpow radix2 1023) with (2 * bpow radix2 1022); [lra|].
      change 2 with (bpow radix2 1). rewrite <- bpow_plus. reflexivity. }
    split; [exact F'|]. rewrite S_INR.
    replace (FR (y + dk)%float - (FR (x O) + (INR k + 1) * D)) with ((FR (y + dk)%float - (FR y + FR dk)) + (FR y - (FR (x O) + INR k * D))) by (rewrite Vd; ring).
    eapply Rle_trans; [apply Rabs_triang|]. assert (ur * Rabs (FR y + FR dk) <= ur * (2 * M)) by (apply Rmult_le_compat_l; lra). nra.
Qed.

(* the value of a literal *)
Lemma FR_lit x m e : Prim2SF x = S754_finite false m e -> fin x /\ FR x = IZR (Zpos m) * bpow radix2 e.
Proof.
  intros H. unfold fin, FR. rewrite <- is_finite_SF_B2SF, <- SF2R_B2SF, B2SF_Prim2B, H. split; reflexivity.
Qed.

(* ---- relative errors of nonnegative numbers: k roundings ---- *)
Definition within (k : nat) (a A : R) : Prop := 0 <= a /\ 0 <= A /\ (1 - ur) ^ k * A <= a /\ (1 - ur) ^ k * a <= A.
Lemma u1 : 0 < 1 - ur < 1.
Proof. rewrite ur_eq. lra. Qed.
Lemma u1k k : 0 < (1 - ur) ^ k <= 1.
Proof.
  pose proof u1 as U. induction k as [|k IH]; cbn [pow]; [lra|]. split; [apply Rmult_lt_0_compat; lra|].
  destruct U, IH. nra.
Qed.
Lemma within_refl k a : 0 <= a -> within k a a.
Proof. intros H. destruct (u1k k) as [U1 U2]. unfold within. repeat split; nra. Qed.
Lemma within_more k l a A : (k <= l)%nat -> within k a A -> within l a A.
Proof.
  intros H (H1 & H2 & H3 & H4). assert (E : (1 - ur) ^ l <= (1 - ur) ^ k).
  { replace l with (k + (l - k))%nat by lia. rewrite pow_add. pose proof (u1k k). pose proof (u1k (l - k)). nra. }
  repeat split; try assumption.
  - eapply Rle_trans; [|exact H3]. apply Rmult_le_compat_r; assumption.
  - eapply Rle_trans; [|exact H4]. apply Rmult_le_compat_r; assumption.
Qed.
Lemma within_sym k a A : within k a A -> within k A a.
Proof. intros (H1 & H2 & H3 & H4). repeat split; assumption. Qed.
Lemma within_trans k l a b c : within k a b -> within l b c -> within (k + l) a c.
Proof.
  intros (A1 & A2 & A3 & A4) (B1 & B2 & B3 & B4). pose proof (u1k k). pose proof (u1k l). unfold within; rewrite pow_add. repeat split; try assumption.
  - eapply Rle_trans; [|exact A3]. rewrite Rmult_assoc. apply Rmult_le_compat_l; lra.
  - eapply Rle_trans; [|exact B4]. rewrite (Rmult_comm ((1 - ur) ^ k)), Rmult_assoc. apply Rmult_le_compat_l; lra.
Qed.
Lemma within_mult k l a A b B : within k a A -> within l b B -> within (k + l) (a * b) (A * B).
Proof.
  intros (A1 & A2 & A3 & A4) (B1 & B2 & B3 & B4). pose proof (u1k k). pose proof (u1k l). unfold within; rewrite pow_add. repeat split.
  - apply Rmult_le_pos; assumption.
  - apply Rmult_le_pos; assumption.
  - replace ((1 - ur) ^ k * (1 - ur) ^ l * (A * B)) with (((1 - ur) ^ k * A) * ((1 - ur) ^ l * B)) by ring. apply Rmult_le_compat; try assumption; apply Rmult_le_pos; lra.
  - replace ((1 - ur) ^ k * (1 - ur) ^ l * (a * b)) with (((1 - ur) ^ k * a) * ((1 - ur) ^ l * b)) by ring. apply Rmult_le_compat; try assumption; apply Rmult_le_pos; lra.
Qed.
Lemma within_inv k a A : 0 < a -> 0 < A -> within k a A -> within k (/ a) (/ A).
Proof.
  intros Ha HA (A1 & A2 & A3 & A4). pose proof (u1k k). pose proof (Rinv_0_lt_compat a Ha). pose proof (Rinv_0_lt_compat A HA). repeat split; try lra.
  - apply Rmult_le_reg_r with a; [lra|]. rewrite Rinv_l by lra. apply Rmult_le_reg_r with A; [lra|]. rewrite Rmult_1_l.
    replace ((1 - ur) ^ k * / A * a * A) with ((1 - ur) ^ k * a * (A * / A)) by ring. rewrite Rinv_r by lra. lra.
  - apply Rmult_le_reg_r with a; [lra|]. apply Rmult_le_reg_r with A; [lra|].
    replace ((1 - ur) ^ k * / a * a * A) with ((1 - ur) ^ k * A * (a * / a)) by ring. rewrite Rinv_r by lra.
    replace (/ A * a * A) with (a * (A * / A)) by ring. rewrite Rinv_r by lra. lra.
Qed.
Lemma within_div k l a A b B : 0 < b -> 0 < B -> within k a A -> within l b B -> within (k + l) (a / b) (A / B).
Proof. intros Hb HB HA H. apply within_mult; [exact HA|]. apply within_inv; assumption. Qed.
Lemma within_plus k a A b B : within k a A -> within k b B -> within k (a + b) (A + B).
Proof. intros (A1 & A2 & A3 & A4) (B1 & B2 & B3 & B4). repeat split; try lra; rewrite Rmult_plus_distr_l; lra. Qed.
Lemma within_sqrt k a A : within (2 * k) a A -> within k (R_sqrt.sqrt a) (R_sqrt.sqrt A).
Proof.
  intros (A1 & A2 & A3 & A4). pose proof (u1k k) as U. assert (E : (1 - ur) ^ (2 * k) = (1 - ur) ^ k * (1 - ur) ^ k) by (replace (2 * k)%nat with (k + k)%nat by lia; apply pow_add).
  rewrite E in *. repeat split; try apply sqrt_pos.
  - rewrite <- (sqrt_square ((1 - ur) ^ k)) at 1 by lra. rewrite <- sqrt_mult by (try assumption; nra). apply sqrt_le_1_alt. exact A3.
  - rewrite <- (sqrt_square ((1 - ur) ^ k)) at 1 by lra. rewrite <- sqrt_mult by (try assumption; nra). apply sqrt_le_1_alt. exact A4.
Qed.
(* a rounded value *)
Lemma within_err y x : 0 <= x -> Rabs (y - x) <= ur * x -> within 1 y x.
Proof.
  intros H E. apply Rabs_le_inv in E. pose proof ur_gt0. pose proof u1. rewrite pow_1 || idtac. unfold within. rewrite !pow_1. repeat split; nra.
Qed.
Lemma bernoulli k : 1 - INR k * ur <= (1 - ur) ^ k.
Proof.
  pose proof u1 as U. induction k as [|k IH]; [cbn; lra|]. rewrite S_INR. cbn [pow]. pose proof (pos_INR k). pose proof ur_gt0. nra.
Qed.
Lemma within_abs k a A : INR k * ur <= / 2 -> within k a A -> Rabs (a - A) <= 2 * INR k * ur * A.
Proof.
  intros HK (A1 & A2 & A3 & A4). pose proof (bernoulli k) as B. pose proof (u1k k) as U. pose proof (pos_INR k). pose proof ur_gt0.
  apply Rabs_le. split; [nra|].
  assert (Q : (1 - INR k * ur) * a <= A) by nra. assert (a <= 2 * A) by nra. nra.
Qed.
Lemma fin_compute x : is_finite_SF (Prim2SF x) = true -> fin x.
Proof. intros H. unfold fin. rewrite <- is_finite_SF_B2SF, B2SF_Prim2B. exact H. Qed.
