(* A calculus of scaled errors: a double is near to a real number which is at most S, with an
   error of at most k units of rounding of S. *)
From Coq Require Import ZArith Reals List Bool Lia Lra Psatz Floats.
From Flocq Require Import Core.
From Verif Require Import Base Num NumFloat FloatFacts FloatFacts2.
Local Open Scope R_scope.

Definition ap (k S : R) (x : flt) (X : R) : Prop := fin x /\ Rabs X <= S /\ Rabs (FR x - X) <= k * ur * S.
(* scales without overflow and underflow *)
Definition sc (S : R) : Prop := bpow radix2 (-1000) <= S <= bpow radix2 1000.
Definition kk (k : R) : Prop := 0 <= k <= 100000.

Lemma sc_pos S : sc S -> 0 < S.
Proof. intros [H _]. pose proof (bpow_gt_0 radix2 (-1000)). lra. Qed.
Lemma sc_big S x : sc S -> Rabs x <= 2 * S -> Rabs x <= big.
Proof.
  intros [_ H] A. eapply Rle_trans; [exact A|]. unfold big. apply Rle_trans with (2 * bpow radix2 1000); [lra|].
  change 2 with (bpow radix2 1) at 1. rewrite <- bpow_plus. apply bp_le. lia.
Qed.
Lemma sc_eta S : sc S -> eta <= ur / 1000 * S.
Proof.
  intros [H _]. apply Rle_trans with (ur * bpow radix2 (-10) * bpow radix2 (-1000)).
  - unfold eta, ur. rewrite <- !bpow_plus. apply bp_le. lia.
  - pose proof ur_gt0. assert (E : bpow radix2 (-10) <= / 1000) by (cbn; lra). pose proof (bpow_gt_0 radix2 (-1000)). pose proof (bpow_gt_0 radix2 (-10)).
    unfold Rdiv. apply Rmult_le_compat; try lra; nra.
Qed.
Lemma kur k : kk k -> 0 <= k * ur <= / 1000000.
Proof. intros [A B]. rewrite ur_eq. lra. Qed.

Lemma ap_exact S x : fin x -> Rabs (FR x) <= S -> ap 0 S x (FR x).
Proof. intros F B. split; [exact F|]. split; [exact B|]. rewrite Rminus_diag_eq by reflexivity. rewrite Rabs_R0. lra. Qed.
(* another scale *)
Lemma ap_re k k' S S' x X : Rabs X <= S' -> k * S <= k' * S' -> ap k S x X -> ap k' S' x X.
Proof.
  intros B K (F & _ & E). split; [exact F|]. split; [exact B|]. eapply Rle_trans; [exact E|]. pose proof ur_gt0.
  replace (k * ur * S) with (ur * (k * S)) by ring. replace (k' * ur * S') with (ur * (k' * S')) by ring. apply Rmult_le_compat_l; lra.
Qed.
(* another exact value *)
Lemma ap_to k d S x X Y : Rabs Y <= S -> Rabs (X - Y) <= d * ur * S -> ap k S x X -> ap (k + d) S x Y.
Proof.
  intros B K (F & _ & E). split; [exact F|]. split; [exact B|]. replace (FR x - Y) with ((FR x - X) + (X - Y)) by ring.
  eapply Rle_trans; [apply Rabs_triang|]. lra.
Qed.
Lemma ap_near k S x X : kk k -> 0 <= S -> ap k S x X -> Rabs (FR x) <= 1001 / 1000 * S.
Proof.
  intros K P (_ & B & E). replace (FR x) with ((FR x - X) + X) by ring. eapply Rle_trans; [apply Rabs_triang|].
  pose proof (kur k K). assert (k * ur * S <= / 1000000 * S) by (apply Rmult_le_compat_r; lra). lra.
Qed.
(* rounding of a value with a given error *)
Lemma ap_round k S x v X : kk k -> sc S -> fin x -> Rabs X <= S -> Rabs (v - X) <= k * ur * S -> Rabs (FR x - v) <= ur * Rabs v + eta -> ap (k + 11 / 10) S x X.
Proof.
  intros K Hs F B E R. split; [exact F|]. split; [exact B|]. replace (FR x - X) with ((FR x - v) + (v - X)) by ring.
  eapply Rle_trans; [apply Rabs_triang|]. pose proof (sc_pos S Hs) as P. pose proof (sc_eta S Hs) as Q. pose proof (kur k K) as U.
  assert (V : Rabs v <= 1001 / 1000 * S).
  { replace v with ((v - X) + X) by ring. eapply Rle_trans; [apply Rabs_triang|]. assert (k * ur * S <= / 1000000 * S) by (apply Rmult_le_compat_r; lra). lra. }
  pose proof ur_gt0 as UP. assert (ur * Rabs v <= ur * (1001 / 1000 * S)) by (apply Rmult_le_compat_l; lra).
  assert (0 <= ur * S) by nra. nra.
Qed.

Lemma ap_mul k l m S T x y X Y : kk k -> kk l -> kk m -> sc (S * T) -> 0 <= S -> 0 <= T -> k + l + 1 / 1000 <= m ->
  ap k S x X -> ap l T y Y -> ap (m + 11 / 10) (S * T) (x * y)%float (X * Y).
Proof.
  intros K L M Hs S0 T0 Hm (Fx & Bx & Ex) (Fy & By & Ey). pose proof ur_gt0 as UP. pose proof (kur k K) as KU. pose proof (kur l L) as LU.
  pose proof (sc_pos _ Hs) as P.
  assert (E : Rabs (FR x * FR y - X * Y) <= m * ur * (S * T)).
  { replace (FR x * FR y - X * Y) with ((FR x - X) * (FR y - Y) + (FR x - X) * Y + X * (FR y - Y)) by ring.
    eapply Rle_trans; [apply Rabs_triang|]. eapply Rle_trans; [apply Rplus_le_compat_r, Rabs_triang|]. rewrite !Rabs_mult.
    pose proof (Rabs_pos (FR x - X)). pose proof (Rabs_pos (FR y - Y)). pose proof (Rabs_pos X). pose proof (Rabs_pos Y).
    assert (A1 : Rabs (FR x - X) * Rabs (FR y - Y) <= (k * ur * S) * (l * ur * T)) by (apply Rmult_le_compat; lra).
    assert (A2 : Rabs (FR x - X) * Rabs Y <= (k * ur * S) * T) by (apply Rmult_le_compat; lra).
    assert (A3 : Rabs X * Rabs (FR y - Y) <= S * (l * ur * T)) by (apply Rmult_le_compat; lra).
    assert (A4 : (k * ur * S) * (l * ur * T) <= / 1000 * (ur * (S * T))).
    { replace ((k * ur * S) * (l * ur * T)) with (((k * ur) * l) * (ur * (S * T))) by ring. apply Rmult_le_compat_r; [nra|].
      destruct L as [L0 L1]. destruct K as [K0 K1]. rewrite ur_eq. assert (k * l <= 100000 * 100000) by (apply Rmult_le_compat; lra). lra. }
    assert (A5 : (k + l + 1 / 1000) * (ur * (S * T)) <= m * (ur * (S * T))) by (apply Rmult_le_compat_r; [nra|lra]). lra. }
  assert (B : Rabs (X * Y) <= S * T) by (rewrite Rabs_mult; apply Rmult_le_compat; auto using Rabs_pos).
  assert (Bv : Rabs (FR x * FR y) <= 2 * (S * T)).
  { replace (FR x * FR y) with ((FR x * FR y - X * Y) + X * Y) by ring. eapply Rle_trans; [apply Rabs_triang|]. pose proof (kur m M).
    assert (m * ur * (S * T) <= / 1000000 * (S * T)) by (apply Rmult_le_compat_r; lra). lra. }
  destruct (mul_e x y Fx Fy (sc_big _ _ Hs Bv)) as [F R]. eapply ap_round; eauto.
Qed.
Lemma ap_add k l m S T x y X Y : kk m -> sc (S + T) -> k * S + l * T <= m * (S + T) ->
  ap k S x X -> ap l T y Y -> ap (m + 11 / 10) (S + T) (x + y)%float (X + Y).
Proof.
  intros M Hs Hm (Fx & Bx & Ex) (Fy & By & Ey). pose proof ur_gt0 as UP. pose proof (sc_pos _ Hs) as P.
  assert (E : Rabs (FR x + FR y - (X + Y)) <= m * ur * (S + T)).
  { replace (FR x + FR y - (X + Y)) with ((FR x - X) + (FR y - Y)) by ring. eapply Rle_trans; [apply Rabs_triang|].
    replace (m * ur * (S + T)) with (ur * (m * (S + T))) by ring. assert (ur * (k * S + l * T) <= ur * (m * (S + T))) by (apply Rmult_le_compat_l; lra). lra. }
  assert (B : Rabs (X + Y) <= S + T) by (eapply Rle_trans; [apply Rabs_triang|lra]).
  assert (Bv : Rabs (FR x + FR y) <= 2 * (S + T)).
  { replace (FR x + FR y) with ((FR x + FR y - (X + Y)) + (X + Y)) by ring. eapply Rle_trans; [apply Rabs_triang|]. pose proof (kur m M).
    assert (m * ur * (S + T) <= / 1000000 * (S + T)) by (apply Rmult_le_compat_r; lra). lra. }
  destruct (add_e x y Fx Fy (sc_big _ _ Hs Bv)) as [F R]. eapply ap_round; eauto. pose proof eta_pos. lra.
Qed.
Lemma ap_sub k l m S T x y X Y : kk m -> sc (S + T) -> k * S + l * T <= m * (S + T) ->
  ap k S x X -> ap l T y Y -> ap (m + 11 / 10) (S + T) (x - y)%float (X - Y).
Proof.
  intros M Hs Hm (Fx & Bx & Ex) (Fy & By & Ey). pose proof ur_gt0 as UP. pose proof (sc_pos _ Hs) as P.
  assert (E : Rabs (FR x - FR y - (X - Y)) <= m * ur * (S + T)).
  { replace (FR x - FR y - (X - Y)) with ((FR x - X) + - (FR y - Y)) by ring. eapply Rle_trans; [apply Rabs_triang|]. rewrite Rabs_Ropp.
    replace (m * ur * (S + T)) with (ur * (m * (S + T))) by ring. assert (ur * (k * S + l * T) <= ur * (m * (S + T))) by (apply Rmult_le_compat_l; lra). lra. }
  assert (B : Rabs (X - Y) <= S + T) by (unfold Rminus; eapply Rle_trans; [apply Rabs_triang|rewrite Rabs_Ropp; lra]).
  assert (Bv : Rabs (FR x - FR y) <= 2 * (S + T)).
  { replace (FR x - FR y) with ((FR x - FR y - (X - Y)) + (X - Y)) by ring. eapply Rle_trans; [apply Rabs_triang|]. pose proof (kur m M).
    assert (m * ur * (S + T) <= / 1000000 * (S + T)) by (apply Rmult_le_compat_r; lra). lra. }
  destruct (sub_e x y Fx Fy (sc_big _ _ Hs Bv)) as [F R]. eapply ap_round; eauto. pose proof eta_pos. lra.
Qed.
(* division by a value which is at least a *)
Lemma ap_div k l m S T a x y X Y : kk k -> kk l -> kk m -> sc (S / a) -> 0 <= S -> 0 < a -> a <= Y -> T <= 2 * a -> 1001 / 1000 * (k + l * (T / a)) <= m ->
  ap k S x X -> ap l T y Y -> ap (m + 11 / 10) (S / a) (x / y)%float (X / Y).
Proof.
  intros K L M Hs S0 A0 AY TA Hm (Fx & Bx & Ex) (Fy & By & Ey). pose proof ur_gt0 as UP. pose proof (kur k K) as KU. pose proof (kur l L) as LU. pose proof (sc_pos _ Hs) as P.
  assert (T0 : 0 < T) by (apply Rlt_le_trans with a; [lra|]; apply Rle_trans with Y; [lra|]; eapply Rle_trans; [apply Rle_abs|exact By]).
  assert (Ly : 999999 / 1000000 * a <= FR y - 0).
  { apply Rabs_le_inv in Ey. assert (l * ur * T <= / 1000000 * (2 * a) / 2 * 2) by (apply Rle_trans with (/ 1000000 * (2 * a)); [apply Rmult_le_compat; lra|lra]).
    assert (l * ur <= 100000 * ur) by (destruct L; apply Rmult_le_compat_r; lra). assert (l * ur <= / 2000000) by (rewrite ur_eq in *; lra).
    assert (l * ur * T <= / 2000000 * (2 * a)) by (apply Rmult_le_compat; lra). lra. }
  rewrite Rminus_0_r in Ly. assert (y0 : 0 < FR y) by lra. assert (Y0 : 0 < Y) by lra.
  assert (IY : 0 < / Y <= / a) by (split; [apply Rinv_0_lt_compat; lra|apply Rinv_le_contravar; lra]).
  assert (Iy : 0 < / FR y <= 1001 / 1000 * (999 / 1000) * / a + / 1000 * / a).
  { split; [apply Rinv_0_lt_compat; lra|]. apply Rle_trans with (/ (999999 / 1000000 * a)); [apply Rinv_le_contravar; lra|].
    rewrite Rinv_mult. assert (0 < / a) by (apply Rinv_0_lt_compat; lra). lra. }
  assert (I0 : 0 < / a) by lra. assert (Iy' : / FR y <= 1000999 / 1000000 * / a) by lra.
  assert (E : Rabs (FR x / FR y - X / Y) <= m * ur * (S / a)).
  { replace (FR x / FR y - X / Y) with ((FR x - X) * / FR y + X * ((Y - FR y) * / Y * / FR y)) by (field; lra).
    eapply Rle_trans; [apply Rabs_triang|]. rewrite !Rabs_mult. rewrite (Rabs_pos_eq (/ FR y)), (Rabs_pos_eq (/ Y)) by lra. rewrite (Rabs_minus_sym Y).
    pose proof (Rabs_pos (FR x - X)). pose proof (Rabs_pos (FR y - Y)). pose proof (Rabs_pos X).
    assert (A1 : Rabs (FR x - X) * / FR y <= (k * ur * S) * (1000999 / 1000000 * / a)) by (apply Rmult_le_compat; lra).
    assert (A2 : Rabs (FR y - Y) * / Y <= (l * ur * T) * / a) by (apply Rmult_le_compat; lra).
    assert (A3 : Rabs (FR y - Y) * / Y * / FR y <= (l * ur * T) * / a * (1000999 / 1000000 * / a)) by (apply Rmult_le_compat; try lra; nra).
    assert (A4 : Rabs X * (Rabs (FR y - Y) * / Y * / FR y) <= S * ((l * ur * T) * / a * (1000999 / 1000000 * / a))) by (apply Rmult_le_compat; try lra; repeat apply Rmult_le_pos; lra).
    assert (A5 : (1001 / 1000 * (k + l * (T / a))) * (ur * (S / a)) <= m * (ur * (S / a))) by (apply Rmult_le_compat_r; [nra|lra]).
    assert (TT : 0 <= k + l * (T / a)). { destruct K, L. assert (0 <= T / a) by (unfold Rdiv; apply Rmult_le_pos; lra). assert (0 <= l * (T / a)) by (apply Rmult_le_pos; lra). lra. }
    apply Rle_trans with (1000999 / 1000000 * (k + l * (T / a)) * (ur * (S / a))).
    - replace (1000999 / 1000000 * (k + l * (T / a)) * (ur * (S / a))) with ((k * ur * S) * (1000999 / 1000000 * / a) + S * ((l * ur * T) * / a * (1000999 / 1000000 * / a))) by (field; lra). lra.
    - replace (m * ur * (S / a)) with (m * (ur * (S / a))) by ring. eapply Rle_trans; [|exact A5]. apply Rmult_le_compat_r; [nra|]. lra. }
  assert (B : Rabs (X / Y) <= S / a).
  { unfold Rdiv. rewrite Rabs_mult, (Rabs_pos_eq (/ Y)) by lra. apply Rmult_le_compat; try lra. apply Rabs_pos. }
  assert (Bv : Rabs (FR x / FR y) <= 2 * (S / a)).
  { replace (FR x / FR y) with ((FR x / FR y - X / Y) + X / Y) by ring. eapply Rle_trans; [apply Rabs_triang|]. pose proof (kur m M).
    assert (m * ur * (S / a) <= / 1000000 * (S / a)) by (apply Rmult_le_compat_r; lra). lra. }
  destruct (div_e x y Fx ltac:(lra) (sc_big _ _ Hs Bv)) as [F R]. eapply ap_round; eauto.
Qed.
(* square root of a value which is at least a*a *)
Lemma ap_sqrt k m S a S' x X : kk k -> kk m -> sc S' -> 0 < a -> a * a <= X -> S <= 4 * (a * a) -> R_sqrt.sqrt X <= S' -> 1001 / 2000 * (k * S) <= m * S' * a ->
  ap k S x X -> ap (m + 11 / 10) S' (Coq.Floats.PrimFloat.sqrt x) (R_sqrt.sqrt X).
Proof.
  intros K M Hs A0 AX SA HS Hm (Fx & Bx & Ex). pose proof ur_gt0 as UP. pose proof (kur k K) as KU. pose proof (sc_pos _ Hs) as P.
  assert (S0 : 0 < S) by (apply Rlt_le_trans with (a * a); [nra|]; eapply Rle_trans; [exact AX|]; eapply Rle_trans; [apply Rle_abs|exact Bx]).
  assert (Lx : 999 / 1000 * (999 / 1000) * (a * a) <= FR x).
  { apply Rabs_le_inv in Ex. assert (k * ur * S <= / 1000000 * (4 * (a * a))) by (apply Rmult_le_compat; lra). assert (0 < a * a) by nra. lra. }
  assert (x0 : 0 < FR x) by nra.
  assert (sX : a <= R_sqrt.sqrt X) by (rewrite <- (sqrt_square a) by lra; apply sqrt_le_1_alt; lra).
  assert (sx : 999 / 1000 * a <= R_sqrt.sqrt (FR x)).
  { rewrite <- (sqrt_square (999 / 1000 * a)) by lra. apply sqrt_le_1_alt. lra. }
  pose proof (sqrt_sqrt X ltac:(nra)) as QX. pose proof (sqrt_sqrt (FR x) ltac:(lra)) as Qx.
  set (r := R_sqrt.sqrt X) in *. set (v := R_sqrt.sqrt (FR x)) in *.
  assert (E : Rabs (v - r) <= m * ur * S').
  { assert (D : Rabs (v - r) * (v + r) = Rabs (FR x - X)).
    { rewrite <- (Rabs_pos_eq (v + r)) by lra. rewrite <- Rabs_mult. f_equal. rewrite <- QX, <- Qx. ring. }
    assert (1999 / 1000 * a <= v + r) by lra. pose proof (Rabs_pos (v - r)) as P0.
    assert (D2 : Rabs (v - r) * (1999 / 1000 * a) <= k * ur * S).
    { apply Rle_trans with (Rabs (v - r) * (v + r)); [apply Rmult_le_compat_l; lra|]. rewrite D. exact Ex. }
    assert (D3 : 1001 / 2000 * (k * S) * ur <= m * S' * a * ur) by (apply Rmult_le_compat_r; lra).
    assert (kS : 0 <= k * ur * S) by (destruct K; repeat apply Rmult_le_pos; lra).
    apply (Rmult_le_reg_r (1999 / 1000 * a)); [lra|]. eapply Rle_trans; [exact D2|].
    replace (m * ur * S' * (1999 / 1000 * a)) with (1999 / 1000 * (m * S' * a * ur)) by ring.
    assert (1999 / 1000 * (1001 / 2000 * (k * S) * ur) >= k * ur * S); [|lra]. replace (1999 / 1000 * (1001 / 2000 * (k * S) * ur)) with (1999 / 1000 * (1001 / 2000) * (k * ur * S)) by ring. lra. }
  destruct (sqrt_e x Fx ltac:(lra)) as [F R]. fold v in R. eapply ap_round; eauto; [rewrite Rabs_pos_eq; lra|rewrite (Rabs_pos_eq v) by lra; exact R].
Qed.
