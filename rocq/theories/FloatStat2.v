(* Rounding of the statistics of a bunch: the functions of the bunch. *)
From Coq Require Import ZArith Reals List Bool Lia Lra Psatz Floats.
From Flocq Require Import Core.
From Verif Require Import Base BaseFacts Num NumFloat FloatFacts FloatFacts2 VecModel ParticleModel BunchModel BunchSpec BunchProofs FloatTrack FloatStat.
Import ListNotations.
Local Open Scope R_scope.

Lemma fold_fsum {A} (f : A -> flt) (b : list A) s : fold_left (fun s p => (s + f p)%float) b s = fold_left Coq.Floats.PrimFloat.add (map f b) s.
Proof. revert s. induction b as [|p b IH]; intros s; [reflexivity|]. cbn [fold_left map]. apply IH. Qed.
Lemma fold_vsum {A} (g : A -> vec flt) (b : list A) (s : vec flt) : fold_left (fun s p => vadd s (g p)) b s =
  V (fold_left Coq.Floats.PrimFloat.add (map (fun p => vx (g p)) b) (vx s)) (fold_left Coq.Floats.PrimFloat.add (map (fun p => vy (g p)) b) (vy s)) (fold_left Coq.Floats.PrimFloat.add (map (fun p => vz (g p)) b) (vz s)).
Proof. revert s. induction b as [|p b IH]; intros [x y z]; [reflexivity|]. cbn [fold_left map]. rewrite IH. reflexivity. Qed.
Lemma avgTime_f (b : bunch flt) : bunch_avgTime b = (fsum (map pt b) / f_ofZ (Z.of_nat (length (map pt b))))%float.
Proof. unfold bunch_avgTime. unF. rewrite (fold_fsum pt), map_length. reflexivity. Qed.
Definition favg (l : list flt) : flt := (fsum l * (f_ofZ 1 / f_ofZ (Z.of_nat (length l))))%float.
Lemma vavg_f (g : particle flt -> vec flt) (b : bunch flt) : vmul (fold_left (fun s p => vadd s (g p)) b vzero) (ndiv (nZ 1) (nNOP b)) =
  V (favg (map (fun p => vx (g p)) b)) (favg (map (fun p => vy (g p)) b)) (favg (map (fun p => vz (g p)) b)).
Proof. rewrite fold_vsum. unfold favg. rewrite !map_length. reflexivity. Qed.
Lemma rms_f (b : bunch flt) : bunch_rmsPosition b =
  V (dev_rms (map (fun p => vx (pX p)) b) (favg (map (fun p => vx (pX p)) b))) (dev_rms (map (fun p => vy (pX p)) b) (favg (map (fun p => vy (pX p)) b)))
    (dev_rms (map (fun p => vz (pX p)) b) (favg (map (fun p => vz (pX p)) b))).
Proof.
  unfold bunch_rmsPosition, bunch_avgPosition. rewrite (vavg_f pX). cbn zeta. set (m := V _ _ _). rewrite (fold_vsum (fun p : particle flt => vsquare (vsub (pX p) m))).
  unfold dev_rms, fsum. rewrite !map_map, !map_length. reflexivity.
Qed.

Lemma ur2 : 2 * ur = bpow radix2 (-52).
Proof. unfold ur. change 2 with (bpow radix2 1). rewrite <- bpow_plus. reflexivity. Qed.

Section Stat.
Variables (b : bunch flt) (M : R).
Hypothesis Hb : b <> [].
Hypothesis Hn : (Z.of_nat (length b) <= 2 ^ 50)%Z.
Let n := INR (length b).
Lemma times_ok : Forall (fun p => fin (pt p) /\ Rabs (FR (pt p)) <= M) b -> n * M <= bpow radix2 1022 ->
  fin (bunch_avgTime b) /\ Rabs (FR (bunch_avgTime b) - mean (map (fun p => FR (pt p)) b)) <= (n + 1) * bpow radix2 (-52) * M + eta.
Proof.
  intros H HB. rewrite avgTime_f. assert (L : length (map pt b) = length b) by apply map_length.
  destruct (avg_div (map pt b) M) as [F E]; try (rewrite L; assumption).
  - destruct b; [contradiction|discriminate].
  - apply Forall_map. eapply Forall_impl; [|exact H]. cbn. tauto.
  - apply Forall_map. eapply Forall_impl; [|exact H]. cbn. tauto.
  - split; [exact F|]. unfold FL in E. rewrite map_map in E. rewrite L, ur2 in E. rewrite ?L. exact E.
Qed.
Lemma favg_ok (f : particle flt -> flt) : Forall (fun p => fin (f p) /\ Rabs (FR (f p)) <= M) b -> n * M <= bpow radix2 1022 ->
  fin (favg (map f b)) /\ Rabs (FR (favg (map f b)) - mean (map (fun p => FR (f p)) b)) <= (n + 3) * bpow radix2 (-52) * M + eta.
Proof.
  intros H HB. assert (L : length (map f b) = length b) by apply map_length.
  destruct (avg_mul (map f b) M) as [F E]; try (rewrite L; assumption).
  - destruct b; [contradiction|discriminate].
  - apply Forall_map. eapply Forall_impl; [|exact H]. cbn. tauto.
  - apply Forall_map. eapply Forall_impl; [|exact H]. cbn. tauto.
  - split; [exact F|]. unfold FL in E. rewrite map_map in E. unfold favg. rewrite L, ur2 in E. rewrite ?L. exact E.
Qed.
Lemma frms_ok (f : particle flt -> flt) : Forall (fun p => fin (f p) /\ Rabs (FR (f p)) <= M) b -> M <= bpow radix2 400 ->
  let z := dev_rms (map f b) (favg (map f b)) in
  fin z /\ 0 <= FR z /\ Rabs (FR z - rms (map (fun p => FR (f p)) b)) <= (4 * n + 17) * bpow radix2 (-52) * M + bpow radix2 (-534).
Proof.
  intros H HM. assert (L : length (map f b) = length b) by apply map_length. cbn zeta.
  assert (M0 : 0 <= M). { destruct b as [|p r]; [contradiction|]. apply Forall_inv in H. pose proof (Rabs_pos (FR (f p))). lra. }
  assert (HB : n * M <= bpow radix2 1022).
  { assert (nB : n <= bpow radix2 50). { unfold n. pose proof Hn as N. apply IZR_le in N. rewrite <- INR_IZR_INZ in N. exact N. }
    apply Rle_trans with (bpow radix2 (50 + 400)); [|apply bp_le; lia]. rewrite bpow_plus. apply Rmult_le_compat; auto. unfold n. apply pos_INR. }
  destruct (favg_ok f H HB) as [Fm Em].
  destruct (dev_rms_ok (map f b) M (favg (map f b))) as (F & P & E); try (rewrite L; assumption); try assumption.
  - destruct b; [contradiction|discriminate].
  - apply Forall_map. eapply Forall_impl; [|exact H]. cbn. tauto.
  - apply Forall_map. eapply Forall_impl; [|exact H]. cbn. tauto.
  - unfold FL. rewrite map_map, L, ur2. exact Em.
  - split; [exact F|]. split; [exact P|]. unfold FL in E. rewrite map_map, L, ur2 in E. eapply Rle_trans; [exact E|]. right. f_equal.
    change 4 with (bpow radix2 2). rewrite <- bpow_plus. reflexivity.
Qed.
End Stat.

(* relativistic factor *)
Lemma bp_dbl e : 2 * bpow radix2 e = bpow radix2 (e + 1).
Proof. change 2 with (bpow radix2 1). rewrite <- bpow_plus. f_equal. lia. Qed.
Lemma sq_bp e x : Rabs x <= bpow radix2 e -> 0 <= x * x <= bpow radix2 (e + e).
Proof.
  intros H. split; [apply Rle_0_sqr|]. replace (x * x) with (Rabs x * Rabs x) by (rewrite <- Rabs_mult; apply Rabs_pos_eq, Rle_0_sqr). rewrite bpow_plus. apply Rmult_le_compat; auto using Rabs_pos.
Qed.
Lemma mul_pos e (x : flt) : (-500 <= e <= 500)%Z -> fin x -> Rabs (FR x) <= bpow radix2 e -> fin (x * x)%float /\ 0 <= FR (x * x)%float <= bpow radix2 (e + e).
Proof.
  intros He F H. pose proof (sq_bp e _ H) as [S1 S2]. destruct (mul_ok x x F F) as [F' E'].
  - apply small_ok. rewrite Rabs_pos_eq by exact S1. eapply Rle_trans; [exact S2|]. apply bp_le. lia.
  - split; [exact F'|]. rewrite E'. split; [rewrite <- rn_0; apply rn_le; exact S1|]. rewrite <- (Rabs_pos_eq (rn (FR x * FR x))) by (rewrite <- rn_0; apply rn_le; exact S1).
    apply rn_below; [lia|]. rewrite Rabs_pos_eq by exact S1. exact S2.
Qed.
Lemma add_pos e (x y : flt) : (-500 <= e <= 1010)%Z -> fin x -> fin y -> 0 <= FR x <= bpow radix2 e -> 0 <= FR y <= bpow radix2 e ->
  fin (x + y)%float /\ 0 <= FR (x + y)%float <= bpow radix2 (e + 1) /\ FR (x + y)%float = rn (FR x + FR y).
Proof.
  intros He Fx Fy [X1 X2] [Y1 Y2]. assert (S2 : FR x + FR y <= bpow radix2 (e + 1)) by (rewrite <- bp_dbl; lra). assert (S1 : 0 <= FR x + FR y) by lra. destruct (add_ok x y Fx Fy) as [F' E'].
  - apply small_ok. rewrite Rabs_pos_eq by exact S1. eapply Rle_trans; [exact S2|]. apply bp_le. lia.
  - split; [exact F'|]. split; [|exact E']. rewrite E'. assert (R0 : 0 <= rn (FR x + FR y)) by (rewrite <- rn_0; apply rn_le; exact S1). split; [exact R0|].
    rewrite <- (Rabs_pos_eq _ R0). apply rn_below; [lia|]. rewrite Rabs_pos_eq by exact S1. exact S2.
Qed.
Lemma sqrt_pos2 e (x : flt) : (-500 <= e <= 500)%Z -> fin x -> 0 <= FR x <= bpow radix2 (e + e) ->
  fin (Coq.Floats.PrimFloat.sqrt x) /\ 0 <= FR (Coq.Floats.PrimFloat.sqrt x) <= bpow radix2 e /\ FR (Coq.Floats.PrimFloat.sqrt x) = rn (R_sqrt.sqrt (FR x)).
Proof.
  intros He Fx [X1 X2]. destruct (sqrt_ok x Fx X1) as [F E]. split; [exact F|]. split; [|exact E]. rewrite E. pose proof (sqrt_pos (FR x)) as S0.
  assert (R0 : 0 <= rn (R_sqrt.sqrt (FR x))) by (rewrite <- rn_0; apply rn_le; exact S0). split; [exact R0|]. rewrite <- (Rabs_pos_eq _ R0). apply rn_below; [lia|]. rewrite Rabs_pos_eq by exact S0.
  apply Rle_trans with (R_sqrt.sqrt (bpow radix2 (e + e))); [apply sqrt_le_1_alt; exact X2|]. rewrite bpow_plus, sqrt_square by apply bpow_ge_0. lra.
Qed.
Lemma rn_ge_1 x : 1 <= x -> 1 <= rn x.
Proof. intros H. pose proof (rn_le 1 x H) as L. rewrite (rn_IZR 1 ltac:(lia)) in L. exact L. Qed.
Definition fgamma (p : vec flt) : flt := let bg := vnorm p in Coq.Floats.PrimFloat.sqrt (bg * bg + f_ofZ 1)%float.
Lemma fgamma_ok (p : vec flt) : finv p -> below 200 p -> fin (fgamma p) /\ 1 <= FR (fgamma p) <= bpow radix2 202.
Proof.
  destruct p as [x y z]. intros (Fx & Fy & Fz) (Bx & By & Bz). cbn [vx vy vz] in *. unfold fgamma, vnorm. cbn [vx vy vz]. unF.
  destruct (mul_pos 200 x ltac:(lia) Fx Bx) as [F1 P1]. destruct (mul_pos 200 y ltac:(lia) Fy By) as [F2 P2]. destruct (mul_pos 200 z ltac:(lia) Fz Bz) as [F3 P3].
  change (200 + 200)%Z with 400%Z in *. destruct (add_pos 400 _ _ ltac:(lia) F1 F2 P1 P2) as (F4 & P4 & _). change (400 + 1)%Z with 401%Z in *.
  assert (P3' : 0 <= FR (z * z)%float <= bpow radix2 401) by (pose proof (bp_le 400 401 ltac:(lia)); lra).
  destruct (add_pos 401 _ _ ltac:(lia) F4 F3 P4 P3') as (F5 & P5 & _). change (401 + 1)%Z with (201 + 201)%Z in *.
  destruct (sqrt_pos2 201 _ ltac:(lia) F5 P5) as (F6 & P6 & _). set (bg := Coq.Floats.PrimFloat.sqrt (x * x + y * y + z * z)%float) in *.
  destruct (mul_pos 201 bg ltac:(lia) F6 ltac:(rewrite Rabs_pos_eq; lra)) as [F7 P7]. destruct (ofZ_ok 1 ltac:(lia)) as [G1 V1].
  destruct (add_pos 402 (bg * bg)%float (f_ofZ 1) ltac:(lia) F7 G1 P7) as (F8 & P8 & E8). { rewrite V1. pose proof (bp_le 0 402 ltac:(lia)) as B. change (bpow radix2 0) with 1 in B. lra. }
  assert (O : 1 <= FR (bg * bg + f_ofZ 1)%float).
  { rewrite E8, V1. apply rn_ge_1. lra. }
  destruct (sqrt_pos2 202 (bg * bg + f_ofZ 1)%float ltac:(lia) F8) as (F9 & P9 & E9). { split; [lra|]. pose proof (bp_le 403 (202 + 202) ltac:(lia)). change (402 + 1)%Z with 403%Z in P8. lra. }
  split; [exact F9|]. split; [|apply P9]. rewrite E9. apply rn_ge_1. rewrite <- sqrt_1 at 1. apply sqrt_le_1_alt. exact O.
Qed.
Lemma fsum_ge (l : list flt) : Forall (fun x => fin x /\ 1 <= FR x <= bpow radix2 202) l -> (Z.of_nat (length l) <= 2 ^ 50)%Z ->
  fin (fsum l) /\ INR (length l) <= FR (fsum l) <= bpow radix2 300.
Proof.
  intros H Hn. pose proof ur_gt0 as U.
  assert (G : forall l, Forall (fun x => fin x /\ 1 <= FR x <= bpow radix2 202) l -> (Z.of_nat (length l) <= 2 ^ 50)%Z -> INR (length l) * ur <= / 4 /\ asum l <= bpow radix2 252).
  { clear. intros l H Hn. split.
    - apply nat_ur. lia.
    - eapply Rle_trans; [apply (asum_le l (bpow radix2 202))|].
      + eapply Forall_impl; [|exact H]. cbn. intros x (_ & A & B). rewrite Rabs_pos_eq by lra. exact B.
      + change 252%Z with (50 + 202)%Z. rewrite bpow_plus. apply Rmult_le_compat_r; [apply bpow_ge_0|]. apply IZR_le in Hn. rewrite <- INR_IZR_INZ in Hn. exact Hn. }
  assert (K : forall l, Forall (fun x => fin x /\ 1 <= FR x <= bpow radix2 202) l -> (Z.of_nat (length l) <= 2 ^ 50)%Z -> fin (fsum l) /\ FR (fsum l) <= bpow radix2 300 /\ asum l <= bpow radix2 252).
  { intros k Hk Lk. destruct (G k Hk Lk) as [G1 G2]. destruct (fsum_ok k) as [F E].
    - eapply Forall_impl; [|exact Hk]. cbn. tauto.
    - exact G1.
    - eapply Rle_trans; [exact G2|]. apply bp_le. lia.
    - split; [exact F|]. split; [|exact G2]. pose proof (asum_pos k). assert (INR (length k) * (2 * ur) * asum k <= 1 * asum k) by (apply Rmult_le_compat_r; lra).
      pose proof (sum_asum k). pose proof (Rle_abs (FR (fsum k) - sum (FL k))). pose proof (Rle_abs (sum (FL k))). pose proof (bp_le 253 300 ltac:(lia)) as B. replace (bpow radix2 253) with (2 * bpow radix2 252) in B by (apply bp_dbl). lra. }
  split; [apply K; assumption|]. split; [|apply K; assumption].
  induction l as [|x l IH] using rev_ind.
  - unfold fsum. cbn [fold_left length INR]. destruct (ofZ_ok 0 ltac:(lia)) as [_ ->]. lra.
  - rewrite Forall_app in H. destruct H as [Hl Hx]. apply Forall_inv in Hx. destruct Hx as (Fx & X1 & X2). rewrite app_length in *. cbn [length] in *. specialize (IH Hl ltac:(lia)).
    destruct (K l Hl ltac:(lia)) as (Fs & Bs & _). unfold fsum in *. rewrite fold_left_app. cbn [fold_left]. set (s := fold_left Coq.Floats.PrimFloat.add l (f_ofZ 0)) in *.
    pose proof (pos_INR (length l)) as L0. destruct (add_ok s x Fs Fx) as [_ ->].
    + apply small_ok. rewrite Rabs_pos_eq by lra. pose proof (bp_le 202 300 ltac:(lia)). pose proof (bp_le 301 1023 ltac:(lia)) as B. replace (bpow radix2 301) with (2 * bpow radix2 300) in B by (apply bp_dbl). lra.
    + rewrite INR_IZR_INZ. rewrite <- rn_IZR by lia. apply rn_le. rewrite <- INR_IZR_INZ, plus_INR. cbn [INR]. lra.
Qed.
Lemma avgGamma_f (b : bunch flt) : bunch_avgGamma b = (fsum (map (fun p => fgamma (pP p)) b) / f_ofZ (Z.of_nat (length b)))%float.
Proof. unfold bunch_avgGamma. unF. rewrite (fold_fsum (fun p : particle flt => fgamma (pP p))). reflexivity. Qed.
Lemma gamma_ge_1 (b : bunch flt) : b <> [] -> (Z.of_nat (length b) <= 2 ^ 50)%Z -> Forall (fun p => finv (pP p) /\ below 200 (pP p)) b ->
  fin (bunch_avgGamma b) /\ 1 <= FR (bunch_avgGamma b).
Proof.
  intros Hb Hn H. rewrite avgGamma_f. set (l := map (fun p => fgamma (pP p)) b). assert (L : length l = length b) by apply map_length.
  destruct (fsum_ge l) as (F & P1 & P2).
  - apply Forall_map. eapply Forall_impl; [|exact H]. cbn. intros p [A B]. apply fgamma_ok; assumption.
  - rewrite L. exact Hn.
  - destruct (ofZ_ok (Z.of_nat (length b)) ltac:(lia)) as [Fn Vn]. rewrite <- INR_IZR_INZ in Vn. rewrite L in P1.
    assert (N1 : 1 <= INR (length b)) by (destruct b; [contradiction|]; cbn [length]; rewrite S_INR; pose proof (pos_INR (length b)); lra).
    assert (I0 : 0 < / INR (length b)) by (apply Rinv_0_lt_compat; lra). assert (I1 : / INR (length b) <= 1) by (rewrite <- Rinv_1; apply Rinv_le_contravar; lra).
    assert (Q1 : 1 <= FR (fsum l) / INR (length b)). { apply Rmult_le_reg_r with (INR (length b)); [lra|]. unfold Rdiv. rewrite Rmult_assoc, Rinv_l by lra. lra. }
    destruct (div_ok (fsum l) (f_ofZ (Z.of_nat (length b))) F) as [F' E']; rewrite ?Vn; [lra| |].
    + apply small_ok. rewrite Rabs_pos_eq by lra. apply Rle_trans with (bpow radix2 300 * 1); [|rewrite Rmult_1_r; apply bp_le; lia]. unfold Rdiv. apply Rmult_le_compat; lra.
    + split; [exact F'|]. rewrite E', Vn. apply rn_ge_1. exact Q1.
Qed.
