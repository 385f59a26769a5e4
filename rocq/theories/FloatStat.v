(* Rounding of the statistics of a bunch: averages, standard deviations, relativistic factor. *)
From Coq Require Import ZArith Reals List Bool Lia Lra Psatz Floats.
From Flocq Require Import Core.
From Verif Require Import Base BaseFacts Num NumFloat FloatFacts FloatFacts2 VecModel ParticleModel BunchModel BunchSpec BunchProofs FloatTrack.
Import ListNotations.
Local Open Scope R_scope.

Definition FL : list flt -> list R := map FR.
Definition asum (l : list flt) : R := sum (map (fun x => Rabs (FR x)) l).
Definition fsum (l : list flt) : flt := fold_left Coq.Floats.PrimFloat.add l (f_ofZ 0).

Lemma sum_app (a b : list R) : sum (a ++ b) = sum a + sum b.
Proof. unfold sum. induction a as [|x a IH]; cbn [app fold_right]; [lra|]. rewrite IH. ring. Qed.
Lemma asum_pos l : 0 <= asum l.
Proof. unfold asum, sum. induction l as [|x l IH]; cbn [map fold_right]; [lra|]. pose proof (Rabs_pos (FR x)). lra. Qed.
Lemma sum_asum l : Rabs (sum (FL l)) <= asum l.
Proof.
  unfold FL, asum, sum. induction l as [|x l IH]; cbn [map fold_right]; [rewrite Rabs_R0; lra|].
  eapply Rle_trans; [apply Rabs_triang|]. lra.
Qed.
Lemma asum_le l M : Forall (fun x => Rabs (FR x) <= M) l -> asum l <= INR (length l) * M.
Proof.
  intros H. unfold asum, sum. induction H as [|x l Hx Hl IH]; [cbn; lra|]. cbn [map fold_right length]. rewrite S_INR. lra.
Qed.
Lemma half_big x : x <= bpow radix2 1022 -> 2 * x <= big.
Proof. intros H. unfold big. replace (bpow radix2 1023) with (2 * bpow radix2 1022); [lra|]. change 2 with (bpow radix2 1). rewrite <- bpow_plus. reflexivity. Qed.
(* a running sum *)
Lemma fsum_ok l : Forall fin l -> INR (length l) * ur <= / 4 -> asum l <= bpow radix2 1022 ->
  fin (fsum l) /\ Rabs (FR (fsum l) - sum (FL l)) <= INR (length l) * (2 * ur) * asum l.
Proof.
  pose proof ur_gt0 as U. induction l as [|x l IH] using rev_ind; intros F N A.
  - unfold fsum. cbn [fold_left]. destruct (ofZ_ok 0 ltac:(lia)) as [F0 V0]. split; [exact F0|]. rewrite V0. unfold FL, asum. cbn. rewrite Rminus_0_r, Rabs_R0. lra.
  - rewrite Forall_app in F. destruct F as [Fl Fx]. apply Forall_inv in Fx. rewrite app_length, Nat.add_comm in *. cbn [length Nat.add] in *. rewrite S_INR in *.
    assert (EA : asum (l ++ [x]) = asum l + Rabs (FR x)) by (unfold asum; rewrite map_app, sum_app; cbn; ring).
    assert (ES : sum (FL (l ++ [x])) = sum (FL l) + FR x) by (unfold FL; rewrite map_app, sum_app; cbn; ring).
    rewrite EA in *. rewrite ES. pose proof (asum_pos l) as A0. pose proof (Rabs_pos (FR x)) as X0. pose proof (pos_INR (length l)) as L0. pose proof (sum_asum l) as SA.
    destruct IH as [IF IE]; [exact Fl|nra|lra|]. unfold fsum in *. rewrite fold_left_app. cbn [fold_left]. set (s := fold_left Coq.Floats.PrimFloat.add l (f_ofZ 0)) in *.
    set (n := INR (length l)) in *. set (S0 := sum (FL l)) in *. set (a := asum l) in *. set (b := Rabs (FR x)) in *.
    assert (NU : n * ur <= / 4) by nra. assert (E2 : n * (2 * ur) * a <= a) by nra.
    assert (B : Rabs (FR s + FR x) <= 2 * (a + b)).
    { replace (FR s + FR x) with ((FR s - S0) + S0 + FR x) by ring. eapply Rle_trans; [apply Rabs_triang|]. fold b. pose proof (Rabs_triang (FR s - S0) S0). lra. }
    destruct (add_e s x IF Fx) as [F' E'].
    { eapply Rle_trans; [exact B|]. apply half_big. exact A. }
    split; [exact F'|]. replace (FR (s + x)%float - (S0 + FR x)) with ((FR (s + x)%float - (FR s + FR x)) + (FR s - S0)) by ring.
    eapply Rle_trans; [apply Rabs_triang|]. assert (ur * Rabs (FR s + FR x) <= ur * (2 * (a + b))) by (apply Rmult_le_compat_l; lra).
    assert (0 <= n * (2 * ur) * b) by (repeat apply Rmult_le_pos; lra). nra.
Qed.

(* an average by division, and by multiplication with the reciprocal of the number *)
Section Avg.
Variables (l : list flt) (M : R).
Hypothesis Hl : l <> [].
Hypothesis Hf : Forall fin l.
Hypothesis HM : Forall (fun x => Rabs (FR x) <= M) l.
Hypothesis Hn : (Z.of_nat (length l) <= 2 ^ 50)%Z.
Hypothesis HB : INR (length l) * M <= bpow radix2 1022.
Let n := INR (length l).
Lemma n_1 : 1 <= n.
Proof. unfold n. clear -Hl. destruct l as [|x r]; [contradiction|]. cbn [length]. rewrite S_INR. pose proof (pos_INR (length r)). lra. Qed.
Lemma n_ur : n * ur <= / 8.
Proof. unfold n. pose proof Hn as H. apply IZR_le in H. rewrite <- INR_IZR_INZ in H. change (IZR (2 ^ 50)) with 1125899906842624 in H. rewrite ur_eq. lra. Qed.
Lemma M_0 : 0 <= M.
Proof. clear -Hl HM. destruct l as [|x r]; [contradiction|]. apply Forall_inv in HM. pose proof (Rabs_pos (FR x)). lra. Qed.
Lemma n_f : fin (f_ofZ (Z.of_nat (length l))) /\ FR (f_ofZ (Z.of_nat (length l))) = n.
Proof. destruct (ofZ_ok (Z.of_nat (length l))) as [F E]; [lia|]. split; [exact F|]. rewrite E. unfold n. symmetry. apply INR_IZR_INZ. Qed.
Lemma fsum_avg : fin (fsum l) /\ Rabs (FR (fsum l) / n - mean (FL l)) <= n * (2 * ur) * M /\ Rabs (FR (fsum l)) <= 5 / 4 * (n * M).
Proof.
  pose proof n_1 as N1. pose proof n_ur as NU. pose proof M_0 as M0. pose proof ur_gt0 as U. pose proof (asum_le l M HM) as A. fold n in A.
  destruct (fsum_ok l Hf) as [F E]; [fold n; lra|unfold n in A; lra|]. fold n in E. split; [exact F|]. pose proof (asum_pos l) as A0. pose proof (sum_asum l) as SA.
  assert (E2 : n * (2 * ur) * asum l <= n * (2 * ur) * (n * M)) by (apply Rmult_le_compat_l; [apply Rmult_le_pos; lra|lra]).
  assert (E3 : n * (2 * ur) * (n * M) <= / 4 * (n * M)) by (apply Rmult_le_compat_r; [apply Rmult_le_pos; lra|lra]). split.
  - unfold mean, FL. rewrite map_length. fold (FL l) n. replace (FR (fsum l) / n - sum (FL l) / n) with ((FR (fsum l) - sum (FL l)) * / n) by (field; lra).
    rewrite Rabs_mult, (Rabs_pos_eq (/ n)) by (apply Rlt_le, Rinv_0_lt_compat; lra). apply Rle_trans with (n * (2 * ur) * (n * M) * / n); [|right; field; lra].
    apply Rmult_le_compat_r; [apply Rlt_le, Rinv_0_lt_compat; lra|lra].
  - replace (FR (fsum l)) with ((FR (fsum l) - sum (FL l)) + sum (FL l)) by ring. eapply Rle_trans; [apply Rabs_triang|]. lra.
Qed.
Lemma s_n : Rabs (FR (fsum l) / n) <= 5 / 4 * M.
Proof.
  destruct fsum_avg as (_ & _ & S). pose proof n_1 as N1. unfold Rdiv at 1. rewrite Rabs_mult, (Rabs_pos_eq (/ n)) by (apply Rlt_le, Rinv_0_lt_compat; lra).
  apply Rle_trans with (5 / 4 * (n * M) * / n); [|right; field; lra]. apply Rmult_le_compat_r; [apply Rlt_le, Rinv_0_lt_compat; lra|exact S].
Qed.
Lemma M_big : 2 * M <= big.
Proof. pose proof n_1 as N1. pose proof M_0 as M0. apply half_big. unfold n in *. nra. Qed.
Lemma avg_div : fin (fsum l / f_ofZ (Z.of_nat (length l)))%float /\
  Rabs (FR (fsum l / f_ofZ (Z.of_nat (length l)))%float - mean (FL l)) <= (n + 1) * (2 * ur) * M + eta.
Proof.
  destruct fsum_avg as (F & E & S). destruct n_f as [Fn Vn]. pose proof n_1 as N1. pose proof M_0 as M0. pose proof ur_gt0 as U. pose proof s_n as SN. pose proof M_big as MB.
  destruct (div_e (fsum l) (f_ofZ (Z.of_nat (length l))) F) as [F' E']; rewrite Vn in *; [lra|lra|]. split; [exact F'|].
  set (y := FR (fsum l / f_ofZ (Z.of_nat (length l)))%float) in *. set (s := FR (fsum l) / n) in *. replace (y - mean (FL l)) with ((y - s) + (s - mean (FL l))) by ring.
  eapply Rle_trans; [apply Rabs_triang|]. assert (ur * Rabs s <= ur * (5 / 4 * M)) by (apply Rmult_le_compat_l; lra). assert (0 <= ur * M) by (apply Rmult_le_pos; lra). lra.
Qed.
Lemma avg_mul : fin (fsum l * (f_ofZ 1 / f_ofZ (Z.of_nat (length l))))%float /\
  Rabs (FR (fsum l * (f_ofZ 1 / f_ofZ (Z.of_nat (length l))))%float - mean (FL l)) <= (n + 3) * (2 * ur) * M + eta.
Proof.
  destruct fsum_avg as (F & E & S). destruct n_f as [Fn Vn]. pose proof n_1 as N1. pose proof M_0 as M0. pose proof ur_gt0 as U. pose proof n_ur as NU. pose proof s_n as SN. pose proof M_big as MB.
  destruct (ofZ_ok 1 ltac:(lia)) as [F1 V1]. assert (UV : ur <= / 1000000) by (rewrite ur_eq; lra).
  assert (I0 : 0 < / n) by (apply Rinv_0_lt_compat; lra). assert (I1 : / n <= 1) by (rewrite <- Rinv_1; apply Rinv_le_contravar; lra).
  destruct (div_e (f_ofZ 1) (f_ofZ (Z.of_nat (length l))) F1) as [Fr Er]; rewrite Vn in *; [lra| |].
  { rewrite V1. unfold Rdiv. rewrite Rmult_1_l, Rabs_pos_eq by lra. apply Rle_trans with (bpow radix2 0); [exact I1|]. apply bp_le. lia. }
  rewrite V1 in Er. replace (1 / n) with (/ n) in Er by (field; lra). rewrite (Rabs_pos_eq (/ n)) in Er by lra. set (r := (f_ofZ 1 / f_ofZ (Z.of_nat (length l)))%float) in *.
  assert (Ee : eta <= ur * / n).
  { apply Rle_trans with (ur * (8 * ur)).
    - pose proof eta_small. assert (ur * ur * ur <= ur * ur) by (rewrite <- (Rmult_1_r (ur * ur)) at 2; apply Rmult_le_compat_l; [apply Rmult_le_pos|]; lra). nra.
    - apply Rmult_le_compat_l; [lra|]. apply Rmult_le_reg_r with n; [lra|]. rewrite Rinv_l by lra. lra. }
  assert (Er2 : Rabs (FR r - / n) <= 2 * ur * / n) by lra.
  assert (SR : Rabs (FR (fsum l) * FR r - FR (fsum l) / n) <= 5 / 2 * (ur * M)).
  { replace (FR (fsum l) * FR r - FR (fsum l) / n) with (FR (fsum l) * (FR r - / n)) by (field; lra). rewrite Rabs_mult.
    apply Rle_trans with (5 / 4 * (n * M) * (2 * ur * / n)); [|right; field; lra]. apply Rmult_le_compat; auto using Rabs_pos. }
  assert (UM : ur * M <= / 1000000 * M) by (apply Rmult_le_compat_r; lra). assert (UM0 : 0 <= ur * M) by (apply Rmult_le_pos; lra).
  assert (SR2 : Rabs (FR (fsum l) * FR r) <= 3 / 2 * M).
  { replace (FR (fsum l) * FR r) with ((FR (fsum l) * FR r - FR (fsum l) / n) + FR (fsum l) / n) by ring. eapply Rle_trans; [apply Rabs_triang|]. lra. }
  destruct (mul_e (fsum l) r F Fr) as [F' E']; [lra|]. split; [exact F'|]. set (y := FR (fsum l * r)%float) in *. set (s := FR (fsum l) / n) in *. set (q := FR (fsum l) * FR r) in *.
  replace (y - mean (FL l)) with ((y - q) + (q - s) + (s - mean (FL l))) by ring.
  eapply Rle_trans; [apply Rabs_triang|]. eapply Rle_trans; [apply Rplus_le_compat_r, Rabs_triang|].
  assert (ur * Rabs q <= ur * (3 / 2 * M)) by (apply Rmult_le_compat_l; lra). lra.
Qed.
End Avg.

(* sums of two lists which differ little *)
Lemma sum_near {A} (f g : A -> R) (l : list A) k e : (forall x, In x l -> Rabs (f x - g x) <= k * g x + e) ->
  Rabs (sum (map f l) - sum (map g l)) <= k * sum (map g l) + INR (length l) * e.
Proof.
  induction l as [|x l IH]; intros H.
  - cbn. rewrite Rminus_0_r, Rabs_R0. lra.
  - cbn [map length]. unfold sum. cbn [fold_right]. fold (sum (map f l)) (sum (map g l)). rewrite S_INR. specialize (IH (fun y Hy => H y (or_intror Hy))). specialize (H x (or_introl eq_refl)).
    replace (f x + sum (map f l) - (g x + sum (map g l))) with ((f x - g x) + (sum (map f l) - sum (map g l))) by ring. eapply Rle_trans; [apply Rabs_triang|]. lra.
Qed.
Lemma sum_nonneg {A} (g : A -> R) (l : list A) : (forall x, In x l -> 0 <= g x) -> 0 <= sum (map g l).
Proof.
  induction l as [|x l IH]; intros H; [cbn; lra|]. cbn [map]. unfold sum. cbn [fold_right]. fold (sum (map g l)). specialize (IH (fun y Hy => H y (or_intror Hy))). specialize (H x (or_introl eq_refl)). lra.
Qed.
(* mean square deviation from an arbitrary number *)
Lemma mean_square (l : list R) m : l <> [] ->
  mean (map (fun x => (x - m) * (x - m)) l) = mean (map (fun x => (x - mean l) * (x - mean l)) l) + (mean l - m) * (mean l - m).
Proof.
  intros Hl. assert (G : forall c, sum (map (fun x => (x - c) * (x - c)) l) = sum (map (fun x => x * x) l) - 2 * c * sum l + INR (length l) * (c * c)).
  { intros c. clear Hl. induction l as [|x l IH]; [cbn; ring|]. cbn [map length]. unfold sum in *. cbn [fold_right]. rewrite IH, S_INR. ring. }
  assert (N : INR (length l) <> 0) by (destruct l; [contradiction|]; cbn [length]; rewrite S_INR; pose proof (pos_INR (length l)); lra).
  set (mu := mean l). unfold mean. rewrite !map_length, (G m), (G mu). assert (E : sum l = INR (length l) * mu) by (unfold mu, mean; field; exact N). rewrite E. field. exact N.
Qed.
Lemma sqrt_add a d : 0 <= a -> Rabs (R_sqrt.sqrt (a + d * d) - R_sqrt.sqrt a) <= Rabs d.
Proof.
  intros Ha. pose proof (sqrt_pos a) as A0. pose proof (Rabs_pos d) as D0. assert (dd : 0 <= d * d) by nra.
  rewrite Rabs_pos_eq by (apply Rge_le, Rge_minus, Rle_ge, sqrt_le_1_alt; lra).
  assert (R_sqrt.sqrt (a + d * d) <= R_sqrt.sqrt a + Rabs d); [|lra]. apply Rsqr_incr_0_var; [|lra]. rewrite Rsqr_sqrt by lra. unfold Rsqr.
  assert (R_sqrt.sqrt a * R_sqrt.sqrt a = a) by (apply sqrt_sqrt; exact Ha). assert (Rabs d * Rabs d = d * d) by (rewrite <- Rabs_mult; apply Rabs_pos_eq; exact dd). nra.
Qed.
Lemma sqrt_near k h y Q : 0 <= Q -> 0 <= y -> 0 <= k <= 1 -> 0 <= h -> Rabs (y - Q) <= k * Q + h * h -> Rabs (R_sqrt.sqrt y - R_sqrt.sqrt Q) <= k * R_sqrt.sqrt Q + h.
Proof.
  intros HQ Hy Hk Hh H. pose proof (sqrt_pos y) as Y0. pose proof (sqrt_pos Q) as Q0. pose proof (sqrt_sqrt y Hy) as Ey. pose proof (sqrt_sqrt Q HQ) as EQ.
  set (a := R_sqrt.sqrt y) in *. set (b := R_sqrt.sqrt Q) in *. rewrite <- Ey, <- EQ in H. clearbody a b.
  assert (H1 : a * a - b * b <= k * (b * b) + h * h) by (pose proof (Rle_abs (a * a - b * b)); lra).
  assert (H2 : b * b - a * a <= k * (b * b) + h * h) by (rewrite Rabs_minus_sym in H; pose proof (Rle_abs (b * b - a * a)); lra).
  assert (kb : 0 <= k * b) by (apply Rmult_le_pos; lra). assert (kbh : 0 <= k * b * h) by (apply Rmult_le_pos; lra). assert (bh : 0 <= b * h) by (apply Rmult_le_pos; lra). assert (ah : 0 <= a * h) by (apply Rmult_le_pos; lra).
  apply Rabs_le. split.
  - assert ((1 - k) * b <= a + h); [|lra]. apply Rsqr_incr_0_var; [unfold Rsqr|lra]. assert (k * k * (b * b) <= k * (b * b)) by (apply Rmult_le_compat_r; nra). nra.
  - assert (a <= (1 + k) * b + h); [|lra]. apply Rsqr_incr_0_var; [unfold Rsqr|lra]. assert (0 <= k * (b * b)) by nra. assert (0 <= k * k * (b * b)) by nra. nra.
Qed.

Section Dev.
Variables (l : list flt) (M : R) (m : flt).
Hypothesis Hl : l <> [].
Hypothesis Hf : Forall fin l.
Hypothesis HM : Forall (fun x => Rabs (FR x) <= M) l.
Hypothesis Hn : (Z.of_nat (length l) <= 2 ^ 50)%Z.
Hypothesis HM2 : M <= bpow radix2 400.
Let n := INR (length l).
Hypothesis Fm : fin m.
Hypothesis Em : Rabs (FR m - mean (FL l)) <= (n + 3) * (2 * ur) * M + eta.
Let h := bpow radix2 (-536).
Let W := 3 * M + eta.
Definition dev (x : flt) : flt := ((x - m) * (x - m))%float.
Definition tdev (x : flt) : R := (FR x - FR m) * (FR x - FR m).
Lemma eta_tiny : eta <= / 1000000.
Proof. pose proof eta_small. pose proof ur_gt0. assert (ur <= / 1000000) by (rewrite ur_eq; lra). assert (ur * ur <= ur) by nra. nra. Qed.
Lemma mean_M : Rabs (mean (FL l)) <= M.
Proof.
  pose proof (n_1 l Hl) as N1. fold n in N1. unfold mean, FL. rewrite map_length. fold (FL l) n. unfold Rdiv. rewrite Rabs_mult, (Rabs_pos_eq (/ n)) by (apply Rlt_le, Rinv_0_lt_compat; lra).
  apply Rle_trans with (n * M * / n); [|right; field; lra]. apply Rmult_le_compat_r; [apply Rlt_le, Rinv_0_lt_compat; lra|]. eapply Rle_trans; [apply sum_asum|apply asum_le; exact HM].
Qed.
Lemma dev_W x : In x l -> Rabs (FR x - FR m) <= W.
Proof.
  intros Hx. pose proof (n_1 l Hl) as N1. pose proof (n_ur l Hn) as NU. fold n in N1, NU. pose proof (M_0 l M Hl HM) as M0. pose proof ur_gt0 as U. assert (UV : ur <= / 1000000) by (rewrite ur_eq; lra).
  pose proof mean_M as MM. rewrite Forall_forall in HM. specialize (HM x Hx). cbn beta in HM. replace (FR x - FR m) with (FR x + (- (FR m - mean (FL l)) + - mean (FL l))) by ring.
  eapply Rle_trans; [apply Rabs_triang|]. eapply Rle_trans; [apply Rplus_le_compat_l, Rabs_triang|]. rewrite !Rabs_Ropp. unfold W.
  assert ((n + 3) * (2 * ur) * M <= 1 * M) by (apply Rmult_le_compat_r; lra). lra.
Qed.
Lemma W_402 : W <= bpow radix2 402.
Proof. unfold W. pose proof eta_tiny. replace (bpow radix2 402) with (4 * bpow radix2 400) by (change 4 with (bpow radix2 2); rewrite <- bpow_plus; reflexivity). pose proof (bp_le 0 400 ltac:(lia)) as B. change (bpow radix2 0) with 1 in B. lra. Qed.
Lemma dev_ok x : In x l -> fin (dev x) /\ 0 <= FR (dev x) /\ Rabs (FR (dev x) - tdev x) <= 4 * ur * tdev x + eta.
Proof.
  intros Hx. pose proof (dev_W x Hx) as D. pose proof W_402 as WB. assert (Fx : fin x) by (rewrite Forall_forall in Hf; auto). pose proof ur_gt0 as U. assert (UV : ur <= / 1000000) by (rewrite ur_eq; lra).
  pose proof (Rabs_pos (FR x - FR m)) as D0. unfold dev, tdev. set (d := FR x - FR m) in *.
  destruct (sub_e x m Fx Fm) as [F1 E1]; [fold d; eapply Rle_trans; [exact D|]; eapply Rle_trans; [exact WB|]; apply bp_le; lia|]. fold d in E1. set (f := (x - m)%float) in *.
  assert (S1 : Rabs (FR f * FR f - d * d) <= 5 / 2 * ur * (d * d)).
  { replace (FR f * FR f - d * d) with ((FR f - d) * (FR f - d + 2 * d)) by ring. rewrite Rabs_mult. assert (ED : Rabs (FR f - d + 2 * d) <= (2 + ur) * Rabs d).
    { eapply Rle_trans; [apply Rabs_triang|]. rewrite Rabs_mult, (Rabs_pos_eq 2) by lra. lra. }
    apply Rle_trans with (ur * Rabs d * ((2 + ur) * Rabs d)); [apply Rmult_le_compat; auto using Rabs_pos|]. replace (d * d) with (Rabs d * Rabs d) by (rewrite <- Rabs_mult; apply Rabs_pos_eq; nra).
    replace (ur * Rabs d * ((2 + ur) * Rabs d)) with ((2 + ur) * (ur * (Rabs d * Rabs d))) by ring. replace (5 / 2 * ur * (Rabs d * Rabs d)) with (5 / 2 * (ur * (Rabs d * Rabs d))) by ring. apply Rmult_le_compat_r; [|lra]. apply Rmult_le_pos; [lra|nra]. }
  assert (dd0 : 0 <= d * d) by nra. assert (ff0 : 0 <= FR f * FR f) by nra. assert (UD : ur * (d * d) <= / 1000000 * (d * d)) by (apply Rmult_le_compat_r; lra). assert (UD0 : 0 <= ur * (d * d)) by (apply Rmult_le_pos; lra).
  assert (FF : FR f * FR f <= 11 / 10 * (d * d)) by (pose proof (Rle_abs (FR f * FR f - d * d)); lra).
  assert (DW : d * d <= bpow radix2 804).
  { replace (d * d) with (Rabs d * Rabs d) by (rewrite <- Rabs_mult; apply Rabs_pos_eq; exact dd0). change 804%Z with (402 + 402)%Z. rewrite bpow_plus. apply Rmult_le_compat; lra. }
  assert (BB : Rabs (FR f * FR f) <= big).
  { rewrite Rabs_pos_eq by exact ff0. pose proof (bp_le 805 1023 ltac:(lia)) as B. replace (bpow radix2 805) with (2 * bpow radix2 804) in B by (change 2 with (bpow radix2 1); rewrite <- bpow_plus; reflexivity). unfold big. lra. }
  destruct (mul_e f f F1 F1 BB) as [F2 E2]. split; [exact F2|]. split.
  - destruct (mul_ok f f F1 F1 (small_ok _ BB)) as [_ ->]. rewrite <- rn_0. apply rn_le. exact ff0.
  - rewrite (Rabs_pos_eq (FR f * FR f)) in E2 by exact ff0. replace (FR (f * f)%float - d * d) with ((FR (f * f)%float - FR f * FR f) + (FR f * FR f - d * d)) by ring.
    eapply Rle_trans; [apply Rabs_triang|]. assert (ur * (FR f * FR f) <= ur * (11 / 10 * (d * d))) by (apply Rmult_le_compat_l; lra). lra.
Qed.
Let Q := mean (map tdev l).
Lemma Q_pos : 0 <= Q.
Proof. unfold Q, mean. rewrite map_length. pose proof (n_1 l Hl) as N1. apply Rmult_le_pos; [|apply Rlt_le, Rinv_0_lt_compat; lra]. apply sum_nonneg. intros x _. apply Rle_0_sqr. Qed.
Lemma Q_W : Q <= W * W.
Proof.
  pose proof (n_1 l Hl) as N1. unfold Q, mean. rewrite map_length. apply Rmult_le_reg_r with (INR (length l)); [lra|]. unfold Rdiv. rewrite Rmult_assoc, Rinv_l, Rmult_1_r by lra.
  rewrite Rmult_comm.
  assert (G : forall r, (forall x, In x r -> tdev x <= W * W) -> sum (map tdev r) <= INR (length r) * (W * W)).
  { induction r as [|x r IH]; intros H; [cbn; lra|]. cbn [map length]. unfold sum. cbn [fold_right]. fold (sum (map tdev r)). rewrite S_INR. specialize (IH (fun y Hy => H y (or_intror Hy))). specialize (H x (or_introl eq_refl)). lra. }
  apply G. intros x Hx. pose proof (dev_W x Hx) as D. unfold tdev. replace ((FR x - FR m) * (FR x - FR m)) with (Rabs (FR x - FR m) * Rabs (FR x - FR m)) by (rewrite <- Rabs_mult; apply Rabs_pos_eq, Rle_0_sqr).
  apply Rmult_le_compat; auto using Rabs_pos.
Qed.
Lemma sqQ_W : R_sqrt.sqrt Q <= W.
Proof.
  pose proof (M_0 l M Hl HM) as M0. pose proof eta_pos. assert (0 <= W) by (unfold W; lra). apply Rsqr_incr_0_var; [|assumption]. rewrite Rsqr_sqrt by apply Q_pos. exact Q_W.
Qed.
Lemma Q_rms : Rabs (R_sqrt.sqrt Q - rms (FL l)) <= (n + 3) * (2 * ur) * M + eta.
Proof.
  assert (E : Q = mean (map (fun x => (x - mean (FL l)) * (x - mean (FL l))) (FL l)) + (mean (FL l) - FR m) * (mean (FL l) - FR m)).
  { rewrite <- mean_square by (destruct l; [contradiction|discriminate]). unfold Q. unfold FL. rewrite map_map. reflexivity. }
  rewrite E. unfold rms. eapply Rle_trans; [apply sqrt_add|].
  - unfold mean at 1. apply Rmult_le_pos; [apply sum_nonneg; intros; apply Rle_0_sqr|]. apply Rlt_le, Rinv_0_lt_compat. pose proof (n_1 l Hl). unfold FL. rewrite !map_length. lra.
  - rewrite Rabs_minus_sym. exact Em.
Qed.
Definition dev_rms : flt := Coq.Floats.PrimFloat.sqrt (fsum (map dev l) / f_ofZ (Z.of_nat (length l)))%float.
Lemma dev_sum : fin (fsum (map dev l)) /\ 0 <= FR (fsum (map dev l)) /\ Rabs (FR (fsum (map dev l)) / n - Q) <= (2 * n + 5) * ur * Q + 3 / 2 * eta.
Proof.
  pose proof (n_1 l Hl) as N1. pose proof (n_ur l Hn) as NU. fold n in N1, NU. pose proof ur_gt0 as U. assert (UV : ur <= / 1000000) by (rewrite ur_eq; lra). pose proof eta_pos as e0. pose proof Q_pos as Q0.
  assert (A : asum (map dev l) = sum (map (fun x => FR (dev x)) l)).
  { unfold asum. rewrite map_map. f_equal. apply map_ext_in. intros x Hx. apply Rabs_pos_eq. apply (dev_ok x Hx). }
  assert (S0 : sum (FL (map dev l)) = sum (map (fun x => FR (dev x)) l)) by (unfold FL; rewrite map_map; reflexivity).
  pose proof (sum_near (fun x => FR (dev x)) tdev l (4 * ur) eta (fun x Hx => proj2 (proj2 (dev_ok x Hx)))) as N.
  assert (EQ : sum (map tdev l) = n * Q) by (unfold Q, mean; rewrite map_length; fold n; field; lra). rewrite EQ in N. fold n in N. set (s := sum (map (fun x => FR (dev x)) l)) in *.
  assert (s0 : 0 <= s) by (apply sum_nonneg; intros x Hx; apply (dev_ok x Hx)).
  assert (s1 : s <= n * Q * (1 + 4 * ur) + n * eta) by (pose proof (Rle_abs (s - n * Q)); lra).
  assert (nQ : 0 <= n * Q) by (apply Rmult_le_pos; lra).
  assert (sB : s <= bpow radix2 1022).
  { pose proof Q_W as QW. pose proof W_402 as WB. assert (W0 : 0 <= W) by (pose proof (M_0 l M Hl HM); unfold W; lra). assert (QB : Q <= bpow radix2 804).
    { eapply Rle_trans; [exact QW|]. change 804%Z with (402 + 402)%Z. rewrite bpow_plus. apply Rmult_le_compat; lra. }
    assert (nB : n <= bpow radix2 50). { unfold n. pose proof Hn as H. apply IZR_le in H. rewrite <- INR_IZR_INZ in H. exact H. }
    assert (nQB : n * Q <= bpow radix2 854) by (change 854%Z with (50 + 804)%Z; rewrite bpow_plus; apply Rmult_le_compat; lra).
    pose proof eta_tiny. assert (n * eta <= bpow radix2 50 * 1) by (apply Rmult_le_compat; lra). pose proof (bp_le 50 854 ltac:(lia)). pose proof (bp_le 856 1022 ltac:(lia)) as B.
    replace (bpow radix2 856) with (4 * bpow radix2 854) in B by (change 4 with (bpow radix2 2); rewrite <- bpow_plus; reflexivity). nra. }
  destruct (fsum_ok (map dev l)) as [F E].
  { apply Forall_forall. intros y Hy. apply in_map_iff in Hy. destruct Hy as (x & <- & Hx). apply (dev_ok x Hx). }
  { rewrite map_length. fold n. lra. }
  { rewrite A. exact sB. }
  rewrite A, S0, map_length in E. fold n in E. split; [exact F|]. set (S' := FR (fsum (map dev l))) in *.
  assert (E2 : n * (2 * ur) * s <= / 4 * s) by (apply Rmult_le_compat_r; lra). split.
  { rewrite Rabs_minus_sym in E. pose proof (Rle_abs (s - S')). lra. }
  replace (S' / n - Q) with ((S' - n * Q) * / n) by (field; lra). assert (I0 : 0 < / n) by (apply Rinv_0_lt_compat; lra). rewrite Rabs_mult, (Rabs_pos_eq (/ n)) by lra.
  apply Rle_trans with (((2 * n + 5) * ur * (n * Q) + 3 / 2 * (n * eta)) * / n); [|right; field; lra]. apply Rmult_le_compat_r; [lra|].
  replace (S' - n * Q) with ((S' - s) + (s - n * Q)) by ring. eapply Rle_trans; [apply Rabs_triang|].
  assert (E3 : n * (2 * ur) * s <= n * (2 * ur) * (n * Q * (1 + 4 * ur) + n * eta)) by (apply Rmult_le_compat_l; [apply Rmult_le_pos; lra|exact s1]).
  assert (E4 : n * (2 * ur) * (n * Q * (1 + 4 * ur) + n * eta) <= (2 * n + 1) * ur * (n * Q) + / 4 * (n * eta)).
  { assert (T1 : n * (2 * ur) * (n * Q * (1 + 4 * ur)) <= (2 * n + 1) * ur * (n * Q)).
    { replace (n * (2 * ur) * (n * Q * (1 + 4 * ur))) with ((2 * n + 8 * (n * ur)) * (ur * (n * Q))) by ring. replace ((2 * n + 1) * ur * (n * Q)) with ((2 * n + 1) * (ur * (n * Q))) by ring.
      apply Rmult_le_compat_r; [apply Rmult_le_pos; lra|lra]. }
    assert (T2 : n * (2 * ur) * (n * eta) <= / 4 * (n * eta)) by (apply Rmult_le_compat_r; [apply Rmult_le_pos; lra|lra]). lra. }
  assert (0 <= n * eta) by (apply Rmult_le_pos; lra). lra.
Qed.
Lemma dev_rms_ok : fin dev_rms /\ 0 <= FR dev_rms /\ Rabs (FR dev_rms - rms (FL l)) <= (4 * n + 17) * (2 * ur) * M + 4 * h.
Proof.
  pose proof (n_1 l Hl) as N1. pose proof (n_ur l Hn) as NU. destruct (n_f l Hn) as [Fn Vn]. fold n in N1, NU, Vn. pose proof ur_gt0 as U. assert (UV : ur <= / 1000000) by (rewrite ur_eq; lra). pose proof eta_pos as e0. pose proof Q_pos as Q0.
  pose proof (M_0 l M Hl HM) as M0. destruct dev_sum as (Fs & s0 & Es). unfold dev_rms. set (S' := fsum (map dev l)) in *. pose proof eta_tiny as et.
  assert (h0 : 0 < h) by apply bpow_gt_0. assert (hh : 4 * eta <= h * h).
  { unfold h. rewrite <- bpow_plus. unfold eta. change 4 with (bpow radix2 2). rewrite <- bpow_plus. apply bp_le. lia. }
  assert (h1 : h <= / 1000000). { apply Rle_trans with (bpow radix2 (-20)); [apply bp_le; lia|]. change (bpow radix2 (-20)) with (/ 1048576). lra. }
  assert (eh : eta <= / 1000000 * h) by nra.
  assert (k1 : (2 * n + 7) * ur <= / 2) by lra. assert (q1 : (2 * n + 5) * ur * Q <= / 2 * Q) by (apply Rmult_le_compat_r; lra).
  assert (y0 : 0 <= FR S' / n) by (apply Rmult_le_pos; [exact s0|apply Rlt_le, Rinv_0_lt_compat; lra]).
  assert (y1 : FR S' / n <= 3 / 2 * Q + 3 / 2 * eta) by (pose proof (Rle_abs (FR S' / n - Q)); lra).
  assert (BB : Rabs (FR S' / n) <= big).
  { rewrite Rabs_pos_eq by exact y0. pose proof Q_W as QW. pose proof W_402 as WB. assert (W0 : 0 <= W) by (unfold W; lra). assert (QB : Q <= bpow radix2 804).
    { eapply Rle_trans; [exact QW|]. change 804%Z with (402 + 402)%Z. rewrite bpow_plus. apply Rmult_le_compat; lra. }
    pose proof (bp_le 805 1023 ltac:(lia)) as B. replace (bpow radix2 805) with (2 * bpow radix2 804) in B by (change 2 with (bpow radix2 1); rewrite <- bpow_plus; reflexivity).
    pose proof (bp_le 1 804 ltac:(lia)) as B1. change (bpow radix2 1) with 2 in B1. unfold big. lra. }
  destruct (div_e S' (f_ofZ (Z.of_nat (length l))) Fs) as [Fy Ey]; rewrite ?Vn; [lra|exact BB|]. rewrite Vn, (Rabs_pos_eq (FR S' / n)) in Ey by exact y0.
  assert (Y0 : 0 <= FR (S' / f_ofZ (Z.of_nat (length l)))%float).
  { destruct (div_ok S' (f_ofZ (Z.of_nat (length l))) Fs) as [_ ->]; rewrite ?Vn; [lra|apply small_ok; exact BB|]. rewrite <- rn_0. apply rn_le. exact y0. }
  set (y := (S' / f_ofZ (Z.of_nat (length l)))%float) in *.
  assert (YQ : Rabs (FR y - Q) <= (2 * n + 7) * ur * Q + h * h).
  { replace (FR y - Q) with ((FR y - FR S' / n) + (FR S' / n - Q)) by ring. eapply Rle_trans; [apply Rabs_triang|].
    assert (ur * (FR S' / n) <= ur * (3 / 2 * Q + 3 / 2 * eta)) by (apply Rmult_le_compat_l; lra). assert (ur * eta <= / 1000000 * eta) by (apply Rmult_le_compat_r; lra). assert (0 <= ur * Q) by (apply Rmult_le_pos; lra). lra. }
  assert (k0 : 0 <= (2 * n + 7) * ur) by (apply Rmult_le_pos; lra).
  pose proof (sqrt_near ((2 * n + 7) * ur) h (FR y) Q Q0 Y0 ltac:(lra) ltac:(lra) YQ) as SQ. destruct (sqrt_e y Fy Y0) as [Fz Ez]. split; [exact Fz|]. split.
  { destruct (sqrt_ok y Fy Y0) as [_ ->]. rewrite <- rn_0. apply rn_le. apply sqrt_pos. }
  set (z := FR (Coq.Floats.PrimFloat.sqrt y)) in *. set (a := R_sqrt.sqrt (FR y)) in *. pose proof sqQ_W as QW. pose proof Q_rms as QR. pose proof (sqrt_pos Q) as b0. set (b := R_sqrt.sqrt Q) in *.
  assert (kb : (2 * n + 7) * ur * b <= / 2 * b) by (apply Rmult_le_compat_r; lra).
  assert (ab : a <= 3 / 2 * b + h) by (pose proof (Rle_abs (a - b)); lra).
  replace (z - rms (FL l)) with ((z - a) + (a - b) + (b - rms (FL l))) by ring. eapply Rle_trans; [apply Rabs_triang|]. eapply Rle_trans; [apply Rplus_le_compat_r, Rabs_triang|].
  assert (ur * a <= ur * (3 / 2 * b + h)) by (apply Rmult_le_compat_l; lra). assert (ur * h <= / 1000000 * h) by (apply Rmult_le_compat_r; lra). assert (ub : 0 <= ur * b) by (apply Rmult_le_pos; lra).
  assert (bW : (2 * n + 9) * ur * b <= (2 * n + 9) * ur * W) by (apply Rmult_le_compat_l; [apply Rmult_le_pos; lra|exact QW]).
  assert (WE : (2 * n + 9) * ur * W <= (6 * n + 27) * (ur * M) + eta).
  { unfold W. assert ((2 * n + 9) * ur * eta <= 1 * eta) by (apply Rmult_le_compat_r; lra). lra. }
  assert (0 <= ur * M) by (apply Rmult_le_pos; lra). lra.
Qed.
End Dev.
