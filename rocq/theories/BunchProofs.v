(* Proofs about bunches: correlations and statistics (real arithmetic). *)
From Coq Require Import ZArith Reals List Lia Lra Bool.
From Verif Require Import Base BaseFacts Num VecModel VecFacts ParticleModel ParticleSpec ParticleProofs
  ParticleProofs2 BunchModel BunchModelR BunchSpec TraceProofs2.
Import ListNotations.
Local Open Scope R_scope.

(* ---- sums ---- *)
Lemma sum_fold {A} (f : A -> R) l a : fold_left (fun s p => s + f p) l a = a + sum (map f l).
Proof. revert a. induction l as [|x l IH]; intros a; cbn; [lra|]. rewrite IH. fold (sum (map f l)). lra. Qed.
Lemma sum_const {A} (l : list A) c : sum (map (fun _ => c) l) = INR (length l) * c.
Proof. induction l as [|x l IH]; [cbn; lra|]. cbn [map length]. rewrite S_INR. cbn. fold (sum (map (fun _ : A => c) l)). rewrite IH. lra. Qed.
Lemma sum_plus {A} (f g : A -> R) l : sum (map (fun x => f x + g x) l) = sum (map f l) + sum (map g l).
Proof. induction l as [|x l IH]; cbn; [lra|]. unfold sum in IH. rewrite IH. lra. Qed.
Lemma sum_scal {A} (f : A -> R) k l : sum (map (fun x => k * f x) l) = k * sum (map f l).
Proof. induction l as [|x l IH]; cbn; [lra|]. unfold sum in IH. rewrite IH. lra. Qed.
Lemma sum_le {A} (f g : A -> R) l : (forall x, In x l -> f x <= g x) -> sum (map f l) <= sum (map g l).
Proof.
  induction l as [|x l IH]; intros H; cbn; [lra|]. fold (sum (map f l)). fold (sum (map g l)).
  pose proof (H x (or_introl eq_refl)). assert (sum (map f l) <= sum (map g l)) by (apply IH; intros; apply H; right; assumption). lra.
Qed.
Lemma sum_ext {A} (f g : A -> R) l : (forall x, In x l -> f x = g x) -> sum (map f l) = sum (map g l).
Proof. intros H. f_equal. apply map_ext_in. exact H. Qed.
Lemma sum_sq_zero {A} (f : A -> R) l : sum (map (fun x => f x * f x) l) = 0 -> forall x, In x l -> f x = 0.
Proof.
  induction l as [|y l IH]; intros H x Hx; [destruct Hx|]. cbn in H. fold (sum (map (fun x => f x * f x) l)) in H.
  assert (0 <= sum (map (fun x => f x * f x) l)).
  { replace 0 with (sum (map (fun _ : A => 0) l)) by (rewrite sum_const; lra). apply sum_le. intros; nra. }
  assert (0 <= f y * f y) by nra. destruct Hx as [->|Hx]; [nra|]. apply IH; auto. lra.
Qed.
Lemma INR_length_pos {A} (l : list A) : l <> [] -> 0 < INR (length l).
Proof. intros H. destruct l; [contradiction|]. cbn [length]. rewrite S_INR. pose proof (pos_INR (length l)). lra. Qed.

Lemma mean_bounds {A} (f : A -> R) l lo hi : l <> [] -> (forall x, In x l -> lo <= f x <= hi) ->
  lo <= mean (map f l) <= hi.
Proof.
  intros Hl H. pose proof (INR_length_pos l Hl) as Hp. unfold mean. rewrite map_length.
  assert (A1 : INR (length l) * lo <= sum (map f l)) by (rewrite <- sum_const; apply sum_le; intros x Hx; apply H, Hx).
  assert (A2 : sum (map f l) <= INR (length l) * hi) by (rewrite <- sum_const; apply sum_le; intros x Hx; apply H, Hx).
  split.
  - apply Rmult_le_reg_r with (INR (length l)); [exact Hp|]. unfold Rdiv. rewrite Rmult_assoc, Rinv_l by lra. lra.
  - apply Rmult_le_reg_r with (INR (length l)); [exact Hp|]. unfold Rdiv. rewrite Rmult_assoc, Rinv_l by lra. lra.
Qed.
Lemma mean_sq_nonneg {A} (f : A -> R) l : l <> [] -> 0 <= mean (map (fun x => f x * f x) l).
Proof.
  intros Hl. pose proof (INR_length_pos l Hl) as Hp. unfold mean. rewrite map_length.
  apply Rmult_le_pos; [|left; apply Rinv_0_lt_compat; exact Hp].
  replace 0 with (sum (map (fun _ : A => 0) l)) by (rewrite sum_const; lra). apply sum_le. intros; nra.
Qed.
Lemma rms_nonneg l : 0 <= rms l.
Proof. apply sqrt_pos. Qed.
Lemma rms_zero l : l <> [] -> (rms l = 0 <-> forall x y, In x l -> In y l -> x = y).
Proof.
  intros Hl. pose proof (INR_length_pos l Hl) as Hp. unfold rms. split.
  - intros H. apply sqrt_eq_0 in H; [|apply (mean_sq_nonneg (fun x => x - mean l)); exact Hl].
    unfold mean in H at 1. rewrite map_length in H.
    assert (H0 : sum (map (fun x => (x - mean l) * (x - mean l)) l) = 0).
    { apply Rmult_integral in H. destruct H as [H|H]; [exact H|]. exfalso.
      apply Rinv_neq_0_compat in H; [exact H|lra]. }
    pose proof (sum_sq_zero (fun x => x - mean l) l H0) as Z. intros x y Hx Hy.
    pose proof (Z x Hx). pose proof (Z y Hy). cbn in *. lra.
  - intros H. destruct l as [|x l0]; [contradiction|]. set (l := x :: l0) in *.
    assert (M : mean l = x).
    { unfold mean. replace (sum l) with (sum (map (fun _ => x) l)).
      - rewrite sum_const. field. lra.
      - rewrite <- (map_id l) at 2. apply sum_ext. intros y Hy. apply H; [left; reflexivity|exact Hy]. }
    replace (mean (map (fun y => (y - mean l) * (y - mean l)) l)) with 0; [apply sqrt_0|].
    rewrite M. unfold mean. rewrite map_length.
    rewrite (sum_ext _ (fun _ => 0)).
    + rewrite sum_const. field. lra.
    + intros y Hy. rewrite (H y x Hy (or_introl eq_refl)). ring.
Qed.

(* ---- statistics ---- *)
Lemma nNOP_INR (b : bunch R) : @nNOP R NumR b = INR (length b).
Proof. unfold nNOP, bunch_NOP. cbn. rewrite INR_IZR_INZ. reflexivity. Qed.

Lemma avgTime_mean (b : bunch R) : bunch_avgTime b = mean (map pt b).
Proof.
  unfold bunch_avgTime. rewrite nNOP_INR. unfold mean. rewrite map_length. cbn [nZ NumR nadd ndiv].
  change (fun s p => (nadd s (pt p))%num) with (fun s (p : particle R) => s + pt p).
  rewrite (sum_fold pt b). cbn [ndiv NumR nZ]. rewrite Rplus_0_l. reflexivity.
Qed.

Lemma vsum_fold (g : particle R -> vec R) b a :
  fold_left (fun s p => vadd s (g p)) b a =
  V (vx a + sum (map (fun p => vx (g p)) b)) (vy a + sum (map (fun p => vy (g p)) b)) (vz a + sum (map (fun p => vz (g p)) b)).
Proof.
  revert a. induction b as [|x b IH]; intros a; cbn [fold_left map].
  - apply vec_eq; cbn; lra.
  - rewrite IH. apply vec_eq; cbn; unfold sum; lra.
Qed.

Lemma vmean (g : particle R -> vec R) b : b <> [] ->
  vmul (fold_left (fun s p => vadd s (g p)) b vzero) (ndiv (nZ 1) (nNOP b)) =
  V (mean (map (fun p => vx (g p)) b)) (mean (map (fun p => vy (g p)) b)) (mean (map (fun p => vz (g p)) b)).
Proof.
  intros Hb. pose proof (INR_length_pos b Hb) as Hp. rewrite vsum_fold, nNOP_INR.
  unfold mean. rewrite !map_length. apply vec_eq; cbn; field; lra.
Qed.

Definition comp_x (p : particle R) := vx (pX p).
Definition comp_y (p : particle R) := vy (pX p).
Definition comp_z (p : particle R) := vz (pX p).

Lemma avgPosition_mean b : b <> [] ->
  bunch_avgPosition b = V (mean (map (fun p => vx (pX p)) b)) (mean (map (fun p => vy (pX p)) b)) (mean (map (fun p => vz (pX p)) b)).
Proof. intros Hb. apply vmean. exact Hb. Qed.
Lemma avgMomentum_mean b : b <> [] ->
  bunch_avgMomentum b = V (mean (map (fun p => vx (pP p)) b)) (mean (map (fun p => vy (pP p)) b)) (mean (map (fun p => vz (pP p)) b)).
Proof. intros Hb. apply vmean. exact Hb. Qed.

Lemma rmsPosition_rms b : b <> [] ->
  bunch_rmsPosition b = V (rms (map (fun p => vx (pX p)) b)) (rms (map (fun p => vy (pX p)) b)) (rms (map (fun p => vz (pX p)) b)).
Proof.
  intros Hb. pose proof (INR_length_pos b Hb) as Hp. unfold bunch_rmsPosition.
  rewrite (avgPosition_mean b Hb).
  rewrite (vsum_fold (fun p => vsquare (vsub (pX p) (V (mean (map (fun p => vx (pX p)) b)) (mean (map (fun p => vy (pX p)) b)) (mean (map (fun p => vz (pX p)) b))))) b vzero).
  rewrite nNOP_INR. unfold rms.
  apply vec_eq; unfold vroot, vdiv; cbn [vx vy vz nsqrt NumR ndiv vzero nZ]; f_equal;
    rewrite Rplus_0_l; symmetry; unfold mean at 1; rewrite !map_length, map_map; reflexivity.
Qed.

Lemma avgGamma_mean b : bunch_avgGamma b = mean (map (fun p => sqrt (vabs2 (pP p) + 1)) b).
Proof.
  unfold bunch_avgGamma. rewrite nNOP_INR. unfold mean. rewrite map_length.
  replace (fold_left _ b (nZ 0)) with (sum (map (fun p : particle R => sqrt (vabs2 (pP p) + 1)) b)); [reflexivity|].
  symmetry. change (@nZ R NumR 0) with 0.
  transitivity (fold_left (fun s (p : particle R) => s + sqrt (vabs2 (pP p) + 1)) b 0).
  - generalize 0 as s. induction b as [|p b IH]; intros s; [reflexivity|]. cbn [fold_left].
    rewrite <- IH. f_equal. cbn [nadd nmul nsqrt NumR nZ]. rewrite (vnorm_sq (pP p)). reflexivity.
  - rewrite (sum_fold (fun p : particle R => sqrt (vabs2 (pP p) + 1))). lra.
Qed.

Lemma delta_rms b : b <> [] -> bunch_delta b = rms (map (fun p => vnorm (pP p)) b) / mean (map (fun p => vnorm (pP p)) b).
Proof.
  intros Hb. unfold bunch_delta. rewrite nNOP_INR.
  assert (E : ndiv (fold_left (fun s p => nadd s (vnorm (pP p))) b (nZ 0)) (INR (length b)) = mean (map (fun p => vnorm (pP p)) b)).
  { unfold mean. rewrite map_length. change (@nZ R NumR 0) with 0.
    change (fun s (p : particle R) => nadd s (vnorm (pP p))) with (fun s (p : particle R) => s + vnorm (pP p)).
    rewrite (sum_fold (fun p => vnorm (pP p))). cbn [ndiv NumR]. rewrite Rplus_0_l. reflexivity. }
  rewrite E. cbn zeta. set (m := mean (map (fun p => vnorm (pP p)) b)).
  change (@nZ R NumR 0) with 0.
  change (fun s (p : particle R) => nadd s (nmul (nsub (vnorm (pP p)) m) (nsub (vnorm (pP p)) m)))
    with (fun s (p : particle R) => s + (vnorm (pP p) - m) * (vnorm (pP p) - m)).
  rewrite (sum_fold (fun p => (vnorm (pP p) - m) * (vnorm (pP p) - m))).
  unfold rms. cbn [ndiv nsqrt NumR]. do 2 f_equal. unfold mean at 1. rewrite map_map, !map_length. fold m.
  rewrite Rplus_0_l. reflexivity.
Qed.

(* ---- bunching factor ---- *)
Lemma bunching_fold (f : R) b s :
  fold_left (fun s p => let a := bunching_arg f (vz (pX p)) in (fst s + cos a, snd s + sin a)) b s =
  (fst s + sum (map (fun p => cos (bunching_arg f (vz (pX p)))) b), snd s + sum (map (fun p => sin (bunching_arg f (vz (pX p)))) b)).
Proof.
  revert s. induction b as [|p b IH]; intros s; cbn [fold_left map].
  - destruct s; cbn; f_equal; lra.
  - rewrite IH. cbn. f_equal; unfold sum; lra.
Qed.
Lemma BunchingFactor_mean (b : bunch R) f : b <> [] ->
  bunch_BunchingFactor b f = (mean (map (fun p => cos (bunching_arg f (vz (pX p)))) b), mean (map (fun p => sin (bunching_arg f (vz (pX p)))) b)).
Proof.
  intros Hb. pose proof (INR_length_pos b Hb). unfold bunch_BunchingFactor. rewrite bunching_fold. rewrite nNOP_INR.
  unfold mean. rewrite !map_length. cbn [fst snd]. f_equal; field; lra.
Qed.
Lemma phasor_sum {A} (g : A -> R) l :
  sum (map (fun x => cos (g x)) l) * sum (map (fun x => cos (g x)) l) +
  sum (map (fun x => sin (g x)) l) * sum (map (fun x => sin (g x)) l) <= INR (length l) * INR (length l).
Proof.
  induction l as [|x l IH]; [cbn; lra|]. cbn [length map]. rewrite S_INR.
  unfold sum at 1 2 3 4. cbn [fold_right].
  fold (sum (map (fun x => cos (g x)) l)). fold (sum (map (fun x => sin (g x)) l)).
  set (C := sum (map (fun x => cos (g x)) l)) in *. set (S := sum (map (fun x => sin (g x)) l)) in *.
  set (n := INR (length l)) in *. assert (0 <= n) by apply pos_INR.
  pose proof (sin2_cos2 (g x)) as E. unfold Rsqr in E. set (c := cos (g x)) in *. set (s := sin (g x)) in *.
  assert (c * C + s * S <= n).
  { apply Rnot_lt_le. intros L. assert (n * n < (c * C + s * S) * (c * C + s * S)) by nra.
    assert ((c * C + s * S) * (c * C + s * S) <= (s * s + c * c) * (C * C + S * S)) by (pose proof (Rle_0_sqr (c * S - s * C)) as Q; unfold Rsqr in Q; nra).
    rewrite E in *. lra. }
  nra.
Qed.
