(* Estimates for smooth vector valued functions and for one step of the leap-frog scheme,
   used in PropConverge.v. *)
From Coq Require Import ZArith Reals Lra Lia Psatz List.
From Verif Require Import Base BaseFacts Num VecModel VecFacts VaySpec OrbitSpec VayProofs OrbitProofs.
Import ListNotations.
Local Open Scope R_scope.

(* ---- vectors ---- *)
Lemma norm_nonneg (a : vec R) : 0 <= vnorm a.
Proof. unfold vnorm. unnum. apply sqrt_pos. Qed.
Lemma norm_zero : vnorm (vzero : vec R) = 0.
Proof. assert (Z : vabs2 (vzero : vec R) = 0) by (apply vabs2_zero_iff; reflexivity). pose proof (norm_sq vzero) as N. rewrite Z in N. apply Rsqr_0_uniq. exact N. Qed.
Lemma norm_opp (a b : vec R) : vnorm (vsub a b) = vnorm (vsub b a).
Proof. unfold vnorm. f_equal. clear. destruct a, b. vunfold. unnum. ring. Qed.
Lemma norm_tri (a b c : vec R) : vnorm (vsub a c) <= vnorm (vsub a b) + vnorm (vsub b c).
Proof. replace (vsub a c) with (vadd (vsub a b) (vsub b c)) by vring. apply norm_sum. Qed.
Lemma norm_scale_pos (u : vec R) s : 0 <= s -> vnorm (vmul u s) = vnorm u * s.
Proof. intros H. rewrite norm_scale, (Rabs_pos_eq s H). reflexivity. Qed.
Lemma dot_norm (u v : vec R) : vdot u v <= vnorm u * vnorm v.
Proof.
  destruct (Rle_lt_dec (vdot u v) 0) as [L|L]; [pose proof (Rmult_le_pos _ _ (norm_nonneg u) (norm_nonneg v)); lra|].
  apply Rsqr_incr_0; [|lra|apply Rmult_le_pos; apply norm_nonneg]. unfold Rsqr.
  replace (vnorm u * vnorm v * (vnorm u * vnorm v)) with ((vnorm u * vnorm u) * (vnorm v * vnorm v)) by ring. rewrite !norm_sq. pose proof (abs2_pos (vcross u v)) as C. rewrite lagrange in C. lra.
Qed.
Lemma beta_norm (p : vec R) : vnorm (beta_of p) <= 1.
Proof. left. apply beta_of_lt_1. Qed.
Lemma mean_norm (a b : vec R) : vnorm a <= 1 -> vnorm b <= 1 -> vnorm (vmean a b) <= 1.
Proof. intros A B. unfold vmean. rewrite norm_scale_pos by lra. pose proof (norm_sum a b). lra. Qed.
Lemma gamma_ge (p : vec R) : 1 <= gamma_of p.
Proof. apply gamma_of_ge_1. Qed.
Lemma norm_lt_gamma (p : vec R) : vnorm p <= gamma_of p.
Proof. unfold vnorm, gamma_of. unnum. apply sqrt_le_1_alt. destruct p. vunfold. unnum. lra. Qed.
(* the velocity depends on the momentum with the Lipschitz constant 2 *)
Lemma gamma_lip (p q : vec R) : Rabs (gamma_of p - gamma_of q) <= vnorm (vsub p q).
Proof.
  assert (H : forall p q : vec R, gamma_of p - gamma_of q <= vnorm (vsub p q)).
  { clear. intros p q. pose proof (gamma_ge p) as G. pose proof (gamma_ge q) as G'. pose proof (gamma_sq p) as S. pose proof (gamma_sq q) as S'. pose proof (norm_nonneg (vsub p q)) as N. set (d := vnorm (vsub p q)) in *.
    assert (T : vnorm p <= vnorm q + d).
    { pose proof (norm_sum q (vsub p q)) as T. replace (vadd q (vsub p q)) with p in T by vring. exact T. }
    pose proof (norm_lt_gamma q) as Q. pose proof (norm_nonneg q) as Q0. pose proof (norm_nonneg p) as P0. pose proof (norm_sq p) as Sp. pose proof (norm_sq q) as Sq.
    assert (X : gamma_of p * gamma_of p <= (gamma_of q + d) * (gamma_of q + d)) by nra. nra. }
  apply Rabs_le. pose proof (H p q). pose proof (H q p) as B. rewrite norm_opp in B. lra.
Qed.
Lemma beta_lip (p q : vec R) : vnorm (vsub (beta_of p) (beta_of q)) <= 2 * vnorm (vsub p q).
Proof.
  pose proof (gamma_ge p) as G. pose proof (gamma_ge q) as G'. pose proof (gamma_lip p q) as L. unfold beta_of.
  replace (vsub (vdiv p (gamma_of p)) (vdiv q (gamma_of q))) with (vadd (vmul (vsub p q) (/ gamma_of p)) (vmul q ((gamma_of q - gamma_of p) / (gamma_of p * gamma_of q)))).
  2:{ generalize dependent (gamma_of p). generalize dependent (gamma_of q). intros b Hb a Ha _. destruct p, q. vunfold. unnum. vsplit; field; lra. }
  eapply Rle_trans; [apply norm_sum|]. rewrite !norm_scale. pose proof (norm_nonneg (vsub p q)) as N. pose proof (norm_nonneg q) as Q0. pose proof (norm_lt_gamma q) as Q.
  assert (I : 0 < / gamma_of p <= 1) by (split; [apply Rinv_0_lt_compat; lra|rewrite <- Rinv_1; apply Rinv_le_contravar; lra]).
  assert (I' : 0 < / gamma_of q) by (apply Rinv_0_lt_compat; lra).
  rewrite (Rabs_pos_eq (/ gamma_of p)) by lra. unfold Rdiv. rewrite Rabs_mult, Rinv_mult, (Rabs_pos_eq (/ gamma_of p * / gamma_of q)) by (apply Rmult_le_pos; lra).
  rewrite <- Rabs_Ropp in L. replace (- (gamma_of p - gamma_of q)) with (gamma_of q - gamma_of p) in L by ring.
  assert (J : vnorm q * / gamma_of q <= 1) by (apply (Rmult_le_reg_r (gamma_of q)); [lra|]; rewrite Rmult_assoc, Rinv_l by lra; lra).
  pose proof (Rabs_pos (gamma_of q - gamma_of p)) as A0. set (A := Rabs (gamma_of q - gamma_of p)) in *.
  assert (vnorm q * (A * (/ gamma_of p * / gamma_of q)) <= vnorm (vsub p q)).
  { replace (vnorm q * (A * (/ gamma_of p * / gamma_of q))) with ((vnorm q * / gamma_of q) * (A * / gamma_of p)) by ring.
    assert (0 <= vnorm q * / gamma_of q) by (apply Rmult_le_pos; lra). assert (0 <= A * / gamma_of p <= A) by (split; [apply Rmult_le_pos; lra|rewrite <- (Rmult_1_r A) at 2; apply Rmult_le_compat_l; lra]).
    apply Rle_trans with (1 * A); [apply Rmult_le_compat; lra|lra]. }
  assert (vnorm (vsub p q) * / gamma_of p <= vnorm (vsub p q)) by (rewrite <- (Rmult_1_r (vnorm (vsub p q))) at 2; apply Rmult_le_compat_l; lra). lra.
Qed.

(* ---- mean value inequality ---- *)
Lemma mvi (f g : R -> vec R) a b w m : a <= b -> (forall s, a <= s <= b -> derivative f s (g s)) ->
  (forall s, a <= s <= b -> vnorm (vsub (g s) w) <= m) -> vnorm (vsub (vsub (f b) (f a)) (vmul w (b - a))) <= m * (b - a).
Proof.
  intros [Hab| ->] D B.
  2:{ replace (vsub (vsub (f b) (f b)) (vmul w (b - b))) with (vzero : vec R) by (generalize (f b); intros u; vring). rewrite norm_zero. lra. }
  set (u := vsub (vsub (f b) (f a)) (vmul w (b - a))).
  set (h := fun s => vx u * vx (f s) + vy u * vy (f s) + vz u * vz (f s) - vdot u w * s).
  assert (Dh : forall s, a <= s <= b -> derivable_pt_lim h s (vdot u (vsub (g s) w))).
  { intros s Hs. destruct (D s Hs) as (Dx & Dy & Dz).
    eapply derivable_eq; [apply (derivable_pt_lim_minus _ _ s _ _ (derivable_pt_lim_plus _ _ s _ _ (derivable_pt_lim_plus _ _ s _ _ (derivable_pt_lim_scal _ (vx u) s _ Dx) (derivable_pt_lim_scal _ (vy u) s _ Dy)) (derivable_pt_lim_scal _ (vz u) s _ Dz)) (derivable_pt_lim_scal _ (vdot u w) s _ (derivable_pt_lim_id s)))| |].
    - intros t. unfold h, minus_fct, plus_fct, mult_real_fct, id. reflexivity.
    - clear. generalize (g s). intros v. destruct u, v, w. vunfold. unnum. ring. }
  destruct (MVT_cor2 h _ a b Hab Dh) as (c & E & Hc).
  assert (Hh : h b - h a = vabs2 u) by (unfold h, u; generalize (f a) (f b); clear; intros p q; destruct p, q, w; vunfold; unnum; ring).
  rewrite Hh in E. assert (L : vnorm u * vnorm u <= vnorm u * (m * (b - a))).
  { rewrite norm_sq, E. pose proof (dot_norm u (vsub (g c) w)) as X. assert (Bc := B c ltac:(lra)). pose proof (norm_nonneg u) as N.
    assert (vnorm u * vnorm (vsub (g c) w) <= vnorm u * m) by (apply Rmult_le_compat_l; lra).
    replace (vnorm u * (m * (b - a))) with (vnorm u * m * (b - a)) by ring. apply Rmult_le_compat_r; lra. }
  destruct (norm_nonneg u) as [N|N]; [apply (Rmult_le_reg_l (vnorm u)); assumption|]. rewrite <- N.
  assert (0 <= m) by (pose proof (B a ltac:(lra)); pose proof (norm_nonneg (vsub (g a) w)); lra). apply Rmult_le_pos; lra.
Qed.
Lemma vsub_zero (a : vec R) : vsub a vzero = a.
Proof. vring. Qed.
Lemma mvi0 (f g : R -> vec R) a b m : a <= b -> (forall s, a <= s <= b -> derivative f s (g s)) ->
  (forall s, a <= s <= b -> vnorm (g s) <= m) -> vnorm (vsub (f b) (f a)) <= m * (b - a).
Proof.
  intros H D B. pose proof (mvi f g a b vzero m H D) as X. replace (vmul vzero (b - a)) with (vzero : vec R) in X by (clear; vunfold; unnum; vsplit; ring). rewrite vsub_zero in X. apply X. intros s Hs. rewrite vsub_zero. apply B, Hs.
Qed.

(* derivative of f (m + s) and f (m - s) *)
Lemma shift_plus (f : R -> R) m s l : derivable_pt_lim f (m + s) l -> derivable_pt_lim (fun t => f (m + t)) s l.
Proof.
  intros H. eapply derivable_eq; [apply (derivable_pt_lim_comp (fun t => m + t) f s 1 l)|reflexivity|ring]; [|exact H].
  eapply derivable_eq; [apply (derivable_pt_lim_plus (fct_cte m) id s 0 1 (derivable_pt_lim_const m s) (derivable_pt_lim_id s))|reflexivity|ring].
Qed.
Lemma shift_minus (f : R -> R) m s l : derivable_pt_lim f (m - s) l -> derivable_pt_lim (fun t => f (m - t)) s (- l).
Proof.
  intros H. eapply derivable_eq; [apply (derivable_pt_lim_comp (fun t => m - t) f s (-1) l)|reflexivity|ring]; [|exact H].
  eapply derivable_eq; [apply (derivable_pt_lim_minus (fct_cte m) id s 0 1 (derivable_pt_lim_const m s) (derivable_pt_lim_id s))|reflexivity|ring].
Qed.
Lemma deriv_sum (g j : R -> vec R) m s : derivative g (m + s) (j (m + s)) -> derivative g (m - s) (j (m - s)) -> derivative (fun t => vadd (g (m + t)) (g (m - t))) s (vsub (j (m + s)) (j (m - s))).
Proof.
  intros (A1 & A2 & A3) (B1 & B2 & B3). split; [|split].
  - eapply derivable_eq; [apply (derivable_pt_lim_plus _ _ s _ _ (shift_plus _ _ _ _ A1) (shift_minus _ _ _ _ B1))|reflexivity|reflexivity].
  - eapply derivable_eq; [apply (derivable_pt_lim_plus _ _ s _ _ (shift_plus _ _ _ _ A2) (shift_minus _ _ _ _ B2))|reflexivity|reflexivity].
  - eapply derivable_eq; [apply (derivable_pt_lim_plus _ _ s _ _ (shift_plus _ _ _ _ A3) (shift_minus _ _ _ _ B3))|reflexivity|reflexivity].
Qed.
Lemma deriv_diff (g j : R -> vec R) m s : derivative g (m + s) (j (m + s)) -> derivative g (m - s) (j (m - s)) -> derivative (fun t => vsub (g (m + t)) (g (m - t))) s (vadd (j (m + s)) (j (m - s))).
Proof.
  intros (A1 & A2 & A3) (B1 & B2 & B3). assert (Y : forall x y : R, x + y = x - - y) by (intros; ring). split; [|split].
  - eapply derivable_eq; [apply (derivable_pt_lim_minus _ _ s _ _ (shift_plus _ _ _ _ A1) (shift_minus _ _ _ _ B1))|reflexivity|apply Y].
  - eapply derivable_eq; [apply (derivable_pt_lim_minus _ _ s _ _ (shift_plus _ _ _ _ A2) (shift_minus _ _ _ _ B2))|reflexivity|apply Y].
  - eapply derivable_eq; [apply (derivable_pt_lim_minus _ _ s _ _ (shift_plus _ _ _ _ A3) (shift_minus _ _ _ _ B3))|reflexivity|apply Y].
Qed.
(* symmetric differences of functions whose (second) derivative has a Lipschitz constant *)
Lemma second_difference (g j : R -> vec R) m s La : 0 <= s -> 0 <= La ->
  (forall t, m - s <= t <= m + s -> derivative g t (j t)) ->
  (forall t t', m - s <= t <= m + s -> m - s <= t' <= m + s -> vnorm (vsub (j t) (j t')) <= La * Rabs (t - t')) ->
  vnorm (vsub (vadd (g (m + s)) (g (m - s))) (vmul (g m) 2)) <= 2 * La * (s * s).
Proof.
  intros Hs HL D L. pose proof (mvi0 (fun t => vadd (g (m + t)) (g (m - t))) (fun t => vsub (j (m + t)) (j (m - t))) 0 s (2 * La * s) Hs) as X. cbv beta in X.
  replace (vadd (g (m + 0)) (g (m - 0))) with (vmul (g m) 2) in X by (rewrite Rplus_0_r, Rminus_0_r; generalize (g m); intros u; vring).
  replace (2 * La * (s * s)) with (2 * La * s * (s - 0)) by ring. apply X.
  - intros t Ht. apply deriv_sum; apply D; lra.
  - intros t Ht. eapply Rle_trans; [apply L; lra|]. replace (m + t - (m - t)) with (2 * t) by ring. rewrite Rabs_pos_eq by lra. nra.
Qed.
Lemma midpoint (f g j : R -> vec R) m s La : 0 <= s -> 0 <= La ->
  (forall t, m - s <= t <= m + s -> derivative f t (g t)) ->
  (forall t, m - s <= t <= m + s -> derivative g t (j t)) ->
  (forall t t', m - s <= t <= m + s -> m - s <= t' <= m + s -> vnorm (vsub (j t) (j t')) <= La * Rabs (t - t')) ->
  vnorm (vsub (vsub (f (m + s)) (f (m - s))) (vmul (g m) (2 * s))) <= 2 * La * (s * s * s).
Proof.
  intros Hs HL Df Dg L.
  pose proof (mvi (fun t => vsub (f (m + t)) (f (m - t))) (fun t => vadd (g (m + t)) (g (m - t))) 0 s (vmul (g m) 2) (2 * La * (s * s)) Hs) as X. cbv beta in X.
  replace (vsub (vsub (vsub (f (m + s)) (f (m - s))) (vsub (f (m + 0)) (f (m - 0)))) (vmul (vmul (g m) 2) (s - 0))) with (vsub (vsub (f (m + s)) (f (m - s))) (vmul (g m) (2 * s))) in X.
  2:{ rewrite Rplus_0_r, Rminus_0_r. generalize (f (m + s)) (f (m - s)) (f m) (g m). intros u v w z. vring. }
  replace (2 * La * (s * s * s)) with (2 * La * (s * s) * (s - 0)) by ring. apply X.
  - intros t Ht. apply deriv_diff; apply Df; lra.
  - intros t Ht. eapply Rle_trans; [apply (second_difference g j m t La); try lra|].
    + intros r Hr. apply Dg. lra.
    + intros r r' Hr Hr'. apply L; lra.
    + assert (t * t <= s * s) by nra. nra.
Qed.
