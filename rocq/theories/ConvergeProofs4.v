(* A helix in a homogeneous magnetic field fulfils the hypotheses of the convergence theorem. *)
From Coq Require Import ZArith Reals Lra Lia List.
From Verif Require Import Base Num VecModel VecFacts ParticleModel ParticleSpec ParticleProofs ParticleProofs2 VaySpec OrbitSpec VayTracking OrbitProofs ConvergeProofs ConvergeProofs2 ConvergeProofs3.
Import ListNotations.
Local Open Scope R_scope.

Lemma deriv_scale (f : R -> vec R) t d k : derivative f t d -> derivative (fun s => vmul (f s) k) t (vmul d k).
Proof.
  intros (A & B & C). split; [|split].
  - eapply derivable_eq; [apply (derivable_pt_lim_scal _ k t _ A)|intros s; vunfold; unnum; unfold mult_real_fct; ring|vunfold; unnum; ring].
  - eapply derivable_eq; [apply (derivable_pt_lim_scal _ k t _ B)|intros s; vunfold; unnum; unfold mult_real_fct; ring|vunfold; unnum; ring].
  - eapply derivable_eq; [apply (derivable_pt_lim_scal _ k t _ C)|intros s; vunfold; unnum; unfold mult_real_fct; ring|vunfold; unnum; ring].
Qed.
Lemma deriv_lin2 (f g : R -> R) t a b x y : derivable_pt_lim f t a -> derivable_pt_lim g t b -> derivable_pt_lim (fun s => f s * x - g s * y) t (a * x - b * y).
Proof.
  intros A B. eapply derivable_eq; [apply (derivable_pt_lim_minus _ _ t _ _ (derivable_pt_lim_scal _ x t _ A) (derivable_pt_lim_scal _ y t _ B))|intros s; unfold minus_fct, mult_real_fct; ring|ring].
Qed.
Lemma deriv_cross (f : R -> vec R) t d b : derivative f t d -> derivative (fun s => vcross (f s) b) t (vcross d b).
Proof. intros (A & B & C). split; [|split]; vunfold; unnum; apply deriv_lin2; assumption. Qed.
Lemma deriv_ext (f g : R -> vec R) t d d' : (forall s, f s = g s) -> d = d' -> derivative f t d -> derivative g t d'.
Proof.
  intros H <- (A & B & C). split; [|split].
  - eapply derivable_eq; [exact A|intros s; cbv beta; f_equal; symmetry; apply H|reflexivity].
  - eapply derivable_eq; [exact B|intros s; cbv beta; f_equal; symmetry; apply H|reflexivity].
  - eapply derivable_eq; [exact C|intros s; cbv beta; f_equal; symmetry; apply H|reflexivity].
Qed.
Lemma deriv_shift (f : R -> vec R) t t0 d : derivative f (t - t0) d -> derivative (fun s => f (s - t0)) t d.
Proof.
  replace (t - t0) with (- t0 + t) by ring. intros (A & B & C). split; [|split].
  - eapply derivable_eq; [apply (shift_plus (fun s => vx (f s)) _ _ _ A)|intros s; replace (s - t0) with (- t0 + s) by ring; reflexivity|reflexivity].
  - eapply derivable_eq; [apply (shift_plus (fun s => vy (f s)) _ _ _ B)|intros s; replace (s - t0) with (- t0 + s) by ring; reflexivity|reflexivity].
  - eapply derivable_eq; [apply (shift_plus (fun s => vz (f s)) _ _ _ C)|intros s; replace (s - t0) with (- t0 + s) by ring; reflexivity|reflexivity].
Qed.
Lemma lorentz_mag (v b : vec R) : lorentz v vzero b = vcross v b.
Proof. unfold lorentz. assert (NC : (nc : R) <> 0) by (pose proof nc_pos; lra). destruct v, b. vunfold. unnum. vsplit; field; auto. Qed.
Lemma cross_sub (u v b : vec R) : vsub (vcross u b) (vcross v b) = vcross (vsub u v) b.
Proof. vring. Qed.
Lemma scale_sub (u v : vec R) k : vsub (vmul u k) (vmul v k) = vmul (vsub u v) k.
Proof. vring. Qed.

Lemma magnetic qm b g (X P : R -> vec R) t0 t1 rho F : homogeneous F vzero b -> 
  (forall t, gamma_of (P t) = g) ->
  (forall t, derivative X t (vmul (beta_of (P t)) nc) /\ derivative P t (vmul (lorentz (beta_of (P t)) vzero b) qm)) ->
  solves qm (fun _ _ => vzero) (fun _ _ => b) X P t0 t1 /\
  regular F (fun _ _ => vzero) (fun _ _ => b) X P t0 t1 rho (vnorm b) 0 (vnorm b) /\
  exists b1 Lb, 0 <= Lb /\ smooth (fun t => beta_of (P t)) b1 Lb t0 t1 /\
    smooth (fun t => lorentz (beta_of (P t)) vzero b) (fun t => vcross (b1 t) b) (Lb * vnorm b) t0 t1.
Proof.
  intros HF HG HD. assert (g1 : 1 <= g) by (rewrite <- (HG 0); apply gamma_ge). pose proof (norm_nonneg b) as N.
  split; [intros t _; apply HD|]. split.
  { intros t x _ _. split; [apply HF|]. intros u Hu. change (vadd (vdiv vzero nc) (vcross u b)) with (lorentz u vzero b).
    intros. split; [|intros beta; change (vadd (vdiv vzero nc) (vcross beta b)) with (lorentz beta vzero b)]; rewrite ?lorentz_mag, ?cross_sub.
    - eapply Rle_trans; [apply norm_cross|]. apply Rle_trans with (1 * vnorm b); [apply Rmult_le_compat_r; assumption|lra].
    - rewrite Rmult_0_l, Rplus_0_l, Rmult_comm. apply norm_cross. }
  set (k := qm / g). set (b1 := fun t => vmul (vcross (beta_of (P t)) b) k). set (Lb := Rabs k * vnorm b * (Rabs k * vnorm b)).
  assert (L0 : 0 <= Rabs k * vnorm b) by (apply Rmult_le_pos; [apply Rabs_pos|exact N]).
  assert (Db : forall t, derivative (fun t => beta_of (P t)) t (b1 t)).
  { intros t. eapply deriv_ext; [| |apply (deriv_scale P t (vmul (lorentz (beta_of (P t)) vzero b) qm) (/ g)), HD].
    - intros s. unfold beta_of. rewrite HG. generalize (P s). clear - g1. intros v. destruct v. vunfold. unnum. vsplit; field; lra.
    - unfold b1, k. rewrite lorentz_mag. generalize (vcross (beta_of (P t)) b). clear - g1. intros v. destruct v. vunfold. unnum. vsplit; field; lra. }
  assert (Nb : forall t, vnorm (b1 t) <= Rabs k * vnorm b).
  { intros t. unfold b1. rewrite norm_scale, Rmult_comm. apply Rmult_le_compat_l; [apply Rabs_pos|]. eapply Rle_trans; [apply norm_cross|]. apply Rle_trans with (1 * vnorm b); [apply Rmult_le_compat_r; [exact N|apply beta_norm]|lra]. }
  assert (Lp : forall s t, vnorm (vsub (beta_of (P s)) (beta_of (P t))) <= Rabs k * vnorm b * Rabs (s - t)).
  { intros s t. destruct (Rle_lt_dec t s) as [H|H].
    - rewrite (Rabs_pos_eq (s - t)) by lra. apply (mvi0 (fun t => beta_of (P t)) b1 t s _ H); auto.
    - rewrite norm_opp, Rabs_minus_sym, (Rabs_pos_eq (t - s)) by lra. apply (mvi0 (fun t => beta_of (P t)) b1 s t); [lra|auto|auto]. }
  assert (Lc : forall s t, vnorm (vsub (b1 s) (b1 t)) <= Lb * Rabs (s - t)).
  { intros s t. unfold b1. rewrite scale_sub, cross_sub, norm_scale. unfold Lb.
    apply Rle_trans with (vnorm (vsub (beta_of (P s)) (beta_of (P t))) * vnorm b * Rabs k); [apply Rmult_le_compat_r; [apply Rabs_pos|apply norm_cross]|].
    replace (Rabs k * vnorm b * (Rabs k * vnorm b) * Rabs (s - t)) with (Rabs k * vnorm b * Rabs (s - t) * vnorm b * Rabs k) by ring.
    apply Rmult_le_compat_r; [apply Rabs_pos|]. apply Rmult_le_compat_r; [exact N|apply Lp]. }
  exists b1, Lb. split; [apply Rmult_le_pos; exact L0|]. split; [split; intros; auto|]. split.
  - intros t _. eapply deriv_ext; [| |apply (deriv_cross (fun t => beta_of (P t)) t (b1 t) b), Db]; [intros s; symmetry; apply lorentz_mag|reflexivity].
  - intros s t _ _. rewrite cross_sub. eapply Rle_trans; [apply norm_cross|]. replace (Lb * vnorm b * Rabs (s - t)) with (Lb * Rabs (s - t) * vnorm b) by ring. apply Rmult_le_compat_r; [exact N|apply Lc].
Qed.
