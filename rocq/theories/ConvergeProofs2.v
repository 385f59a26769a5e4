(* Convergence of the tracking to the motion it approximates: the steps. *)
From Coq Require Import ZArith Reals Lra Lia Psatz List.
From Verif Require Import Base BaseFacts Num VecModel VecFacts ParticleModel ParticleSpec ParticleProofs ParticleProofs2 VaySpec OrbitSpec
  VayProofs VayTracking VayTracking2 OrbitProofs ConvergeProofs.
Import ListNotations.
Local Open Scope R_scope.

Section Steps.
Variables (qm : R) (Ef Bf : R -> vec R -> vec R) (X P : R -> vec R) (t0 t1 : R).
Let a := Rabs qm.
Let be t := beta_of (P t).
Let fo t := lorentz (be t) (Ef t (X t)) (Bf t (X t)).
Variables (b1 f1 : R -> vec R) (Lb Lf M L K D h : R).
Hypothesis DX : forall t, t0 <= t <= t1 -> derivative X t (vmul (be t) nc).
Hypothesis DP : forall t, t0 <= t <= t1 -> derivative P t (vmul (fo t) qm).
Hypothesis Sb : smooth be b1 Lb t0 t1.
Hypothesis Sf : smooth fo f1 Lf t0 t1.
Hypothesis Lb0 : 0 <= Lb.
Hypothesis Lf0 : 0 <= Lf.
Hypothesis M0 : 0 <= M.
Hypothesis L0 : 0 <= L.
Hypothesis K0 : 0 <= K.
(* bound of the force along the orbit and of its rate of change *)
Hypothesis HM : forall t, t0 <= t <= t1 -> vnorm (fo t) <= M.
Hypothesis HD : forall t, t0 <= t <= t1 -> vnorm (f1 t) <= D.
Hypothesis h0 : 0 < h.

Lemma a_pos : 0 <= a.
Proof. apply Rabs_pos. Qed.
Lemma c_pos : 0 < (nc : R).
Proof. exact nc_pos. Qed.

(* position *)
Lemma position_step t x v : t0 <= t -> t + h <= t1 ->
  vnorm (vsub (vadd x (vmul (beta_of v) (nc * h))) (X (t + h))) / nc <= vnorm (vsub x (X t)) / nc + 2 * h * vnorm (vsub v (P (t + h / 2))) + Lb / 4 * (h * h * h).
Proof.
  intros A B. pose proof c_pos as C. destruct Sb as (Db & Ll).
  assert (Mi : vnorm (vsub (vsub (X (t + h)) (X t)) (vmul (be (t + h / 2)) (nc * h))) <= nc * (Lb / 4 * (h * h * h))).
  { pose proof (midpoint X (fun s => vmul (be s) nc) (fun s => vmul (b1 s) nc) (t + h / 2) (h / 2) (nc * Lb) ltac:(lra) ltac:(apply Rmult_le_pos; lra)) as Q.
    replace (t + h / 2 + h / 2) with (t + h) in Q by field. replace (t + h / 2 - h / 2) with t in Q by ring. cbv beta in Q.
    replace (vmul (vmul (be (t + h / 2)) nc) (2 * (h / 2))) with (vmul (be (t + h / 2)) (nc * h)) in Q by (generalize (be (t + h / 2)); intros u; destruct u; vunfold; unnum; vsplit; field).
    replace (2 * (nc * Lb) * (h / 2 * (h / 2) * (h / 2))) with (nc * (Lb / 4 * (h * h * h))) in Q by field. apply Q.
    - intros s Hs. apply DX. lra.
    - intros s Hs. destruct (Db s ltac:(lra)) as (D1 & D2 & D3). split; [|split].
      + eapply derivable_eq; [apply (derivable_pt_lim_scal _ nc _ _ D1)|intros r; unfold mult_real_fct; cbn; apply Rmult_comm|cbn; apply Rmult_comm].
      + eapply derivable_eq; [apply (derivable_pt_lim_scal _ nc _ _ D2)|intros r; unfold mult_real_fct; cbn; apply Rmult_comm|cbn; apply Rmult_comm].
      + eapply derivable_eq; [apply (derivable_pt_lim_scal _ nc _ _ D3)|intros r; unfold mult_real_fct; cbn; apply Rmult_comm|cbn; apply Rmult_comm].
    - intros s s' Hs Hs'. replace (vsub (vmul (b1 s) nc) (vmul (b1 s') nc)) with (vmul (vsub (b1 s) (b1 s')) nc) by (generalize (b1 s) (b1 s') (nc : R); clear; intros; vring).
      rewrite norm_scale_pos by lra. pose proof (Ll s s' ltac:(lra) ltac:(lra)) as Y. replace (nc * Lb * Rabs (s - s')) with ((Lb * Rabs (s - s')) * nc) by ring. apply Rmult_le_compat_r; lra. }
  assert (Be : vnorm (vsub (vmul (beta_of v) (nc * h)) (vmul (be (t + h / 2)) (nc * h))) <= nc * (2 * h * vnorm (vsub v (P (t + h / 2))))).
  { replace (vsub (vmul (beta_of v) (nc * h)) (vmul (be (t + h / 2)) (nc * h))) with (vmul (vsub (beta_of v) (be (t + h / 2))) (nc * h)) by (generalize (beta_of v) (be (t + h / 2)) (nc : R); clear; intros; vring).
    assert (0 <= nc * h) by (apply Rmult_le_pos; lra). rewrite norm_scale_pos by assumption. pose proof (beta_lip v (P (t + h / 2))) as Y. fold (be (t + h / 2)) in Y.
    replace (nc * (2 * h * vnorm (vsub v (P (t + h / 2))))) with ((2 * vnorm (vsub v (P (t + h / 2)))) * (nc * h)) by ring. apply Rmult_le_compat_r; assumption. }
  assert (S : vnorm (vsub (vadd x (vmul (beta_of v) (nc * h))) (X (t + h))) <= vnorm (vsub x (X t)) + nc * (2 * h * vnorm (vsub v (P (t + h / 2)))) + nc * (Lb / 4 * (h * h * h))).
  { set (u1 := vsub x (X t)) in *. set (u2 := vsub (vmul (beta_of v) (nc * h)) (vmul (be (t + h / 2)) (nc * h))) in *. set (u3 := vsub (vsub (X (t + h)) (X t)) (vmul (be (t + h / 2)) (nc * h))) in *.
    replace (vsub (vadd x (vmul (beta_of v) (nc * h))) (X (t + h))) with (vadd (vadd u1 u2) (vsub vzero u3)).
    - eapply Rle_trans; [apply norm_sum|]. rewrite (norm_opp vzero u3), vsub_zero. pose proof (norm_sum u1 u2). lra.
    - unfold u1, u2, u3. generalize (vmul (beta_of v) (nc * h)) (vmul (be (t + h / 2)) (nc * h)) (X t) (X (t + h)). clear. intros. vring. }
  apply (Rmult_le_reg_r nc); [exact C|]. replace (vnorm (vsub (vadd x (vmul (beta_of v) (nc * h))) (X (t + h))) / nc * nc) with (vnorm (vsub (vadd x (vmul (beta_of v) (nc * h))) (X (t + h)))) by (field; lra).
  eapply Rle_trans; [exact S|]. right. field. lra.
Qed.

Lemma P_lip s t : t0 <= s -> s <= t -> t <= t1 -> vnorm (vsub (P t) (P s)) <= a * M * (t - s).
Proof.
  intros A B C. apply (mvi0 P (fun r => vmul (fo r) qm) s t (a * M) B).
  - intros r Hr. apply DP. lra.
  - intros r Hr. rewrite norm_scale. fold a. rewrite Rmult_comm. apply Rmult_le_compat_l; [apply a_pos|apply HM; lra].
Qed.
(* momentum over a half step, with the force at one end *)
Lemma half_momentum s t r : t0 <= s -> s <= t -> t <= t1 -> s <= r <= t -> vnorm (vsub (vsub (P t) (P s)) (vmul (fo r) (qm * (t - s)))) <= a * D * (t - s) * (t - s).
Proof.
  intros A B C Hr. replace (vmul (fo r) (qm * (t - s))) with (vmul (vmul (fo r) qm) (t - s)) by (generalize (fo r); clear; intros; vring).
  apply (mvi P (fun r => vmul (fo r) qm) s t); [exact B|intros y Hy; apply DP; lra|].
  intros y Hy. replace (vsub (vmul (fo y) qm) (vmul (fo r) qm)) with (vmul (vsub (fo y) (fo r)) qm) by (generalize (fo y) (fo r); clear; intros; vring).
  rewrite norm_scale. fold a. rewrite Rmult_comm, Rmult_assoc. apply Rmult_le_compat_l; [apply a_pos|]. destruct Sf as (Df & _).
  assert (Dn : 0 <= D) by (pose proof (HD r ltac:(lra)); pose proof (norm_nonneg (f1 r)); lra).
  assert (Y : forall p q, s <= p -> p <= q -> q <= t -> vnorm (vsub (fo q) (fo p)) <= D * (t - s)).
  { intros p q H1 H2 H3. eapply Rle_trans; [apply (mvi0 fo f1 p q D H2); [intros z Hz; apply Df; lra|intros z Hz; apply HD; lra]|]. apply Rmult_le_compat_l; lra. }
  destruct (Rle_dec r y) as [G|G]; [apply Y; lra|]. rewrite norm_opp. apply Y; lra.
Qed.
Lemma be_lip s t : t0 <= s -> s <= t -> t <= t1 -> vnorm (vsub (be t) (be s)) <= 2 * a * M * (t - s).
Proof. intros A B C. eapply Rle_trans; [apply beta_lip|]. pose proof (P_lip s t A B C). lra. Qed.

(* momentum *)
Lemma momentum_step t x' v v' : t0 <= t -> t + h + h / 2 <= t1 ->
  (forall b, vnorm b <= 1 -> vnorm (vsub (lorentz b (Ef (t + h) x') (Bf (t + h) x')) (fo (t + h))) <= L * (vnorm (vsub x' (X (t + h))) / nc) + K * vnorm (vsub b (be (t + h)))) ->
  v' = vadd v (vmul (lorentz (vmean (beta_of v) (beta_of v')) (Ef (t + h) x') (Bf (t + h) x')) (qm * h)) ->
  let d := vnorm (vsub v (P (t + h / 2))) in let d' := vnorm (vsub v' (P (t + h + h / 2))) in let e' := vnorm (vsub x' (X (t + h))) / nc in
  d' <= d + h * a * (L * e' + K * (d + d' + Lb / 4 * (h * h))) + a * Lf / 4 * (h * h * h).
Proof.
  intros A B LF Ev d d' e'. pose proof a_pos as A0. destruct Sb as (Db & Ll). destruct Sf as (Df & Lg).
  assert (Mi : vnorm (vsub (vsub (P (t + h + h / 2)) (P (t + h / 2))) (vmul (fo (t + h)) (qm * h))) <= a * Lf / 4 * (h * h * h)).
  { pose proof (midpoint P (fun s => vmul (fo s) qm) (fun s => vmul (f1 s) qm) (t + h) (h / 2) (a * Lf) ltac:(lra) ltac:(apply Rmult_le_pos; lra)) as Q.
    replace (t + h - h / 2) with (t + h / 2) in Q by field. cbv beta in Q.
    replace (vmul (vmul (fo (t + h)) qm) (2 * (h / 2))) with (vmul (fo (t + h)) (qm * h)) in Q by (generalize (fo (t + h)); intros u; destruct u; vunfold; unnum; vsplit; field).
    replace (2 * (a * Lf) * (h / 2 * (h / 2) * (h / 2))) with (a * Lf / 4 * (h * h * h)) in Q by field. apply Q.
    - intros s Hs. apply DP. lra.
    - intros s Hs. destruct (Df s ltac:(lra)) as (D1 & D2 & D3). split; [|split].
      + eapply derivable_eq; [apply (derivable_pt_lim_scal _ qm _ _ D1)|intros r; unfold mult_real_fct; cbn; apply Rmult_comm|cbn; apply Rmult_comm].
      + eapply derivable_eq; [apply (derivable_pt_lim_scal _ qm _ _ D2)|intros r; unfold mult_real_fct; cbn; apply Rmult_comm|cbn; apply Rmult_comm].
      + eapply derivable_eq; [apply (derivable_pt_lim_scal _ qm _ _ D3)|intros r; unfold mult_real_fct; cbn; apply Rmult_comm|cbn; apply Rmult_comm].
    - intros s s' Hs Hs'. replace (vsub (vmul (f1 s) qm) (vmul (f1 s') qm)) with (vmul (vsub (f1 s) (f1 s')) qm) by (generalize (f1 s) (f1 s'); clear; intros; vring).
      rewrite norm_scale. fold a. pose proof (Lg s s' ltac:(lra) ltac:(lra)) as Y. replace (a * Lf * Rabs (s - s')) with ((Lf * Rabs (s - s')) * a) by ring. apply Rmult_le_compat_r; lra. }
  (* velocity used by the step *)
  assert (Bm : vnorm (vsub (vmean (beta_of v) (beta_of v')) (be (t + h))) <= d + d' + Lb / 4 * (h * h)).
  { pose proof (second_difference be b1 (t + h) (h / 2) Lb ltac:(lra) Lb0) as Q. replace (t + h - h / 2) with (t + h / 2) in Q by field.
    replace (2 * Lb * (h / 2 * (h / 2))) with (Lb / 2 * (h * h)) in Q by field.
    specialize (Q ltac:(intros s Hs; apply Db; lra) ltac:(intros s s' Hs Hs'; apply Ll; lra)).
    pose proof (beta_lip v (P (t + h / 2))) as Y1. pose proof (beta_lip v' (P (t + h + h / 2))) as Y2. fold (be (t + h / 2)) in Y1. fold (be (t + h + h / 2)) in Y2. fold d in Y1. fold d' in Y2.
    set (u1 := vsub (beta_of v) (be (t + h / 2))) in *. set (u2 := vsub (beta_of v') (be (t + h + h / 2))) in *. set (u3 := vsub (vadd (be (t + h + h / 2)) (be (t + h / 2))) (vmul (be (t + h)) 2)) in *.
    replace (vsub (vmean (beta_of v) (beta_of v')) (be (t + h))) with (vmul (vadd (vadd u1 u2) u3) (/ 2)).
    - rewrite norm_scale_pos by lra. pose proof (norm_sum (vadd u1 u2) u3). pose proof (norm_sum u1 u2). lra.
    - unfold u1, u2, u3, vmean. generalize (beta_of v) (beta_of v') (be (t + h / 2)) (be (t + h + h / 2)) (be (t + h)). clear. intros p q r s u. destruct p, q, r, s, u. vunfold. unnum. vsplit; field. }
  pose proof (LF _ (mean_norm _ _ (beta_norm v) (beta_norm v'))) as F1. fold e' in F1.
  set (g := lorentz (vmean (beta_of v) (beta_of v')) (Ef (t + h) x') (Bf (t + h) x')) in *.
  assert (Fo : vnorm (vsub g (fo (t + h))) <= L * e' + K * (d + d' + Lb / 4 * (h * h))).
  { eapply Rle_trans; [exact F1|]. apply Rplus_le_compat_l. apply Rmult_le_compat_l; lra. }
  set (u1 := vsub v (P (t + h / 2))) in *. set (u3 := vsub (vsub (P (t + h + h / 2)) (P (t + h / 2))) (vmul (fo (t + h)) (qm * h))) in *.
  assert (Dd : vsub v' (P (t + h + h / 2)) = vadd (vadd u1 (vmul (vsub g (fo (t + h))) (qm * h))) (vsub vzero u3)).
  { rewrite Ev. unfold u1, u3. generalize (P (t + h / 2)) (P (t + h + h / 2)) (fo (t + h)). clear. intros p q r. clearbody g. vring. }
  unfold d' at 1. rewrite Dd. eapply Rle_trans; [apply norm_sum|]. rewrite (norm_opp vzero u3), vsub_zero. apply Rplus_le_compat; [|exact Mi].
  eapply Rle_trans; [apply norm_sum|]. fold d. apply Rplus_le_compat_l. rewrite norm_scale, Rabs_mult, (Rabs_pos_eq h) by lra. fold a.
  replace (vnorm (vsub g (fo (t + h))) * (a * h)) with (h * a * vnorm (vsub g (fo (t + h)))) by ring. apply Rmult_le_compat_l; [apply Rmult_le_pos; lra|exact Fo].
Qed.
(* the half step of the set-up *)
Lemma momentum_setup x v : vnorm (vsub x (X t0)) = 0 -> t0 + h / 2 <= t1 ->
  (forall b, vnorm b <= 1 -> vnorm (vsub (lorentz b (Ef t0 x) (Bf t0 x)) (fo t0)) <= L * (vnorm (vsub x (X t0)) / nc) + K * vnorm (vsub b (be t0))) ->
  vnorm (lorentz (beta_of v) (Ef t0 x) (Bf t0 x)) <= M ->
  v = vadd (P t0) (vmul (lorentz (beta_of v) (Ef t0 x) (Bf t0 x)) (qm * h / 2)) ->
  vnorm (vsub v (P (t0 + h / 2))) <= h * h * (a * a * K * M / 2 + a * D / 4).
Proof.
  intros Ex B LF HMv Ev. pose proof a_pos as A0. pose proof (half_momentum t0 (t0 + h / 2) t0 ltac:(lra) ltac:(lra) B ltac:(lra)) as H1. replace (t0 + h / 2 - t0) with (h / 2) in H1 by ring.
  set (g := lorentz (beta_of v) (Ef t0 x) (Bf t0 x)) in *.
  assert (V1 : vnorm (vsub v (P t0)) <= a * M * h / 2).
  { rewrite Ev. replace (vsub (vadd (P t0) (vmul g (qm * h / 2))) (P t0)) with (vmul g (qm * h / 2)) by (generalize (P t0); clear; clearbody g; intros; vring).
    rewrite norm_scale. unfold Rdiv. rewrite !Rabs_mult, (Rabs_pos_eq h), (Rabs_pos_eq (/ 2)) by lra. fold a.
    replace (a * M * h * / 2) with (M * (a * h * / 2)) by ring. apply Rmult_le_compat_r; [|exact HMv]. apply Rmult_le_pos; [apply Rmult_le_pos; lra|lra]. }
  pose proof (LF _ (beta_norm v)) as F1. rewrite Ex in F1. pose proof (beta_lip v (P t0)) as BL. fold (be t0) in BL. fold g in F1.
  assert (Fo : vnorm (vsub g (fo t0)) <= K * (a * M * h)).
  { eapply Rle_trans; [exact F1|]. replace (L * (0 / nc)) with 0 by (field; pose proof c_pos; lra). rewrite Rplus_0_l. apply Rmult_le_compat_l; [exact K0|]. lra. }
  set (u3 := vsub (vsub (P (t0 + h / 2)) (P t0)) (vmul (fo t0) (qm * (h / 2)))) in *.
  assert (Dd : vsub v (P (t0 + h / 2)) = vadd (vmul (vsub g (fo t0)) (qm * h / 2)) (vsub vzero u3)).
  { rewrite Ev. unfold u3. generalize (P t0) (P (t0 + h / 2)) (fo t0). clear. intros p q r. clearbody g. destruct p, q, r, g. vunfold. unnum. vsplit; field. }
  rewrite Dd. eapply Rle_trans; [apply norm_sum|]. rewrite (norm_opp vzero u3), vsub_zero.
  assert (Q : vnorm (vmul (vsub g (fo t0)) (qm * h / 2)) <= K * (a * M * h) * (a * h / 2)).
  { rewrite norm_scale. unfold Rdiv. rewrite !Rabs_mult, (Rabs_pos_eq h), (Rabs_pos_eq (/ 2)) by lra. fold a. apply Rmult_le_compat_r; [|exact Fo]. apply Rmult_le_pos; [apply Rmult_le_pos; lra|lra]. }
  eapply Rle_trans; [apply Rplus_le_compat; [exact Q|exact H1]|]. right. field.
Qed.
(* the momentum recorded at the step *)
Lemma momentum_recorded t x' v m : t0 <= t -> t + h + h / 2 <= t1 ->
  (forall b, vnorm b <= 1 -> vnorm (vsub (lorentz b (Ef (t + h) x') (Bf (t + h) x')) (fo (t + h))) <= L * (vnorm (vsub x' (X (t + h))) / nc) + K * vnorm (vsub b (be (t + h)))) ->
  m = vadd v (vmul (lorentz (beta_of v) (Ef (t + h) x') (Bf (t + h) x')) (qm * h / 2)) ->
  let d := vnorm (vsub v (P (t + h / 2))) in let e' := vnorm (vsub x' (X (t + h))) / nc in
  vnorm (vsub m (P (t + h))) <= d + h * a * K * d + h * a * L * e' / 2 + h * h * (a * a * K * M / 2 + a * D / 4).
Proof.
  intros A B LF Ev d e'. pose proof a_pos as A0. pose proof (half_momentum (t + h / 2) (t + h) (t + h) ltac:(lra) ltac:(lra) ltac:(lra) ltac:(lra)) as H1. replace (t + h - (t + h / 2)) with (h / 2) in H1 by field.
  set (g := lorentz (beta_of v) (Ef (t + h) x') (Bf (t + h) x')) in *. pose proof (LF _ (beta_norm v)) as F1. fold g in F1. fold e' in F1.
  pose proof (beta_lip v (P (t + h / 2))) as BL. fold (be (t + h / 2)) in BL. fold d in BL. pose proof (be_lip (t + h / 2) (t + h) ltac:(lra) ltac:(lra) ltac:(lra)) as B2. replace (t + h - (t + h / 2)) with (h / 2) in B2 by field. rewrite norm_opp in B2.
  pose proof (norm_tri (beta_of v) (be (t + h / 2)) (be (t + h))) as TR.
  assert (Fo : vnorm (vsub g (fo (t + h))) <= L * e' + K * (2 * d + a * M * h)).
  { eapply Rle_trans; [exact F1|]. apply Rplus_le_compat_l. apply Rmult_le_compat_l; [exact K0|]. lra. }
  set (u1 := vsub v (P (t + h / 2))) in *. set (u3 := vsub (vsub (P (t + h)) (P (t + h / 2))) (vmul (fo (t + h)) (qm * (h / 2)))) in *.
  assert (Dd : vsub m (P (t + h)) = vadd (vadd u1 (vmul (vsub g (fo (t + h))) (qm * h / 2))) (vsub vzero u3)).
  { rewrite Ev. unfold u1, u3. generalize (P (t + h)) (P (t + h / 2)) (fo (t + h)). clear. intros p q r. clearbody g. destruct p, q, r, g, v. vunfold. unnum. vsplit; field. }
  rewrite Dd. eapply Rle_trans; [apply norm_sum|]. rewrite (norm_opp vzero u3), vsub_zero. pose proof (norm_sum u1 (vmul (vsub g (fo (t + h))) (qm * h / 2))) as NS. fold d in NS.
  assert (Q : vnorm (vmul (vsub g (fo (t + h))) (qm * h / 2)) <= (L * e' + K * (2 * d + a * M * h)) * (a * h / 2)).
  { rewrite norm_scale. unfold Rdiv. rewrite !Rabs_mult, (Rabs_pos_eq h), (Rabs_pos_eq (/ 2)) by lra. fold a. apply Rmult_le_compat_r; [|exact Fo]. apply Rmult_le_pos; [apply Rmult_le_pos; lra|lra]. }
  eapply Rle_trans; [apply Rplus_le_compat; [eapply Rle_trans; [exact NS|apply Rplus_le_compat_l; exact Q]|exact H1]|]. right. field.
Qed.
End Steps.
