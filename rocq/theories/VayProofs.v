(* Proofs about the tracking algorithm over R. *)
From Coq Require Import ZArith Reals Lra Lia Psatz List.
From Verif Require Import Base Num VecModel VecFacts ParticleModel VaySpec.
Import ListNotations.
Local Open Scope R_scope.

Lemma gamma_of_sq (p : vec R) : gamma_of p * gamma_of p = 1 + vabs2 p.
Proof. unfold gamma_of. apply sqrt_sqrt. pose proof (vabs2_nonneg p). lra. Qed.
Lemma gamma_of_ge_1 (p : vec R) : 1 <= gamma_of p.
Proof.
  unfold gamma_of. rewrite <- sqrt_1 at 1. apply sqrt_le_1_alt.
  pose proof (vabs2_nonneg p). lra.
Qed.
Lemma gamma_of_pos (p : vec R) : 0 < gamma_of p.
Proof. pose proof (gamma_of_ge_1 p). lra. Qed.

Lemma beta_of_abs2 (p : vec R) : vabs2 (beta_of p) = 1 - / (gamma_of p * gamma_of p).
Proof.
  pose proof (gamma_of_pos p) as Hg. pose proof (gamma_of_sq p) as Hs.
  unfold beta_of. replace (vabs2 (vdiv p (gamma_of p)))
    with (vabs2 p / (gamma_of p * gamma_of p)).
  2:{ generalize (gamma_of p) Hg. intros g Hgg. vdestr; vunfold; unnum; field; lra. }
  replace (vabs2 p) with (gamma_of p * gamma_of p - 1) by lra. field. lra.
Qed.
Lemma beta_of_lt_1 (p : vec R) : vnorm (beta_of p) < 1.
Proof.
  rewrite vnorm_sqrt, beta_of_abs2. rewrite <- sqrt_1 at 2.
  pose proof (gamma_of_pos p) as Hg.
  assert (0 < / (gamma_of p * gamma_of p)) by (apply Rinv_0_lt_compat; nra).
  apply sqrt_lt_1_alt. split; [|lra].
  rewrite <- beta_of_abs2. apply vabs2_nonneg.
Qed.

(* ------------------------------------------------------------------ *)
(* the quadratic for gamma^2 *)

Section Quad.
Variables (pp tau : vec R).
Let sigma := vabs2 pp + 1 - vabs2 tau.
Let u := vdot pp tau.
Let w := vabs2 tau + u * u.
Let disc := sigma * sigma + 4 * w.
Let g2 := / 2 * (sigma + sqrt disc).

Lemma quad_w_nonneg : 0 <= w.
Proof. unfold w. pose proof (vabs2_nonneg tau). nra. Qed.
Lemma quad_disc_nonneg : 0 <= disc.
Proof. unfold disc. pose proof quad_w_nonneg. nra. Qed.
Lemma quad_root : g2 * g2 - sigma * g2 - w = 0.
Proof.
  unfold g2. pose proof (sqrt_sqrt disc quad_disc_nonneg) as H.
  unfold disc in *. nra.
Qed.
Lemma quad_ge_1 : 1 <= g2.
Proof.
  unfold g2.
  assert (H : Rabs (2 - sigma) <= sqrt disc).
  { rewrite <- sqrt_Rsqr_abs. apply sqrt_le_1_alt. unfold Rsqr, disc, w, sigma.
    pose proof (vabs2_nonneg pp). pose proof (vabs2_nonneg tau). nra. }
  pose proof (Rle_abs (2 - sigma)). lra.
Qed.
(* the positive root is unique *)
Lemma quad_unique (h : R) : 0 < h -> h * h - sigma * h - w = 0 -> h = g2.
Proof.
  intros Hh Hq. pose proof quad_root as Hr. pose proof quad_ge_1 as H1.
  pose proof quad_w_nonneg as Hw.
  assert (Hf : (h - g2) * (h + g2 - sigma) = 0) by nra.
  apply Rmult_integral in Hf. destruct Hf as [Hf|Hf]; [lra|].
  (* h + g2 = sigma : then h*g2 = -w <= 0, impossible *)
  exfalso. assert (h * g2 = - w) by nra. assert (0 < h * g2) by nra. lra.
Qed.
End Quad.

(* ------------------------------------------------------------------ *)
(* the second half of a step *)

Lemma vay_half_spec (q : R) (ph e b : vec R) :
  let '(p1, g) := vay_half q ph e b in
  let pp := vadd ph (vmul (vdiv e nc) q) in
  let tau := vmul b q in
  g * g = / 2 * (vabs2 pp + 1 - vabs2 tau +
       sqrt ((vabs2 pp + 1 - vabs2 tau) * (vabs2 pp + 1 - vabs2 tau) +
             4 * (vabs2 tau + vdot pp tau * vdot pp tau)))
  /\ 1 <= g
  /\ p1 = vdiv (vadd (vadd pp (vmul (vdiv tau g) (vdot pp (vdiv tau g))))
                     (vcross pp (vdiv tau g)))
               (1 + vabs2 (vdiv tau g)).
Proof.
  unfold vay_half. set (pp := vadd ph _). set (tau := vmul b q).
  cbv zeta. unfold nhalf.
  change (nZ 1 / nZ 2)%num with (1 / 2).
  repeat match goal with |- context [@nsqrt R NumR] => change (@nsqrt R NumR) with sqrt end.
  change (@nadd R NumR) with Rplus. change (@nsub R NumR) with Rminus.
  change (@nmul R NumR) with Rmult. change (nZ 1) with 1. change (nZ 4) with 4.
  pose proof (quad_ge_1 pp tau) as H1.
  replace (1 / 2) with (/ 2) by lra.
  set (g2 := / 2 * _) in *.
  split; [|split].
  - apply sqrt_sqrt. lra.
  - rewrite <- sqrt_1 at 1. apply sqrt_le_1_alt. exact H1.
  - reflexivity.
Qed.

(* algebra of the rotation formula *)
Lemma rot_abs2 (p t : vec R) :
  vabs2 (vdiv (vadd (vadd p (vmul t (vdot p t))) (vcross p t)) (1 + vabs2 t))
  = (vabs2 p + vdot p t * vdot p t) / (1 + vabs2 t).
Proof.
  pose proof (vabs2_nonneg t) as Ht.
  assert (Hn : 1 + vabs2 t <> 0) by lra.
  rewrite vdiv_mul. set (v := vadd _ _).
  replace (vabs2 (vmul v (/ (1 + vabs2 t)))) with (vabs2 v * (/ (1 + vabs2 t)) * (/ (1 + vabs2 t))).
  2:{ generalize v (/ (1 + vabs2 t)). vring. }
  replace (vabs2 v) with ((1 + vabs2 t) * (vabs2 p + vdot p t * vdot p t)).
  2:{ unfold v. vring. }
  field. exact Hn.
Qed.
Lemma rot_implicit (p t : vec R) :
  let q := vdiv (vadd (vadd p (vmul t (vdot p t))) (vcross p t)) (1 + vabs2 t) in
  q = vadd p (vcross q t).
Proof.
  pose proof (vabs2_nonneg t) as Ht.
  assert (Hn : 1 + vabs2 t <> 0) by lra.
  vdestr. vunfold. unnum. unfold vabs2 in Hn; cbn in Hn.
  vsplit; field; lra.
Qed.
Lemma rot_unique (p t q : vec R) :
  q = vadd p (vcross q t) ->
  q = vdiv (vadd (vadd p (vmul t (vdot p t))) (vcross p t)) (1 + vabs2 t).
Proof.
  intros Hq. pose proof (vabs2_nonneg t) as Ht.
  assert (Hn : 1 + vabs2 t <> 0) by lra.
  (* p = q - q x t *)
  assert (Hp : p = vsub q (vcross q t)).
  { rewrite Hq at 1. vring. }
  subst p. clear Hq. vdestr. vunfold. unnum. unfold vabs2 in Hn; cbn in Hn.
  vsplit; field; lra.
Qed.

(* gamma returned is the relativistic factor of the momentum returned *)
Lemma vay_half_gamma (q : R) (ph e b : vec R) :
  snd (vay_half q ph e b) = gamma_of (fst (vay_half q ph e b)).
Proof.
  pose proof (vay_half_spec q ph e b) as H. destruct (vay_half q ph e b) as [p1 g].
  cbv zeta in H. destruct H as [Hg [H1 Hp]]. cbn [fst snd].
  set (pp := vadd ph _) in *. set (tau := vmul b q) in *.
  assert (Hquad : g * g * (g * g) - (vabs2 pp + 1 - vabs2 tau) * (g * g)
                  - (vabs2 tau + vdot pp tau * vdot pp tau) = 0).
  { rewrite Hg. apply (quad_root pp tau). }
  unfold gamma_of. symmetry.
  replace (1 + vabs2 p1) with (g * g).
  - rewrite sqrt_square; lra.
  - rewrite Hp, rot_abs2.
    replace (vabs2 (vdiv tau g)) with (vabs2 tau / (g * g)).
    2:{ clear - H1. vdestr; vunfold; unnum; field; lra. }
    rewrite vdot_div_r.
    pose proof (vabs2_nonneg tau) as Ht.
    assert (0 < g * g) by nra.
    set (G := g * g) in *.
    replace (vdot pp tau / g * (vdot pp tau / g)) with (vdot pp tau * vdot pp tau / G).
    2:{ unfold G; field; lra. }
    set (U := vdot pp tau * vdot pp tau) in *.
    assert (Hd : G + vabs2 tau <> 0) by lra.
    apply (Rmult_eq_reg_r (G + vabs2 tau)); [|exact Hd].
    transitivity (G + vabs2 tau + (vabs2 pp * G + U)).
    + nra.
    + field. split; lra.
Qed.

(* the momentum returned solves the implicit half step, ... *)
Lemma vay_half_implicit (q : R) (ph e b : vec R) :
  let p1 := fst (vay_half q ph e b) in
  p1 = vadd ph (vmul (lorentz (beta_of p1) e b) q).
Proof.
  pose proof (vay_half_gamma q ph e b) as Hgam.
  pose proof (vay_half_spec q ph e b) as H. destruct (vay_half q ph e b) as [p1 g].
  cbv zeta in H. destruct H as [Hg [H1 Hp]]. cbn [fst snd] in *.
  pose proof (rot_implicit (vadd ph (vmul (vdiv e nc) q)) (vdiv (vmul b q) g)) as Hr.
  cbv zeta in Hr. rewrite <- Hp in Hr.
  unfold beta_of. rewrite <- Hgam. clear Hgam Hg Hp. rewrite Hr at 1.
  clear Hr. unfold lorentz. generalize (vdiv e nc). intros ec. clear e.
  vdestr. vunfold. unnum. vsplit; field; lra.
Qed.

(* ... and it is the only solution *)
Lemma vay_half_unique (q : R) (ph e b p1 : vec R) :
  p1 = vadd ph (vmul (lorentz (beta_of p1) e b) q) ->
  p1 = fst (vay_half q ph e b).
Proof.
  intros Hi.
  pose proof (vay_half_spec q ph e b) as H. destruct (vay_half q ph e b) as [r g].
  cbv zeta in H. destruct H as [Hg [H1 Hp]]. cbn [fst].
  set (pp := vadd ph (vmul (vdiv e nc) q)) in *. set (tau := vmul b q) in *.
  pose proof (gamma_of_ge_1 p1) as Hh. pose proof (gamma_of_sq p1) as Hs.
  set (h := gamma_of p1) in *.
  assert (Himp : p1 = vadd pp (vcross p1 (vdiv tau h))).
  { rewrite Hi at 1. unfold pp, tau, beta_of, lorentz. fold h.
    generalize (vdiv e nc). intros ec. clear - Hh. clearbody h.
    vdestr. vunfold. unnum. vsplit; field; lra. }
  apply rot_unique in Himp.
  assert (Hgh : h * h = g * g).
  { rewrite Hg. apply (quad_unique pp tau); [nra|].
    assert (Ha : vabs2 p1 = (vabs2 pp + vdot pp (vdiv tau h) * vdot pp (vdiv tau h))
                            / (1 + vabs2 (vdiv tau h))).
    { rewrite Himp. apply rot_abs2. }
    replace (vabs2 (vdiv tau h)) with (vabs2 tau / (h * h)) in Ha.
    2:{ clear - Hh. clearbody h tau. vdestr; vunfold; unnum; field; lra. }
    rewrite vdot_div_r in Ha.
    pose proof (vabs2_nonneg tau) as Ht.
    assert (HG : 0 < h * h) by nra.
    replace (vdot pp tau / h * (vdot pp tau / h)) with (vdot pp tau * vdot pp tau / (h * h)) in Ha.
    2:{ field; lra. }
    set (G := h * h) in *.
    set (U := vdot pp tau * vdot pp tau) in *.
    assert (Hd : 1 + vabs2 tau / G <> 0).
    { assert (0 <= vabs2 tau / G) by (apply Rmult_le_pos; [lra|left; apply Rinv_0_lt_compat; lra]). lra. }
    assert (Ha' : vabs2 p1 * (G + vabs2 tau) = vabs2 pp * G + U).
    { rewrite Ha. field. split; [lra|].
      intros Hc. apply Hd. replace (1 + vabs2 tau / G) with ((G + vabs2 tau) / G) by (field; lra).
      rewrite Hc. unfold Rdiv; ring. }
    replace (vabs2 p1) with (G - 1) in Ha' by lra. nra. }
  assert (h = g) by (apply Rsqr_inj; [lra|lra|exact Hgh]).
  subst g. rewrite Hp. exact Himp.
Qed.
