(* The transverse gradient undulator *)
From Coq Require Import ZArith List Bool Lia Reals Lra Psatz.
From Coquelicot Require Import Coquelicot.
From Verif Require Import Base Num VecModel VecFacts BaseFacts ParticleModel BunchModel
  ElementModel ElementSpec ElementProofs2.
Local Open Scope R_scope.

(* the field without modulation and ramps *)
Definition tgu_B (B kx ky kz : R) : field3 := fun x y z =>
  V (B * (kx / ky * cos (kx * x) * sinh (ky * y) * sin (kz * z)))
    (B * (sin (kz * z) * cosh (kz * y) + sin (kx * x) * cosh (ky * y) * sin (kz * z)))
    (B * (cos (kz * z) * sinh (kz * y) + kz / ky * sin (kx * x) * sinh (ky * y) * cos (kz * z))).
Definition tgu_F (u : tgu R) : field3 := fun x y z =>
  vmul (vmul (tgu_B (tgB u) (tgkx u) (tg_ky u) (tg_kz u) x y z) (1 + tgM u * sin (tg_kz u * z)))
       (ramp (- und_half (tgN u) (tgL u)) (und_half (tgN u) (tgL u)) (tgL u) z).
Lemma tgu_static (u : tgu R) : 0 < tgL u -> (int_min <= tgN u < int_max)%Z ->
  magnetostatic (tgu_local u) (tgu_F u).
Proof.
  intros HL Hn t x y z. unfold tgu_local. rewrite und_ends_ok by exact Hn. cbn [bind vx vz vy].
  rewrite und_ramp by exact HL. unfold tgu_F. do 3 f_equal.
  generalize (tg_kz u) (tg_ky u). intros kz ky. unfold tgu_B, vmul. cbn [vx vy vz]. unnum.
  cbn [nsin ncos nsinh ncosh TransR].
  apply f_equal3; unfold Rdiv; ring.
Qed.

Lemma tg_kz_pos (u : tgu R) : 0 < tgL u -> 0 < tg_kz u.
Proof.
  intros HL. unfold tg_kz. cbn [nPi NumR]. unnum. pose proof PI_RGT_0.
  apply Rdiv_lt_0_compat; lra.
Qed.
Lemma tg_ky_sq (u : tgu R) : tg_ky u * tg_ky u = tg_kz u * tg_kz u + tgkx u * tgkx u.
Proof. unfold tg_ky. generalize (tg_kz u) (tgkx u); intros a b. unnum. apply sqrt_sqrt. nra. Qed.
Lemma tg_ky_pos (u : tgu R) : 0 < tgL u -> 0 < tg_ky u.
Proof.
  intros HL. pose proof (tg_kz_pos u HL) as H. unfold tg_ky. revert H.
  generalize (tg_kz u) (tgkx u); intros a b H. unnum. apply sqrt_lt_R0. nra.
Qed.

Lemma tgu_B_div B kx ky kz x y z : 0 < ky -> ky * ky = kz * kz + kx * kx ->
  divergence (tgu_B B kx ky kz) x y z 0.
Proof.
  intros Hk Hs. unfold divergence, tgu_B. cbn [vx vy vz].
  exists (B * (kx / ky * - (kx * sin (kx * x)) * sinh (ky * y) * sin (kz * z))),
    (B * (sin (kz * z) * (kz * sinh (kz * y)) + sin (kx * x) * (ky * sinh (ky * y)) * sin (kz * z))),
    (B * (- (kz * sin (kz * z)) * sinh (kz * y) + kz / ky * sin (kx * x) * sinh (ky * y) * - (kz * sin (kz * z)))).
  unfold cosh, sinh.
  split; [|split; [|split]].
  - auto_derive; [auto|]. field; lra.
  - auto_derive; [auto|]. field; lra.
  - auto_derive; [auto|]. field; lra.
  - transitivity (B * sin (kx * x) * ((exp (ky * y) - exp (- (ky * y))) / 2) * sin (kz * z)
       * ((ky * ky - (kz * kz + kx * kx)) / ky)); [rewrite Hs; field; lra|field; lra].
Qed.
Lemma tgu_B_curl B kx ky kz x y z : 0 < ky -> ky * ky = kz * kz + kx * kx ->
  curl_free (tgu_B B kx ky kz) x y z.
Proof.
  intros Hk Hs. unfold curl_free, tgu_B. cbn [vx vy vz].
  exists (B * (kx / ky * cos (kx * x) * (ky * cosh (ky * y)) * sin (kz * z))),
    (B * (kx / ky * cos (kx * x) * sinh (ky * y) * (kz * cos (kz * z)))),
    (B * ((kx * cos (kx * x)) * cosh (ky * y) * sin (kz * z))),
    (B * (kz * cos (kz * z) * cosh (kz * y) + sin (kx * x) * cosh (ky * y) * (kz * cos (kz * z)))),
    (B * (kz / ky * (kx * cos (kx * x)) * sinh (ky * y) * cos (kz * z))),
    (B * (cos (kz * z) * (kz * cosh (kz * y)) + kz / ky * sin (kx * x) * (ky * cosh (ky * y)) * cos (kz * z))).
  unfold cosh, sinh.
  split; [|split; [|split; [|split; [|split; [|split]]]]];
    [auto_derive; [auto|]; field; lra ..|].
  split; [|split]; field; lra.
Qed.

Lemma tgu_maxwell (u : tgu R) x y z :
  0 < tgL u -> tgM u = 0 ->
  - und_half (tgN u) (tgL u) + tgL u < z < und_half (tgN u) (tgL u) - tgL u ->
  divergence (tgu_F u) x y z 0 /\ curl_free (tgu_F u) x y z.
Proof.
  intros HL HM Hz. unfold tgu_F. rewrite HM.
  set (G := fun x y z => vmul (tgu_B (tgB u) (tgkx u) (tg_ky u) (tg_kz u) x y z) (1 + 0 * sin (tg_kz u * z))).
  assert (HG : forall x y z, G x y z = vmul (tgu_B (tgB u) (tgkx u) (tg_ky u) (tg_kz u) x y z) 1).
  { intros a b c. unfold G. f_equal. ring. }
  assert (Hr : forall a, - und_half (tgN u) (tgL u) + tgL u < a < und_half (tgN u) (tgL u) - tgL u ->
    ramp (- und_half (tgN u) (tgL u)) (und_half (tgN u) (tgL u)) (tgL u) a = 1).
  { intros a Ha. apply ramp_full; lra. }
  assert (H1 : forall a : R, - und_half (tgN u) (tgL u) + tgL u < a < und_half (tgN u) (tgL u) - tgL u -> 1 + 0 * sin (tg_kz u * a) = 1).
  { intros; ring. }
  split.
  - apply (full_divergence G _ _ _ Hr); [exact Hz|].
    apply (full_divergence _ (fun z => 1 + 0 * sin (tg_kz u * z)) _ _ H1); [exact Hz|].
    apply tgu_B_div; [now apply tg_ky_pos|apply tg_ky_sq].
  - apply (full_curl G _ _ _ Hr); [exact Hz|].
    apply (full_curl _ (fun z => 1 + 0 * sin (tg_kz u * z)) _ _ H1); [exact Hz|].
    apply tgu_B_curl; [now apply tg_ky_pos|apply tg_ky_sq].
Qed.

Lemma is_derive_prod (f g : R -> R) a (d e : R) : is_derive f a d -> is_derive g a e ->
  is_derive (fun x => f x * g x) a (d * g a + f a * e).
Proof. intros Hf Hg. apply (is_derive_mult f g a d e Hf Hg). intros; apply Rmult_comm. Qed.
(* with modulation *)
Lemma tgu_mod_div (u : tgu R) x y z :
  0 < tgL u ->
  - und_half (tgN u) (tgL u) + tgL u < z < und_half (tgN u) (tgL u) - tgL u ->
  divergence (tgu_F u) x y z
    (tgM u * (tg_kz u * cos (tg_kz u * z)) * vz (tgu_B (tgB u) (tgkx u) (tg_ky u) (tg_kz u) x y z)).
Proof.
  intros HL Hz. unfold tgu_F.
  set (G := fun x y z => vmul (tgu_B (tgB u) (tgkx u) (tg_ky u) (tg_kz u) x y z) (1 + tgM u * sin (tg_kz u * z))).
  assert (Hr : forall a, - und_half (tgN u) (tgL u) + tgL u < a < und_half (tgN u) (tgL u) - tgL u ->
    ramp (- und_half (tgN u) (tgL u)) (und_half (tgN u) (tgL u)) (tgL u) a = 1).
  { intros a Ha. apply ramp_full; lra. }
  apply (full_divergence G _ _ _ Hr); [exact Hz|]. unfold G. clear G Hr Hz.
  destruct (tgu_B_div (tgB u) (tgkx u) (tg_ky u) (tg_kz u) x y z (tg_ky_pos u HL) (tg_ky_sq u))
    as (dx & dy & dz & H1 & H2 & H3 & H4).
  set (H := tgu_B (tgB u) (tgkx u) (tg_ky u) (tg_kz u)) in *.
  set (m := 1 + tgM u * sin (tg_kz u * z)).
  exists (dx * m), (dy * m), (dz * m + vz (H x y z) * (tgM u * (tg_kz u * cos (tg_kz u * z)))).
  split; [|split; [|split]].
  - eapply (is_derive_r (fun a => vx (H a y z))); [exact H1|reflexivity].
  - eapply (is_derive_r (fun a => vy (H x a z))); [exact H2|reflexivity].
  - apply (is_derive_prod (fun a => vz (H x y a)) (fun a => 1 + tgM u * sin (tg_kz u * a))); [exact H3|].
    generalize (tg_kz u) (tgM u); intros k M. auto_derive; [auto|]. ring.
  - replace (dx * m + dy * m + (dz * m + vz (H x y z) * (tgM u * (tg_kz u * cos (tg_kz u * z)))))
      with ((dx + dy + dz) * m + vz (H x y z) * (tgM u * (tg_kz u * cos (tg_kz u * z)))) by ring.
    rewrite <- H4. ring.
Qed.
Lemma divergence_unique F x y z v w : divergence F x y z v -> divergence F x y z w -> v = w.
Proof.
  intros (a & b & c & A1 & A2 & A3 & ->) (d & e & f & B1 & B2 & B3 & ->).
  rewrite <- (is_derive_unique _ _ _ A1), <- (is_derive_unique _ _ _ A2), <- (is_derive_unique _ _ _ A3).
  now rewrite <- (is_derive_unique _ _ _ B1), <- (is_derive_unique _ _ _ B2), <- (is_derive_unique _ _ _ B3).
Qed.
Lemma sinh_pos a : 0 < a -> 0 < sinh a.
Proof. intros Ha. unfold sinh. pose proof (exp_increasing (- a) a ltac:(lra)). lra. Qed.

(* ---- bounds ---- *)
Lemma tgu_B_bound B kx ky kz x y z : 0 < ky -> ky * ky = kz * kz + kx * kx ->
  vnorm (tgu_B B kx ky kz x y z) <= Rabs B * (cosh (kz * y) + cosh (ky * y)).
Proof.
  intros Hk Hs.
  set (P := planar_B B kz x y z).
  set (g := V (B * (kx / ky * cos (kx * x) * sinh (ky * y) * sin (kz * z)))
              (B * (sin (kx * x) * cosh (ky * y) * sin (kz * z)))
              (B * (kz / ky * sin (kx * x) * sinh (ky * y) * cos (kz * z)))).
  assert (HE : tgu_B B kx ky kz x y z = vadd P g).
  { unfold tgu_B, P, planar_B, g, vadd. cbn [vx vy vz]. unnum. apply f_equal3; ring. }
  rewrite HE. eapply Rle_trans; [apply VecFacts.triangle|].
  rewrite Rmult_plus_distr_l. apply Rplus_le_compat; [apply planar_B_bound|].
  pose proof (cosh_pos (ky * y)) as Hc. pose proof (Rabs_pos B) as HB.
  apply vnorm_le; [nra|].
  replace (Rabs B * cosh (ky * y) * (Rabs B * cosh (ky * y))) with (Rabs B * Rabs B * (cosh (ky * y) * cosh (ky * y))) by ring.
  rewrite <- Rabs_mult, (Rabs_pos_eq (B * B)) by nra.
  unfold g; vunfold; unnum.
  pose proof (cosh_sinh (ky * y)) as H1. pose proof (sincos (kz * z)) as H2. pose proof (sincos (kx * x)) as H3.
  assert (Ha : (kx / ky) * (kx / ky) + (kz / ky) * (kz / ky) = 1).
  { transitivity ((kz * kz + kx * kx) / (ky * ky)); [field; lra|]. rewrite <- Hs. field; lra. }
  set (S := sin (kz * z)) in *. set (C := cos (kz * z)) in *. set (ch := cosh (ky * y)) in *. set (sh := sinh (ky * y)) in *.
  set (s := sin (kx * x)) in *. set (c := cos (kx * x)) in *. set (p := kx / ky) in *. set (q := kz / ky) in *.
  replace (B * (p * c * sh * S) * (B * (p * c * sh * S)) + B * (s * ch * S) * (B * (s * ch * S))
    + B * (q * s * sh * C) * (B * (q * s * sh * C)))
    with (B * B * (p * p * (c * c) * (sh * sh) * (S * S) + s * s * (ch * ch) * (S * S) + q * q * (s * s) * (sh * sh) * (C * C))) by ring.
  apply Rmult_le_compat_l; [nra|].
  assert (Q1 : 0 <= sh * sh <= ch * ch) by nra.
  assert (Q2 : 0 <= s * s <= 1) by nra. assert (Q3 : 0 <= c * c <= 1) by nra.
  assert (Q4 : 0 <= S * S <= 1) by nra. assert (Q5 : 0 <= C * C <= 1) by nra.
  assert (Q6 : 0 <= p * p <= 1) by nra. assert (Q7 : 0 <= q * q <= 1) by nra.
  set (sh2 := sh * sh) in *. set (ch2 := ch * ch) in *. set (s2 := s * s) in *. set (c2 := c * c) in *.
  set (S2 := S * S) in *. set (C2 := C * C) in *. set (p2 := p * p) in *. set (q2 := q * q) in *.
  assert (A1 : p2 * c2 * sh2 * S2 <= c2 * ch2 * S2).
  { apply Rmult_le_compat_r; [lra|]. assert (p2 * c2 <= c2) by nra. assert (0 <= p2 * c2) by nra. nra. }
  assert (A2 : q2 * s2 * sh2 * C2 <= ch2 * C2).
  { apply Rmult_le_compat_r; [lra|]. assert (q2 * s2 <= 1) by nra. assert (0 <= q2 * s2) by nra. nra. }
  replace ch2 with (c2 * ch2 * S2 + s2 * ch2 * S2 + ch2 * C2) at 2; [lra|].
  replace (c2 * ch2 * S2 + s2 * ch2 * S2 + ch2 * C2) with (ch2 * ((s2 + c2) * S2 + C2)) by ring.
  rewrite H3. rewrite Rmult_1_l, H2. ring.
Qed.
Lemma tgu_bound (u : tgu R) x y z : 0 < tgL u ->
  vnorm (tgu_F u x y z) <=
  Rabs (tgB u) * (1 + Rabs (tgM u)) * (cosh (tg_kz u * y) + cosh (tg_ky u * y)).
Proof.
  intros HL. unfold tgu_F. eapply Rle_trans; [apply ramp_bound|]. rewrite vnorm_mul.
  pose proof (tgu_B_bound (tgB u) (tgkx u) (tg_ky u) (tg_kz u) x y z (tg_ky_pos u HL) (tg_ky_sq u)) as H1.
  assert (H2 : Rabs (1 + tgM u * sin (tg_kz u * z)) <= 1 + Rabs (tgM u)).
  { eapply Rle_trans; [apply Rabs_triang|]. rewrite Rabs_R1. apply Rplus_le_compat_l.
    rewrite Rabs_mult. assert (Rabs (sin (tg_kz u * z)) <= 1).
    { apply Rabs_le. pose proof (SIN_bound (tg_kz u * z)). lra. }
    pose proof (Rabs_pos (tgM u)). nra. }
  pose proof (vnorm_nonneg (tgu_B (tgB u) (tgkx u) (tg_ky u) (tg_kz u) x y z)).
  pose proof (Rabs_pos (1 + tgM u * sin (tg_kz u * z))).
  replace (Rabs (tgB u) * (1 + Rabs (tgM u)) * (cosh (tg_kz u * y) + cosh (tg_ky u * y)))
    with ((Rabs (tgB u) * (cosh (tg_kz u * y) + cosh (tg_ky u * y))) * (1 + Rabs (tgM u))) by ring.
  apply Rmult_le_compat; assumption.
Qed.

Lemma tgu_continuous (u : tgu R) x y : continuous_vec (fun z => tgu_F u x y z).
Proof.
  unfold tgu_F, continuous_vec, vmul. cbn [vx vy vz]. unnum.
  split; [|split]; (apply (continuity_mult2 (fun z => _)); [|apply continuity_ramp]);
    apply ex_derive_continuity; intros z; unfold tgu_B, Rdiv; cbn [vx vy vz]; auto_derive; auto.
Qed.
