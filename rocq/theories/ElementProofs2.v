(* The undulator fields *)
From Coq Require Import ZArith List Bool Lia Reals Lra Psatz.
From Coquelicot Require Import Coquelicot.
From Verif Require Import Base Num VecModel VecFacts BaseFacts ParticleModel BunchModel
  ElementModel ElementSpec.
Local Open Scope R_scope.

(* the ramp factor *)
Definition clamp (a : R) : R := Rmax 0 (Rmin 1 a).
Definition ramp (z1 z2 L z : R) : R := clamp ((z - z1) / L) * clamp ((z2 - z) / L).

Lemma clamp_range a : 0 <= clamp a <= 1.
Proof. unfold clamp. split; [apply Rmax_l|]. apply Rmax_lub; [lra|apply Rmin_l]. Qed.
Lemma clamp_0 a : a <= 0 -> clamp a = 0.
Proof. intros H. unfold clamp. rewrite Rmin_right by lra. apply Rmax_left; lra. Qed.
Lemma clamp_1 a : 1 <= a -> clamp a = 1.
Proof. intros H. unfold clamp. rewrite Rmin_left by lra. apply Rmax_right; lra. Qed.
Lemma clamp_id a : 0 <= a <= 1 -> clamp a = a.
Proof. intros H. unfold clamp. rewrite Rmin_right by lra. apply Rmax_right; lra. Qed.
Lemma ramp_range z1 z2 L z : 0 <= ramp z1 z2 L z <= 1.
Proof.
  unfold ramp. destruct (clamp_range ((z - z1) / L)), (clamp_range ((z2 - z) / L)). nra.
Qed.

Lemma div_le_0 a L : 0 < L -> a <= 0 -> a / L <= 0.
Proof. intros HL Ha. apply (Rmult_le_reg_r L); [exact HL|]. field_simplify; lra. Qed.
Lemma div_ge_0 a L : 0 < L -> 0 <= a -> 0 <= a / L.
Proof. intros HL Ha. apply (Rmult_le_reg_r L); [exact HL|]. field_simplify; lra. Qed.
Lemma div_le_1 a L : 0 < L -> a <= L -> a / L <= 1.
Proof. intros HL Ha. apply (Rmult_le_reg_r L); [exact HL|]. field_simplify; lra. Qed.
Lemma div_ge_1 a L : 0 < L -> L <= a -> 1 <= a / L.
Proof. intros HL Ha. apply (Rmult_le_reg_r L); [exact HL|]. field_simplify; lra. Qed.

Lemma vmul_1 (B : vec R) : vmul B 1 = B.
Proof. vring. Qed.
Lemma vmul_mul (B : vec R) a b : vmul (vmul B a) b = vmul B (a * b).
Proof. vring. Qed.
Lemma vmul_0 (B : vec R) : vmul B 0 = vzero.
Proof. vring. Qed.

Lemma und_ramp (z1 z2 L z : R) (B : vec R) : 0 < L ->
  (if nleb z1 z && nltb z z2 then und_ramps z1 z2 L z B else vzero)
  = vmul B (ramp z1 z2 L z).
Proof.
  intros HL. unfold ramp, und_ramps. unnum.
  destruct (Rleb_spec z1 z) as [H1|H1]; cbn [andb].
  - destruct (Rltb_spec z z2) as [H2|H2].
    + destruct (Rltb_spec z (z1 + L)) as [H3|H3]; destruct (Rleb_spec (z2 - L) z) as [H4|H4].
      * rewrite !clamp_id; [apply vmul_mul| |]; split;
          solve [apply div_ge_0; lra|apply div_le_1; lra].
      * rewrite (clamp_1 ((z2 - z) / L)) by (apply div_ge_1; lra).
        rewrite clamp_id, Rmult_1_r; [reflexivity|]; split;
          solve [apply div_ge_0; lra|apply div_le_1; lra].
      * rewrite (clamp_1 ((z - z1) / L)) by (apply div_ge_1; lra).
        rewrite clamp_id, Rmult_1_l; [reflexivity|]; split;
          solve [apply div_ge_0; lra|apply div_le_1; lra].
      * rewrite !clamp_1, Rmult_1_r; [now rewrite vmul_1|apply div_ge_1; lra|apply div_ge_1; lra].
    + rewrite (clamp_0 ((z2 - z) / L)) by (apply div_le_0; lra).
      rewrite Rmult_0_r. symmetry; apply vmul_0.
  - rewrite (clamp_0 ((z - z1) / L)) by (apply div_le_0; lra).
    rewrite Rmult_0_l. symmetry; apply vmul_0.
Qed.

Lemma continuity_ext (f g : R -> R) : (forall a, f a = g a) -> continuity f -> continuity g.
Proof.
  intros He Hf a eps Heps. destruct (Hf a eps Heps) as (d & Hd & H). exists d. split; [exact Hd|].
  intros x Hx. rewrite <- !He. apply H, Hx.
Qed.
Lemma continuity_Rmin1 : continuity (fun a => Rmin 1 a).
Proof.
  apply (continuity_ext (fun a => (1 + a - Rabs (1 - a)) / 2)).
  - intros a. unfold Rmin. destruct (Rle_dec 1 a) as [H|H].
    + rewrite Rabs_left1; lra.
    + rewrite Rabs_pos_eq; lra.
  - intros a. apply (continuity_pt_mult (fun a => 1 + a - Rabs (1 - a)) (fun _ => / 2)).
    + apply (continuity_pt_minus (fun a => 1 + a) (fun a => Rabs (1 - a))).
      * apply continuity_pt_plus; [apply continuity_const; intros ? ?; reflexivity|apply derivable_continuous_pt, derivable_pt_id].
      * apply (continuity_pt_comp (fun a => 1 - a) Rabs); [|apply Rcontinuity_abs].
        apply continuity_pt_minus; [apply continuity_const; intros ? ?; reflexivity|apply derivable_continuous_pt, derivable_pt_id].
    + apply continuity_const; intros ? ?; reflexivity.
Qed.
Lemma continuity_Rmax0 : continuity (fun a => Rmax 0 a).
Proof.
  apply (continuity_ext (fun a => (a + Rabs a) * / 2)).
  - intros a. unfold Rmax. destruct (Rle_dec 0 a) as [H|H].
    + rewrite Rabs_pos_eq; lra.
    + rewrite Rabs_left1; lra.
  - intros a. apply (continuity_pt_mult (fun a => a + Rabs a) (fun _ => / 2)).
    + apply continuity_pt_plus; [apply derivable_continuous_pt, derivable_pt_id|apply Rcontinuity_abs].
    + apply continuity_const; intros ? ?; reflexivity.
Qed.
Lemma continuity_clamp : continuity clamp.
Proof.
  intros a. apply (continuity_pt_comp (fun a => Rmin 1 a) (fun a => Rmax 0 a));
    [apply continuity_Rmin1|apply continuity_Rmax0].
Qed.
Lemma ex_derive_continuity (f : R -> R) : (forall a, ex_derive f a) -> continuity f.
Proof. intros Hf a. apply continuity_pt_filterlim. apply (ex_derive_continuous f a), Hf. Qed.
Lemma continuity_ramp z1 z2 L : continuity (ramp z1 z2 L).
Proof.
  intros a. unfold ramp.
  apply (continuity_pt_mult (fun z => clamp ((z - z1) / L)) (fun z => clamp ((z2 - z) / L))).
  - apply (continuity_pt_comp (fun z => (z - z1) / L) clamp); [|apply continuity_clamp].
    apply ex_derive_continuity. intros z. unfold Rdiv. auto_derive; auto.
  - apply (continuity_pt_comp (fun z => (z2 - z) / L) clamp); [|apply continuity_clamp].
    apply ex_derive_continuity. intros z. unfold Rdiv. auto_derive; auto.
Qed.
Lemma continuity_mult2 f g : continuity f -> continuity g -> continuity (fun a => f a * g a).
Proof. intros Hf Hg a. apply continuity_pt_mult; auto. Qed.

(* outside the ramps the factor is one *)
Lemma ramp_full z1 z2 L z : 0 < L -> z1 + L <= z -> z <= z2 - L -> ramp z1 z2 L z = 1.
Proof.
  intros HL H1 H2. unfold ramp. rewrite !clamp_1; [ring| |]; apply div_ge_1; lra.
Qed.
Lemma ramp_outside z1 z2 L z : 0 < L -> z <= z1 \/ z2 <= z -> ramp z1 z2 L z = 0.
Proof.
  intros HL [H|H]; unfold ramp.
  - rewrite (clamp_0 ((z - z1) / L)) by (apply div_le_0; lra). ring.
  - rewrite (clamp_0 ((z2 - z) / L)) by (apply div_le_0; lra). ring.
Qed.

(* ---- the ends ---- *)
Lemma und_ends_ok n L : (int_min <= n < int_max)%Z ->
  und_ends n L = Ok (- und_half n L, und_half n L).
Proof.
  intros Hn. unfold und_ends, iadd, to_int. 
  assert (Hi : in_int (n + 1) = true).
  { unfold in_int. apply andb_true_iff. split; apply Z.leb_le; unfold int_min, int_max in *; lia. }
  rewrite Hi. cbn [bind]. unfold und_half. unnum. rewrite opp_IZR. apply f_equal, f_equal2; [field|reflexivity].
Qed.
Lemma und_ends_overflow (L : R) : und_ends int_max L = UB.
Proof. reflexivity. Qed.

(* ---- the planar undulator ---- *)
Definition planar_B (B k x y z : R) : vec R :=
  V 0 (B * sin (k * z) * cosh (k * y)) (B * cos (k * z) * sinh (k * y)).
Definition planar_F (u : planar R) : field3 := fun x y z =>
  vmul (planar_B (puB u) (pu_kz u) x y z)
       (ramp (- und_half (puN u) (puL u)) (und_half (puN u) (puL u)) (puL u) z).
Lemma planar_static (u : planar R) : 0 < puL u -> (int_min <= puN u < int_max)%Z ->
  magnetostatic (planar_local u) (planar_F u).
Proof.
  intros HL Hn t x y z. unfold planar_local. rewrite und_ends_ok by exact Hn. cbn [bind vz vy].
  rewrite und_ramp by exact HL. reflexivity.
Qed.

Lemma cosh_pos a : 1 <= cosh a.
Proof.
  unfold cosh. pose proof (exp_pos a). assert (exp a * exp (- a) = 1) by (rewrite <- exp_plus; replace (a + - a) with 0 by ring; apply exp_0).
  assert (0 < exp (- a)) by apply exp_pos.
  set (p := exp a) in *. set (q := exp (- a)) in *. pose proof (Rle_0_sqr (p - q)) as Hs. unfold Rsqr in Hs.
  assert (4 <= (p + q) * (p + q)) by nra. assert (2 <= p + q) by nra. lra.
Qed.
Lemma cosh_sinh a : cosh a * cosh a - sinh a * sinh a = 1.
Proof.
  unfold cosh, sinh. assert (exp a * exp (- a) = 1) by (rewrite <- exp_plus; replace (a + - a) with 0 by ring; apply exp_0).
  nra.
Qed.
Lemma sincos a : sin a * sin a + cos a * cos a = 1.
Proof. exact (sin2_cos2 a). Qed.

Lemma vnorm_le (v : vec R) b : 0 <= b -> vabs2 v <= b * b -> vnorm v <= b.
Proof.
  intros Hb Hv. rewrite vnorm_sqrt. rewrite <- (sqrt_square b Hb). now apply sqrt_le_1_alt.
Qed.
Lemma vnorm_mul (v : vec R) f : vnorm (vmul v f) = vnorm v * Rabs f.
Proof.
  rewrite !vnorm_sqrt. rewrite <- sqrt_Rsqr_abs. rewrite <- sqrt_mult_alt by apply vabs2_nonneg.
  f_equal. destruct v; vunfold; unnum; unfold Rsqr; ring.
Qed.
Lemma planar_B_bound B k x y z : vnorm (planar_B B k x y z) <= Rabs B * cosh (k * y).
Proof.
  pose proof (cosh_pos (k * y)) as Hc. pose proof (Rabs_pos B) as HB.
  apply vnorm_le; [nra|].
  replace (Rabs B * cosh (k * y) * (Rabs B * cosh (k * y))) with (Rabs B * Rabs B * (cosh (k * y) * cosh (k * y))) by ring.
  rewrite <- Rabs_mult, (Rabs_pos_eq (B * B)) by nra.
  unfold planar_B; vunfold; unnum.
  pose proof (cosh_sinh (k * y)) as H1. pose proof (sincos (k * z)) as H2.
  set (S := sin (k * z)) in *. set (C := cos (k * z)) in *. set (ch := cosh (k * y)) in *. set (sh := sinh (k * y)) in *.
  replace (0 * 0 + B * S * ch * (B * S * ch) + B * C * sh * (B * C * sh))
    with (B * B * (S * S * (ch * ch) + C * C * (sh * sh))) by ring.
  apply Rmult_le_compat_l; [nra|].
  replace (sh * sh) with (ch * ch - 1) by lra. replace (S * S) with (1 - C * C) by lra. nra.
Qed.
Lemma ramp_bound (v : vec R) z1 z2 L z : vnorm (vmul v (ramp z1 z2 L z)) <= vnorm v.
Proof.
  rewrite vnorm_mul. destruct (ramp_range z1 z2 L z) as [H1 H2]. rewrite Rabs_pos_eq by exact H1.
  pose proof (vnorm_nonneg v). nra.
Qed.

Lemma planar_continuous (u : planar R) x y : continuous_vec (fun z => planar_F u x y z).
Proof.
  unfold planar_F, planar_B, vmul. cbn [vx vy vz]. unnum.
  assert (Hs : continuity (fun z => sin (pu_kz u * z))).
  { apply ex_derive_continuity. intros z. auto_derive; auto. }
  assert (Hc : continuity (fun z => cos (pu_kz u * z))).
  { apply ex_derive_continuity. intros z. auto_derive; auto. }
  split; [|split]; (apply (continuity_mult2 (fun z => _)); [|apply continuity_ramp]).
  - apply continuity_const; intros ? ?; reflexivity.
  - apply (continuity_mult2 (fun z => puB u * sin (pu_kz u * z)) (fun _ => cosh (pu_kz u * y)));
      [apply (continuity_mult2 (fun _ => puB u)); [|exact Hs]|]; apply continuity_const; intros ? ?; reflexivity.
  - apply (continuity_mult2 (fun z => puB u * cos (pu_kz u * z)) (fun _ => sinh (pu_kz u * y)));
      [apply (continuity_mult2 (fun _ => puB u)); [|exact Hc]|]; apply continuity_const; intros ? ?; reflexivity.
Qed.

(* the full-strength part: z in the open interval, derivatives of a field that there equals G *)
Lemma und_full_deriv (G : field3) (r : R -> R) z1 z2 x y z (pr : vec R -> R) d :
  (forall z, z1 < z < z2 -> r z = 1) -> z1 < z < z2 ->
  (forall v f, pr (vmul v f) = pr v * f) ->
  is_derive (fun a => pr (G x y a)) z d ->
  is_derive (fun a => pr (vmul (G x y a) (r a))) z d.
Proof.
  intros Hr Hz Hp Hd. apply (is_derive_ext_loc (fun a => pr (G x y a))); [|exact Hd].
  assert (He : 0 < Rmin (z - z1) (z2 - z)) by (apply Rmin_glb_lt; lra).
  exists (mkposreal _ He). intros a Ha.
  unfold ball in Ha; cbn in Ha; unfold AbsRing_ball, abs, minus, plus, opp in Ha; cbn in Ha.
  assert (Rabs (a + - z) < z - z1) by (eapply Rlt_le_trans; [exact Ha|apply Rmin_l]).
  assert (Rabs (a + - z) < z2 - z) by (eapply Rlt_le_trans; [exact Ha|apply Rmin_r]).
  rewrite Hp, Hr; [symmetry; apply Rmult_1_r|]. split.
  - apply Rabs_lt_between in H. lra.
  - apply Rabs_lt_between in H0. lra.
Qed.

Lemma is_derive_mul1 f r a d : r = 1 -> is_derive f a d -> is_derive (fun x => f x * r) a d.
Proof. intros ->. apply is_derive_ext. intros t. symmetry; apply Rmult_1_r. Qed.

Section Full.
Variables (G : field3) (r : R -> R) (z1 z2 : R).
Hypothesis Hr : forall z, z1 < z < z2 -> r z = 1.
Let F : field3 := fun x y z => vmul (G x y z) (r z).
Lemma full_divergence x y z v : z1 < z < z2 -> divergence G x y z v -> divergence F x y z v.
Proof.
  intros Hz (dx & dy & dz & H1 & H2 & H3 & Hv). exists dx, dy, dz. unfold F.
  split; [|split; [|split]]; [| | |exact Hv].
  - apply (is_derive_mul1 (fun a => vx (G a y z))); auto.
  - apply (is_derive_mul1 (fun a => vy (G x a z))); auto.
  - apply (und_full_deriv G r z1 z2 x y z (@vz R)); auto.
Qed.
Lemma full_curl x y z : z1 < z < z2 -> curl_free G x y z -> curl_free F x y z.
Proof.
  intros Hz (a & b & c & d & e & f & H1 & H2 & H3 & H4 & H5 & H6 & H7).
  exists a, b, c, d, e, f. unfold F. split; [|split; [|split; [|split; [|split; [|split; [|exact H7]]]]]].
  - apply (is_derive_mul1 (fun a => vx (G x a z))); auto.
  - apply (und_full_deriv G r z1 z2 x y z (@vx R)); auto.
  - apply (is_derive_mul1 (fun a => vy (G a y z))); auto.
  - apply (und_full_deriv G r z1 z2 x y z (@vy R)); auto.
  - apply (is_derive_mul1 (fun a => vz (G a y z))); auto.
  - apply (is_derive_mul1 (fun a => vz (G x a z))); auto.
Qed.
End Full.

Lemma is_derive_cosh k a : is_derive (fun a => cosh (k * a)) a (k * sinh (k * a)).
Proof. unfold cosh, sinh. auto_derive; [auto|]. field. Qed.
Lemma is_derive_sinh k a : is_derive (fun a => sinh (k * a)) a (k * cosh (k * a)).
Proof. unfold cosh, sinh. auto_derive; [auto|]. field. Qed.
Lemma is_derive_sin' k a : is_derive (fun a => sin (k * a)) a (k * cos (k * a)).
Proof. auto_derive; [auto|]. ring. Qed.
Lemma is_derive_cos' k a : is_derive (fun a => cos (k * a)) a (- (k * sin (k * a))).
Proof. auto_derive; [auto|]. ring. Qed.
(* constant factors *)
Lemma is_derive_l (f : R -> R) c a d e : is_derive f a d -> e = c * d -> is_derive (fun x => c * f x) a e.
Proof. intros Hd ->. exact (is_derive_scal f a c d Hd). Qed.
Lemma is_derive_r (f : R -> R) c a d e : is_derive f a d -> e = d * c -> is_derive (fun x => f x * c) a e.
Proof.
  intros Hd ->. apply (is_derive_ext (fun x => c * f x)); [intros t; apply Rmult_comm|].
  rewrite Rmult_comm. exact (is_derive_scal f a c d Hd).
Qed.
Lemma is_derive_c (c a d : R) : d = 0 -> is_derive (fun _ => c) a d.
Proof. intros ->. exact (is_derive_const (K := R_AbsRing) (V := R_NormedModule) c a). Qed.

Lemma planar_B_div B k x y z : divergence (planar_B B k) x y z 0.
Proof.
  unfold divergence, curl_free, planar_B. cbn [vx vy vz].
  exists 0, (B * sin (k * z) * (k * sinh (k * y))), (B * - (k * sin (k * z)) * sinh (k * y)).
  split; [|split; [|split]].
  - now apply is_derive_c.
  - eapply is_derive_l; [apply is_derive_cosh|reflexivity].
  - eapply (is_derive_r (fun a => B * cos (k * a))); [|reflexivity].
    eapply is_derive_l; [apply is_derive_cos'|reflexivity].
  - ring.
Qed.
Lemma planar_B_curl B k x y z : curl_free (planar_B B k) x y z.
Proof.
  unfold divergence, curl_free, planar_B. cbn [vx vy vz].
  exists 0, 0, 0, (B * (k * cos (k * z)) * cosh (k * y)), 0, (B * cos (k * z) * (k * cosh (k * y))).
  split; [|split; [|split; [|split; [|split; [|split]]]]].
  - now apply is_derive_c.
  - now apply is_derive_c.
  - now apply is_derive_c.
  - eapply (is_derive_r (fun a => B * sin (k * a))); [|reflexivity].
    eapply is_derive_l; [apply is_derive_sin'|reflexivity].
  - now apply is_derive_c.
  - eapply is_derive_l; [apply is_derive_sinh|reflexivity].
  - repeat split; ring.
Qed.
