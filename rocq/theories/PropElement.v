(* Properties of the lattice and its elements: C47 - C51.
   Real arithmetic with the mathematical functions sin, cos, sinh, cosh, atan, exp. *)
From Coq Require Import ZArith List Bool Lia Reals Lra Permutation.
From Coquelicot Require Import Coquelicot.
From Verif Require Import Base Num VecModel VecFacts ParticleModel BunchModel NumChecked
  ElementModel ElementSpec ElementProofs ElementProofs2 ElementProofs3 ElementProofs4.
Import ListNotations.
Local Open Scope R_scope.

(* ================= C47 ================= *)
(* The field of the lattice is the sum of the fields of its elements *)
Theorem C47_sum : forall (els : list (element R)) t X fs,
  Forall2 (fun e f => element_field e t X = Ok f) els fs ->
  lat_field els t X = Ok (sum_of fs).
Proof. intros; now apply lat_sum. Qed.
Print Assumptions C47_sum.
(* and if it is defined all the fields of the elements are *)
Theorem C47_only_sum : forall (els : list (element R)) t X f,
  lat_field els t X = Ok f ->
  exists fs, Forall2 (fun e f => element_field e t X = Ok f) els fs /\ f = sum_of fs.
Proof. intros; now apply lat_inv. Qed.
Print Assumptions C47_only_sum.

(* independent of the order *)
Theorem C47_order : forall (els els' : list (element R)) t X f,
  Permutation els els' -> lat_field els t X = Ok f -> lat_field els' t X = Ok f.
Proof. exact lat_perm. Qed.
Print Assumptions C47_order.

(* adding an element *)
Theorem C47_add : forall (els : list (element R)) e t X f g,
  lat_field els t X = Ok f -> element_field e t X = Ok g ->
  lat_field (lat_add els e) t X = Ok (eadd f g).
Proof. exact lat_app_ok. Qed.
Print Assumptions C47_add.

(* removing the element with the index i; up to 2^31-1 elements *)
Theorem C47_remove : forall (els : list (element R)) i,
  (Z.of_nat (length els) <= int_max)%Z -> (0 <= i < Z.of_nat (length els))%Z ->
  exists a e b, els = a ++ e :: b /\ Z.of_nat (length a) = i /\
    lat_at els i = Ok e /\ lat_remove els i = Ok (a ++ b) /\
    (forall t X f g, lat_field els t X = Ok f -> element_field e t X = Ok g ->
       lat_field (a ++ b) t X = Ok (esub f g)).
Proof.
  intros els i Hl Hi. destruct (lat_remove_ok els i Hl Hi) as (a & e & b & -> & H1 & H2 & H3).
  exists a, e, b. split; [reflexivity|]. split; [exact H1|]. split; [exact H2|]. split; [exact H3|].
  intros t X f g. apply lat_remove_field.
Qed.
Print Assumptions C47_remove.

(* the reported number of elements *)
Theorem C47_count : forall (els : list (element R)) e,
  (Z.of_nat (length els) < int_max)%Z ->
  lat_count els = Z.of_nat (length els) /\ lat_count (lat_add els e) = (lat_count els + 1)%Z.
Proof.
  intros els e H. rewrite !lat_count_id; unfold lat_add; rewrite ?app_length; cbn [length]; lia.
Qed.
Print Assumptions C47_count.

(* indices outside the lattice (i is an int) are refused *)
Theorem C47_refused : forall (els : list (element R)) i,
  (i < 0 \/ Z.of_nat (length els) <= i)%Z -> (i <= int_max)%Z ->
  lat_at els i = Throw IOexc /\ lat_remove els i = Throw IOexc.
Proof.
  intros els i Hi Hm. unfold lat_at, lat_remove. rewrite lat_bad_true by assumption. now split.
Qed.
Print Assumptions C47_refused.

Definition ex_f1 : emf R := EB (V 1 2 3) (V 0 0 1).
Definition ex_f2 : emf R := EB (V 0 1 0) (V 4 0 0).
Definition ex_und : element R := Localized 0 (V 0 0 10) (LPlanar (PU 1 (1/10) 5)).
Example ex_C47 :
  let els := [Homogeneous ex_f1; Homogeneous ex_f2] in
  lat_field els 0 vzero = Ok (sum_of [ex_f1; ex_f2]) /\
  lat_remove els 0 = Ok [Homogeneous ex_f2] /\
  lat_remove els 2 = Throw IOexc /\ lat_at els (-1) = Throw IOexc.
Proof.
  cbn zeta. split; [apply C47_sum; repeat constructor|]. now repeat split.
Qed.

(* ================= C48 ================= *)
(* an element displaced by dt in time and d in space has the field displaced by the same *)
Theorem C48_displaced : forall dt d (e e' : element R) t X,
  displaced dt d e e' -> element_field e' (t + dt) (vadd X d) = element_field e t X.
Proof. exact displaced_field. Qed.
Print Assumptions C48_displaced.
(* also a lattice of such elements *)
Theorem C48_displaced_lattice : forall dt d (els els' : list (element R)) t X,
  Forall2 (displaced dt d) els els' ->
  lat_field els' (t + dt) (vadd X d) = lat_field els t X.
Proof. exact displaced_lattice. Qed.
Print Assumptions C48_displaced_lattice.
Example ex_C48 : displaced 3 (V 1 2 3) ex_und (Localized (0 + 3) (vadd (V 0 0 10) (V 1 2 3)) (LPlanar (PU 1 (1/10) 5))).
Proof. exists 0, (V 0 0 10), (LPlanar (PU 1 (1/10) 5)). now split. Qed.

(* ================= C49 ================= *)
(* N: number of periods below the largest int; period > 0.
   The field is static, purely magnetic; it is given by F, which
     vanishes outside the undulator, is continuous along z, is bounded, and satisfies
     Maxwell's equations in the open full-strength part *)
Definition und_outside (n : Z) (l z : R) : Prop := z <= - und_half n l \/ und_half n l <= z.
Definition und_full (n : Z) (l z : R) : Prop := - und_half n l + l < z < und_half n l - l.

Theorem C49_planar : forall u : planar R, 0 < puL u -> (int_min <= puN u < int_max)%Z ->
  exists F, magnetostatic (planar_local u) F /\
    (forall x y z, und_outside (puN u) (puL u) z -> F x y z = vzero) /\
    (forall x y, continuous_vec (fun z => F x y z)) /\
    (forall x y z, vnorm (F x y z) <= Rabs (puB u) * cosh (2 * PI / puL u * y)) /\
    (forall x y z, und_full (puN u) (puL u) z -> divergence F x y z 0 /\ curl_free F x y z) /\
    (forall x y z, und_full (puN u) (puL u) z ->
       vy (F x y z) = puB u * sin (2 * PI / puL u * z) * cosh (2 * PI / puL u * y)).
Proof.
  intros u HL Hn. exists (planar_F u). split; [now apply planar_static|].
  assert (Hr : forall a, und_full (puN u) (puL u) a ->
    ramp (- und_half (puN u) (puL u)) (und_half (puN u) (puL u)) (puL u) a = 1).
  { intros a Ha. unfold und_full in Ha. apply ramp_full; lra. }
  split; [|split; [|split; [|split]]].
  - intros x y z Hz. unfold planar_F. rewrite ramp_outside by assumption. apply vmul_0.
  - intros x y. apply planar_continuous.
  - intros x y z. unfold planar_F. eapply Rle_trans; [apply ramp_bound|]. apply planar_B_bound.
  - intros x y z Hz. split.
    + apply (full_divergence (planar_B (puB u) (pu_kz u)) _ _ _ Hr); [exact Hz|apply planar_B_div].
    + apply (full_curl (planar_B (puB u) (pu_kz u)) _ _ _ Hr); [exact Hz|apply planar_B_curl].
  - intros x y z Hz. unfold planar_F. rewrite (Hr z Hz), vmul_1. reflexivity.
Qed.
Print Assumptions C49_planar.
Example ex_C49 : let u := PU 1 (1/10) 5 in 0 < puL u /\ (int_min <= puN u < int_max)%Z /\
  und_full (puN u) (puL u) 0 /\ und_outside (puN u) (puL u) 1.
Proof. unfold und_full, und_outside, und_half, int_min, int_max; cbn; split; [lra|]. split; [lia|]. lra. Qed.

(* The transverse gradient undulator: zero outside and continuous.  Without modulation of the
   pole strength it satisfies Maxwell's equations.  Missing: the bound by the nominal amplitude
   times cosh (k y), instead the amplitude may double and the modulation adds to it; Maxwell's
   equations with modulation; see the refutations below *)
Theorem C49_tgu_partial : forall u : tgu R, 0 < tgL u -> (int_min <= tgN u < int_max)%Z ->
  let kz := 2 * PI / tgL u in
  let ky := sqrt (kz * kz + tgkx u * tgkx u) in
  exists F, magnetostatic (tgu_local u) F /\
    (forall x y z, und_outside (tgN u) (tgL u) z -> F x y z = vzero) /\
    (forall x y, continuous_vec (fun z => F x y z)) /\
    (forall x y z, vnorm (F x y z) <=
       Rabs (tgB u) * (1 + Rabs (tgM u)) * (cosh (kz * y) + cosh (ky * y))) /\
    (tgM u = 0 -> forall x y z, und_full (tgN u) (tgL u) z ->
       divergence F x y z 0 /\ curl_free F x y z).
Proof.
  intros u HL Hn kz ky. exists (tgu_F u). split; [now apply tgu_static|].
  split; [|split; [|split]].
  - intros x y z Hz. unfold tgu_F. rewrite ramp_outside by assumption. apply vmul_0.
  - intros x y. apply tgu_continuous.
  - intros x y z. now apply tgu_bound.
  - intros HM x y z Hz. now apply tgu_maxwell.
Qed.
Print Assumptions C49_tgu_partial.
(* the fields themselves; und_taper is linear over one period at both ends *)
Theorem C49_planar_value : forall (u : planar R) t x y z, 0 < puL u -> (int_min <= puN u < int_max)%Z ->
  let k := 2 * PI / puL u in
  planar_local u t (V x y z) =
  Ok (EB vzero (vmul (V 0 (puB u * sin (k * z) * cosh (k * y)) (puB u * cos (k * z) * sinh (k * y)))
                     (und_taper (puN u) (puL u) z))).
Proof.
  intros u t x y z HL Hn k. rewrite (planar_static u HL Hn t x y z). unfold planar_F, ramp, clamp, und_taper.
  replace (z - - und_half (puN u) (puL u)) with (und_half (puN u) (puL u) + z) by ring. reflexivity.
Qed.
Print Assumptions C49_planar_value.
Theorem C49_tgu_value : forall (u : tgu R) t x y z, 0 < tgL u -> (int_min <= tgN u < int_max)%Z ->
  let kx := tgkx u in let kz := 2 * PI / tgL u in let ky := sqrt (kz * kz + kx * kx) in
  let a := tgB u * (1 + tgM u * sin (kz * z)) * und_taper (tgN u) (tgL u) z in
  tgu_local u t (V x y z) =
  Ok (EB vzero (V (a * (kx / ky * cos (kx * x) * sinh (ky * y) * sin (kz * z)))
                  (a * ((cosh (kz * y) + sin (kx * x) * cosh (ky * y)) * sin (kz * z)))
                  (a * ((sinh (kz * y) + kz / ky * sin (kx * x) * sinh (ky * y)) * cos (kz * z))))).
Proof.
  intros u t x y z HL Hn kx kz ky a. rewrite (tgu_static u HL Hn t x y z). unfold tgu_F, ramp, clamp.
  replace (z - - und_half (tgN u) (tgL u)) with (und_half (tgN u) (tgL u) + z) by ring.
  change (tg_kz u) with kz. change (tg_ky u) with ky. unfold a, und_taper, tgu_B. fold kx.
  apply f_equal, f_equal. unfold vmul. cbn [vx vy vz]. unnum. unfold Rdiv. apply f_equal3; ring.
Qed.
Print Assumptions C49_tgu_value.
Theorem C49_taper : forall n l z, 0 < l -> (1 <= n)%Z ->
  let e := und_half n l in
  (z <= - e -> und_taper n l z = 0) /\
  (- e <= z <= - e + l -> und_taper n l z = (z + e) / l) /\
  (- e + l <= z <= e - l -> und_taper n l z = 1) /\
  (e - l <= z <= e -> und_taper n l z = (e - z) / l) /\
  (e <= z -> und_taper n l z = 0).
Proof.
  intros n l z Hl Hn e. unfold und_taper. fold e.
  assert (He : l <= e).
  { unfold e, und_half. assert (2 <= IZR (n + 1)) by (apply IZR_le; lia). nra. }
  change (Rmax 0 (Rmin 1 ((e + z) / l))) with (clamp ((e + z) / l)).
  change (Rmax 0 (Rmin 1 ((e - z) / l))) with (clamp ((e - z) / l)).
  assert (P : forall a, a <= 0 -> clamp (a / l) = 0) by (intros a Ha; apply clamp_0, div_le_0; lra).
  assert (Q : forall a, l <= a -> clamp (a / l) = 1) by (intros a Ha; apply clamp_1, div_ge_1; lra).
  assert (I : forall a, 0 <= a <= l -> clamp (a / l) = a / l).
  { intros a Ha. apply clamp_id. split; [apply Rle_mult_inv_pos; lra|].
    apply Rmult_le_reg_r with l; [exact Hl|]. unfold Rdiv. rewrite Rmult_assoc, Rinv_l by lra. lra. }
  split; [|split; [|split; [|split]]]; intros Hz.
  - rewrite (P (e + z)) by lra. ring.
  - rewrite (I (e + z)), (Q (e - z)) by lra. unfold Rdiv. ring.
  - rewrite (Q (e + z)), (Q (e - z)) by lra. ring.
  - rewrite (Q (e + z)), (I (e - z)) by lra. ring.
  - rewrite (P (e - z)) by lra. ring.
Qed.
Print Assumptions C49_taper.
Example C49_value_ex : 0 < puL (PU 1 2 5) /\ (int_min <= puN (PU 1 2 5) < int_max)%Z /\ und_half 5 2 = 6.
Proof. unfold int_min, int_max, und_half. cbn. split; [lra|]. split; [lia|lra]. Qed.
Example ex_C49_tgu : let u := TG 1 2 0 (1/10) 5 in 0 < tgL u /\ (int_min <= tgN u < int_max)%Z /\ tgM u = 0.
Proof. unfold int_min, int_max; cbn; split; [lra|]. split; [lia|reflexivity]. Qed.

(* Every modulated gradient undulator of at least two periods has divergence somewhere in its
   full-strength part *)
Theorem C49_modulation_refuted : forall u : tgu R,
  0 < tgL u -> (2 <= tgN u < int_max)%Z -> tgB u <> 0 -> tgM u <> 0 ->
  exists x y z, und_full (tgN u) (tgL u) z /\
    forall F, magnetostatic (tgu_local u) F -> ~ divergence F x y z 0.
Proof.
  intros u HL Hn HB HM. exists 0, 1, 0.
  assert (Hz : und_full (tgN u) (tgL u) 0).
  { unfold und_full, und_half. assert (3 <= IZR (tgN u + 1)) by (apply IZR_le; lia). nra. }
  split; [exact Hz|]. intros F HF HD.
  assert (HS : magnetostatic (tgu_local u) (tgu_F u)) by (apply tgu_static; unfold int_min in *; [exact HL|lia]).
  assert (HE : forall x y z, F x y z = tgu_F u x y z).
  { intros x y z. pose proof (HF 0 x y z) as E1. rewrite (HS 0 x y z) in E1. congruence. }
  assert (HD' : divergence (tgu_F u) 0 1 0 0).
  { destruct HD as (a & b & c & D1 & D2 & D3 & D4). exists a, b, c.
    split; [|split; [|split; [|exact D4]]]; eapply is_derive_ext; try eassumption; cbn beta; intros t; now rewrite HE. }
  pose proof (divergence_unique _ _ _ _ _ _ HD' (tgu_mod_div u 0 1 0 HL Hz)) as HU.
  pose proof (tg_kz_pos u HL) as Hk. revert HU Hk. generalize (tg_kz u) (tg_ky u). intros kz ky HU Hk.
  unfold tgu_B in HU. cbn [vz] in HU. rewrite !Rmult_0_r, sin_0, cos_0, !Rmult_1_r in HU.
  pose proof (sinh_pos kz Hk) as Hs.
  rewrite Rmult_0_r, !Rmult_0_l, Rplus_0_r, Rmult_1_l in HU.
  symmetry in HU. apply Rmult_integral in HU as [HU|HU]; apply Rmult_integral in HU as [HU|HU]; lra.
Qed.
Print Assumptions C49_modulation_refuted.
Example ex_C49_mod : let u := TG 1 2 (1/10) (1/10) 5 in 0 < tgL u /\ (2 <= tgN u < int_max)%Z /\ tgB u <> 0 /\ tgM u <> 0.
Proof. unfold int_max; cbn; split; [lra|]. split; [lia|]. split; lra. Qed.

(* The field on the middle plane of a gradient undulator exceeds the nominal amplitude, which
   would be the bound at y=0; undulator with kx=1 *)
Theorem C49_tgu_amplitude_refuted : exists (u : tgu R) X f,
  0 < tgL u /\ tgM u = 0 /\ vy X = 0 /\ tgu_local u 0 X = Ok f /\
  vnorm (fB f) > Rabs (tgB u) * cosh (2 * PI / tgL u * vy X).
Proof.
  set (u := TG 1 1 0 4 5). exists u, (V (PI / 2) 0 1), (EB vzero (tgu_F u (PI / 2) 0 1)).
  split; [cbn; lra|]. split; [reflexivity|]. split; [reflexivity|]. split.
  { apply (tgu_static u); [cbn; lra|unfold int_min, int_max; cbn; lia]. }
  assert (HF : tgu_F u (PI / 2) 0 1 = V 0 2 0).
  { unfold tgu_F. rewrite ramp_full; unfold und_half; cbn [tgN tgL tgM tgB tgkx u]; [|lra|cbn; lra|cbn; lra].
    assert (Hk : tg_kz u = PI / 2).
    { unfold tg_kz. cbn [tgL u nPi NumR]. unnum. field. }
    rewrite vmul_1. rewrite Hk. generalize (tg_ky u). intros ky.
    unfold tgu_B, vmul. cbn [vx vy vz]. unnum.
    rewrite !Rmult_0_r, !Rmult_1_r, !Rmult_1_l, sin_PI2, cos_PI2.
    replace (cosh 0) with 1 by (unfold cosh; rewrite Ropp_0, exp_0; field).
    replace (sinh 0) with 0 by (unfold sinh; rewrite Ropp_0, exp_0; field).
    apply f_equal3; ring. }
  cbn [fB]. rewrite HF, vnorm_sqrt. cbn [tgL tgB vy u]. rewrite Rmult_0_r.
  replace (cosh 0) with 1 by (unfold cosh; rewrite Ropp_0, exp_0; field).
  rewrite Rabs_R1. vunfold; unnum. replace (0 * 0 + 2 * 2 + 0 * 0) with (2 * 2) by ring.
  rewrite sqrt_square; lra.
Qed.
Print Assumptions C49_tgu_amplitude_refuted.

(* The number of periods is incremented as int *)
Theorem C49_overflow_refuted : forall (B L : R) t X, planar_local (PU B L int_max) t X = UB.
Proof. reflexivity. Qed.
Print Assumptions C49_overflow_refuted.

(* ================= C50 ================= *)
(* distance: from the plane, positive on the side of its normal *)
Theorem C50_hard : forall (d : hard R) t X,
  let d1 := distance X (hdp1 d) (hdn1 d) in
  let d2 := distance X (hdp2 d) (hdn2 d) in
  (d1 < 0 /\ d2 < 0 -> hard_local d t X = Ok (EB vzero (hdB d))) /\
  (0 <= d1 \/ 0 <= d2 -> hard_local d t X = Ok (EB vzero vzero)).
Proof.
  intros d t X d1 d2. split; [intros [H1 H2]; now apply hard_inside|apply hard_outside].
Qed.
Print Assumptions C50_hard.
Definition ex_hard : hard R := HD (V 0 1 0) (V 0 0 0) (V 0 0 (-1)) (V 0 0 1) (V 0 0 1).
Example ex_C50_hard :
  hard_local ex_hard 0 (V 0 0 (1/2)) = Ok (EB vzero (V 0 1 0)) /\
  hard_local ex_hard 0 (V 0 0 2) = Ok (EB vzero vzero).
Proof.
  split; apply C50_hard; unfold distance; cbn; lra.
Qed.

(* The soft edge: the field is the nominal one times a strength s depending on the distances
   from the planes (positive outside), where
     the strength never exceeds one,
     it falls with the distance from either plane,
     far from one plane it is 1/2 at the other one, 3/4 half a transition length inside, 1/4
     half a transition length outside *)
Theorem C50_soft : forall (d : soft R), 0 < sdt1 d -> 0 < sdt2 d ->
  exists s : R -> R -> R,
    (forall t X, soft_local d t X =
       Ok (EB vzero (vmul (sdB d) (s (distance X (sdp1 d) (sdn1 d)) (distance X (sdp2 d) (sdn2 d)))))) /\
    (forall a b, Rabs (s a b) < 1) /\
    (forall a a' b, a < a' -> s a' b < s a b) /\ (forall a b b', b < b' -> s a b' < s a b) /\
    is_lim (fun b => s 0 b) m_infty (1 / 2) /\ is_lim (fun a => s a 0) m_infty (1 / 2) /\
    is_lim (fun b => s (- (sdt1 d / 2)) b) m_infty (3 / 4) /\
    is_lim (fun b => s (sdt1 d / 2) b) m_infty (1 / 4) /\
    is_lim (fun a => s a (- (sdt2 d / 2))) m_infty (3 / 4) /\
    is_lim (fun a => s a (sdt2 d / 2)) m_infty (1 / 4) /\
    is_lim (fun a => s a a) m_infty 1.
Proof.
  intros d H1 H2. exists (soft_s (sdt1 d) (sdt2 d)). 
  split; [intros; apply soft_strength|].
  split; [intros a b; apply Rabs_def1; apply soft_s_bound|].
  split; [intros; now apply soft_s_decreasing|].
  split; [intros a b b' Hb; rewrite (soft_s_sym _ _ a b'), (soft_s_sym _ _ a b); now apply soft_s_decreasing|].
  split; [now apply soft_half|].
  split; [apply (is_lim_ext (fun b => soft_s (sdt2 d) (sdt1 d) 0 b)); [intros; apply soft_s_sym|now apply soft_half]|].
  split; [now apply soft_75|]. split; [now apply soft_25|].
  split; [apply (is_lim_ext (fun b => soft_s (sdt2 d) (sdt1 d) (- (sdt2 d / 2)) b)); [intros; apply soft_s_sym|now apply soft_75]|].
  split; [apply (is_lim_ext (fun b => soft_s (sdt2 d) (sdt1 d) (sdt2 d / 2) b)); [intros; apply soft_s_sym|now apply soft_25]|].
  now apply soft_diag.
Qed.
Print Assumptions C50_soft.
Theorem C50_soft_value : forall (d : soft R) t X,
  let d1 := distance X (sdp1 d) (sdn1 d) in
  let d2 := distance X (sdp2 d) (sdn2 d) in
  soft_local d t X =
  Ok (EB vzero (vmul (sdB d) (- (atan (2 * d1 / sdt1 d) + atan (2 * d2 / sdt2 d)) / PI))).
Proof. exact soft_strength. Qed.
Print Assumptions C50_soft_value.
Definition ex_soft : soft R := SD (V 0 1 0) (V 0 0 0) (V 0 0 (-1)) (1/10) (V 0 0 1) (V 0 0 1) (1/5).
Example ex_C50_soft : 0 < sdt1 ex_soft /\ 0 < sdt2 ex_soft.
Proof. cbn; lra. Qed.

(* Outside both planes (possible for planes that are not parallel) the soft-edge field does not
   vanish but approaches the reversed nominal field *)
Theorem C50_reversed_outside : forall (d : soft R), 0 < sdt1 d -> 0 < sdt2 d ->
  exists s : R -> R -> R,
    (forall t X, soft_local d t X =
       Ok (EB vzero (vmul (sdB d) (s (distance X (sdp1 d) (sdn1 d)) (distance X (sdp2 d) (sdn2 d)))))) /\
    is_lim (fun a => s a a) p_infty (-1).
Proof.
  intros d H1 H2. exists (soft_s (sdt1 d) (sdt2 d)). 
  split; [intros; apply soft_strength|]. now apply soft_diag.
Qed.
Print Assumptions C50_reversed_outside.

(* A transition length of zero is accepted but the strength is undefined: the division by zero
   shows as None in checked arithmetic.  (With IEEE numbers it is 0/0 on the plane itself.) *)
Theorem C50_zero_transition_refuted : forall (B p1 n1 p2 n2 X : vec R) (t t2 : R),
  exists f, @soft_local _ NumChk TransChk
     (SD (lv B) (lv p1) (lv n1) (Some 0) (lv p2) (lv n2) (Some t2)) (Some t) (lv X) = Ok f /\
  vy (fB f) = None.
Proof.
  intros. eexists. split; [reflexivity|]. destruct B, p1, n1, p2, n2, X. cbn.
  unfold Reqb'. destruct (Req_EM_T 0 0) as [_|E]; [|now destruct E]. reflexivity.
Qed.
Print Assumptions C50_zero_transition_refuted.

(* ================= C51 ================= *)
(* For a wave length and a Rayleigh range > 0, in the coordinates of the wave (z is the
   direction of propagation) *)
Definition plane_wave_like (A : R) (f : emf R) : Prop :=
  vdot (fE f) (fB f) = 0 /\ vnorm (fB f) = vnorm (fE f) / nc /\
  vz (fE f) = 0 /\ vz (fB f) = 0 /\ vnorm (fE f) <= A /\
  0 <= vz (epoynting f).
Lemma plane_wave_shape A f : Rabs f <= A -> plane_wave_like A (EB (V f 0 0) (V 0 (f / nc) 0)).
Proof.
  intros Hf. unfold plane_wave_like. cbn [fE fB vz]. 
  assert (N1 : vnorm (V f 0 0) = Rabs f).
  { rewrite vnorm_sqrt. vunfold; unnum. rewrite <- sqrt_Rsqr_abs. f_equal. unfold Rsqr. ring. }
  assert (N2 : vnorm (V 0 (f / nc) 0) = Rabs f / nc).
  { rewrite vnorm_sqrt. pose proof nc_pos as Hc. revert Hc. generalize (nc (T:=R)); intros c Hc. vunfold; unnum.
    replace (0 * 0 + f / c * (f / c) + 0 * 0) with (Rsqr (f / c)) by (unfold Rsqr; ring).
    rewrite sqrt_Rsqr_abs. unfold Rdiv. rewrite Rabs_mult, (Rabs_pos_eq (/ c)); [reflexivity|].
    left. now apply Rinv_0_lt_compat. }
  split; [vunfold; unnum; ring|]. rewrite N1, N2.
  split; [reflexivity|]. split; [reflexivity|]. split; [reflexivity|]. split; [exact Hf|].
  assert (Hm : 0 < @nmu0 R NumR).
  { cbn [nmu0 NumR]. pose proof PI_RGT_0. try lra. }
  unfold epoynting. vunfold. pose proof nc_pos as Hc. revert Hm Hc.
  generalize (nc (T:=R)) (nmu0 (T:=R)); intros c m Hm Hc. unnum.
  replace (f * (f / c) - 0 * 0) with (f * f / c) by (field; lra).
  apply Rdiv_le_0_compat; [|exact Hm]. apply Rdiv_le_0_compat; [nra|exact Hc].
Qed.

Theorem C51_wave : forall (g : wave R) t X, 0 < gwl g -> 0 < gwzR g ->
  exists f, wave_local g t X = Ok f /\
    plane_wave_like (sqrt (gwAr g * gwAr g + gwAi g * gwAi g)) f.
Proof.
  intros g t X Hl Hz. destruct (wave_shape g t X Hl Hz) as (f & H1 & H2).
  eexists. split; [exact H1|]. now apply plane_wave_shape.
Qed.
Print Assumptions C51_wave.
Theorem C51_packet : forall (g : wave R) tau t X, 0 < gwl g -> 0 < gwzR g ->
  exists f, packet_local g tau t X = Ok f /\
    plane_wave_like (sqrt (gwAr g * gwAr g + gwAi g * gwAi g)) f.
Proof.
  intros g tau t X Hl Hz. destruct (packet_shape g tau t X Hl Hz) as (f & H1 & H2).
  eexists. split; [exact H1|]. now apply plane_wave_shape.
Qed.
Print Assumptions C51_packet.
(* the amplitude is reached in the focus *)
Theorem C51_amplitude_reached : forall (g : wave R), 0 < gwl g -> 0 < gwzR g -> gwAi g = 0 ->
  exists f, wave_local g 0 vzero = Ok f /\ vx (fE f) = gwAr g.
Proof.
  intros g Hl Hz HA. eexists. split; [reflexivity|]. unfold gw_field. cbn [fE vx].
  assert (H1 : gw_w0 g / gw_w g (vz vzero) = 1).
  { unfold gw_w. pose proof (gw_ratio g 0 Hl Hz) as H. unfold gw_w in H. revert H.
    generalize (gw_w0 g). intros w. cbn [vz vzero]. unnum.
    replace (0 / gwzR g) with 0 by (field; lra). replace (1 + 0 * 0) with 1 by ring. rewrite sqrt_1, Rmult_1_r.
    intros [H _]. apply Rinv_r. intros ->. unfold Rdiv in H. lra. }
  assert (H2 : vnorm (V (vx vzero) (vy vzero) (nZ 0)) = 0 :> R).
  { apply vnorm_zero_iff. reflexivity. }
  rewrite H2.
  assert (H3 : gw_phase g 0 vzero 0 = 0).
  { unfold gw_phase. cbn [vz vzero]. generalize (gw_omega g) (gw_k g). intros w k. unnum.
    unfold Reqb'. destruct (Req_EM_T 0 0); [|lra]. ring. }
  unnum. change (@vz R) with (fun v : vec R => vz v) in H1.
  match goal with |- context [gw_phase ?a ?b ?c ?d] => change (gw_phase a b c d) with (gw_phase g 0 vzero 0) end.
  rewrite H3. cbn [nexp nsin ncos TransR]. rewrite HA, sin_0, cos_0.
  match goal with |- _ * (?r * _) - _ = _ => replace r with 1 by (symmetry; exact H1) end.
  match goal with |- context [exp ?e] => replace e with 0 end.
  - rewrite exp_0. ring.
  - match goal with |- 0 = - (0 / ?w * (0 / ?w)) => unfold Rdiv; rewrite Rmult_0_l; ring end.
Qed.
Print Assumptions C51_amplitude_reached.
Example ex_C51 : let g := GW 1 3 4 2 in 0 < gwl g /\ 0 < gwzR g /\ sqrt (gwAr g * gwAr g + gwAi g * gwAi g) = 5.
Proof. cbn. split; [lra|]. split; [lra|]. replace (3 * 3 + 4 * 4) with (5 * 5) by ring. apply sqrt_square; lra. Qed.
