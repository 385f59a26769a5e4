(* Dipoles and laser waves *)
From Coq Require Import ZArith List Bool Lia Reals Lra Psatz.
From Coquelicot Require Import Coquelicot.
From Verif Require Import Base Num VecModel VecFacts BaseFacts ParticleModel BunchModel NumChecked
  ElementModel ElementSpec ElementProofs2.
Local Open Scope R_scope.

(* ---- dipoles ---- *)
Lemma distance_dot (X p n : vec R) : vdot (vsub X p) n = distance X p n.
Proof. reflexivity. Qed.
Lemma hard_inside (d : hard R) t X :
  distance X (hdp1 d) (hdn1 d) < 0 -> distance X (hdp2 d) (hdn2 d) < 0 ->
  hard_local d t X = Ok (EB vzero (hdB d)).
Proof.
  intros H1 H2. unfold hard_local. rewrite !distance_dot. unnum.
  destruct (Rltb_spec (distance X (hdp1 d) (hdn1 d)) 0); [|lra].
  destruct (Rltb_spec (distance X (hdp2 d) (hdn2 d)) 0); [|lra]. reflexivity.
Qed.
Lemma hard_outside (d : hard R) t X :
  0 <= distance X (hdp1 d) (hdn1 d) \/ 0 <= distance X (hdp2 d) (hdn2 d) ->
  hard_local d t X = Ok (EB vzero vzero).
Proof.
  intros H1. unfold hard_local. rewrite !distance_dot. unnum.
  destruct (Rltb_spec (distance X (hdp1 d) (hdn1 d)) 0); cbn [andb]; [|reflexivity].
  destruct (Rltb_spec (distance X (hdp2 d) (hdn2 d)) 0); [lra|]. reflexivity.
Qed.

Definition soft_s (t1 t2 a b : R) : R := - (atan (2 * a / t1) + atan (2 * b / t2)) / PI.
Lemma soft_strength (d : soft R) t X :
  soft_local d t X = Ok (EB vzero (vmul (sdB d)
     (soft_s (sdt1 d) (sdt2 d) (distance X (sdp1 d) (sdn1 d)) (distance X (sdp2 d) (sdn2 d))))).
Proof.
  unfold soft_local. rewrite !distance_dot. do 3 f_equal.
  generalize (distance X (sdp1 d) (sdn1 d)) (distance X (sdp2 d) (sdn2 d)). intros a b.
  unfold soft_s, nhalf. unnum. cbn [natan TransR nPi NumR].
  pose proof PI_RGT_0. field. lra.
Qed.
Lemma soft_s_bound t1 t2 a b : -1 < soft_s t1 t2 a b < 1.
Proof.
  unfold soft_s. pose proof (atan_bound (2 * a / t1)). pose proof (atan_bound (2 * b / t2)).
  pose proof PI_RGT_0.
  split; apply (Rmult_lt_reg_r PI); try lra;
    (replace (- (atan (2 * a / t1) + atan (2 * b / t2)) / PI * PI) with
      (- (atan (2 * a / t1) + atan (2 * b / t2))) by (field; lra)); lra.
Qed.
Lemma soft_s_decreasing t1 t2 a a' b : 0 < t1 -> a < a' -> soft_s t1 t2 a' b < soft_s t1 t2 a b.
Proof.
  intros Ht Ha. unfold soft_s. pose proof PI_RGT_0.
  assert (2 * a / t1 < 2 * a' / t1).
  { apply Rmult_lt_compat_r; [now apply Rinv_0_lt_compat|lra]. }
  pose proof (atan_increasing _ _ H0). apply Rmult_lt_compat_r; [now apply Rinv_0_lt_compat|lra].
Qed.
Lemma soft_s_sym t1 t2 a b : soft_s t1 t2 a b = soft_s t2 t1 b a.
Proof. unfold soft_s. f_equal. ring. Qed.

(* the arc tangent far out *)
Lemma atan_far_neg eps : 0 < eps -> exists M, forall x, x < M -> - (PI / 2) < atan x < - (PI / 2) + eps.
Proof.
  intros He. pose proof PI_RGT_0.
  set (e := Rmin eps (PI / 2)). assert (0 < e) by (apply Rmin_glb_lt; lra).
  assert (e <= eps) by apply Rmin_l. assert (e <= PI / 2) by apply Rmin_r.
  exists (tan (- (PI / 2) + e)). intros x Hx. split; [pose proof (atan_bound x); lra|].
  pose proof (atan_increasing _ _ Hx) as Hi. rewrite atan_tan in Hi by lra. lra.
Qed.
Lemma lim_atan_neg t : 0 < t -> is_lim (fun b => atan (2 * b / t)) m_infty (- (PI / 2)).
Proof.
  intros Ht. apply is_lim_spec. intros eps. destruct (atan_far_neg eps (cond_pos eps)) as (M & HM).
  exists (M * t / 2). intros b Hb. destruct (HM (2 * b / t)) as [H1 H2].
  - apply (Rmult_lt_reg_r t); [exact Ht|]. replace (2 * b / t * t) with (2 * b) by (field; lra). lra.
  - apply Rabs_def1; lra.
Qed.
Lemma lim_atan_pos t : 0 < t -> is_lim (fun b => atan (2 * b / t)) p_infty (PI / 2).
Proof.
  intros Ht. apply is_lim_spec. intros eps. destruct (atan_far_neg eps (cond_pos eps)) as (M & HM).
  exists (- (M * t / 2)). intros b Hb. destruct (HM (2 * - b / t)) as [H1 H2].
  - apply (Rmult_lt_reg_r t); [exact Ht|]. replace (2 * - b / t * t) with (2 * - b) by (field; lra). lra.
  - replace (2 * - b / t) with (- (2 * b / t)) in H1, H2 by (field; lra). rewrite atan_opp in H1, H2.
    apply Rabs_def1; lra.
Qed.
Lemma lim_scal f k x (l : R) : is_lim f x l -> is_lim (fun b => k * f b) x (k * l).
Proof. exact (is_lim_scal_l f k x l). Qed.
(* at the plane with distance a *)
Lemma soft_s_lim t1 t2 a : 0 < t2 ->
  is_lim (fun b => soft_s t1 t2 a b) m_infty (1 / 2 - atan (2 * a / t1) / PI).
Proof.
  intros Ht. pose proof PI_RGT_0. apply (is_lim_ext (fun b => - / PI * atan (2 * a / t1) + - / PI * atan (2 * b / t2))).
  - intros b. unfold soft_s. field. lra.
  - replace (Finite (1 / 2 - atan (2 * a / t1) / PI)) with
      (Finite (- / PI * atan (2 * a / t1) + - / PI * (- (PI / 2)))).
    2: { f_equal. field. lra. }
    apply is_lim_plus'; [apply is_lim_const|].
    apply (lim_scal (fun b => atan (2 * b / t2))). now apply lim_atan_neg.
Qed.
Lemma atan_2_half t : 0 < t -> atan (2 * (t / 2) / t) = PI / 4.
Proof. intros Ht. replace (2 * (t / 2) / t) with 1 by (field; lra). apply atan_1. Qed.
Lemma soft_half t1 t2 : 0 < t1 -> 0 < t2 -> is_lim (fun b => soft_s t1 t2 0 b) m_infty (1 / 2).
Proof.
  intros H1 H2. replace (1 / 2) with (1 / 2 - atan (2 * 0 / t1) / PI); [now apply soft_s_lim|].
  replace (2 * 0 / t1) with 0 by (field; lra). rewrite atan_0. pose proof PI_RGT_0. field. lra.
Qed.
Lemma soft_75 t1 t2 : 0 < t1 -> 0 < t2 -> is_lim (fun b => soft_s t1 t2 (- (t1 / 2)) b) m_infty (3 / 4).
Proof.
  intros H1 H2. replace (3 / 4) with (1 / 2 - atan (2 * - (t1 / 2) / t1) / PI); [now apply soft_s_lim|].
  replace (2 * - (t1 / 2) / t1) with (- (2 * (t1 / 2) / t1)) by (field; lra). rewrite atan_opp, atan_2_half by exact H1.
  pose proof PI_RGT_0. field. lra.
Qed.
Lemma soft_25 t1 t2 : 0 < t1 -> 0 < t2 -> is_lim (fun b => soft_s t1 t2 (t1 / 2) b) m_infty (1 / 4).
Proof.
  intros H1 H2. replace (1 / 4) with (1 / 2 - atan (2 * (t1 / 2) / t1) / PI); [now apply soft_s_lim|].
  rewrite atan_2_half by exact H1. pose proof PI_RGT_0. field. lra.
Qed.
Lemma soft_diag t1 t2 : 0 < t1 -> 0 < t2 ->
  is_lim (fun b => soft_s t1 t2 b b) m_infty 1 /\ is_lim (fun b => soft_s t1 t2 b b) p_infty (-1).
Proof.
  intros H1 H2. pose proof PI_RGT_0.
  assert (HE : forall b, - / PI * atan (2 * b / t1) + - / PI * atan (2 * b / t2) = soft_s t1 t2 b b).
  { intros b. unfold soft_s. field. lra. }
  split; apply (is_lim_ext _ _ _ _ HE).
  - replace (Finite 1) with (Finite (- / PI * (- (PI / 2)) + - / PI * (- (PI / 2)))).
    2: { f_equal. field. lra. }
    apply is_lim_plus'; apply (lim_scal (fun b => atan (2 * b / _))); now apply lim_atan_neg.
  - replace (Finite (-1)) with (Finite (- / PI * (PI / 2) + - / PI * (PI / 2))).
    2: { f_equal. field. lra. }
    apply is_lim_plus'; apply (lim_scal (fun b => atan (2 * b / _))); now apply lim_atan_pos.
Qed.

(* ---- waves ---- *)
Definition amplitude (g : wave R) : R := sqrt (gwAr g * gwAr g + gwAi g * gwAi g).
Lemma gw_ratio (g : wave R) z : 0 < gwl g -> 0 < gwzR g -> 0 < gw_w0 g / gw_w g z <= 1.
Proof.
  intros Hl Hz. unfold gw_w.
  assert (H0 : 0 < gw_w0 g).
  { unfold gw_w0. cbn [nPi NumR]. unnum. apply sqrt_lt_R0. pose proof PI_RGT_0.
    apply Rdiv_lt_0_compat; [nra|lra]. }
  revert H0. generalize (gw_w0 g); intros w0 H0. unnum.
  set (q := z / gwzR g). assert (H1 : 1 <= sqrt (1 + q * q)).
  { rewrite <- sqrt_1 at 1. apply sqrt_le_1_alt. nra. }
  set (s := sqrt (1 + q * q)) in *. replace (w0 / (w0 * s)) with (/ s) by (field; lra). split.
  - apply Rinv_0_lt_compat; lra.
  - rewrite <- Rinv_1. apply Rinv_le_contravar; lra.
Qed.
Lemma exp_le_1 e : e <= 0 -> 0 < exp e <= 1.
Proof.
  intros He. split; [apply exp_pos|]. rewrite <- exp_0. destruct He as [He| ->]; [|lra].
  left. now apply exp_increasing.
Qed.
Lemma gw_re_bound a b f x p : 0 <= f <= 1 -> 0 <= x <= 1 ->
  Rabs (a * (f * (x * cos p)) - b * (f * (x * sin p))) <= sqrt (a * a + b * b).
Proof.
  intros Hf Hx. rewrite <- sqrt_Rsqr_abs. apply sqrt_le_1_alt. unfold Rsqr.
  pose proof (sincos p) as Hs. set (c := cos p) in *. set (s := sin p) in *.
  replace ((a * (f * (x * c)) - b * (f * (x * s))) * (a * (f * (x * c)) - b * (f * (x * s))))
    with ((f * x) * (f * x) * ((a * c - b * s) * (a * c - b * s))) by ring.
  assert (H1 : 0 <= (f * x) * (f * x) <= 1) by (assert (0 <= f * x <= 1) by nra; nra).
  assert (H2 : (a * c - b * s) * (a * c - b * s) <= a * a + b * b).
  { pose proof (Rle_0_sqr (a * s + b * c)) as Hq. unfold Rsqr in Hq.
    replace ((a * c - b * s) * (a * c - b * s)) with ((a * a + b * b) * (s * s + c * c) - (a * s + b * c) * (a * s + b * c)) by ring.
    rewrite Hs. lra. }
  assert (H3 : 0 <= (a * c - b * s) * (a * c - b * s)) by (pose proof (Rle_0_sqr (a * c - b * s)) as Hq; unfold Rsqr in Hq; exact Hq).
  nra.
Qed.
(* shape of the field: along x and y, related by c, below the amplitude *)
Lemma gw_shape (g : wave R) z e p : 0 < gwl g -> 0 < gwzR g -> e <= 0 ->
  exists f : R, gw_field g z e p = EB (V f 0 0) (V 0 (f / nc) 0) /\ Rabs f <= amplitude g.
Proof.
  intros Hl Hz He.
  exists (gwAr g * (gw_w0 g / gw_w g z * (exp e * cos p)) - gwAi g * (gw_w0 g / gw_w g z * (exp e * sin p))).
  split; [reflexivity|]. pose proof (gw_ratio g z Hl Hz). pose proof (exp_le_1 e He).
  apply gw_re_bound; lra.
Qed.
Lemma wave_shape (g : wave R) t X : 0 < gwl g -> 0 < gwzR g ->
  exists f : R, wave_local g t X = Ok (EB (V f 0 0) (V 0 (f / nc) 0)) /\ Rabs f <= amplitude g.
Proof.
  intros Hl Hz. unfold wave_local.
  match goal with |- context [gw_field g ?z ?e ?p] => destruct (gw_shape g z e p Hl Hz) as (f & H1 & H2) end.
  - match goal with |- (- (?q * ?q))%num <= 0 => generalize q; intros r; unnum; nra end.
  - exists f. split; [now rewrite H1|exact H2].
Qed.
Lemma packet_shape (g : wave R) tau t X : 0 < gwl g -> 0 < gwzR g ->
  exists f : R, packet_local g tau t X = Ok (EB (V f 0 0) (V 0 (f / nc) 0)) /\ Rabs f <= amplitude g.
Proof.
  intros Hl Hz. unfold packet_local.
  match goal with |- context [gw_field g ?z ?e ?p] => destruct (gw_shape g z e p Hl Hz) as (f & H1 & H2) end.
  - match goal with |- (- (?q * ?q) - ?s * ?s)%num <= 0 => generalize q s; intros r v; unnum; nra end.
  - exists f. split; [now rewrite H1|exact H2].
Qed.
