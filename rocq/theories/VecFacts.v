(* Vector algebra over R used by the proofs. *)
From Coq Require Import ZArith Reals Lra Lia Psatz List.
From Verif Require Import Base Num VecModel.
Local Open Scope R_scope.

Ltac vunfold :=
  cbv [vzero vsquare vroot vadd vsub vopp vmul vdiv vabs2 vdot vtransform vcross
       ezero eadd esub emul ediv epoynting vx vy vz fE fB].
Ltac vunfold_in H :=
  cbv [vzero vsquare vroot vadd vsub vopp vmul vdiv vabs2 vdot vtransform vcross
       ezero eadd esub emul ediv epoynting vx vy vz fE fB] in H.
(* destruct all vectors/fields and reduce to components *)
Ltac vdestr :=
  repeat match goal with
         | e : emf R |- _ => destruct e as [[? ? ?] [? ? ?]]
         | v : vec R |- _ => destruct v as [? ? ?]
         end.
(* split an equation of vectors/fields into equations of components *)
Ltac vsplit :=
  repeat match goal with
         | |- @eq (emf _) (EB _ _) (EB _ _) => apply f_equal2
         | |- @eq (vec _) (V _ _ _) (V _ _ _) => apply f_equal3
         end.
Ltac vring := intros; vdestr; vunfold; unnum; vsplit; ring.
Ltac vfield := intros; vdestr; vunfold; unnum; vsplit; field; auto.

Lemma vec_eq (a b : vec R) : vx a = vx b -> vy a = vy b -> vz a = vz b -> a = b.
Proof. destruct a, b; cbn; intros; subst; reflexivity. Qed.
Lemma emf_eq (a b : emf R) : fE a = fE b -> fB a = fB b -> a = b.
Proof. destruct a, b; cbn; intros; subst; reflexivity. Qed.

Lemma vabs2_dot (a : vec R) : vabs2 a = vdot a a.
Proof. reflexivity. Qed.
Lemma vabs2_nonneg (a : vec R) : 0 <= vabs2 a.
Proof. vdestr; vunfold; unnum; nra. Qed.
Lemma vnorm_sqrt (a : vec R) : vnorm a = sqrt (vabs2 a).
Proof. reflexivity. Qed.
Lemma vnorm_nonneg (a : vec R) : 0 <= vnorm a.
Proof. apply sqrt_pos. Qed.
Lemma vnorm_sq (a : vec R) : vnorm a * vnorm a = vabs2 a.
Proof. rewrite vnorm_sqrt. apply sqrt_sqrt, vabs2_nonneg. Qed.
Lemma vabs2_zero_iff (a : vec R) : vabs2 a = 0 <-> a = vzero.
Proof.
  split.
  - destruct a as [x y z]; unfold vabs2; cbn; intros H.
    assert (x = 0) by nra. assert (y = 0) by nra. assert (z = 0) by nra.
    subst; reflexivity.
  - intros ->; vunfold; unnum; ring.
Qed.
Lemma vnorm_zero_iff (a : vec R) : vnorm a = 0 <-> a = vzero.
Proof.
  rewrite <- vabs2_zero_iff. split; intros H.
  - rewrite <- vnorm_sq, H; ring.
  - rewrite vnorm_sqrt, H; apply sqrt_0.
Qed.
Lemma vnorm_pos (a : vec R) : a <> vzero -> 0 < vnorm a.
Proof.
  intros H. destruct (vnorm_nonneg a) as [Hp|Hz]; [exact Hp|].
  exfalso; apply H, vnorm_zero_iff; symmetry; exact Hz.
Qed.

Lemma vdot_comm (a b : vec R) : vdot a b = vdot b a.
Proof. vring. Qed.
Lemma vdot_add_l (a b c : vec R) : vdot (vadd a b) c = vdot a c + vdot b c.
Proof. vring. Qed.
Lemma vdot_add_r (a b c : vec R) : vdot c (vadd a b) = vdot c a + vdot c b.
Proof. vring. Qed.
Lemma vdot_sub_l (a b c : vec R) : vdot (vsub a b) c = vdot a c - vdot b c.
Proof. vring. Qed.
Lemma vdot_sub_r (a b c : vec R) : vdot c (vsub a b) = vdot c a - vdot c b.
Proof. vring. Qed.
Lemma vdot_mul_l (a b : vec R) (k : R) : vdot (vmul a k) b = k * vdot a b.
Proof. vring. Qed.
Lemma vdot_mul_r (a b : vec R) (k : R) : vdot a (vmul b k) = k * vdot a b.
Proof. vring. Qed.
Lemma vdot_div_l (a b : vec R) (k : R) : vdot (vdiv a k) b = vdot a b / k.
Proof. vdestr; vunfold; unnum; unfold Rdiv; ring. Qed.
Lemma vdot_div_r (a b : vec R) (k : R) : vdot a (vdiv b k) = vdot a b / k.
Proof. vdestr; vunfold; unnum; unfold Rdiv; ring. Qed.
Lemma vdiv_mul (a : vec R) (k : R) : vdiv a k = vmul a (/ k).
Proof. reflexivity. Qed.
Lemma vcross_self (a : vec R) : vcross a a = vzero.
Proof. vring. Qed.
Lemma vcross_anti (a b : vec R) : vcross a b = vopp (vcross b a).
Proof. vring. Qed.
Lemma vdot_cross_l (a b : vec R) : vdot a (vcross a b) = 0.
Proof. vring. Qed.
Lemma vdot_cross_r (a b : vec R) : vdot b (vcross a b) = 0.
Proof. vring. Qed.
Lemma lagrange (a b : vec R) :
  vabs2 (vcross a b) = vabs2 a * vabs2 b - vdot a b * vdot a b.
Proof. vring. Qed.
Lemma cauchy_schwarz_sq (a b : vec R) : vdot a b * vdot a b <= vabs2 a * vabs2 b.
Proof. pose proof (vabs2_nonneg (vcross a b)) as H. rewrite lagrange in H. lra. Qed.
Lemma cauchy_schwarz (a b : vec R) : Rabs (vdot a b) <= vnorm a * vnorm b.
Proof.
  apply Rsqr_incr_0_var.
  - rewrite <- Rsqr_abs. unfold Rsqr.
    replace (vnorm a * vnorm b * (vnorm a * vnorm b))
      with ((vnorm a * vnorm a) * (vnorm b * vnorm b)) by ring.
    rewrite !vnorm_sq. apply cauchy_schwarz_sq.
  - apply Rmult_le_pos; apply vnorm_nonneg.
Qed.
Lemma vdot_le (a b : vec R) : vdot a b <= vnorm a * vnorm b.
Proof. eapply Rle_trans; [apply Rle_abs|apply cauchy_schwarz]. Qed.

Lemma triangle (a b : vec R) : vnorm (vadd a b) <= vnorm a + vnorm b.
Proof.
  pose proof (vnorm_nonneg a) as Ha. pose proof (vnorm_nonneg b) as Hb.
  apply Rsqr_incr_0_var; [|lra]. unfold Rsqr. rewrite vnorm_sq.
  replace (vabs2 (vadd a b)) with (vabs2 a + 2 * vdot a b + vabs2 b) by vring.
  rewrite <- !vnorm_sq. pose proof (vdot_le a b). lra.
Qed.
Lemma vnorm_opp (a : vec R) : vnorm (vopp a) = vnorm a.
Proof. rewrite !vnorm_sqrt. f_equal. vring. Qed.
Lemma vnorm_sub_comm (a b : vec R) : vnorm (vsub a b) = vnorm (vsub b a).
Proof. rewrite !vnorm_sqrt. f_equal. vring. Qed.
Lemma vnorm_mul (a : vec R) (k : R) : vnorm (vmul a k) = Rabs k * vnorm a.
Proof.
  rewrite !vnorm_sqrt. replace (vabs2 (vmul a k)) with (k * k * vabs2 a) by vring.
  rewrite sqrt_mult; [|nra|apply vabs2_nonneg].
  f_equal. replace (k * k) with (Rsqr k) by reflexivity. apply sqrt_Rsqr_abs.
Qed.
Lemma vnorm_div (a : vec R) (k : R) : k <> 0 -> vnorm (vdiv a k) = vnorm a / Rabs k.
Proof.
  intros Hk. rewrite vdiv_mul, vnorm_mul, Rabs_inv.
  unfold Rdiv; ring.
Qed.
Lemma vnormalize_unit (a : vec R) : a <> vzero -> vnorm (vnormalize a) = 1.
Proof.
  intros Ha. pose proof (vnorm_pos a Ha) as Hp.
  change (vnormalize a) with (vdiv a (vnorm a)).
  rewrite vnorm_div by lra. rewrite Rabs_pos_eq by lra. field; lra.
Qed.
Lemma vnormalize_abs2 (a : vec R) : a <> vzero -> vabs2 (vnormalize a) = 1.
Proof. intros Ha. rewrite <- vnorm_sq, vnormalize_unit by assumption; ring. Qed.
Lemma vnormalize_div (a : vec R) : vnormalize a = vdiv a (vnorm a).
Proof. reflexivity. Qed.
Lemma vadd_comm (a b : vec R) : vadd a b = vadd b a.
Proof. vring. Qed.
Lemma vadd_assoc (a b c : vec R) : vadd a (vadd b c) = vadd (vadd a b) c.
Proof. vring. Qed.
Lemma vadd_0_l (a : vec R) : vadd vzero a = a.
Proof. vring. Qed.
Lemma vadd_0_r (a : vec R) : vadd a vzero = a.
Proof. vring. Qed.
Lemma eadd_comm (a b : emf R) : eadd a b = eadd b a.
Proof. vring. Qed.
Lemma eadd_assoc (a b c : emf R) : eadd a (eadd b c) = eadd (eadd a b) c.
Proof. vring. Qed.
Lemma eadd_0_l (a : emf R) : eadd ezero a = a.
Proof. vring. Qed.
Lemma eadd_0_r (a : emf R) : eadd a ezero = a.
Proof. vring. Qed.
