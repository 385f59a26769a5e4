(* The emission point found by RetardedField(time,observer): the secant steps of
   particle.cpp:694-724 for a function whose slopes vary little. *)
From Coq Require Import ZArith Reals Lra Lia Psatz List Bool.
From Verif Require Import Base BaseFacts Num VecModel VecFacts ParticleModel ParticleSpec
  ParticleProofs ParticleProofs2 VaySpec VayProofs TraceModel RetardModel RetardSpec RetardProofs RetardProofs2.
Import ListNotations.
Local Open Scope R_scope.

(* ---- secant steps ---- *)
Section Secant.
Variables (f : R -> R) (m s0 d q u : R).
Definition near (x : R) : Prop := - (1/2) <= x <= 3/2.
Hypothesis m_pos : 0 < m.
Hypothesis slope_low : forall a b, near a -> near b -> a <= b -> m * (b - a) <= f b - f a.
Hypothesis slope_near : forall a b, near a -> near b -> Rabs (f b - f a - (b - a) * s0) <= Rabs (b - a) * d.
Hypothesis q_half : 0 <= q <= 1/2.
Hypothesis d_small : 2 * d <= q * m.
Hypothesis u_in : 0 <= u <= 1.
Hypothesis u_root : f u = 0.

Definition valid (s : R) : Prop := m <= s /\ Rabs (s - s0) <= d.

Lemma d_pos : 0 <= d.
Proof.
  assert (H := slope_near 0 1). unfold near in H. specialize (H ltac:(lra) ltac:(lra)).
  replace (1 - 0) with 1 in H by ring. rewrite Rabs_R1 in H.
  pose proof (Rabs_pos (f 1 - f 0 - 1 * s0)). lra.
Qed.

Lemma secant_valid a b : near a -> near b -> a <> b -> valid ((f b - f a) / (b - a)).
Proof.
  intros Ha Hb N.
  assert (P : b - a <> 0) by lra. split.
  - destruct (Rtotal_order a b) as [L|[E|L]]; [|lra|].
    + apply (Rmult_le_reg_r (b - a)); [lra|]. unfold Rdiv. rewrite Rmult_assoc, Rinv_l, Rmult_1_r by lra. apply slope_low; [assumption|assumption|lra].
    + replace ((f b - f a) / (b - a)) with ((f a - f b) / (a - b)) by (field; lra).
      apply (Rmult_le_reg_r (a - b)); [lra|]. unfold Rdiv. rewrite Rmult_assoc, Rinv_l, Rmult_1_r by lra. apply slope_low; [assumption|assumption|lra].
  - apply (Rmult_le_reg_l (Rabs (b - a))); [apply Rabs_pos_lt, P|].
    rewrite <- Rabs_mult. replace ((b - a) * ((f b - f a) / (b - a) - s0)) with (f b - f a - (b - a) * s0) by (field; exact P).
    apply slope_near; assumption.
Qed.

Lemma step_closer x s : near x -> valid s -> Rabs (x - f x / s - u) <= q * Rabs (x - u).
Proof.
  intros Hx [Hs Hd]. assert (P : 0 < s) by lra.
  assert (B : Rabs (f x - (x - u) * s0) <= Rabs (x - u) * d).
  { assert (H := slope_near u x). unfold near in H, Hx. specialize (H ltac:(lra) Hx). rewrite u_root in H.
    replace (f x - 0 - (x - u) * s0) with (f x - (x - u) * s0) in H by ring. exact H. }
  apply (Rmult_le_reg_l s); [exact P|]. rewrite <- (Rabs_right s) at 1 by lra. rewrite <- Rabs_mult.
  replace (s * (x - f x / s - u)) with ((x - u) * (s - s0) - (f x - (x - u) * s0)) by (field; lra).
  pose proof (Rabs_triang ((x - u) * (s - s0)) (- (f x - (x - u) * s0))) as T. rewrite Rabs_Ropp in T.
  replace ((x - u) * (s - s0) + - (f x - (x - u) * s0)) with ((x - u) * (s - s0) - (f x - (x - u) * s0)) in T by ring.
  rewrite (Rabs_mult (x - u)) in T.
  pose proof (Rabs_pos (x - u)) as P1. assert (Rabs (x - u) * Rabs (s - s0) <= Rabs (x - u) * d) by (apply Rmult_le_compat_l; assumption).
  assert (Rabs (x - u) * (2 * d) <= Rabs (x - u) * (q * m)) by (apply Rmult_le_compat_l; lra).
  assert (Rabs (x - u) * (q * m) <= Rabs (x - u) * (q * s)) by (apply Rmult_le_compat_l; [lra|apply Rmult_le_compat_l; lra]).
  lra.
Qed.

(* the rounds of the loop *)
Fixpoint rounds (k : nat) (x y e : R) : R * R :=
  match k with
  | O => (x, e)
  | S k' => if Rltb (1 / 100000) (Rabs e) then
      let x' := x - e in let y' := f x' in rounds k' x' y' (y' / (- (y' - y) / e)) else (x, e)
  end.

Lemma close_near x : Rabs (x - u) <= 1/2 -> near x.
Proof. intros H. unfold near. pose proof (Rle_abs (x - u)). pose proof (Rle_abs (- (x - u))) as K. rewrite Rabs_Ropp in K. lra. Qed.

Lemma rounds_closer k : forall x s, Rabs (x - u) <= 1/2 -> valid s ->
  exists x' s', rounds k x (f x) (f x / s) = (x', f x' / s') /\ valid s' /\ Rabs (x' - u) <= 1/2 /\
    (Rabs (f x' / s') <= 1 / 100000 \/ Rabs (x' - u) <= q ^ k * Rabs (x - u)).
Proof.
  induction k as [|k IH]; intros x s Hx Hs; cbn [rounds].
  - exists x, s. split; [reflexivity|]. split; [exact Hs|]. split; [exact Hx|]. right. rewrite pow_O. lra.
  - destruct (Rltb_spec (1 / 100000) (Rabs (f x / s))) as [L|L].
    + cbv zeta. set (e := f x / s) in *. set (x1 := x - e) in *.
      assert (E0 : e <> 0) by (intros E; rewrite E, Rabs_R0 in L; lra).
      assert (C : Rabs (x1 - u) <= q * Rabs (x - u)) by (apply step_closer; [apply close_near, Hx|exact Hs]).
      pose proof (Rabs_pos (x - u)) as P.
      assert (C1 : Rabs (x1 - u) <= 1/2) by (assert (q * Rabs (x - u) <= 1 * Rabs (x - u)) by (apply Rmult_le_compat_r; lra); lra).
      assert (Hv : valid ((f x1 - f x) / (x1 - x))) by (apply secant_valid; [apply close_near, Hx|apply close_near, C1|unfold x1; lra]).
      replace (- (f x1 - f x) / e) with ((f x1 - f x) / (x1 - x)) by (unfold x1; field; split; lra).
      destruct (IH x1 _ C1 Hv) as (x' & s' & A & B & D & F). exists x', s'. split; [exact A|]. split; [exact B|]. split; [exact D|].
      destruct F as [F|F]; [left; exact F|right]. cbn [pow]. 
      apply Rle_trans with (1 := F). rewrite (Rmult_comm q), Rmult_assoc. apply Rmult_le_compat_l; [apply pow_le; lra|exact C].
    + exists x, s. split; [reflexivity|]. split; [exact Hs|]. split; [exact Hx|]. left. lra.
Qed.

Lemma secant_result : 
  let k := f 1 - f 0 in let x := - f 0 / k in
  let '(x', e') := rounds 9 x (f x) (f x / k) in
  Rabs (x' - e' - u) <= 2 * q / 100000 + q ^ 11.
Proof.
  cbv zeta. set (k := f 1 - f 0).
  assert (Hk : valid k).
  { replace k with ((f 1 - f 0) / (1 - 0)) by (unfold k; field). apply secant_valid; unfold near; lra. }
  assert (Pk : 0 < k) by (destruct Hk; lra).
  assert (Hx : Rabs (- f 0 / k - u) <= q * Rabs (0 - u)).
  { replace (- f 0 / k - u) with (0 - f 0 / k - u) by (field; lra). apply step_closer; [unfold near; lra|exact Hk]. }
  assert (Hu : Rabs (0 - u) <= 1) by (apply Rabs_le; lra).
  pose proof (Rabs_pos (0 - u)) as Pu.
  assert (Hx2 : Rabs (- f 0 / k - u) <= q) by (assert (q * Rabs (0 - u) <= q * 1) by (apply Rmult_le_compat_l; lra); lra).
  destruct (rounds_closer 9 (- f 0 / k) k ltac:(lra) Hk) as (x' & s' & A & B & C & D). rewrite A.
  pose proof (step_closer x' s' (close_near _ C) B) as E.
  pose proof (pow_le q 11 ltac:(lra)) as Q.
  destruct D as [D|D].
  - assert (F : Rabs (x' - u) <= Rabs (f x' / s') + Rabs (x' - f x' / s' - u)).
    { replace (x' - u) with (f x' / s' + (x' - f x' / s' - u)) by ring. apply Rabs_triang. }
    pose proof (Rabs_pos (x' - u)) as P. assert (q * Rabs (x' - u) <= 1/2 * Rabs (x' - u)) by (apply Rmult_le_compat_r; lra).
    assert (G : Rabs (x' - u) <= 2 / 100000) by lra. assert (q * Rabs (x' - u) <= q * (2 / 100000)) by (apply Rmult_le_compat_l; lra). lra.
  - assert (Rabs (x' - u) <= q ^ 9 * q) by (apply Rle_trans with (1 := D); apply Rmult_le_compat_l; [apply pow_le; lra|exact Hx2]).
    assert (q * Rabs (x' - u) <= q * (q ^ 9 * q)) by (apply Rmult_le_compat_l; lra).
    replace (q * (q ^ 9 * q)) with (q ^ 11) in * by ring. 
    lra.
Qed.
End Secant.

(* ---- the distance of the observer along a straight line ---- *)
Definition away (x1 x2 obs : vec R) (a : R) : vec R := vsub obs (mix x1 x2 a).
Lemma away_diff x1 x2 obs a b : vsub (away x1 x2 obs a) (away x1 x2 obs b) = vmul (vsub x2 x1) (b - a).
Proof. unfold away, mix. revert x1 x2 obs a b. vring. Qed.
Lemma away_sq x1 x2 obs a b : vabs2 (away x1 x2 obs b) - vabs2 (away x1 x2 obs a) =
  - (b - a) * vdot (vsub x2 x1) (vadd (away x1 x2 obs a) (away x1 x2 obs b)).
Proof. unfold away, mix. revert x1 x2 obs a b. intros. vdestr. vunfold. unnum. ring. Qed.
Lemma turn_alg (v0 va : vec R) (r0 ra : R) :
  vsub (vmul v0 ra) (vmul va r0) = vadd (vmul (vsub v0 va) ra) (vmul va (ra - r0)).
Proof. revert v0 va r0 ra. vring. Qed.
Lemma dot_mul (a b : vec R) k : k * vdot a b = vdot (vmul a k) b.
Proof. revert a b k. intros. vdestr. vunfold. unnum. ring. Qed.
Lemma dot_zero (b : vec R) : vdot vzero b = 0.
Proof. revert b. intros. vdestr. vunfold. unnum. ring. Qed.
Lemma slope_alg (dx v0 va vb : vec R) (r0 ra rb k : R) :
  r0 * (- k * vdot dx (vadd va vb)) + k * ((ra + rb) * vdot dx v0) =
  k * vdot dx (vadd (vsub (vmul v0 ra) (vmul va r0)) (vsub (vmul v0 rb) (vmul vb r0))).
Proof. revert dx v0 va vb r0 ra rb k. intros. vdestr. vunfold. unnum. ring. Qed.
Lemma sub_add (a b : vec R) : b = vadd a (vsub b a).
Proof. revert a b. vring. Qed.
Lemma sub_zero : vsub vzero vzero = (vzero : vec R).
Proof. vring. Qed.

Section Distance.
Variables (x1 x2 obs : vec R).
Let dx := vsub x2 x1.
Definition at_ : R -> vec R := away x1 x2 obs.
Definition dist (a : R) : R := vnorm (at_ a).

Lemma at_diff a b : vsub (at_ a) (at_ b) = vmul dx (b - a).
Proof. apply away_diff. Qed.

Lemma dist_lipschitz a b : Rabs (dist b - dist a) <= Rabs (b - a) * vnorm dx.
Proof.
  assert (H : forall a b, dist b - dist a <= Rabs (b - a) * vnorm dx).
  { clear a b. intros a b. unfold dist.
    assert (E : at_ b = vadd (at_ a) (vmul dx (a - b))).
    { rewrite <- at_diff. apply sub_add. }
    rewrite E at 1. pose proof (triangle (at_ a) (vmul dx (a - b))) as T. rewrite vnorm_mul in T.
    rewrite (Rabs_minus_sym b a). lra. }
  apply Rabs_le. pose proof (H a b) as A. pose proof (H b a) as B. rewrite (Rabs_minus_sym a b) in B. lra.
Qed.

(* r0 (|va| v0/r0 - va) *)
Lemma turn a : vnorm (vsub (vmul (at_ 0) (dist a)) (vmul (at_ a) (dist 0))) <= 2 * dist a * (Rabs a * vnorm dx).
Proof.
  assert (E : vsub (vmul (at_ 0) (dist a)) (vmul (at_ a) (dist 0)) = vadd (vmul (vsub (at_ 0) (at_ a)) (dist a)) (vmul (at_ a) (dist a - dist 0))).
  { apply turn_alg. }
  rewrite E. eapply Rle_trans; [apply triangle|]. rewrite !vnorm_mul, at_diff, vnorm_mul.
  replace (a - 0) with a by ring. fold (dist a).
  pose proof (vnorm_nonneg (at_ a)) as P. fold (dist a) in P. rewrite (Rabs_right (dist a)) by lra.
  pose proof (dist_lipschitz 0 a) as L. replace (a - 0) with a in L by ring.
  assert (Rabs (dist a - dist 0) * dist a <= Rabs a * vnorm dx * dist a) by (apply Rmult_le_compat_r; assumption). lra.
Qed.

Lemma dist_slope a b : 0 < dist 0 -> Rabs a <= 3/2 -> Rabs b <= 3/2 ->
  Rabs (dist b - dist a - (b - a) * (- (vdot dx (at_ 0) / dist 0))) <= Rabs (b - a) * (3 * (vnorm dx * vnorm dx) / dist 0).
Proof.
  intros P A B. pose proof (vnorm_nonneg (at_ a)) as Pa. pose proof (vnorm_nonneg (at_ b)) as Pb. fold (dist a) in Pa. fold (dist b) in Pb.
  assert (Sq : (dist b - dist a) * (dist a + dist b) = - (b - a) * vdot dx (vadd (at_ a) (at_ b))).
  { transitivity (dist b * dist b - dist a * dist a); [ring|]. unfold dist. rewrite !vnorm_sq.
    apply away_sq. }
  destruct (Req_dec (dist a + dist b) 0) as [Z|NZ].
  - assert (Za : dist a = 0) by lra. assert (Zb : dist b = 0) by lra.
    assert (V0 : vmul dx (b - a) = vzero).
    { rewrite <- at_diff. apply vnorm_zero_iff in Za. apply vnorm_zero_iff in Zb. rewrite Za, Zb. apply sub_zero. }
    assert (K : (b - a) * vdot dx (at_ 0) = 0).
    { rewrite dot_mul, V0. apply dot_zero. }
    rewrite Za, Zb. replace (0 - 0 - (b - a) * (- (vdot dx (at_ 0) / dist 0))) with ((b - a) * vdot dx (at_ 0) / dist 0) by (field; lra).
    rewrite K. unfold Rdiv at 1. rewrite Rmult_0_l, Rabs_R0.
    apply Rmult_le_pos; [apply Rabs_pos|]. apply Rmult_le_pos; [pose proof (vnorm_nonneg dx); nra|]. left. apply Rinv_0_lt_compat, P.
  - assert (PS : 0 < dist a + dist b) by lra.
    apply (Rmult_le_reg_l (dist 0 * (dist a + dist b))); [apply Rmult_lt_0_compat; assumption|].
    rewrite <- (Rabs_right (dist 0 * (dist a + dist b))) at 1 by (apply Rle_ge, Rmult_le_pos; lra). rewrite <- Rabs_mult.
    set (wa := vsub (vmul (at_ 0) (dist a)) (vmul (at_ a) (dist 0))).
    set (wb := vsub (vmul (at_ 0) (dist b)) (vmul (at_ b) (dist 0))).
    assert (E : dist 0 * (dist a + dist b) * (dist b - dist a - (b - a) * - (vdot dx (at_ 0) / dist 0)) = (b - a) * vdot dx (vadd wa wb)).
    { transitivity (dist 0 * ((dist b - dist a) * (dist a + dist b)) + (b - a) * ((dist a + dist b) * vdot dx (at_ 0))); [field; lra|].
      rewrite Sq. apply slope_alg. }
    rewrite E, Rabs_mult.
    assert (T : vnorm (vadd wa wb) <= 3 * vnorm dx * (dist a + dist b)).
    { eapply Rle_trans; [apply triangle|]. pose proof (turn a) as Ta. pose proof (turn b) as Tb. fold wa in Ta. fold wb in Tb.
      pose proof (vnorm_nonneg dx) as Pd.
      assert (Rabs a * vnorm dx <= 3/2 * vnorm dx) by (apply Rmult_le_compat_r; assumption).
      assert (Rabs b * vnorm dx <= 3/2 * vnorm dx) by (apply Rmult_le_compat_r; assumption).
      assert (2 * dist a * (Rabs a * vnorm dx) <= 2 * dist a * (3/2 * vnorm dx)) by (apply Rmult_le_compat_l; lra).
      assert (2 * dist b * (Rabs b * vnorm dx) <= 2 * dist b * (3/2 * vnorm dx)) by (apply Rmult_le_compat_l; lra). lra. }
    replace (dist 0 * (dist a + dist b) * (Rabs (b - a) * (3 * (vnorm dx * vnorm dx) / dist 0)))
      with (Rabs (b - a) * (vnorm dx * (3 * vnorm dx * (dist a + dist b)))) by (field; lra).
    apply Rmult_le_compat_l; [apply Rabs_pos|]. eapply Rle_trans; [apply cauchy_schwarz|].
    apply Rmult_le_compat_l; [apply vnorm_nonneg|exact T].
Qed.
End Distance.
