(* The tracking code evaluates no invalid operation: run with checked reals it
   computes exactly the embedded results of the run over R. *)
From Coq Require Import ZArith Reals Lra Lia Psatz List.
From Verif Require Import Base BaseFacts Num VecModel VecFacts ParticleModel ParticleSpec
  ParticleProofs VaySpec VayProofs VayTracking NumChecked.
Import ListNotations.
Local Open Scope R_scope.

Notation CK := (@NumChk) (only parsing).
Lemma ck_div (x y : R) : y <> 0 -> @ndiv _ NumChk (Some x) (Some y) = Some (x / y).
Proof. intros H. cbn. destruct (Reqb_spec y 0); [contradiction|reflexivity]. Qed.
Lemma ck_sqrt (x : R) : 0 <= x -> @nsqrt _ NumChk (Some x) = Some (sqrt x).
Proof. intros H. cbn. destruct (Rltb_spec x 0); [lra|reflexivity]. Qed.

Lemma lv_add a b : @vadd _ NumChk (lv a) (lv b) = lv (vadd a b). Proof. reflexivity. Qed.
Lemma lv_sub a b : @vsub _ NumChk (lv a) (lv b) = lv (vsub a b). Proof. reflexivity. Qed.
Lemma lv_mul a k : @vmul _ NumChk (lv a) (Some k) = lv (vmul a k). Proof. reflexivity. Qed.
Lemma lv_cross a b : @vcross _ NumChk (lv a) (lv b) = lv (vcross a b). Proof. reflexivity. Qed.
Lemma lv_dot a b : @vdot _ NumChk (lv a) (lv b) = Some (vdot a b). Proof. reflexivity. Qed.
Lemma lv_abs2 a : @vabs2 _ NumChk (lv a) = Some (vabs2 a). Proof. reflexivity. Qed.
Lemma lv_div a k : k <> 0 -> @vdiv _ NumChk (lv a) (Some k) = lv (vdiv a k).
Proof.
  intros H. unfold vdiv, lv. cbn [vx vy vz]. rewrite !ck_div by assumption. reflexivity.
Qed.
Lemma lv_zero : @vzero _ NumChk = lv vzero. Proof. reflexivity. Qed.
Lemma ck_c : @nc _ NumChk = Some nc. Proof. reflexivity. Qed.
Lemma ck_add x y : @nadd _ NumChk (Some x) (Some y) = Some (x + y). Proof. reflexivity. Qed.
Lemma ck_sub x y : @nsub _ NumChk (Some x) (Some y) = Some (x - y). Proof. reflexivity. Qed.
Lemma ck_mul x y : @nmul _ NumChk (Some x) (Some y) = Some (x * y). Proof. reflexivity. Qed.
Lemma ck_Z z : @nZ _ NumChk z = Some (nZ z). Proof. reflexivity. Qed.
Lemma ck_half : @nhalf _ NumChk = Some nhalf.
Proof. unfold nhalf. rewrite !ck_Z, ck_div; [reflexivity|]. cbn. lra. Qed.

Lemma nc_neq0 : (@nc R NumR) <> 0. Proof. pose proof nc_pos. lra. Qed.
Ltac ck := repeat first
  [ rewrite lv_add | rewrite lv_sub | rewrite lv_mul | rewrite lv_cross | rewrite lv_dot
  | rewrite lv_abs2 | rewrite ck_c | rewrite ck_add | rewrite ck_sub | rewrite ck_mul
  | rewrite ck_Z | rewrite ck_half | rewrite (lv_div _ nc nc_neq0) ].

Lemma ck_vay_half (q : R) (ph e b : vec R) :
  @vay_half _ NumChk (Some q) (lv ph) (lv e) (lv b) =
  (lv (fst (vay_half q ph e b)), Some (snd (vay_half q ph e b))).
Proof.
  pose proof (vay_half_spec q ph e b) as H.
  unfold vay_half in *. cbv zeta in *. ck.
  set (pp := vadd ph (vmul (vdiv e nc) q)) in *. set (tau := vmul b q) in *.
  destruct H as (Hg & H1 & _).
  rewrite ck_sqrt.
  2:{ apply (quad_disc_nonneg pp tau). }
  ck. rewrite ck_sqrt.
  2:{ pose proof (quad_ge_1 pp tau) as Hq. unfold nhalf. cbn in *. lra. }
  rewrite lv_div.
  2:{ cbn in *. intros Hz. rewrite Hz in H1. lra. }
  ck. rewrite lv_div.
  2:{ match goal with |- _ + vabs2 ?t <> 0 => pose proof (vabs2_nonneg t) end. cbn in *. lra. }
  reflexivity.
Qed.

Lemma ck_vay_accel (qm : R) (ph e b : vec R) :
  @vay_accel _ NumChk (Some qm) (lv ph) (lv e) (lv b) = lv (vay_accel qm ph e b).
Proof.
  unfold vay_accel. cbv zeta. ck. pose proof (vabs2_nonneg ph) as H.
  rewrite ck_sqrt by (cbn in *; lra).
  rewrite lv_div; [ck; reflexivity|].
  assert (0 < sqrt (vabs2 ph + 1)) by (apply sqrt_lt_R0; lra). cbn in *. lra.
Qed.

Lemma lback_map {A B} (f : A -> B) l : lback (map f l) = lres f (lback l).
Proof.
  induction l as [|a l IH]; [reflexivity|]. destruct l as [|b l]; [reflexivity|].
  change (lback (map f (a :: b :: l))) with (lback (map f (b :: l))).
  rewrite IH. reflexivity.
Qed.
Lemma set_back_map {A B} (f : A -> B) l a : set_back (map f l) (f a) = lres (map f) (set_back l a).
Proof.
  induction l as [|x l IH]; [reflexivity|]. destruct l as [|b l]; [reflexivity|].
  change (set_back (map f (x :: b :: l)) (f a))
    with (bind (set_back (map f (b :: l)) (f a)) (fun r' => Ok (f x :: r'))).
  rewrite IH. change (set_back (x :: b :: l) a) with (bind (set_back (b :: l) a) (fun r' => Ok (x :: r'))).
  destruct (set_back (b :: l) a); reflexivity.
Qed.
Lemma lfield_ok F t x : lfield F (Some t) (lv x) = lres le (F t x).
Proof. destruct x; reflexivity. Qed.

Lemma InitVay_checked dt F p :
  pMass p <> 0 ->
  @InitVay _ NumChk (Some dt) (lfield F) (lp p) = lres lp (InitVay dt F p).
Proof.
  intros Hm. unfold InitVay. cbn [lp pNP].
  destruct (pNP p <? 1)%Z; [reflexivity|].
  cbn [pTimes pXs pPs pAs pCharge pMass lp]. rewrite !lback_map.
  destruct (lback (pTimes p)) as [t|e| |]; [|reflexivity..]. cbn [lres bind].
  destruct (lback (pXs p)) as [x|e| |]; [|reflexivity..]. cbn [lres bind].
  destruct (lback (pPs p)) as [m|e| |]; [|reflexivity..]. cbn [lres bind].
  rewrite lfield_ok. destruct (F t x) as [eb|e| |]; [|reflexivity..]. cbn [lres bind le fE fB].
  rewrite (ck_div _ _ Hm). change (@nirm _ NumChk) with (Some nirm). ck.
  rewrite ck_vay_half, ck_vay_accel.
  change (@ndiv R NumR) with Rdiv. change (@nmul R NumR) with Rmult.
  destruct (vay_half _ _ _ _) as [p1 g]. cbn [fst snd].
  rewrite set_back_map.
  destruct (set_back (pAs p) _) as [acs|e| |]; reflexivity.
Qed.

Lemma StepVay_checked F p :
  pVg p <> 0 ->
  @StepVay _ NumChk (lfield F) (lp p) = lres lp (StepVay F p).
Proof.
  intros Hg. unfold StepVay. cbn [lp pVp pVg pt pdt pX]. rewrite lv_div by exact Hg. ck.
  rewrite lfield_ok. change (@nadd R NumR) with Rplus.
  match goal with |- bind (lres le ?a) _ = _ => destruct a as [eb|e| |]; [|reflexivity..] end.
  cbn [lres bind le fE fB pqm pqmt2 lp]. ck. rewrite ck_vay_half, ck_vay_accel.
  match goal with |- context [@vay_half R NumR ?a ?b ?c ?d] => destruct (vay_half a b c d) as [p1 g] end.
  cbn [fst snd]. unfold storeTrajectoryPoint, lp.
  cbn [pCharge pMass pqm pdt pqmt2 pNP pNpre pt pX pP pA pE pB pTimes pXs pPs pAs pVp pVg lres].
  rewrite !map_app. reflexivity.
Qed.

Definition lsteps := map lfield.
Lemma run_steps_checked dt Fs p :
  tracked dt p ->
  @run_steps _ NumChk (map lfield Fs) (lp p) = lres lp (run_steps Fs p).
Proof.
  revert p; induction Fs as [|F Fs IH]; intros p Ht; [reflexivity|].
  cbn [map run_steps fold_res]. unfold run_steps in *. cbn [fold_res].
  rewrite StepVay_checked.
  2:{ destruct (tracked_gamma _ _ Ht) as (_ & H & _). lra. }
  destruct (StepVay F p) as [q|e| |] eqn:E; [|reflexivity..]. cbn [lres bind].
  apply IH. eapply tracked_step; eauto.
Qed.
