(* Field-free motion, trajectory indexing, reversibility, subluminal steps. *)
From Coq Require Import ZArith Reals Lra Lia Psatz List.
From Verif Require Import Base BaseFacts Num VecModel VecFacts ParticleModel ParticleSpec
  ParticleProofs VaySpec VayProofs VayTracking.
Import ListNotations.
Local Open Scope R_scope.

(* ---- indexing of the trajectory after n steps ---- *)
Section Index.
Context {T : Type} {NT : Num T}.

Lemma synced_last (p : particle T) :
  wf p -> synced p -> (0 < pNP p)%Z ->
  nth_error (trajectory p) (length (trajectory p) - 1) = Some (current p).
Proof.
  intros Hw Hs Hn. destruct Hs as [Hs|(H1 & H2 & H3 & H4)]; [lia|].
  pose proof (trajectory_length p Hw) as HL.
  destruct Hw as (_ & Lt & Lx & Lp & La).
  apply lback_inv in H1, H2, H3, H4.
  destruct H1 as [ti H1], H2 as [xi H2], H3 as [mi H3], H4 as [ai H4].
  unfold trajectory in *. rewrite H1, app_length in Lt. rewrite H2, app_length in Lx.
  rewrite H3, app_length in Lp. rewrite H4, app_length in La. cbn [length] in *.
  rewrite H1, H2, H3, H4 in *. rewrite zip4_app in * by lia. rewrite app_length in *. cbn [length zip4] in *.
  rewrite nth_error_app2 by lia.
  replace (length (zip4 ti xi mi ai) + 1 - 1 - length (zip4 ti xi mi ai))%nat with O by lia.
  reflexivity.
Qed.

(* the k-th point after the start is the current point after k steps *)
Lemma StepsVay_nth (F : field_fn T) n k (p q : particle T) :
  wf p -> synced p -> (0 < pNP p)%Z -> (k <= n)%nat -> StepsVay F n p = Ok q ->
  exists r, StepsVay F k p = Ok r /\ StepsVay F (n - k) r = Ok q /\
    nth_error (trajectory q) (length (trajectory p) - 1 + k) = Some (current r).
Proof.
  intros Hw Hs Hn Hk H. unfold StepsVay in H.
  replace n with (k + (n - k))%nat in H by lia. rewrite iter_res_plus in H.
  bget H as r Hr. exists r. split; [exact Hr|]. split; [exact H|].
  destruct (StepsVay_trajectory F k p r Hw Hr) as [Hwr [pts [Hl [Ht [Hb HN]]]]].
  destruct (StepsVay_trajectory F (n - k) r q Hwr H) as [Hwq [pts2 [Hl2 [Ht2 _]]]].
  assert (Hsr : synced r).
  { clear - Hs Hr. revert r Hr; induction k as [|k IH]; intros r Hr.
    - cbn in Hr. okinj Hr. exact Hs.
    - unfold StepsVay in Hr. rewrite iter_res_S_r in Hr. bget Hr as r' Hr'.
      eapply (synced_apply r' r (OpStep F)); [reflexivity|apply IH; exact Hr'|exact Hr]. }
  assert (Hlp : (0 < length (trajectory p))%nat).
  { pose proof (trajectory_length p Hw). lia. }
  rewrite Ht2. rewrite nth_error_app1.
  - rewrite <- (synced_last r Hwr Hsr) by lia. f_equal. rewrite Ht, app_length. lia.
  - rewrite Ht, app_length. lia.
Qed.
End Index.

Lemma StepsVay_run {T} {NT : Num T} (F : field_fn T) n (p : particle T) :
  StepsVay F n p = run_steps (repeat F n) p.
Proof.
  revert p; induction n as [|n IH]; intros p; [reflexivity|].
  unfold StepsVay, run_steps in *. cbn [iter_res repeat fold_res].
  destruct (StepVay F p); [apply IH|reflexivity..].
Qed.

(* ---- C05: time stamps ---- *)
Lemma tracked_time_stamps dt F n k p q :
  tracked dt p -> StepsVay F n p = Ok q -> (k <= n)%nat ->
  exists a, nth_error (trajectory q) (length (trajectory p) - 1 + k) = Some a /\
            tpt a = pt p + INR k * dt.
Proof.
  intros Ht H Hk. destruct (tracked_tstate _ _ Ht) as (Hw & _ & Hd & _ & _ & Hn & Hs).
  destruct (StepsVay_nth F n k p q Hw Hs Hn Hk H) as (r & Hr & _ & Hnth).
  exists (current r). split; [exact Hnth|]. destruct (StepsVay_time F k p r Hr) as [H1 _].
  cbn. rewrite H1, Hd. reflexivity.
Qed.

(* ---- C04 ---- *)
Definition zero_field : field_fn R := total_field (fun _ _ => ezero).

Lemma vay_half_zero_field (q : R) (ph : vec R) :
  fst (vay_half q ph vzero vzero) = ph.
Proof.
  symmetry. apply vay_half_unique. unfold lorentz. generalize (beta_of ph). intros b.
  vdestr. vunfold. unnum. unfold Rdiv. vsplit; ring.
Qed.

Lemma zero_accel (qm : R) (ph : vec R) : vay_accel qm ph vzero vzero = vzero.
Proof.
  unfold vay_accel. generalize (nsqrt (vabs2 ph + nZ 1)%num). intros g.
  vdestr. vunfold. unnum. unfold Rdiv. vsplit; ring.
Qed.

Lemma field_free_steps dt n p p1 q :
  wf p -> InitVay dt zero_field p = Ok p1 -> StepsVay zero_field n p1 = Ok q ->
  current q = TP (pt p1 + INR n * dt)
                 (vadd (pX p1) (vmul (beta_of (pP p1)) (INR n * dt * nc))) (pP p1) vzero
  /\ pVp q = pP p1 /\ tstate dt q.
Proof.
  intros Hw H0.
  assert (Hts : tstate dt p1) by (eapply InitVay_tstate; eauto).
  assert (Hbase : pVp p1 = pP p1 /\ pA p1 = vzero).
  { unfold InitVay in H0. destruct (pNP p <? 1)%Z; [discriminate|].
    bget H0 as t Ht. bget H0 as x Hx. bget H0 as m Hm. bget H0 as eb Heb.
    unfold zero_field, total_field in Heb. okinj Heb.
    match type of H0 with context [vay_half ?a ?b ?c ?d] =>
      pose proof (vay_half_zero_field a b) as Hz; cbn [fE fB ezero] in H0;
      destruct (vay_half a b vzero vzero) as [p2 g] end.
    bget H0 as acs Ha. okinj H0. cbn [pVp pP pA]. split; [exact Hz|apply zero_accel]. }
  revert q; induction n as [|n IH]; intros q H.
  - cbn in H. okinj H. destruct Hbase as [Hb1 Hb2]. split; [|split; [exact Hb1|exact Hts]].
    unfold current. rewrite Hb2. cbn [INR]. f_equal; [ring|].
    generalize (beta_of (pP p1)) (pX p1). intros b x. vring.
  - unfold StepsVay in H. rewrite iter_res_S_r in H. bget H as r Hr.
    destruct (IH r Hr) as (Hc & HV & Htr).
    assert (Htq : tstate dt q) by (eapply StepVay_tstate; eauto).
    pose proof (f_equal tpt Hc) as Hc1. pose proof (f_equal tpx Hc) as Hc2.
    cbn [current tpt tpx] in Hc1, Hc2.
    destruct Htr as (Hwr & Hg & Hd & _).
    unfold StepVay in H. bget H as eb Heb. unfold zero_field, total_field in Heb. okinj Heb.
    cbn [fE fB ezero] in H.
    match type of H with context [vay_half ?a ?b ?c ?d] =>
      pose proof (vay_half_zero_field a b) as Hz; set (ph := b) in *;
      destruct (vay_half a ph vzero vzero) as [p2 g] end.
    assert (Hph : ph = pP p1).
    { unfold ph. rewrite HV. generalize (vdiv (pP p1) (pVg r)) (pP p1). intros b v.
      vdestr; vunfold; unnum; unfold Rdiv; vsplit; ring. }
    okinj H. unfold current. cbn [pt pX pP pA pVp storeTrajectoryPoint] in *.
    split; [|split; [rewrite <- Hph; exact Hz|exact Htq]].
    rewrite Hph, zero_accel, Hc1, Hc2, Hd, HV, Hg, HV. fold (beta_of (pP p1)).
    f_equal; [rewrite S_INR; unnum; ring|].
    rewrite S_INR. generalize (beta_of (pP p1)) (pX p1). intros b x. vring.
Qed.

Lemma zero_field_defined n (p : particle R) : exists q, StepsVay zero_field n p = Ok q.
Proof.
  revert p; induction n as [|n IH]; intros p; [exists p; reflexivity|].
  unfold StepsVay. cbn [iter_res]. unfold StepVay at 1, zero_field at 1, total_field. cbn [bind].
  destruct (vay_half _ _ _ _). cbn [bind]. apply IH.
Qed.

Lemma total_field_defined f n (p : particle R) : exists q, StepsVay (total_field f) n p = Ok q.
Proof.
  revert p; induction n as [|n IH]; intros p; [exists p; reflexivity|].
  unfold StepsVay. cbn [iter_res]. unfold StepVay at 1, total_field at 1. cbn [bind].
  destruct (vay_half _ _ _ _). cbn [bind]. apply IH.
Qed.

Lemma field_free_trajectory dt n k p p1 q :
  wf p -> InitVay dt zero_field p = Ok p1 -> StepsVay zero_field n p1 = Ok q -> (k <= n)%nat ->
  nth_error (trajectory q) (length (trajectory p) - 1 + k) =
    Some (TP (pt p1 + INR k * dt)
             (vadd (pX p1) (vmul (beta_of (pP p1)) (INR k * dt * nc))) (pP p1) vzero).
Proof.
  intros Hw H0 H Hk. destruct (InitVay_tstate dt zero_field p p1 Hw H0) as (Hw1 & _ & _ & _ & _ & Hn1 & Hs1).
  destruct (StepsVay_nth _ n k p1 q Hw1 Hs1 Hn1 Hk H) as (r & Hr & _ & Hnth).
  destruct (field_free_steps dt k p p1 r Hw H0 Hr) as [Hc _]. rewrite <- Hc, <- Hnth. f_equal.
  f_equal. f_equal.
  destruct (InitVay_trajectory dt zero_field p p1 Hw H0) as (i & l & a' & HA & HB & _).
  rewrite HA, HB, !app_length. reflexivity.
Qed.

(* ---- C06: reversibility ---- *)

Lemma InitVay_end dt F p q :
  InitVay dt F p = Ok q ->
  exists eb, F (pt q) (pX q) = Ok eb /\ pVp q = fst (vay_half (pqmt2 q) (pP q) (fE eb) (fB eb)) /\
    pCharge q = pCharge p /\ pMass q = pMass p /\
    lback (pTimes p) = Ok (pt q) /\ lback (pXs p) = Ok (pX q) /\ lback (pPs p) = Ok (pP q).
Proof.
  intros H. unfold InitVay in H. destruct (pNP p <? 1)%Z; [discriminate|].
  bget H as t Ht. bget H as x Hx. bget H as m Hm. bget H as eb Heb.
  destruct (vay_half _ _ _ _) as [p1 g] eqn:E. bget H as acs Ha. okinj H.
  exists eb. cbn [pt pX pP pVp pqmt2 pCharge pMass]. rewrite E. cbn [fst]. auto 10.
Qed.
Lemma StepVay_end (F : field_fn R) p q :
  StepVay F p = Ok q ->
  exists eb, F (pt q) (pX q) = Ok eb /\ pVp q = fst (vay_half (pqmt2 q) (pP q) (fE eb) (fB eb)) /\
    pCharge q = pCharge p /\ pMass q = pMass p.
Proof.
  intros H. unfold StepVay in H. bget H as eb Heb.
  destruct (vay_half _ _ _ _) as [p1 g] eqn:E. okinj H.
  exists eb. cbn [pt pX pP pVp pqmt2 pCharge pMass storeTrajectoryPoint]. rewrite E. cbn [fst]. auto.
Qed.

(* a state q of the backward run that sits at the point of state r of the forward run *)
Definition at_same_point (dt : R) (q r : particle R) : Prop :=
  tstate (- dt) q /\ tstate dt r /\ pCharge q = pCharge r /\ pMass q = pMass r /\
  pt q = pt r /\ pX q = pX r /\ pP q = pP r.

Lemma reverse_momentum dt F q r' r :
  at_same_point dt q r -> tracked dt r' -> StepVay F r' = Ok r ->
  (exists eb, F (pt q) (pX q) = Ok eb /\ pVp q = fst (vay_half (pqmt2 q) (pP q) (fE eb) (fB eb))) ->
  pVp q = pVp r'.
Proof.
  intros (Hq & Hr & Hc & Hm & Et & Ex & Ep) Htr H (eb & HF & HV).
  destruct (step_equation dt F r' r Htr H) as (eb' & HF' & _ & _ & HP & _).
  rewrite Et, Ex, HF' in HF. apply Ok_inj in HF. subst eb'.
  destruct Hq as (_ & _ & _ & Hqm & Hq2 & _).
  destruct (StepVay_end F r' r H) as (_ & _ & _ & Hc' & Hm').
  symmetry. rewrite HV. apply vay_half_unique. rewrite Ep, HP, Hq2, Hqm, Hc, Hm, Hc', Hm'.
  generalize (charge_over_mass (pCharge r') (pMass r')). intros k.
  generalize (lorentz (beta_of (pVp r')) (fE eb) (fB eb)) (pVp r'). intros L u.
  vdestr; vunfold; unnum; vsplit; field.
Qed.

Lemma reverse_step dt F q r' r :
  at_same_point dt q r -> tracked dt r' -> StepVay F r' = Ok r ->
  (exists eb', F (pt r') (pX r') = Ok eb' /\
     pVp r' = fst (vay_half (pqmt2 r') (pP r') (fE eb') (fB eb'))) ->
  pVp q = pVp r' ->
  exists q', StepVay F q = Ok q' /\ at_same_point dt q' r'.
Proof.
  intros (Hq & Hr & Hc & Hm & Et & Ex & Ep) Htr H (eb & HF & HV) Hpv.
  destruct (step_equation dt F r' r Htr H) as (eb' & _ & Ht' & Hx' & _).
  pose proof Hq as (Hwq & Hgq & Hdq & Hqmq & Hq2q & _).
  destruct (tracked_tstate _ _ Htr) as (Hwr' & Hgr' & Hdr' & Hqmr' & Hq2r' & _).
  destruct (StepVay_end F r' r H) as (_ & _ & _ & Hc' & Hm').
  assert (At : nadd (pt q) (pdt q) = pt r').
  { rewrite Et, Ht', Hdq. unnum. ring. }
  assert (Ax : vadd (pX q) (vmul (vmul (vdiv (pVp q) (pVg q)) nc) (pdt q)) = pX r').
  { rewrite Ex, Hx', Hgq, Hpv, Hdq. fold (beta_of (pVp r')).
    generalize (beta_of (pVp r')) (pX r'). intros b x. vring. }
  assert (Hstep : exists q', StepVay F q = Ok q').
  { unfold StepVay. rewrite At, Ax, HF. cbn [bind]. destruct (vay_half _ _ _ _). eexists; reflexivity. }
  destruct Hstep as [q' Hs]. exists q'. split; [exact Hs|].
  pose proof (StepVay_tstate _ F q q' Hq Hs) as Htq'.
  destruct (StepVay_end F q q' Hs) as (_ & _ & _ & Hcq' & Hmq').
  unfold at_same_point. split; [exact Htq'|]. split; [exact (tracked_tstate _ _ Htr)|].
  split; [congruence|]. split; [congruence|].
  pose proof (vay_half_implicit (pqmt2 r') (pP r') (fE eb) (fB eb)) as Hi. cbv zeta in Hi.
  rewrite <- HV in Hi.
  unfold StepVay in Hs. rewrite At, Ax, HF in Hs. cbn [bind] in Hs.
  match type of Hs with context [vay_half ?a ?b ?c ?d] => destruct (vay_half a b c d) as [p1 g] end. okinj Hs. cbn [pt pX pP storeTrajectoryPoint].
  split; [reflexivity|]. split; [reflexivity|].
  rewrite Hgq, Hpv. fold (beta_of (pVp r')).
  assert (Hk : pqmt2 q = - pqmt2 r').
  { rewrite Hq2q, Hq2r', Hqmq, Hqmr', Hc, Hm, Hc', Hm'. field. }
  rewrite Hk. change (vadd (vdiv (fE eb) nc) (vcross (beta_of (pVp r')) (fB eb)))
    with (lorentz (beta_of (pVp r')) (fE eb) (fB eb)).
  revert Hi. generalize (lorentz (beta_of (pVp r')) (fE eb) (fB eb)) (pqmt2 r') (pP r').
  intros L k v Hi. rewrite Hi. clear. vdestr; vunfold; unnum; vsplit; ring.
Qed.

Lemma reverse_run dt F p p1 n pn q0 :
  wf p -> InitVay dt F p = Ok p1 -> StepsVay F n p1 = Ok pn -> InitVay (- dt) F pn = Ok q0 ->
  forall k, (k <= n)%nat ->
  exists r q, StepsVay F (n - k) p1 = Ok r /\ StepsVay F k q0 = Ok q /\ at_same_point dt q r /\
    (exists eb, F (pt q) (pX q) = Ok eb /\ pVp q = fst (vay_half (pqmt2 q) (pP q) (fE eb) (fB eb))).
Proof.
  intros Hw H0 Hn Hq0.
  assert (Htr : forall m r, StepsVay F m p1 = Ok r -> tracked dt r).
  { induction m as [|m IH]; intros r Hr.
    - cbn in Hr. okinj Hr. exists p, p1, F, []. repeat split; try apply Hw; auto.
    - unfold StepsVay in Hr. rewrite iter_res_S_r in Hr. bget Hr as r' Hr'.
      eapply tracked_step; [apply IH; exact Hr'|exact Hr]. }
  assert (Hend : forall m r, StepsVay F m p1 = Ok r ->
    exists eb, F (pt r) (pX r) = Ok eb /\ pVp r = fst (vay_half (pqmt2 r) (pP r) (fE eb) (fB eb))).
  { intros [|m] r Hr.
    - cbn in Hr. okinj Hr. destruct (InitVay_end _ _ _ _ H0) as (eb & A & B & _). exists eb; auto.
    - unfold StepsVay in Hr. rewrite iter_res_S_r in Hr. bget Hr as r' Hr'.
      destruct (StepVay_end _ _ _ Hr) as (eb & A & B & _). exists eb; auto. }
  induction k as [|k IH]; intros Hk.
  - exists pn, q0. rewrite Nat.sub_0_r. split; [exact Hn|]. split; [reflexivity|].
    pose proof (tracked_tstate _ _ (Htr _ _ Hn)) as Htn.
    pose proof (InitVay_tstate (- dt) F pn q0 (proj1 Htn) Hq0) as Htq.
    destruct (InitVay_end _ _ _ _ Hq0) as (eb & A & B & C & D & E1 & E2 & E3).
    split; [|exists eb; auto].
    destruct Htn as (Hwn & Hg & Hd & Hqm & Hq2 & HN & Hs).
    destruct Hs as [Hs|(S1 & S2 & S3 & S4)]; [lia|].
    unfold at_same_point. split; [exact Htq|]. split; [unfold tstate; auto 10 using or_intror|].
    { split; [exact Hwn|]. repeat split; auto. right; auto. }
    repeat split; congruence.
  - destruct IH as (r & q & Hr & Hq & Hsame & Hqe); [lia|].
    replace (n - k)%nat with (S (n - S k)) in Hr by lia.
    unfold StepsVay in Hr. rewrite iter_res_S_r in Hr. bget Hr as r' Hr'.
    pose proof (reverse_momentum dt F q r' r Hsame (Htr _ _ Hr') Hr Hqe) as Hmom.
    destruct (reverse_step dt F q r' r Hsame (Htr _ _ Hr') Hr (Hend _ _ Hr') Hmom) as (q' & Hs & Hsame').
    exists r', q'. split; [exact Hr'|]. split.
    { unfold StepsVay. rewrite iter_res_S_r. unfold StepsVay in Hq. rewrite Hq. exact Hs. }
    split; [exact Hsame'|]. destruct (StepVay_end _ _ _ Hs) as (eb & A & B & _). exists eb; auto.
Qed.

(* the backward set-up itself succeeds *)
Lemma reverse_setup dt F p p1 n pn :
  wf p -> InitVay dt F p = Ok p1 -> StepsVay F n p1 = Ok pn -> exists q0, InitVay (- dt) F pn = Ok q0.
Proof.
  intros Hw H0 Hn.
  assert (Htn : tstate dt pn).
  { apply tracked_tstate. clear - Hw H0 Hn. revert pn Hn; induction n as [|n IH]; intros pn Hn.
    - cbn in Hn. okinj Hn. exists p, p1, F, []. repeat split; try apply Hw; auto.
    - unfold StepsVay in Hn. rewrite iter_res_S_r in Hn. bget Hn as r Hr.
      eapply tracked_step; [apply IH; exact Hr|exact Hn]. }
  assert (Hend : exists eb, F (pt pn) (pX pn) = Ok eb).
  { destruct n as [|n].
    - cbn in Hn. okinj Hn. destruct (InitVay_end _ _ _ _ H0) as (eb & A & _). exists eb; auto.
    - unfold StepsVay in Hn. rewrite iter_res_S_r in Hn. bget Hn as r Hr.
      destruct (StepVay_end _ _ _ Hn) as (eb & A & _). exists eb; auto. }
  destruct Htn as (Hwn & _ & _ & _ & _ & HN & Hs). destruct Hend as [eb Heb].
  destruct Hs as [Hs|(S1 & S2 & S3 & S4)]; [lia|].
  unfold InitVay. destruct (Z.ltb_spec (pNP pn) 1); [lia|].
  rewrite S1, S2, S3. cbn [bind]. rewrite Heb. cbn [bind]. destruct (vay_half _ _ _ _).
  apply lback_inv in S4. destruct S4 as [i Hi]. rewrite Hi, set_back_app. cbn [bind].
  eexists; reflexivity.
Qed.

Lemma retrace dt F p p1 n pn :
  wf p -> InitVay dt F p = Ok p1 -> StepsVay F n p1 = Ok pn ->
  exists q0 qn, InitVay (- dt) F pn = Ok q0 /\ StepsVay F n q0 = Ok qn /\
  forall k, (k <= n)%nat ->
  exists a b,
    nth_error (trajectory pn) (length (trajectory pn) - 1 - k) = Some a /\
    nth_error (trajectory qn) (length (trajectory pn) - 1 + k) = Some b /\
    tpt a = tpt b /\ tpx a = tpx b /\ tpp a = tpp b.
Proof.
  intros Hw H0 Hn. destruct (reverse_setup dt F p p1 n pn Hw H0 Hn) as [q0 Hq0].
  destruct (reverse_run dt F p p1 n pn q0 Hw H0 Hn Hq0 n (le_n n)) as (_ & qn & _ & Hqn & _).
  exists q0, qn. split; [exact Hq0|]. split; [exact Hqn|]. intros k Hk.
  destruct (reverse_run dt F p p1 n pn q0 Hw H0 Hn Hq0 k Hk) as (r & q & Hr & Hq & Hsame & _).
  destruct (InitVay_tstate dt F p p1 Hw H0) as (Hw1 & _ & _ & _ & _ & Hn1 & Hs1).
  destruct (StepsVay_trajectory F n p1 pn Hw1 Hn) as [Hwn [pts [Hl [Ht _]]]].
  destruct (InitVay_tstate (- dt) F pn q0 Hwn Hq0) as (Hwq & _ & _ & _ & _ & Hnq & Hsq).
  destruct (StepsVay_nth F n (n - k) p1 pn Hw1 Hs1 Hn1 ltac:(lia) Hn) as (r2 & Hr2 & _ & Hnth).
  rewrite Hr in Hr2. apply Ok_inj in Hr2. subst r2.
  destruct (StepsVay_nth F n k q0 qn Hwq Hsq Hnq Hk Hqn) as (q2 & Hq2 & _ & Hnthq).
  rewrite Hq in Hq2. apply Ok_inj in Hq2. subst q2.
  exists (current r), (current q).
  destruct (InitVay_trajectory (- dt) F pn q0 Hwn Hq0) as (i & l & a' & HA & HB & _).
  assert (HL : length (trajectory q0) = length (trajectory pn)) by (rewrite HA, HB, !app_length; reflexivity).
  assert (Hp1 : (0 < length (trajectory p1))%nat) by (pose proof (trajectory_length p1 Hw1); lia).
  split; [|split].
  - rewrite <- Hnth. f_equal. rewrite Ht, app_length. lia.
  - rewrite <- Hnthq. f_equal. rewrite HL. reflexivity.
  - destruct Hsame as (_ & _ & _ & _ & Et & Ex & Ep). cbn. auto.
Qed.

(* ---- C13: steps are subluminal ---- *)
Lemma step_subluminal dt F p q :
  0 < dt -> tracked dt p -> StepVay F p = Ok q ->
  vnorm (vsub (pX q) (pX p)) < nc * (pt q - pt p).
Proof.
  intros Hdt Ht H. destruct (step_equation dt F p q Ht H) as (eb & _ & Et & Ex & _).
  rewrite Ex, Et. replace (vsub (vadd (pX p) (vmul (beta_of (pVp p)) (nc * dt))) (pX p))
    with (vmul (beta_of (pVp p)) (nc * dt)).
  2:{ generalize (beta_of (pVp p)) (pX p). intros b x. vring. }
  rewrite vnorm_mul. pose proof nc_pos as Hc. rewrite Rabs_pos_eq by nra.
  pose proof (beta_of_lt_1 (pVp p)). pose proof (vnorm_nonneg (beta_of (pVp p))).
  assert (0 < nc * dt) by nra. nra.
Qed.
