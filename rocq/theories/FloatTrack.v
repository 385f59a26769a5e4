(* Tracking in double precision: time stamps and field-free motion. *)
From Coq Require Import ZArith Reals List Bool Lia Lra Psatz Floats.
From Flocq Require Import Core.
From Verif Require Import Base BaseFacts Num NumFloat FloatFacts FloatFacts2 VecModel ParticleModel ParticleSpec ParticleProofs VayTracking VayTracking2.
Import ListNotations.
Local Open Scope R_scope.

(* ---- any number type: what stays the same during tracking ---- *)
Section Any.
Context {T : Type} {NT : Num T}.
Definition tstate0 (dt : T) (p : particle T) : Prop :=
  wf p /\ pdt p = dt /\ pqm p = nmul (ndiv (pCharge p) (pMass p)) nirm /\ pqmt2 p = nmul (nmul (pqm p) nhalf) dt /\ (0 < pNP p)%Z /\ synced p.
Lemma Init_tstate0 dt F (p q : particle T) : wf p -> InitVay dt F p = Ok q -> tstate0 dt q.
Proof.
  intros Hw H. assert (Hwq : wf q) by (apply (wf_apply p q (OpSetup dt F)); assumption). unfold InitVay in H.
  destruct (Z.ltb_spec (pNP p) 1) as [Hn|Hn]; [discriminate|].
  bget H as t Ht. bget H as x Hx. bget H as m Hm. bget H as eb Heb. destruct (vay_half _ _ _ _) as [p1 g]. bget H as acs Ha. okinj H.
  split; [exact Hwq|]. split; [reflexivity|]. split; [reflexivity|]. split; [reflexivity|]. split; [cbn [pNP]; lia|].
  right. cbn [pTimes pXs pPs pAs pt pX pP pA]. apply set_back_inv in Ha. destruct Ha as [i [b [Hi ->]]]. rewrite lback_app. auto.
Qed.
Lemma Step_tstate0 dt F (p q : particle T) : tstate0 dt p -> StepVay F p = Ok q -> tstate0 dt q.
Proof.
  intros (Hw & Hd & Hq & Hq2 & HN & Hs) H. assert (Hwq : wf q) by (apply (wf_apply p q (OpStep F)); assumption).
  pose proof (synced_apply p q (OpStep F) eq_refl Hs H) as Hsq. destruct (StepVay_trajectory F p q Hw H) as (_ & N & D & A & B & C & M & _).
  split; [exact Hwq|]. split; [congruence|]. split; [rewrite A, C, M; exact Hq|]. split; [rewrite B, A; exact Hq2|]. split; [lia|exact Hsq].
Qed.
Lemma tracked_tstate0 dt (p : particle T) : tracked dt p -> tstate0 dt p.
Proof.
  intros (p0 & p1 & F0 & Fs & Hw & H0 & H1). pose proof (Init_tstate0 dt F0 p0 p1 Hw H0) as I. clear H0. revert p1 I H1.
  unfold run_steps. induction Fs as [|F Fs IH]; intros p1 I H1; cbn [fold_res] in H1.
  - okinj H1. exact I.
  - bget H1 as r Hr. apply (IH r); [|exact H1]. apply (Step_tstate0 dt F p1 r I Hr).
Qed.
Lemma Steps_prefix F n k (p q : particle T) : (k <= n)%nat -> StepsVay F n p = Ok q -> exists r, StepsVay F k p = Ok r.
Proof.
  intros Hk H. unfold StepsVay in *. replace n with (k + (n - k))%nat in H by lia. rewrite iter_res_plus in H. bget H as r Hr. exists r. exact Hr.
Qed.
Lemma Steps_S F k (p q r : particle T) : StepsVay F k p = Ok q -> StepsVay F (S k) p = Ok r -> StepVay F q = Ok r.
Proof. intros H H1. unfold StepsVay in *. rewrite iter_res_S_r, H in H1. exact H1. Qed.
(* the state after k of the n steps *)
Definition after (F : field_fn T) (p : particle T) (k : nat) : particle T := match StepsVay F k p with Ok r => r | _ => p end.
Lemma after_S F n (p q : particle T) k : StepsVay F n p = Ok q -> (k < n)%nat -> StepVay F (after F p k) = Ok (after F p (S k)).
Proof.
  intros H Hk. destruct (Steps_prefix F n k p q ltac:(lia) H) as [r Hr]. destruct (Steps_prefix F n (S k) p q ltac:(lia) H) as [r' Hr'].
  unfold after. rewrite Hr, Hr'. apply (Steps_S F k p r r' Hr Hr').
Qed.
Lemma after_0 F (p : particle T) : after F p 0 = p.
Proof. reflexivity. Qed.
Lemma after_point dt F n k (p q : particle T) : tstate0 dt p -> StepsVay F n p = Ok q -> (k <= n)%nat ->
  nth_error (trajectory q) (length (trajectory p) - 1 + k) = Some (current (after F p k)).
Proof.
  intros (Hw & _ & _ & _ & HN & Hs) H Hk. destruct (StepsVay_nth F n k p q Hw Hs HN Hk H) as (r & Hr & _ & E). unfold after. rewrite Hr. exact E.
Qed.
End Any.

(* ---- time stamps ---- *)
Lemma nat_ur n : (Z.of_nat n <= 2 ^ 51)%Z -> INR n * ur <= / 4.
Proof. intros H. apply IZR_le in H. rewrite <- INR_IZR_INZ in H. change (IZR (2 ^ 51)) with 2251799813685248 in H. rewrite ur_eq. lra. Qed.
Lemma double_times (dt : flt) F n k p q : tracked dt p -> StepsVay F n p = Ok q -> (k <= n)%nat ->
  fin dt -> fin (pt p) -> (Z.of_nat n <= 2 ^ 51)%Z -> Rabs (FR (pt p)) + INR n * Rabs (FR dt) <= bpow radix2 1022 ->
  exists a, nth_error (trajectory q) (length (trajectory p) - 1 + k) = Some a /\ fin (tpt a) /\
    Rabs (FR (tpt a) - (FR (pt p) + INR k * FR dt)) <= INR k * bpow radix2 (-52) * (Rabs (FR (pt p)) + INR n * Rabs (FR dt)).
Proof.
  intros Ht H Hk Fd Fp Hn HM. apply tracked_tstate0 in Ht. exists (current (after F p k)). split; [apply (after_point dt F n k p q Ht H Hk)|].
  cbn [current tpt]. replace (bpow radix2 (-52)) with (2 * ur) by (unfold ur; change 2 with (bpow radix2 1); rewrite <- bpow_plus; reflexivity).
  apply (sums_ok (fun i => pt (after F p i)) (fun _ => dt) (FR dt) n k); cbn beta; rewrite ?after_0; try assumption.
  - intros i Hi. split; [|split; [exact Fd|reflexivity]]. pose proof (after_S F n p q i H Hi) as HS.
    assert (D : pdt (after F p i) = dt).
    { clear HS. induction i as [|i IH]; [rewrite after_0; apply Ht|]. assert (Hi' : (i < n)%nat) by lia. specialize (IH Hi').
      pose proof (after_S F n p q i H Hi') as HS. unfold StepVay in HS. bget HS as eb Heb. destruct (vay_half _ _ _ _) as [a b]. apply Ok_inj in HS. rewrite <- HS. exact IH. }
    unfold StepVay in HS. bget HS as eb Heb. destruct (vay_half _ _ _ _) as [a b]. apply Ok_inj in HS. rewrite <- HS. cbn [storeTrajectoryPoint pt]. rewrite D. reflexivity.
  - apply nat_ur. exact Hn.
Qed.
Lemma double_times_up (dt : flt) F n k p q : tracked dt p -> StepsVay F n p = Ok q -> (k < n)%nat ->
  fin dt -> 0 <= FR dt -> fin (pt p) -> (Z.of_nat n <= 2 ^ 51)%Z -> Rabs (FR (pt p)) + INR n * Rabs (FR dt) <= bpow radix2 1021 ->
  exists a b, nth_error (trajectory q) (length (trajectory p) - 1 + k) = Some a /\
    nth_error (trajectory q) (length (trajectory p) - 1 + S k) = Some b /\ FR (tpt a) <= FR (tpt b).
Proof.
  intros Ht H Hk Fd Pd Fp Hn HM.
  assert (HM2 : Rabs (FR (pt p)) + INR n * Rabs (FR dt) <= bpow radix2 1022) by (eapply Rle_trans; [exact HM|apply bp_le; lia]).
  destruct (double_times dt F n k p q Ht H ltac:(lia) Fd Fp Hn HM2) as (a & Ha & Fa & Ea).
  destruct (double_times dt F n (S k) p q Ht H ltac:(lia) Fd Fp Hn HM2) as (b & Hb & Fb & _). exists a, b. split; [exact Ha|]. split; [exact Hb|].
  apply tracked_tstate0 in Ht. rewrite (after_point dt F n k p q Ht H ltac:(lia)) in Ha. rewrite (after_point dt F n (S k) p q Ht H ltac:(lia)) in Hb.
  assert (Ea' : tpt a = pt (after F p k)) by (injection Ha as <-; reflexivity). assert (Eb' : tpt b = pt (after F p (S k))) by (injection Hb as <-; reflexivity).
  rewrite Eb'. pose proof (after_S F n p q k H Hk) as HS. assert (D : pdt (after F p k) = dt).
  { clear - Ht H Hk. induction k as [|i IH]; [rewrite after_0; apply Ht|]. specialize (IH ltac:(lia)).
    pose proof (after_S F n p q i H ltac:(lia)) as HS. unfold StepVay in HS. bget HS as eb Heb. destruct (vay_half _ _ _ _) as [a b]. apply Ok_inj in HS. rewrite <- HS. exact IH. }
  unfold StepVay in HS. bget HS as eb Heb. destruct (vay_half _ _ _ _) as [u v]. apply Ok_inj in HS. rewrite <- HS. cbn [storeTrajectoryPoint pt]. rewrite D.
  change (pt (after F p k) + dt)%num with (pt (after F p k) + dt)%float. rewrite Ea' in *. apply add_up; try assumption.
  replace (FR (pt (after F p k)) + FR dt) with ((FR (pt (after F p k)) - (FR (pt p) + INR k * FR dt)) + (FR (pt p) + (INR k + 1) * FR dt)) by ring.
  set (M := Rabs (FR (pt p)) + INR n * Rabs (FR dt)) in *. assert (K : INR k + 1 <= INR n) by (rewrite <- S_INR; apply le_INR; lia).
  pose proof (nat_ur n Hn) as NU. pose proof (pos_INR k) as K0. pose proof ur_gt0 as U0. pose proof (Rabs_pos (FR dt)) as AD. pose proof (Rabs_pos (FR (pt p))) as AP.
  assert (M0 : 0 <= M) by (unfold M; nra).
  replace (bpow radix2 (-52)) with (2 * ur) in Ea by (unfold ur; change 2 with (bpow radix2 1); rewrite <- bpow_plus; reflexivity).
  eapply Rle_trans; [apply Rabs_triang|]. assert (A : Rabs (FR (pt p) + (INR k + 1) * FR dt) <= M).
  { eapply Rle_trans; [apply Rabs_triang|]. rewrite Rabs_mult, (Rabs_pos_eq (INR k + 1)) by lra. unfold M. nra. }
  assert (KU : INR k * ur <= / 4) by (clear - NU K U0 K0; nra). assert (C : INR k * (2 * ur) * M <= M) by (clear - KU M0; nra). unfold big. replace (bpow radix2 1023) with (4 * bpow radix2 1021); [lra|].
  change 4 with (bpow radix2 2). rewrite <- bpow_plus. reflexivity.
Qed.

(* ---- field-free motion ---- *)
Definition free_field {T} {NT : Num T} : field_fn T := fun _ _ => Ok ezero.
Definition FV (v : vec flt) : vec R := V (FR (vx v)) (FR (vy v)) (FR (vz v)).
Definition finv (v : vec flt) : Prop := fin (vx v) /\ fin (vy v) /\ fin (vz v).
Definition below (e : Z) (v : vec flt) : Prop := Rabs (FR (vx v)) <= bpow radix2 e /\ Rabs (FR (vy v)) <= bpow radix2 e /\ Rabs (FR (vz v)) <= bpow radix2 e.
Ltac unF := change (@nadd flt NumF) with Coq.Floats.PrimFloat.add in *; change (@nsub flt NumF) with Coq.Floats.PrimFloat.sub in *;
  change (@nmul flt NumF) with Coq.Floats.PrimFloat.mul in *; change (@ndiv flt NumF) with Coq.Floats.PrimFloat.div in *;
  change (@nsqrt flt NumF) with Coq.Floats.PrimFloat.sqrt in *; change (@nZ flt NumF) with f_ofZ in *.
Lemma FV_inv a b : FV a = FV b -> FR (vx a) = FR (vx b) /\ FR (vy a) = FR (vy b) /\ FR (vz a) = FR (vz b).
Proof. intros H. injection H as H1 H2 H3. auto. Qed.
Lemma Z_ok z : (Z.abs z <= 2 ^ 53)%Z -> fin (f_ofZ z) /\ FR (f_ofZ z) = IZR z.
Proof. apply ofZ_ok. Qed.
Lemma c_ok : fin (@nc flt NumF) /\ FR (@nc flt NumF) = 299792458.
Proof.
  destruct (FR_lit (@nc flt NumF) 5029682823036928 (-24) eq_refl) as [F E]. split; [exact F|]. rewrite E. cbn. lra.
Qed.
Lemma half_ok : fin (@nhalf flt NumF) /\ FR (@nhalf flt NumF) = / 2.
Proof.
  destruct (FR_lit (@nhalf flt NumF) 4503599627370496 (-53) eq_refl) as [F E]. split; [exact F|]. rewrite E. cbn. lra.
Qed.
(* what the code computes for 1+p^2 and for gamma, with the roundings *)
Definition g2f (m : vec R) : R := rn (rn (rn (rn (vx m * vx m) + rn (vy m * vy m)) + rn (vz m * vz m)) + 1).
Definition gf (m : vec R) : R := rn (R_sqrt.sqrt (rn (/ 2 * rn (g2f m + rn (R_sqrt.sqrt (rn (g2f m * g2f m))))))).
Lemma bpow_dbl e : 2 * bpow radix2 e = bpow radix2 (e + 1).
Proof. rewrite bpow_plus. cbn. ring. Qed.
Lemma rn_pos_below x e : (-1074 <= e)%Z -> 0 <= x <= bpow radix2 e -> 0 <= rn x <= bpow radix2 e.
Proof.
  intros He [H0 H]. split; [apply rn_pos; exact H0|]. pose proof (rn_below x e He) as B. rewrite (Rabs_pos_eq x), (Rabs_pos_eq (rn x)) in B by (try exact H0; apply rn_pos; exact H0). auto.
Qed.
Lemma sq_below x e : Rabs x <= bpow radix2 e -> 0 <= x * x <= bpow radix2 (e + e).
Proof. intros H. split; [nra|]. rewrite bpow_plus. rewrite <- (Rabs_pos_eq (x * x)) by nra. rewrite Rabs_mult. apply Rmult_le_compat; try apply Rabs_pos; exact H. Qed.
Lemma pos_small x e : (e <= 1023)%Z -> 0 <= x <= bpow radix2 e -> Rabs (rn x) < two1024.
Proof. intros He [H0 H]. apply small_ok. rewrite Rabs_pos_eq by exact H0. eapply Rle_trans; [exact H|]. apply bp_le. lia. Qed.
Lemma rn_within x : 0 = x \/ bpow radix2 (-1022) <= x -> within 1 (rn x) x.
Proof.
  intros H. assert (H0 : 0 <= x) by (destruct H as [<-|H]; [lra|]; pose proof (bpow_gt_0 radix2 (-1022)); lra).
  apply within_err; [exact H0|]. rewrite <- (Rabs_pos_eq x) at 3 by exact H0. apply rn_err0. destruct H as [<-|H]; [left; reflexivity|right]. rewrite Rabs_pos_eq; assumption.
Qed.
Lemma rn_plus_within x y : 0 <= FR x + FR y -> within 1 (rn (FR x + FR y)) (FR x + FR y).
Proof. intros H. apply within_err; [exact H|]. rewrite <- (Rabs_pos_eq (FR x + FR y)) at 3 by exact H. apply rn_plus. Qed.
Lemma one_ok : fin (f_ofZ 1) /\ FR (f_ofZ 1) = 1.
Proof. apply (ofZ_ok 1). lia. Qed.
Lemma sq_ok x e : fin x -> (e + e <= 1023)%Z -> Rabs (FR x) <= bpow radix2 e -> fin (x * x)%float /\ FR (x * x)%float = rn (FR x * FR x).
Proof. intros F He H. apply mul_ok; try assumption. apply (pos_small _ (e + e) He). apply sq_below. exact H. Qed.

Lemma vabs2_ok (p : vec flt) e : (-500 <= e <= 509)%Z -> finv p -> below e p ->
  fin (vabs2 p) /\ FR (vabs2 p) = rn (rn (rn (FR (vx p) * FR (vx p)) + rn (FR (vy p) * FR (vy p))) + rn (FR (vz p) * FR (vz p))) /\
  0 <= FR (vabs2 p) <= bpow radix2 (e + e + 2).
Proof.
  intros He (F1 & F2 & F3) (B1 & B2 & B3). unfold vabs2. unF.
  destruct (sq_ok _ e F1 ltac:(lia) B1) as [G1 V1]. destruct (sq_ok _ e F2 ltac:(lia) B2) as [G2 V2]. destruct (sq_ok _ e F3 ltac:(lia) B3) as [G3 V3].
  apply sq_below in B1, B2, B3. apply rn_pos_below in B1, B2, B3; try lia. rewrite <- V1 in B1. rewrite <- V2 in B2. rewrite <- V3 in B3.
  pose proof (bpow_dbl (e + e)) as D1. pose proof (bpow_dbl (e + e + 1)) as D2. pose proof (bpow_gt_0 radix2 (e + e)) as P0.
  assert (S1 : 0 <= FR (vx p * vx p)%float + FR (vy p * vy p)%float <= bpow radix2 (e + e + 1)) by lra.
  destruct (add_ok _ _ G1 G2 (pos_small _ (e + e + 1) ltac:(lia) S1)) as [G12 V12]. apply rn_pos_below in S1; [|lia]. rewrite <- V12 in S1.
  assert (S2 : 0 <= FR (vx p * vx p + vy p * vy p)%float + FR (vz p * vz p)%float <= bpow radix2 (e + e + 1 + 1)) by lra.
  destruct (add_ok _ _ G12 G3 (pos_small _ (e + e + 1 + 1) ltac:(lia) S2)) as [G V]. split; [exact G|]. split; [rewrite V, V12, V1, V2, V3; reflexivity|].
  rewrite V. apply rn_pos_below; [lia|]. replace (e + e + 2)%Z with (e + e + 1 + 1)%Z by ring. exact S2.
Qed.
Lemma g2_ok (p : vec flt) : finv p -> below 250 p ->
  fin (vabs2 p + f_ofZ 1)%float /\ FR (vabs2 p + f_ofZ 1)%float = g2f (FV p) /\ 1 <= g2f (FV p) <= bpow radix2 503 /\ within 5 (g2f (FV p)) (1 + vabs2 (FV p)).
Proof.
  intros F B. destruct (vabs2_ok p 250 ltac:(lia) F B) as (Fa & Va & Ra). destruct one_ok as [F1 V1].
  change (250 + 250 + 2)%Z with 502%Z in Ra. pose proof (bpow_dbl 502) as D. change (502 + 1)%Z with 503%Z in D. assert (P1 : 1 <= bpow radix2 502) by (change 1 with (bpow radix2 0); apply bp_le; lia).
  assert (S : 0 <= FR (vabs2 p) + FR (f_ofZ 1) <= bpow radix2 503) by (rewrite V1; lra).
  destruct (add_ok _ _ Fa F1 (pos_small _ 503 ltac:(lia) S)) as [Fs Vs]. split; [exact Fs|].
  assert (E : FR (vabs2 p + f_ofZ 1)%float = g2f (FV p)) by (rewrite Vs, Va, V1; reflexivity). split; [exact E|].
  assert (W1 : within 1 (g2f (FV p)) (FR (vabs2 p) + 1)) by (rewrite <- E, Vs, V1; rewrite <- V1; apply rn_plus_within; lra).
  split.
  - split; [|rewrite <- E, Vs; apply rn_pos_below; [lia|exact S]]. rewrite <- E, Vs, V1. rewrite <- (rn_IZR 1) at 1 by lia. apply rn_le. lra.
  - apply (within_trans 1 4 _ _ _ W1). clear W1 E Fs Vs S. rewrite Va. destruct F as (F1' & F2' & F3'). destruct B as (B1 & B2 & B3).
    destruct (sq_ok _ 250 F1' ltac:(lia) B1) as [G1 Q1]. destruct (sq_ok _ 250 F2' ltac:(lia) B2) as [G2 Q2]. destruct (sq_ok _ 250 F3' ltac:(lia) B3) as [G3 Q3].
    rewrite <- Q1, <- Q2, <- Q3 in *.
    assert (N1 : 0 <= FR (vx p * vx p)%float) by (rewrite Q1; apply rn_pos; nra). assert (N2 : 0 <= FR (vy p * vy p)%float) by (rewrite Q2; apply rn_pos; nra).
    assert (N3 : 0 <= FR (vz p * vz p)%float) by (rewrite Q3; apply rn_pos; nra).
    set (a1 := FR (vx p * vx p)%float) in *. set (a2 := FR (vy p * vy p)%float) in *. set (a3 := FR (vz p * vz p)%float) in *.
    assert (X12 : within 1 (rn (a1 + a2)) (a1 + a2)) by (apply rn_plus_within; unfold a1, a2 in *; lra).
    assert (S12 : rn (a1 + a2) = FR (vx p * vx p + vy p * vy p)%float).
    { destruct (add_ok _ _ G1 G2) as [_ V]; [|unfold a1, a2; symmetry; exact V]. apply (pos_small _ 502); [lia|]. fold a1 a2. split; [lra|].
      unfold a1, a2 in *. rewrite Q1, Q2. apply sq_below in B1, B2. apply rn_pos_below in B1, B2; try lia. change (250 + 250)%Z with 500%Z in *. pose proof (bpow_dbl 500) as D5. change (500 + 1)%Z with 501%Z in D5. pose proof (bp_le 501 502 ltac:(lia)). lra. }
    assert (X123 : within 1 (rn (rn (a1 + a2) + a3)) (rn (a1 + a2) + a3)) by (rewrite S12; unfold a3 in *; apply rn_plus_within; rewrite <- S12; destruct X12 as (X & _); lra).
    assert (Y : within 2 (rn (rn (a1 + a2) + a3)) (a1 + a2 + a3)).
    { apply (within_trans 1 1 _ _ _ X123). apply within_plus; [exact X12|apply within_refl; exact N3]. }
    apply (within_trans 2 2 _ (a1 + a2 + a3 + 1)); [apply within_plus; [exact Y|apply within_refl; lra]|].
    unfold vabs2, FV. cbn [vx vy vz]. unnum. set (x := FR (vx p)) in *. set (y := FR (vy p)) in *. set (z := FR (vz p)) in *.
    pose proof (rn_near (x * x)) as E1. pose proof (rn_near (y * y)) as E2. pose proof (rn_near (z * z)) as E3. fold x in Q1. fold y in Q2. fold z in Q3.
    rewrite <- Q1 in E1. rewrite <- Q2 in E2. rewrite <- Q3 in E3. rewrite (Rabs_pos_eq (x * x)) in E1 by nra. rewrite (Rabs_pos_eq (y * y)) in E2 by nra. rewrite (Rabs_pos_eq (z * z)) in E3 by nra.
    fold a1 in E1. fold a2 in E2. fold a3 in E3.
    assert (P1' : 0 <= x * x) by nra. assert (P2' : 0 <= y * y) by nra. assert (P3' : 0 <= z * z) by nra.
    clear - E1 E2 E3 N1 N2 N3 P1' P2' P3'. apply Rabs_le_inv in E1, E2, E3. pose proof u1 as U. pose proof eta_small as ES. pose proof eta_pos as EP. pose proof ur_gt0 as UP.
    assert (ES2 : 3 * eta <= ur * (1 - ur)) by (rewrite ur_eq in *; lra).
    replace (1 + (x * x + y * y + z * z)) with ((x * x + y * y + z * z) + 1) by ring. set (S := x * x + y * y + z * z) in *. set (A := a1 + a2 + a3) in *.
    assert (HA : (1 - ur) * S - 3 * eta <= A <= (1 + ur) * S + 3 * eta) by (unfold S, A; lra). assert (S0 : 0 <= S) by (unfold S; lra). assert (A0 : 0 <= A) by (unfold A; lra).
    clear - HA S0 A0 U ES2 UP EP. destruct HA as [H1 H2]. unfold within. cbn [pow]. rewrite Rmult_1_r. repeat split; try lra; nra.
Qed.
Lemma nz_half : bpow radix2 (-1) = / 2. Proof. reflexivity. Qed.
Lemma sqrt_bpow e : R_sqrt.sqrt (bpow radix2 (e + e)) = bpow radix2 e.
Proof. rewrite bpow_plus. apply sqrt_square. apply bpow_ge_0. Qed.
Lemma sqrt_ge1 x : 1 <= x -> 1 <= R_sqrt.sqrt x.
Proof. intros H. rewrite <- sqrt_1. apply sqrt_le_1_alt. exact H. Qed.
Lemma sqrt_le_self x : 1 <= x -> R_sqrt.sqrt x <= x.
Proof. intros H. pose proof (sqrt_ge1 x H). pose proof (sqrt_sqrt x ltac:(lra)). nra. Qed.
Lemma rn_ge1 x : 1 <= x -> 1 <= rn x.
Proof. intros H. rewrite <- (rn_IZR 1) by lia. apply rn_le. exact H. Qed.
Lemma normal1 x : 1 <= x -> 0 = x \/ bpow radix2 (-1022) <= x.
Proof. intros H. right. apply Rle_trans with (bpow radix2 0); [apply bp_le; lia|exact H]. Qed.
(* gamma from sigma if there is no magnetic field *)
Lemma gamma_free (s z : flt) : fin s -> fin z -> FR z = 0 -> 1 <= FR s <= bpow radix2 503 ->
  let g := Coq.Floats.PrimFloat.sqrt (nhalf * (s + Coq.Floats.PrimFloat.sqrt (s * s + z)))%float in
  fin g /\ FR g = rn (R_sqrt.sqrt (rn (/ 2 * rn (FR s + rn (R_sqrt.sqrt (rn (FR s * FR s))))))) /\ within 3 (FR g) (R_sqrt.sqrt (FR s)) /\ 1 <= FR g <= bpow radix2 253.
Proof.
  intros Fs Fz Hz [S1 S2]. cbn zeta. destruct half_ok as [Fh Vh].
  assert (Sb : Rabs (FR s) <= bpow radix2 503) by (rewrite Rabs_pos_eq; lra).
  destruct (sq_ok s 503 Fs ltac:(lia) Sb) as [F1 V1]. destruct (add_0 _ z F1 Fz Hz) as [F2 V2]. rewrite V1 in V2.
  assert (P2 : 1 <= FR s * FR s) by nra. pose proof (rn_ge1 _ P2) as P2r.
  destruct (sqrt_ok (s * s + z)%float F2 ltac:(rewrite V2; lra)) as [F3 V3]. rewrite V2 in V3.
  assert (P3 : 1 <= R_sqrt.sqrt (rn (FR s * FR s))) by (apply sqrt_ge1; exact P2r). pose proof (rn_ge1 _ P3) as P3r.
  assert (B3 : 0 <= rn (R_sqrt.sqrt (rn (FR s * FR s))) <= bpow radix2 503).
  { apply rn_pos_below; [lia|]. split; [lra|]. rewrite <- sqrt_bpow. apply sqrt_le_1_alt. apply rn_pos_below; [lia|]. apply sq_below. exact Sb. }
  assert (S4 : 0 <= FR s + FR (Coq.Floats.PrimFloat.sqrt (s * s + z)%float) <= bpow radix2 504) by (rewrite V3; pose proof (bpow_dbl 503) as D; change (503 + 1)%Z with 504%Z in D; lra).
  destruct (add_ok _ _ Fs F3 (pos_small _ 504 ltac:(lia) S4)) as [F4 V4].
  pose proof (rn_plus_within s (Coq.Floats.PrimFloat.sqrt (s * s + z)%float) ltac:(lra)) as W4. apply rn_pos_below in S4; [|lia]. rewrite V3 in V4, W4, S4.
  set (a4 := (s + Coq.Floats.PrimFloat.sqrt (s * s + z))%float) in *.
  assert (P4 : 2 <= FR a4). { rewrite V4. apply Rle_trans with (rn 2); [rewrite (rn_IZR 2) by lia; lra|]. apply rn_le. lra. }
  assert (S5 : 0 <= FR nhalf * FR a4 <= bpow radix2 503). { rewrite Vh, V4. pose proof (bpow_dbl 503) as D; change (503 + 1)%Z with 504%Z in D. lra. }
  destruct (mul_ok nhalf a4 Fh F4 (pos_small _ 503 ltac:(lia) S5)) as [F5 V5]. set (a5 := (nhalf * a4)%float) in *. rewrite Vh in V5, S5.
  assert (P5 : 1 <= / 2 * FR a4) by lra. pose proof (rn_ge1 _ P5) as P5r. rewrite <- V5 in P5r.
  destruct (sqrt_ok a5 F5 ltac:(lra)) as [F6 V6]. split; [exact F6|]. rewrite V6, V5, V4. split; [reflexivity|].
  rewrite <- V4, <- V5. assert (P6 : 1 <= R_sqrt.sqrt (FR a5)) by (apply sqrt_ge1; exact P5r). split.
  - apply (within_trans 1 2 _ (R_sqrt.sqrt (FR a5))); [apply rn_within, normal1; exact P6|]. apply within_sqrt. change (2 * 2)%nat with 4%nat.
    apply (within_trans 1 3 _ (/ 2 * FR a4)); [rewrite V5; apply rn_within, normal1; exact P5|]. replace (FR s) with (/ 2 * (FR s + FR s)) by field.
    change 3%nat with (0 + 3)%nat. apply within_mult; [apply within_refl; lra|]. rewrite V4. apply (within_trans 1 2 _ _ _ W4).
    apply within_plus; [apply within_refl; lra|]. apply (within_trans 1 1 _ (R_sqrt.sqrt (rn (FR s * FR s)))); [apply rn_within, normal1; exact P3|].
    rewrite <- (sqrt_square (FR s)) at 3 by lra. apply within_sqrt. apply (within_more 1); [lia|]. apply rn_within, normal1. exact P2.
  - split; [apply rn_ge1; exact P6|]. apply rn_pos_below; [lia|]. split; [lra|]. rewrite <- sqrt_bpow. apply sqrt_le_1_alt.
    apply rn_pos_below in S5; [|lia]. rewrite <- V5 in S5. eapply Rle_trans; [apply S5|]. apply bp_le. lia.
Qed.
Definition zerov (v : vec flt) : Prop := finv v /\ FV v = V 0 0 0.
Lemma zerov_parts v : zerov v -> (fin (vx v) /\ FR (vx v) = 0) /\ (fin (vy v) /\ FR (vy v) = 0) /\ (fin (vz v) /\ FR (vz v) = 0).
Proof. intros [(F1 & F2 & F3) E]. injection E as E1 E2 E3. auto. Qed.
Lemma zerov_of v : fin (vx v) /\ FR (vx v) = 0 -> fin (vy v) /\ FR (vy v) = 0 -> fin (vz v) /\ FR (vz v) = 0 -> zerov v.
Proof. intros [F1 E1] [F2 E2] [F3 E3]. split; [split; auto|]. unfold FV. rewrite E1, E2, E3. reflexivity. Qed.
Lemma zerov_zero : zerov vzero.
Proof. apply zerov_of; apply (ofZ_ok 0); lia. Qed.
Lemma zerov_div v f : FR f <> 0 -> zerov v -> zerov (vdiv v f).
Proof. intros N Z. apply zerov_parts in Z. destruct Z as ((F1 & E1) & (F2 & E2) & (F3 & E3)). apply zerov_of; apply div_0; assumption. Qed.
Lemma zerov_mul v f : fin f -> zerov v -> zerov (vmul v f).
Proof. intros N Z. apply zerov_parts in Z. destruct Z as ((F1 & E1) & (F2 & E2) & (F3 & E3)). apply zerov_of; apply mul_0; auto. Qed.
Lemma zerov_mul0 v f : fin f -> FR f = 0 -> finv v -> zerov (vmul v f).
Proof. intros N Z (F1 & F2 & F3). apply zerov_of; apply mul_0; auto. Qed.
Lemma zero_add x y : fin x /\ FR x = 0 -> fin y /\ FR y = 0 -> fin (x + y)%float /\ FR (x + y)%float = 0.
Proof. intros [F1 E1] [F2 E2]. rewrite <- E1. apply add_0; assumption. Qed.
Lemma zero_sub x y : fin x /\ FR x = 0 -> fin y /\ FR y = 0 -> fin (x - y)%float /\ FR (x - y)%float = 0.
Proof. intros [F1 E1] [F2 E2]. rewrite <- E1. apply sub_0; assumption. Qed.
Lemma zerov_add a b : zerov a -> zerov b -> zerov (vadd a b).
Proof.
  intros A B. apply zerov_parts in A, B. destruct A as (A1 & A2 & A3). destruct B as (B1 & B2 & B3).
  apply zerov_of; apply zero_add; assumption.
Qed.
Lemma zerov_cross a b : finv a -> zerov b -> zerov (vcross a b).
Proof.
  intros (A1 & A2 & A3) B. apply zerov_parts in B. destruct B as ((F1 & B1) & (F2 & B2) & (F3 & B3)).
  apply zerov_of; cbn [vcross vx vy vz]; apply zero_sub; apply mul_0; auto.
Qed.
Lemma zerov_dot a b : finv a -> zerov b -> fin (vdot a b) /\ FR (vdot a b) = 0.
Proof.
  intros (A1 & A2 & A3) B. apply zerov_parts in B. destruct B as ((F1 & B1) & (F2 & B2) & (F3 & B3)).
  unfold vdot. unF. apply zero_add; [apply zero_add|]; apply mul_0; auto.
Qed.
Lemma zerov_abs2 a : zerov a -> fin (vabs2 a) /\ FR (vabs2 a) = 0.
Proof. intros A. apply (zerov_dot a a); [apply A|exact A]. Qed.
Lemma add_zerov a b : finv a -> zerov b -> finv (vadd a b) /\ FV (vadd a b) = FV a.
Proof.
  intros (A1 & A2 & A3) B. apply zerov_parts in B. destruct B as ((F1 & B1) & (F2 & B2) & (F3 & B3)).
  destruct (add_0 _ _ A1 F1 B1) as [G1 V1]. destruct (add_0 _ _ A2 F2 B2) as [G2 V2]. destruct (add_0 _ _ A3 F3 B3) as [G3 V3].
  split; [split; auto|]. unfold FV. cbn [vadd vx vy vz]. unF. rewrite V1, V2, V3. reflexivity.
Qed.
Lemma below_FV a b e : FV a = FV b -> below e a -> below e b.
Proof. intros H. apply FV_inv in H. destruct H as (H1 & H2 & H3). unfold below. rewrite H1, H2, H3. auto. Qed.
Lemma zerov_FV a : zerov a -> FV a = V 0 0 0. Proof. intros [_ H]. exact H. Qed.

Lemma vay_half_free (q : flt) ph e b : fin q -> finv ph -> below 250 ph -> zerov e -> zerov b ->
  finv (fst (vay_half q ph e b)) /\ FV (fst (vay_half q ph e b)) = FV ph /\
  fin (snd (vay_half q ph e b)) /\ FR (snd (vay_half q ph e b)) = gf (FV ph) /\ 1 <= gf (FV ph) <= bpow radix2 253 /\
  within 6 (gf (FV ph)) (R_sqrt.sqrt (1 + vabs2 (FV ph))).
Proof.
  intros Fq Fp Bp Ze Zb. destruct c_ok as [Fc Vc].
  destruct (add_zerov ph (vmul (vdiv e nc) q) Fp) as [Fp' Vp'].
  { apply zerov_mul; [exact Fq|]. apply zerov_div; [rewrite Vc; lra|exact Ze]. }
  unfold vay_half. set (p' := vadd ph (vmul (vdiv e nc) q)) in *. pose proof (zerov_mul b q Fq Zb) as Zt. set (tau := vmul b q) in *.
  destruct (zerov_dot p' tau Fp' Zt) as [Fu Vu]. destruct (zerov_abs2 tau Zt) as [Ft2 Vt2].
  pose proof (below_FV ph p' 250 (eq_sym Vp') Bp) as Bp'. destruct (g2_ok p' Fp' Bp') as (Fg2 & Vg2 & Rg2 & Wg2). rewrite Vp' in *.
  set (us := vdot p' tau) in *. set (tau2 := vabs2 tau) in *. unF. set (g2 := (vabs2 p' + f_ofZ 1)%float) in *.
  destruct (sub_0 g2 tau2 Fg2 Ft2 Vt2) as [Fsg Vsg]. set (sg := (g2 - tau2)%float) in *. rewrite Vg2 in Vsg.
  assert (Z4 : fin (f_ofZ 4 * (tau2 + us * us))%float /\ FR (f_ofZ 4 * (tau2 + us * us))%float = 0).
  { destruct (zero_add tau2 (us * us)%float (conj Ft2 Vt2)) as [F V]; [apply mul_0; auto|]. apply mul_0; [apply (ofZ_ok 4); lia|exact F|right; exact V]. }
  destruct Z4 as [Fz Vz]. destruct (gamma_free sg _ Fsg Fz Vz ltac:(rewrite Vsg; exact Rg2)) as (Fg & Vg & Wg & Rg). cbn zeta in *.
  set (g := Coq.Floats.PrimFloat.sqrt (nhalf * (sg + Coq.Floats.PrimFloat.sqrt (sg * sg + f_ofZ 4 * (tau2 + us * us))))%float) in *.
  rewrite Vsg in Vg, Wg. assert (Eg : FR g = gf (FV ph)) by exact Vg.
  pose proof (zerov_div tau g ltac:(lra) Zt) as Ztt. set (t := vdiv tau g) in *. destruct (zerov_dot p' t Fp' Ztt) as [Fd Vd].
  pose proof (zerov_mul t _ Fd Ztt) as Zm. destruct (add_zerov p' _ Fp' Zm) as [Fa Va]. pose proof (zerov_cross p' t Fp' Ztt) as Zc.
  destruct (add_zerov _ _ Fa Zc) as [Fb Vb]. rewrite Va in Vb. destruct (zerov_abs2 t Ztt) as [Ft Vt].
  destruct one_ok as [F1 V1]. destruct (add_0 _ _ F1 Ft Vt) as [Fn Vn]. rewrite V1 in Vn.
  set (w := vadd (vadd p' (vmul t (vdot p' t))) (vcross p' t)) in *. set (d := (f_ofZ 1 + vabs2 t)%float) in *. cbn [fst snd].
  destruct Fb as (W1 & W2 & W3). destruct (div_1 _ d W1 Vn) as [D1 X1]. destruct (div_1 _ d W2 Vn) as [D2 X2]. destruct (div_1 _ d W3 Vn) as [D3 X3].
  split; [split; auto|]. split.
  { rewrite <- Vp', <- Vb. unfold FV. cbn [vdiv vx vy vz]. unF. rewrite X1, X2, X3. reflexivity. }
  split; [exact Fg|]. split; [exact Eg|]. rewrite <- Eg. split; [exact Rg|].
  apply (within_trans 3 3 _ _ _ Wg). apply within_sqrt. change (2 * 3)%nat with 6%nat. apply (within_more 5); [lia|exact Wg2].
Qed.
Lemma div_small (x g : flt) : fin x -> Rabs (FR x) <= bpow radix2 250 -> 1 <= FR g -> fin (x / g)%float /\ FR (x / g)%float = rn (FR x / FR g) /\ Rabs (FR (x / g)%float) <= bpow radix2 250.
Proof.
  intros Fx B G. assert (I : 0 < / FR g <= 1).
  { split; [apply Rinv_0_lt_compat; lra|]. rewrite <- Rinv_1. apply Rinv_le_contravar; lra. }
  assert (Q : Rabs (FR x / FR g) <= bpow radix2 250).
  { unfold Rdiv. rewrite Rabs_mult, (Rabs_pos_eq (/ FR g)) by lra. pose proof (Rabs_pos (FR x)). nra. }
  destruct (div_ok x g Fx ltac:(lra)) as [F V].
  - apply small_ok. eapply Rle_trans; [exact Q|]. apply bp_le. lia.
  - split; [exact F|]. split; [exact V|]. rewrite V. apply rn_below; [lia|exact Q].
Qed.
Lemma vdiv_small (v : vec flt) g : finv v -> below 250 v -> 1 <= FR g -> finv (vdiv v g) /\ below 250 (vdiv v g).
Proof.
  intros (F1 & F2 & F3) (B1 & B2 & B3) G. destruct (div_small _ g F1 B1 G) as (D1 & _ & C1). destruct (div_small _ g F2 B2 G) as (D2 & _ & C2).
  destruct (div_small _ g F3 B3 G) as (D3 & _ & C3). split; split; auto.
Qed.
Lemma vay_accel_free (qm : flt) ph e b : fin qm -> finv ph -> below 250 ph -> zerov e -> zerov b -> zerov (vay_accel qm ph e b).
Proof.
  intros Fq Fp Bp Ze Zb. unfold vay_accel. destruct (g2_ok ph Fp Bp) as (Fg & Vg & Rg & _). unF.
  destruct (sqrt_ok (vabs2 ph + f_ofZ 1)%float Fg ltac:(rewrite Vg; lra)) as [Fs Vs].
  assert (G1 : 1 <= FR (Coq.Floats.PrimFloat.sqrt (vabs2 ph + f_ofZ 1)%float)) by (rewrite Vs, Vg; apply rn_ge1, sqrt_ge1; lra).
  destruct (vdiv_small ph _ Fp Bp G1) as [Fb _]. apply zerov_mul; [exact Fq|]. apply zerov_add; [apply zerov_cross; assumption|].
  apply zerov_div; [|exact Ze]. destruct c_ok as [_ ->]. lra.
Qed.
(* the state of a particle in field-free space *)
Definition coasting (m : vec R) (p : particle flt) : Prop :=
  fin (pqm p) /\ fin (pqmt2 p) /\ finv (pVp p) /\ FV (pVp p) = m /\ fin (pVg p) /\ FR (pVg p) = gf m.
Definition rbelow (e : Z) (m : vec R) : Prop := Rabs (vx m) <= bpow radix2 e /\ Rabs (vy m) <= bpow radix2 e /\ Rabs (vz m) <= bpow radix2 e.
Lemma below_r e v : below e v <-> rbelow e (FV v). Proof. reflexivity. Qed.
Lemma free_init (dt : flt) p p1 : InitVay dt free_field p = Ok p1 -> finv (pP p1) -> below 250 (pP p1) -> fin (pqm p1) -> fin (pqmt2 p1) ->
  coasting (FV (pP p1)) p1 /\ zerov (pA p1).
Proof.
  intros H. unfold InitVay in H. destruct (pNP p <? 1)%Z; [discriminate|]. bget H as t Ht. bget H as x Hx. bget H as m Hm.
  cbn [free_field bind] in H. destruct (vay_half _ _ _ _) as [v g] eqn:E. bget H as acs Ha. apply Ok_inj in H. subst p1.
  cbn [pP pqm pqmt2 pA]. intros Fm Bm Fq Fq2. change (fE ezero) with (@vzero flt NumF) in *. change (fB ezero) with (@vzero flt NumF) in *.
  pose proof (vay_half_free _ m vzero vzero Fq2 Fm Bm zerov_zero zerov_zero) as Q. rewrite E in Q. cbn [fst snd] in Q. destruct Q as (Q1 & Q2 & Q3 & Q4 & _).
  split; [repeat split; try assumption; apply Q1|]. apply vay_accel_free; try assumption; apply zerov_zero.
Qed.
(* the rounded displacement in one step *)
Definition hop (m g dt : R) : R := rn (rn (rn (m / g) * 299792458) * dt).
Lemma hop_ok (x g dt : flt) : fin x -> Rabs (FR x) <= bpow radix2 250 -> 1 <= FR g -> fin dt -> Rabs (FR dt) <= bpow radix2 500 ->
  fin (x / g * nc * dt)%float /\ FR (x / g * nc * dt)%float = hop (FR x) (FR g) (FR dt).
Proof.
  intros Fx Bx G Fd Bd. destruct (div_small x g Fx Bx G) as (F1 & V1 & B1). destruct c_ok as [Fc Vc].
  assert (B2 : Rabs (FR (x / g)%float * FR nc) <= bpow radix2 280).
  { rewrite Rabs_mult, Vc, (Rabs_pos_eq 299792458) by lra. replace (bpow radix2 280) with (bpow radix2 250 * bpow radix2 30) by (rewrite <- bpow_plus; reflexivity).
    apply Rmult_le_compat; [apply Rabs_pos|lra|exact B1|cbn; lra]. }
  destruct (mul_ok _ nc F1 Fc) as [F2 V2]; [apply small_ok; eapply Rle_trans; [exact B2|apply bp_le; lia]|].
  apply rn_below in B2; [|lia]. rewrite <- V2 in B2.
  destruct (mul_ok _ dt F2 Fd) as [F3 V3].
  { apply small_ok. rewrite Rabs_mult. apply Rle_trans with (bpow radix2 280 * bpow radix2 500); [apply Rmult_le_compat; try apply Rabs_pos; assumption|]. rewrite <- bpow_plus. apply bp_le. lia. }
  split; [exact F3|]. rewrite V3, V2, V1, Vc. reflexivity.
Qed.
Lemma gf_ge1 v : finv v -> below 250 v -> 1 <= gf (FV v).
Proof.
  intros F B. destruct (vay_half_free (f_ofZ 0) v vzero vzero (proj1 (ofZ_ok 0 ltac:(lia))) F B zerov_zero zerov_zero) as (_ & _ & _ & _ & R & _). apply R.
Qed.
Lemma free_step m p q : rbelow 250 m -> coasting m p -> fin (pdt p) -> Rabs (FR (pdt p)) <= bpow radix2 500 -> StepVay free_field p = Ok q ->
  coasting m q /\ FV (pP q) = m /\ zerov (pA q) /\ pdt q = pdt p /\
  exists d, pX q = vadd (pX p) d /\ finv d /\ FV d = V (hop (vx m) (gf m) (FR (pdt p))) (hop (vy m) (gf m) (FR (pdt p))) (hop (vz m) (gf m) (FR (pdt p))).
Proof.
  intros Bm (Fq & Fq2 & Fv & Vv & Fg & Vg) Fd Bd H. unfold StepVay in H. cbn [free_field bind] in H.
  change (fE ezero) with (@vzero flt NumF) in *. change (fB ezero) with (@vzero flt NumF) in *.
  assert (Bv : below 250 (pVp p)) by (apply below_r; rewrite Vv; exact Bm).
  assert (G1 : 1 <= FR (pVg p)) by (rewrite Vg, <- Vv; apply gf_ge1; assumption).
  destruct (vdiv_small (pVp p) (pVg p) Fv Bv G1) as [Fb Bb].
  destruct (add_zerov (pVp p) (vmul (vadd (vdiv vzero nc) (vcross (vdiv (pVp p) (pVg p)) vzero)) (pqmt2 p)) Fv) as [Fph Vph].
  { apply zerov_mul; [exact Fq2|]. apply zerov_add; [apply zerov_div; [destruct c_ok as [_ ->]; lra|apply zerov_zero]|]. apply zerov_cross; [exact Fb|apply zerov_zero]. }
  set (ph := vadd (pVp p) (vmul (vadd (vdiv vzero nc) (vcross (vdiv (pVp p) (pVg p)) vzero)) (pqmt2 p))) in *.
  assert (Bph : below 250 ph) by (apply (below_FV (pVp p)); [symmetry; exact Vph|exact Bv]).
  pose proof (vay_half_free (pqmt2 p) ph vzero vzero Fq2 Fph Bph zerov_zero zerov_zero) as Q.
  destruct (vay_half (pqmt2 p) ph vzero vzero) as [v g] eqn:E. cbn [fst snd] in Q. destruct Q as (Q1 & Q2 & Q3 & Q4 & _).
  apply Ok_inj in H. subst q. cbn [storeTrajectoryPoint pP pA pX pdt].
  split. { unfold coasting. cbn [storeTrajectoryPoint pqm pqmt2 pVp pVg]. rewrite Vph, Vv in Q2, Q4. split; [exact Fq|]. split; [exact Fq2|]. split; [exact Q1|]. split; [exact Q2|]. split; [exact Q3|exact Q4]. }
  split; [rewrite Vph; exact Vv|]. split; [apply vay_accel_free; try assumption; apply zerov_zero|]. split; [reflexivity|].
  exists (vmul (vmul (vdiv (pVp p) (pVg p)) nc) (pdt p)). split; [reflexivity|].
  destruct Fv as (F1 & F2 & F3). destruct Bv as (B1 & B2 & B3).
  destruct (hop_ok _ _ _ F1 B1 G1 Fd Bd) as [K1 L1]. destruct (hop_ok _ _ _ F2 B2 G1 Fd Bd) as [K2 L2]. destruct (hop_ok _ _ _ F3 B3 G1 Fd Bd) as [K3 L3].
  split; [split; auto|]. unfold FV at 1. cbn [vmul vdiv vx vy vz]. unF. rewrite L1, L2, L3, Vg, <- Vv. reflexivity.
Qed.
(* the displacement is that of the velocity up to rounding *)
Lemma hop_err m g gam dt : 1 <= g -> 0 < gam -> Rabs m <= gam -> within 6 g gam ->
  Rabs (hop m g dt - m / gam * 299792458 * dt) <= 34 * ur * 299792458 * Rabs dt + eta.
Proof.
  intros G1 G0 Hm W. pose proof ur_gt0 as U. pose proof eta_pos as EP. pose proof eta_small as ES. assert (UV : ur <= / 1000000) by (rewrite ur_eq; lra).
  set (b := m / gam). set (b0 := m / g). set (b1 := rn b0). set (b2 := rn (b1 * 299792458)).
  assert (Ig : 0 < / g) by (apply Rinv_0_lt_compat; lra). assert (IG : 0 < / gam) by (apply Rinv_0_lt_compat; lra).
  assert (Hb : Rabs b <= 1). { unfold b, Rdiv. rewrite Rabs_mult, (Rabs_pos_eq (/ gam)) by lra. apply Rmult_le_reg_r with gam; [lra|]. rewrite Rmult_assoc, Rinv_l by lra. lra. }
  assert (W2 : within 6 (/ g) (/ gam)) by (apply within_inv; [lra|lra|exact W]).
  assert (I6 : INR 6 = 6) by (cbn; lra). apply within_abs in W2; [|rewrite I6; lra]. rewrite I6 in W2.
  assert (E0 : Rabs (b0 - b) <= 12 * ur).
  { unfold b0, b, Rdiv. replace (m * / g - m * / gam) with (m * (/ g - / gam)) by ring. rewrite Rabs_mult.
    apply Rle_trans with (Rabs m * (2 * 6 * ur * / gam)); [apply Rmult_le_compat_l; [apply Rabs_pos|]; exact W2|].
    replace (Rabs m * (2 * 6 * ur * / gam)) with (12 * ur * (Rabs m * / gam)) by ring. assert (Rabs m * / gam <= 1).
    { apply Rmult_le_reg_r with gam; [lra|]. rewrite Rmult_assoc, Rinv_l by lra. lra. } nra. }
  assert (Hb0 : Rabs b0 <= 2). { replace b0 with ((b0 - b) + b) by ring. eapply Rle_trans; [apply Rabs_triang|]. lra. }
  assert (ES' : eta <= ur / 1000000000) by (apply Rle_trans with (ur * ur * ur); [exact ES|]; rewrite ur_eq; lra).
  pose proof (rn_near b0) as N1. fold b1 in N1. assert (E1 : Rabs (b1 - b) <= 15 * ur).
  { replace (b1 - b) with ((b1 - b0) + (b0 - b)) by ring. eapply Rle_trans; [apply Rabs_triang|]. nra. }
  assert (Hb1 : Rabs b1 <= 1 + 15 * ur). { replace b1 with ((b1 - b) + b) by ring. eapply Rle_trans; [apply Rabs_triang|]. lra. }
  pose proof (rn_near (b1 * 299792458)) as N2. fold b2 in N2. rewrite Rabs_mult, (Rabs_pos_eq 299792458) in N2 by lra.
  assert (E2 : Rabs (b2 - b * 299792458) <= 18 * ur * 299792458).
  { replace (b2 - b * 299792458) with ((b2 - b1 * 299792458) + (b1 - b) * 299792458) by ring. eapply Rle_trans; [apply Rabs_triang|].
    rewrite Rabs_mult, (Rabs_pos_eq 299792458) by lra. nra. }
  assert (Hb2 : Rabs b2 <= 2 * 299792458). { replace b2 with ((b2 - b * 299792458) + b * 299792458) by ring. eapply Rle_trans; [apply Rabs_triang|]. rewrite (Rabs_mult b), (Rabs_pos_eq 299792458) by lra. nra. }
  unfold hop. fold b0 b1 b2. pose proof (rn_near (b2 * dt)) as N3. rewrite Rabs_mult in N3.
  replace (rn (b2 * dt) - b * 299792458 * dt) with ((rn (b2 * dt) - b2 * dt) + (b2 - b * 299792458) * dt) by ring.
  eapply Rle_trans; [apply Rabs_triang|]. rewrite (Rabs_mult (b2 - b * 299792458)). pose proof (Rabs_pos dt) as D0.
  assert (Q1 : ur * (Rabs b2 * Rabs dt) <= ur * (2 * 299792458 * Rabs dt)) by (apply Rmult_le_compat_l; [lra|apply Rmult_le_compat_r; assumption]). assert (Q2 : Rabs (b2 - b * 299792458) * Rabs dt <= 18 * ur * 299792458 * Rabs dt) by (apply Rmult_le_compat_r; assumption).
  assert (Q3 : 0 <= ur * Rabs dt) by (apply Rmult_le_pos; lra). nra.
Qed.
Lemma free_all (dt : flt) n p p1 q : wf p -> InitVay dt free_field p = Ok p1 -> StepsVay free_field n p1 = Ok q ->
  fin dt -> Rabs (FR dt) <= bpow radix2 500 -> finv (pP p1) -> below 250 (pP p1) -> fin (pqm p1) -> fin (pqmt2 p1) ->
  forall k, (k <= n)%nat -> coasting (FV (pP p1)) (after free_field p1 k) /\ FV (pP (after free_field p1 k)) = FV (pP p1) /\ zerov (pA (after free_field p1 k)) /\ pdt (after free_field p1 k) = dt.
Proof.
  intros Hw H0 H Fd Bd Fm Bm Fq Fq2. destruct (free_init dt p p1 H0 Fm Bm Fq Fq2) as [C0 A0].
  destruct (Init_tstate0 dt free_field p p1 Hw H0) as (_ & D0 & _). induction k as [|k IH]; intros Hk.
  - rewrite after_0. auto.
  - destruct IH as (C & V & A & D); [lia|]. pose proof (after_S free_field n p1 q k H ltac:(lia)) as HS.
    destruct (free_step (FV (pP p1)) _ _ (proj1 (below_r _ _) Bm) C ltac:(rewrite D; exact Fd) ltac:(rewrite D; exact Bd) HS) as (C' & V' & A' & D' & _).
    rewrite D in D'. auto.
Qed.
Lemma hop_bound m g gam dt : 1 <= g -> 0 < gam -> Rabs m <= gam -> within 6 g gam -> Rabs (hop m g dt) <= 2 * 299792458 * Rabs dt + eta.
Proof.
  intros G1 G0 Hm W. pose proof (hop_err m g gam dt G1 G0 Hm W) as E. pose proof (Rabs_pos dt) as D0. assert (UV : ur <= / 1000000) by (rewrite ur_eq; lra). pose proof ur_gt0.
  assert (B : Rabs (m / gam * 299792458 * dt) <= 299792458 * Rabs dt).
  { rewrite !Rabs_mult, (Rabs_pos_eq 299792458) by lra. apply Rmult_le_compat_r; [exact D0|]. assert (Rabs (m / gam) <= 1); [|lra].
    assert (IG : 0 < / gam) by (apply Rinv_0_lt_compat; lra). unfold Rdiv. rewrite Rabs_mult, (Rabs_pos_eq (/ gam)) by lra. apply Rmult_le_reg_r with gam; [lra|]. rewrite Rmult_assoc, Rinv_l by lra. lra. }
  replace (hop m g dt) with ((hop m g dt - m / gam * 299792458 * dt) + m / gam * 299792458 * dt) by ring. eapply Rle_trans; [apply Rabs_triang|].
  assert (34 * ur * 299792458 * Rabs dt <= 299792458 * Rabs dt); [apply Rmult_le_compat_r; [exact D0|lra]|lra].
Qed.
(* one coordinate *)
Lemma free_coord (x : nat -> flt) (d : nat -> flt) n k m g gam dt : fin (x O) ->
  (forall i, (i < n)%nat -> x (S i) = (x i + d i)%float /\ fin (d i) /\ FR (d i) = hop m g dt) ->
  1 <= g -> 0 < gam -> Rabs m <= gam -> within 6 g gam -> (Z.of_nat n <= 2 ^ 51)%Z -> (k <= n)%nat ->
  Rabs (FR (x O)) + INR n * (299792458 * Rabs dt) <= bpow radix2 1000 ->
  fin (x k) /\ Rabs (FR (x k) - (FR (x O) + INR k * (m / gam * 299792458 * dt))) <=
    INR k * (bpow radix2 (-47) * (Rabs (FR (x O)) + INR n * (299792458 * Rabs dt)) + 2 * eta).
Proof.
  intros F0 Hd G1 G0 Hm W Hn Hk HM. pose proof (hop_err m g gam dt G1 G0 Hm W) as E. pose proof (hop_bound m g gam dt G1 G0 Hm W) as B.
  pose proof (nat_ur n Hn) as NU. pose proof ur_gt0 as U. pose proof eta_pos as EP. pose proof (Rabs_pos dt) as D0. pose proof (Rabs_pos (FR (x O))) as X0. pose proof (pos_INR n) as N0. pose proof (pos_INR k) as K0.
  assert (Kn : INR k <= INR n) by (apply le_INR; exact Hk). set (c := 299792458) in *. set (D := hop m g dt) in *. assert (cv : c = 299792458) by reflexivity. clearbody c.
  assert (NE : INR n * eta <= bpow radix2 1000).
  { apply Rle_trans with (1 * bpow radix2 1000); [|lra]. apply Rle_trans with ((/ 4 / ur) * (ur * ur * ur)).
    - apply Rmult_le_compat; [exact N0|lra| |apply eta_small]. apply Rmult_le_reg_r with ur; [exact U|]. unfold Rdiv. rewrite Rmult_assoc, Rinv_l by lra. lra.
    - replace (/ 4 / ur * (ur * ur * ur)) with (/ 4 * ur * ur) by (field; lra). assert (1 <= bpow radix2 1000) by (change 1 with (bpow radix2 0); apply bp_le; lia). rewrite ur_eq. lra. }
  assert (HD : INR n * Rabs D <= 2 * (INR n * (c * Rabs dt)) + INR n * eta).
  { replace (2 * (INR n * (c * Rabs dt)) + INR n * eta) with (INR n * (2 * c * Rabs dt + eta)) by ring. apply Rmult_le_compat_l; assumption. }
  assert (P0 : 0 <= INR n * (c * Rabs dt)) by (apply Rmult_le_pos; [exact N0|]; apply Rmult_le_pos; lra).
  destruct (sums_ok x d D n k F0 Hd NU) as [Fk Ek].
  { apply Rle_trans with (4 * bpow radix2 1000); [lra|]. change 4 with (bpow radix2 2). rewrite <- bpow_plus. apply bp_le. lia. }
  { exact Hk. }
  split; [exact Fk|].
  replace (FR (x k) - (FR (x O) + INR k * (m / gam * c * dt))) with ((FR (x k) - (FR (x O) + INR k * D)) + INR k * (D - m / gam * c * dt)) by ring.
  eapply Rle_trans; [apply Rabs_triang|]. rewrite (Rabs_mult (INR k)), (Rabs_pos_eq (INR k)) by exact K0.
  replace (bpow radix2 (-47)) with (64 * ur) by (unfold ur; change 64 with (bpow radix2 6); rewrite <- bpow_plus; reflexivity).
  set (S := Rabs (FR (x O)) + INR n * (c * Rabs dt)) in *.
  assert (A1 : INR k * (2 * ur) * (Rabs (FR (x O)) + INR n * Rabs D) <= INR k * (4 * ur * S + eta)).
  { rewrite Rmult_assoc. apply Rmult_le_compat_l; [exact K0|]. assert (2 * ur * (INR n * eta) <= eta) by nra. unfold S. nra. }
  assert (A2 : INR k * Rabs (D - m / gam * c * dt) <= INR k * (34 * ur * S + eta)).
  { destruct k as [|k]; [cbn [INR]; lra|]. apply Rmult_le_compat_l; [exact K0|]. eapply Rle_trans; [exact E|]. apply Rplus_le_compat_r.
    assert (1 <= INR n) by (rewrite S_INR in Kn; pose proof (pos_INR k); lra). assert (c * Rabs dt <= S).
    { unfold S. assert (0 <= c * Rabs dt) by (apply Rmult_le_pos; lra). nra. } rewrite !Rmult_assoc. apply Rmult_le_compat_l; [lra|]. apply Rmult_le_compat_l; [lra|]. assumption. }
  assert (SP : 0 <= S) by (unfold S; lra). assert (0 <= INR k * (ur * S)) by (apply Rmult_le_pos; [exact K0|apply Rmult_le_pos; lra]).
  replace (INR k * (64 * ur * S + 2 * eta)) with (64 * (INR k * (ur * S)) + INR k * eta + INR k * eta) by ring.
  replace (INR k * (4 * ur * S + eta)) with (4 * (INR k * (ur * S)) + INR k * eta) in A1 by ring.
  replace (INR k * (34 * ur * S + eta)) with (34 * (INR k * (ur * S)) + INR k * eta) in A2 by ring. lra.
Qed.
Lemma comp_le_gamma (m : vec R) : let g := R_sqrt.sqrt (1 + vabs2 m) in 0 < g /\ Rabs (vx m) <= g /\ Rabs (vy m) <= g /\ Rabs (vz m) <= g.
Proof.
  cbn zeta. unfold vabs2. unnum. assert (P : forall a s, a * a <= s -> Rabs a <= R_sqrt.sqrt s).
  { intros a s H. rewrite <- sqrt_Rsqr_abs. apply sqrt_le_1_alt. exact H. }
  split; [apply sqrt_lt_R0; nra|]. repeat split; apply P; nra.
Qed.
(* positions, component by component *)
Definition near3 (x y : vec R) (e : R) : Prop := Rabs (vx x - vx y) <= e /\ Rabs (vy x - vy y) <= e /\ Rabs (vz x - vz y) <= e.
Lemma double_free (dt : flt) n k p p1 q L : wf p -> InitVay dt free_field p = Ok p1 -> StepsVay free_field n p1 = Ok q -> (k <= n)%nat -> (Z.of_nat n <= 2 ^ 51)%Z ->
  fin dt -> Rabs (FR dt) <= bpow radix2 500 -> finv (pP p1) -> below 250 (pP p1) -> fin (pqm p1) -> fin (pqmt2 p1) -> finv (pX p1) ->
  Rabs (FR (vx (pX p1))) + INR n * (299792458 * Rabs (FR dt)) <= L -> Rabs (FR (vy (pX p1))) + INR n * (299792458 * Rabs (FR dt)) <= L ->
  Rabs (FR (vz (pX p1))) + INR n * (299792458 * Rabs (FR dt)) <= L -> L <= bpow radix2 1000 ->
  exists a, nth_error (trajectory q) (length (trajectory p1) - 1 + k) = Some a /\ FV (tpp a) = FV (pP p1) /\ FV (tpa a) = V 0 0 0 /\ finv (tpx a) /\
    near3 (FV (tpx a)) (vadd (FV (pX p1)) (vmul (vdiv (FV (pP p1)) (R_sqrt.sqrt (1 + vabs2 (FV (pP p1))))) (INR k * (299792458 * FR dt))))
      (INR k * (bpow radix2 (-47) * L + 2 * eta)).
Proof.
  intros Hw H0 H Hk Hn Fd Bd Fm Bm Fq Fq2 (X1 & X2 & X3) L1 L2 L3 HL. pose proof (free_all dt n p p1 q Hw H0 H Fd Bd Fm Bm Fq Fq2) as ALL.
  pose proof (Init_tstate0 dt free_field p p1 Hw H0) as TS. exists (current (after free_field p1 k)). split; [apply (after_point dt free_field n k p1 q TS H Hk)|].
  cbn [current tpp tpa tpx]. destruct (ALL k Hk) as (_ & VP & A & _). split; [exact VP|]. split; [apply A|].
  destruct (vay_half_free (f_ofZ 0) (pP p1) vzero vzero (proj1 (ofZ_ok 0 ltac:(lia))) Fm Bm zerov_zero zerov_zero) as (_ & _ & _ & _ & [G1 _] & W).
  destruct (comp_le_gamma (FV (pP p1))) as (G0 & M1 & M2 & M3).
  change (vabs2 (FV (pP p1))) with (@vabs2 R NumR (FV (pP p1))) in *. set (gam := R_sqrt.sqrt (1 + vabs2 (FV (pP p1)))) in *. set (g := gf (FV (pP p1))) in *.
  assert (EX : exists ds : nat -> vec flt, forall i, (i < n)%nat -> pX (after free_field p1 (S i)) = vadd (pX (after free_field p1 i)) (ds i) /\ finv (ds i) /\
     FR (vx (ds i)) = hop (vx (FV (pP p1))) g (FR dt) /\ FR (vy (ds i)) = hop (vy (FV (pP p1))) g (FR dt) /\ FR (vz (ds i)) = hop (vz (FV (pP p1))) g (FR dt)).
  { exists (fun i => vmul (vmul (vdiv (pVp (after free_field p1 i)) (pVg (after free_field p1 i))) nc) (pdt (after free_field p1 i))).
    intros i Hi. pose proof (after_S free_field n p1 q i H Hi) as HS. unfold StepVay in HS. cbn [free_field bind] in HS.
    destruct (vay_half _ _ _ _) as [v w] in HS. apply Ok_inj in HS. split; [rewrite <- HS; reflexivity|].
    destruct (ALL i ltac:(lia)) as ((_ & _ & Fv & Vv & _ & Vg) & _ & _ & D). rewrite D. fold g in Vg.
    assert (Bv : below 250 (pVp (after free_field p1 i))) by (apply (below_FV (pP p1)); [symmetry; exact Vv|exact Bm]).
    destruct Fv as (F1 & F2 & F3). destruct Bv as (B1 & B2 & B3). apply FV_inv in Vv. destruct Vv as (V1 & V2 & V3).
    destruct (hop_ok _ (pVg (after free_field p1 i)) _ F1 B1 ltac:(rewrite Vg; exact G1) Fd Bd) as [K1 N1].
    destruct (hop_ok _ (pVg (after free_field p1 i)) _ F2 B2 ltac:(rewrite Vg; exact G1) Fd Bd) as [K2 N2].
    destruct (hop_ok _ (pVg (after free_field p1 i)) _ F3 B3 ltac:(rewrite Vg; exact G1) Fd Bd) as [K3 N3].
    rewrite Vg, V1 in N1. rewrite Vg, V2 in N2. rewrite Vg, V3 in N3. split; [split; auto|]. split; [exact N1|]. split; [exact N2|exact N3]. }
  destruct EX as [ds EX].
  destruct (free_coord (fun i => vx (pX (after free_field p1 i))) (fun i => vx (ds i)) n k (vx (FV (pP p1))) g gam (FR dt)) as [F1 E1]; try assumption.
  { intros i Hi. destruct (EX i Hi) as (Q1 & (Q2 & _) & Q3 & _). split; [rewrite Q1; reflexivity|]. auto. }
  { eapply Rle_trans; [exact L1|exact HL]. }
  destruct (free_coord (fun i => vy (pX (after free_field p1 i))) (fun i => vy (ds i)) n k (vy (FV (pP p1))) g gam (FR dt)) as [F2 E2]; try assumption.
  { intros i Hi. destruct (EX i Hi) as (Q1 & (_ & Q2 & _) & _ & Q3 & _). split; [rewrite Q1; reflexivity|]. auto. }
  { eapply Rle_trans; [exact L2|exact HL]. }
  destruct (free_coord (fun i => vz (pX (after free_field p1 i))) (fun i => vz (ds i)) n k (vz (FV (pP p1))) g gam (FR dt)) as [F3 E3]; try assumption.
  { intros i Hi. destruct (EX i Hi) as (Q1 & (_ & _ & Q2) & _ & _ & Q3). split; [rewrite Q1; reflexivity|]. auto. }
  { eapply Rle_trans; [exact L3|exact HL]. }
  rewrite after_0 in E1, E2, E3. split; [split; auto|].
  assert (FIN : forall S y, S <= L -> y <= INR k * (bpow radix2 (-47) * S + 2 * eta) -> y <= INR k * (bpow radix2 (-47) * L + 2 * eta)).
  { intros S y HS Hy. eapply Rle_trans; [exact Hy|]. apply Rmult_le_compat_l; [apply pos_INR|]. apply Rplus_le_compat_r. apply Rmult_le_compat_l; [apply bpow_ge_0|exact HS]. }
  unfold near3, FV. cbn [vadd vmul vdiv vx vy vz]. unnum. unfold Rdiv in *. cbn [FV vx vy vz] in E1, E2, E3.
  split; [|split].
  - apply (FIN _ _ L1). eapply Rle_trans; [|exact E1]. right. f_equal. ring.
  - apply (FIN _ _ L2). eapply Rle_trans; [|exact E2]. right. f_equal. ring.
  - apply (FIN _ _ L3). eapply Rle_trans; [|exact E3]. right. f_equal. ring.
Qed.
