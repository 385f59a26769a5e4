(* C54 in double precision: the clocks stay together. *)
From Coq Require Import ZArith Reals List Bool Lia Lra Floats.
From Flocq Require Import Core.
From Verif Require Import Base BaseFacts Num NumFloat FloatFacts VecModel VecFacts ParticleModel ParticleSpec BunchModel BeamSpec ElementModel DriverModel DriverSpec DriverProofs
  FelModel FelSpec FelProofs FelProofs2 FelProofs4.
Import ListNotations.
Local Open Scope Z_scope.

(* the comparisons of times may be left out with any arithmetic if the clocks agree *)
Section Gen.
Context {T : Type} {NT : Num T} {TT : Trans T}.
Definition clocks_agree (dt : T) (j : nat) : Prop :=
  forall f : fel T, feTime f = clock dt j -> feDt f = dt -> time_off f (clock dt j) = false /\ beam_late f (Z.of_nat j) = false.

Lemma any_start dt NOTS lat (bm : beam T) : clocks_agree dt 0 -> bmdt bm = dt -> Forall (fun p => pt p = nZ 0) (concat (bmB bm)) ->
  Forall (fun f => feTime f = nZ 0 /\ feDt f = dt) (snd lat) ->
  sim_start full_field inter_init NOTS lat bm = sim_start field_free inter_init_free NOTS lat bm.
Proof.
  intros Hd Hb HP HL. unfold sim_start. destruct (bmTracker bm); try reflexivity.
  assert (A : Forall (fun p => pt p = nZ 0 /\ pTimes p = [pt p]) (concat (spread (restarted (NOTS + 1)) (map current (concat (bmB bm))) (bmB bm)))).
  { apply (spread_forall (fun c => tpt c = nZ 0)); [|].
    - intros c p Hc. cbn. auto.
    - apply Forall_map. eapply Forall_impl; [|exact HP]. intros p Hp. exact Hp. }
  cbn [bmB]. rewrite (map_res_cong (fun p => InitVay (bmdt bm) (full_field lat) (no_field p)) (fun p => InitVay (bmdt bm) (field_free lat) (no_field p))).
  - destruct (map_res _ _) as [tr| | |]; cbn [bind]; try reflexivity.
    match goal with |- bind (inter_init ?r lat) _ = _ => set (rec := r) end.
    assert (E : inter_init rec lat = inter_init_free rec lat).
    { unfold inter_init, inter_init_free. rewrite (map_res_cong (fel_init rec) (init_free rec)); [reflexivity|].
      eapply Forall_impl; [|exact HL]. intros f (F1 & F2). unfold init_free. unfold fel_init. cbn [bmdt].
      rewrite F2. change (bmdt rec) with (bmdt bm). rewrite Hb. reflexivity. }
    rewrite E. reflexivity.
  - eapply Forall_impl; [|exact A]. intros p (P1 & P2). apply vay_init_cong. cbn [no_field pTimes]. rewrite P2, P1. intros t x Ht.
    apply Ok_inj in Ht. subst t. apply field_cong. eapply Forall_impl; [|exact HL]. intros f (F1 & F2). apply (Hd f F1 F2).
Qed.
Lemma any_step dt k s : clocks_agree dt (S k) -> in_time dt k s -> sim_step full_field inter_step s = sim_step field_free inter_step_free s.
Proof.
  intros Hd (I1 & I2 & I3 & I4 & I5). unfold sim_step.
  assert (E : map_res (StepVay (full_field (sLat s))) (sTracked s) = map_res (StepVay (field_free (sLat s))) (sTracked s)).
  { apply map_res_cong. eapply Forall_impl; [|exact I2]. intros p (P1 & P2). apply vay_step_cong. intros x. apply field_cong.
    eapply Forall_impl; [|exact I1]. intros f (F1 & F2). rewrite P1, P2. apply (Hd f F1 F2). }
  rewrite <- E. destruct (map_res (StepVay (full_field (sLat s))) (sTracked s)) as [tr| | |] eqn:Htr; cbn [bind]; try reflexivity.
  assert (B : Forall (fun p => pt p = clock dt (S k)) tr).
  { eapply map_res_forall; [|exact I2|exact Htr]. cbn beta. intros p q (P1 & P2) Hq. apply vay_step_time in Hq. destruct Hq as (-> & _).
    rewrite P1, P2. reflexivity. }
  match goal with |- bind (inter_step ?r _) _ = _ => set (rec := r) end.
  assert (G : inter_step rec (sLat s) = inter_step_free rec (sLat s)).
  { unfold inter_step, inter_step_free. rewrite (map_res_cong (fel_step rec) (step_free rec)); [reflexivity|].
    eapply Forall_impl; [|exact I1]. intros f (F1 & F2). apply step_cong.
    - unfold rec. cbn [bmNOTS]. rewrite I4. replace (Z.of_nat k + 1)%Z with (Z.of_nat (S k)) by lia. apply (Hd f F1 F2).
    - unfold rec. cbn [bmB]. apply (spread_forall (fun c => tpt c = clock dt (S k))).
      + intros c p Hc. cbn [append_point pt]. rewrite Hc. apply (Hd f F1 F2).
      + apply Forall_map. eapply Forall_impl; [|exact B]. intros p Hp. exact Hp. }
  rewrite G. reflexivity.
Qed.
Lemma any_run dt NOTS lat (bm : beam T) k : (forall j, (j <= k)%nat -> clocks_agree dt j) ->
  bmdt bm = dt -> Forall (fun p => pt p = nZ 0) (concat (bmB bm)) -> Forall (fun f => feTime f = nZ 0 /\ feDt f = dt) (snd lat) ->
  sim_run full_field inter_init inter_step NOTS lat bm k = sim_run field_free inter_init_free inter_step_free NOTS lat bm k.
Proof.
  intros Hd Hb HP HL. unfold sim_run. rewrite <- (any_start dt) by (try assumption; apply Hd; lia).
  destruct (sim_start full_field inter_init NOTS lat bm) as [s0| | |] eqn:H0; cbn [bind]; try reflexivity.
  apply (start_in_time dt) in H0; try assumption.
  enough (G : forall n m s, (m + n <= k)%nat -> in_time dt m s ->
    iter_res (sim_step full_field inter_step) n s = iter_res (sim_step field_free inter_step_free) n s) by (apply (G k 0%nat s0); [lia|exact H0]).
  induction n as [|n IH]; intros m s Hk Hs; cbn [iter_res]; [reflexivity|]. rewrite <- (any_step dt m) by (try assumption; apply Hd; lia).
  destruct (sim_step full_field inter_step s) as [s'| | |] eqn:Hs'; cbn [bind]; try reflexivity.
  apply (IH (S m)); [lia|]. apply (step_in_time dt m s); assumption.
Qed.
End Gen.

(* ==== doubles ==== *)
Local Open Scope R_scope.
Definition reasonable (dt : flt) : Prop := fin dt /\ bpow radix2 (-1000) <= FR dt <= bpow radix2 900.

Lemma bp (a b : Z) : (a <= b)%Z -> bpow radix2 a <= bpow radix2 b.
Proof. apply bpow_le. Qed.
Lemma ur_pos : 0 < ur. Proof. apply bpow_gt_0. Qed.
Lemma ur_val : ur * 9007199254740992 = 1.
Proof. unfold ur. change 9007199254740992 with (bpow radix2 53). rewrite <- bpow_plus. reflexivity. Qed.

Lemma clock_err dt n : reasonable dt -> INR n * ur <= 1 -> 
  fin (clock dt n) /\ Rabs (FR (clock dt n) - INR n * FR dt) <= INR n * INR n * ur * FR dt.
Proof.
  intros (Fd & D1 & D2). pose proof ur_pos as U. pose proof (bpow_gt_0 radix2 (-1000)) as B0.
  induction n as [|n IH]; intros Hn.
  - change (clock dt 0) with (f_ofZ 0). destruct (ofZ_ok 0 ltac:(lia)) as [F ->]. split; [exact F|]. cbn [INR].
    replace (0 - 0 * FR dt) with 0 by ring. rewrite Rabs_R0. lra.
  - rewrite S_INR in *. assert (Hn' : INR n * ur <= 1) by (rewrite Rmult_plus_distr_r in Hn; lra). destruct (IH Hn') as [F E]. clear IH.
    set (d := FR dt) in *. set (c := FR (clock dt n)) in *. set (m := INR n) in *. assert (M : 0 <= m) by apply pos_INR.
    assert (E1 : m * m * ur * d <= m * d).
    { replace (m * m * ur * d) with ((m * ur) * (m * d)) by ring. assert (0 <= m * d) by (apply Rmult_le_pos; lra). nra. }
    apply Rabs_le_inv in E. assert (C : 0 <= c <= 2 * (m * d)) by lra.
    assert (L : bpow radix2 (-1022) <= Rabs (c + d)).
    { rewrite Rabs_pos_eq by lra. apply Rle_trans with (bpow radix2 (-1000)); [apply bp; lia|lra]. }
    pose proof (rn_err _ L) as RE. rewrite (Rabs_pos_eq (c + d)) in RE by lra.
    assert (OK : Rabs (rn (c + d)) < two1024).
    { apply small_ok. rewrite Rabs_pos_eq by lra.
      assert (MM : m + 1 <= bpow radix2 53).
      { change (bpow radix2 53) with 9007199254740992. apply Rmult_le_reg_r with ur; [exact U|]. rewrite (Rmult_comm 9007199254740992), ur_val. exact Hn. }
      apply Rle_trans with (2 * (bpow radix2 53 * bpow radix2 900)); [nra|]. rewrite <- bpow_plus. change 2 with (bpow radix2 1). rewrite <- bpow_plus. apply bp. lia. }
    change (clock dt (S n)) with (clock dt n + dt)%float. destruct (add_ok _ _ F Fd OK) as [F' ->]. split; [exact F'|]. fold c d.
    replace (rn (c + d) - (m + 1) * d) with ((rn (c + d) - (c + d)) + (c - m * d)) by ring.
    eapply Rle_trans; [apply Rabs_triang|].
    assert (A : Rabs (c - m * d) <= m * m * ur * d) by (apply Rabs_le; lra).
    assert (G : ur * (c + d) <= ur * ((2 * m + 1) * d)) by (apply Rmult_le_compat_l; lra).
    nra.
Qed.
Lemma quarter_F : (@quarter flt NumF) = 0.25%float.
Proof. reflexivity. Qed.
Lemma quarter_val : fin 0.25%float /\ FR 0.25%float = / 4.
Proof.
  assert (E : 0.25%float = (f_ofZ 1 / f_ofZ 4)%float) by reflexivity. rewrite E.
  destruct (ofZ_ok 1 ltac:(lia)) as [F1 V1]. destruct (ofZ_ok 4 ltac:(lia)) as [F4 V4].
  assert (Q : rn (FR (f_ofZ 1) / FR (f_ofZ 4)) = / 4).
  { rewrite V1, V4. replace (1 / 4) with (bpow radix2 (-2)) by (cbn; lra). rewrite rn_bpow by lia. cbn. lra. }
  destruct (div_ok (f_ofZ 1) (f_ofZ 4) F1) as [F V].
  - rewrite V4. lra.
  - rewrite Q. rewrite Rabs_pos_eq by lra. apply Rlt_trans with (bpow radix2 0); [cbn; lra|apply bpow_lt; lia].
  - split; [exact F|]. rewrite V. exact Q.
Qed.
Lemma limit_ok dt : reasonable dt -> fin (0.25 * dt)%float /\ FR (0.25 * dt)%float = rn (/ 4 * FR dt).
Proof.
  intros (Fd & D1 & D2). destruct quarter_val as [F V]. pose proof (bpow_gt_0 radix2 (-1000)) as B0.
  destruct (mul_ok _ _ F Fd) as [A B].
  - rewrite V. apply small_ok. rewrite Rabs_pos_eq by lra. apply Rle_trans with (bpow radix2 900); [lra|apply bp; lia].
  - rewrite V in B. split; assumption.
Qed.
Lemma clocks_agree_F dt n : reasonable dt -> (Z.of_nat n <= 2 ^ 25)%Z -> clocks_agree dt n.
Proof.
  intros R Hn f F1 F2. pose proof ur_pos as U. pose proof ur_val as UV.
  assert (Hm : INR n <= 33554432) by (rewrite INR_IZR_INZ; apply (IZR_le _ 33554432); exact Hn).
  pose proof (pos_INR n) as M. destruct (clock_err dt n R) as [FC EC]; [nra|]. destruct (limit_ok dt R) as [FL VL].
  pose proof R as (Fd & D1 & D2). pose proof (bpow_gt_0 radix2 (-1000)) as B0.
  set (c := clock dt n) in *. set (d := FR dt) in *. set (m := INR n) in *.
  unfold time_off, beam_late. rewrite F1, F2. rewrite quarter_F.
  change (@nabs flt NumF) with Coq.Floats.PrimFloat.abs. change (@nltb flt NumF) with Coq.Floats.PrimFloat.ltb.
  change (@nmul flt NumF) with Coq.Floats.PrimFloat.mul. change (@nsub flt NumF) with Coq.Floats.PrimFloat.sub. change (@nZ flt NumF) with f_ofZ.
  split.
  - destruct (sub_ok c c FC FC) as [FS VS]; [unfold Rminus; rewrite Rplus_opp_r, rn_0, Rabs_R0; apply bpow_gt_0|].
    destruct (abs_ok _ FS) as [FA VA]. rewrite ltb_ok by assumption. rewrite VA, VS, VL. unfold Rminus. rewrite Rplus_opp_r, rn_0, Rabs_R0.
    destruct (Rltb_spec (rn (/ 4 * d)) 0) as [X|X]; [|reflexivity]. exfalso. assert (0 <= rn (/ 4 * d)) by (apply rn_pos; lra). lra.
  - assert (Hz : (Z.abs (Z.of_nat n) <= 2 ^ 53)%Z) by lia. destruct (ofZ_ok _ Hz) as [FZ VZ]. rewrite <- INR_IZR_INZ in VZ. fold m in VZ.
    assert (PM : m = 0 \/ 1 <= m).
    { unfold m. destruct n as [|n']; [left; reflexivity|right]. rewrite S_INR. pose proof (pos_INR n'). lra. }
    assert (PE : Rabs (rn (m * d) - m * d) <= ur * (m * d)).
    { assert (0 <= m * d) by (apply Rmult_le_pos; lra). rewrite <- (Rabs_pos_eq (m * d)) at 3 by assumption. apply rn_err0.
      destruct PM as [->|PM]; [left; ring|right]. rewrite Rabs_pos_eq by assumption.
      apply Rle_trans with (bpow radix2 (-1000)); [apply bp; lia|nra]. }
    assert (BIG : m * d <= bpow radix2 925).
    { apply Rle_trans with (bpow radix2 25 * bpow radix2 900); [apply Rmult_le_compat; try lra; exact Hm|]. rewrite <- bpow_plus. apply bp. lia. }
    destruct (mul_ok _ _ FZ Fd) as [FP VP].
    { rewrite VZ. fold d. apply small_ok. rewrite Rabs_pos_eq by (apply Rmult_le_pos; lra). apply Rle_trans with (1 := BIG). apply bp. lia. }
    rewrite VZ in VP. fold d in VP.
    assert (DIFF : Rabs (FR (f_ofZ (Z.of_nat n) * dt) - FR c) <= / 4 * d).
    { rewrite VP. replace (rn (m * d) - FR c) with ((rn (m * d) - m * d) + (m * d - FR c)) by ring. eapply Rle_trans; [apply Rabs_triang|].
      rewrite (Rabs_minus_sym (m * d)). 
      apply Rle_trans with (ur * (m * d) + m * m * ur * d); [lra|].
      replace (ur * (m * d) + m * m * ur * d) with ((m + m * m) * ur * d) by ring. apply Rmult_le_compat_r; [lra|].
      apply Rle_trans with ((33554432 + 33554432 * 33554432) * ur); [apply Rmult_le_compat_r; [lra|]; nra|]. lra. }
    destruct (sub_ok _ _ FP FC) as [FS VS].
    { apply small_ok. eapply Rle_trans; [exact DIFF|]. apply Rle_trans with (bpow radix2 900); [lra|apply bp; lia]. }
    destruct (abs_ok _ FS) as [FA VA]. rewrite ltb_ok by assumption. rewrite VA, VS, VL, rn_abs.
    destruct (Rltb_spec (rn (/ 4 * d)) (rn (Rabs (FR (f_ofZ (Z.of_nat n) * dt) - FR c)))) as [X|X]; [|reflexivity].
    exfalso. apply rn_le in DIFF. lra.
Qed.
