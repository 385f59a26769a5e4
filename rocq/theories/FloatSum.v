(* Rounding of the total charge of a bunch. *)
From Coq Require Import ZArith Reals String List Bool Lia Lra Psatz Floats.
From Flocq Require Import Core.
From Verif Require Import Base BaseFacts Num NumFloat FloatFacts FloatFacts2 VecModel ParticleModel BunchModel FloatTrack
  ParserModel ParserSpec ParserProofs ParserProofs2.
Import ListNotations.
Local Open Scope R_scope.

Lemma qe_ok : fin (@nqe flt NumF) /\ FR (@nqe flt NumF) = 6655181307998229 * bpow radix2 (-115).
Proof. apply (FR_lit (@nqe flt NumF) 6655181307998229 (-115) eq_refl). Qed.
Lemma qe_range : bpow radix2 (-63) <= FR (@nqe flt NumF) <= bpow radix2 (-62).
Proof.
  destruct qe_ok as [_ ->]. replace (bpow radix2 (-63)) with (4503599627370496 * bpow radix2 (-115)) by (change 4503599627370496 with (bpow radix2 52); rewrite <- bpow_plus; reflexivity).
  replace (bpow radix2 (-62)) with (9007199254740992 * bpow radix2 (-115)) by (change 9007199254740992 with (bpow radix2 53); rewrite <- bpow_plus; reflexivity).
  pose proof (bpow_gt_0 radix2 (-115)). lra.
Qed.
(* the charge of one of N macro-particles *)
Lemma share_ok (Q : flt) (N : Z) : fin Q -> bpow radix2 (-800) <= Rabs (FR Q) <= bpow radix2 800 -> (1 <= N <= 2 ^ 50)%Z ->
  let c := (Q / nqe / f_ofZ N * nqe)%float in fin c /\ Rabs (IZR N * FR c - FR Q) <= 4 * ur * Rabs (FR Q).
Proof.
  intros FQ [Q1 Q2] HN. cbn zeta. destruct qe_ok as [Fe _]. destruct qe_range as [E1 E2]. destruct (ofZ_ok N ltac:(lia)) as [FN VN].
  set (e := FR nqe) in *. assert (e0 : 0 < e) by (pose proof (bpow_gt_0 radix2 (-63)); lra). assert (N1 : 1 <= IZR N) by (apply IZR_le; lia).
  assert (N2 : IZR N <= bpow radix2 50) by (change (bpow radix2 50) with (IZR (2 ^ 50)); apply IZR_le; lia).
  assert (Ie : bpow radix2 62 <= / e <= bpow radix2 63).
  { change 62%Z with (- (-62))%Z at 1. change 63%Z with (- (-63))%Z. rewrite !bpow_opp. pose proof (bpow_gt_0 radix2 (-63)). split; apply Rinv_le_contravar; lra. }
  assert (IN : bpow radix2 (-50) <= / IZR N <= 1).
  { change (-50)%Z with (- (50))%Z. rewrite bpow_opp. split; [apply Rinv_le_contravar; lra|]. rewrite <- Rinv_1. apply Rinv_le_contravar; lra. }
  pose proof ur_gt0 as U. assert (UV : ur <= / 1000000) by (rewrite ur_eq; lra).
  set (a := FR Q / e). assert (Ha : Rabs a = Rabs (FR Q) * / e) by (unfold a, Rdiv; rewrite Rabs_mult; f_equal; apply Rabs_pos_eq; pose proof (bpow_gt_0 radix2 62); lra).
  assert (Ra : bpow radix2 (-738) <= Rabs a <= bpow radix2 863).
  { rewrite Ha. split.
    - apply Rle_trans with (bpow radix2 (-800) * bpow radix2 62); [rewrite <- bpow_plus; apply bp_le; lia|]. apply Rmult_le_compat; try apply bpow_ge_0; lra.
    - apply Rle_trans with (bpow radix2 800 * bpow radix2 63); [|rewrite <- bpow_plus; apply bp_le; lia]. apply Rmult_le_compat; try apply Rabs_pos; try lra. pose proof (bpow_ge_0 radix2 62); lra. }
  destruct (div_ok Q nqe FQ) as [F1 V1]; [fold e; lra|fold e; fold a; apply small_ok; eapply Rle_trans; [apply Ra|apply bp_le; lia]|]. fold e in V1. fold a in V1.
  assert (R1 : Rabs (rn a - a) <= ur * Rabs a) by (apply rn_err; eapply Rle_trans; [|apply Ra]; apply bp_le; lia). rewrite <- V1 in R1.
  set (y1 := FR (Q / nqe)%float) in *. assert (A1 : (1 - ur) * Rabs a <= Rabs y1 <= (1 + ur) * Rabs a).
  { pose proof (Rabs_triang_inv y1 a). pose proof (Rabs_triang_inv a y1). rewrite (Rabs_minus_sym a y1) in *. lra. }
  set (b := y1 / IZR N). assert (Hb : Rabs b = Rabs y1 * / IZR N) by (unfold b, Rdiv; rewrite Rabs_mult; f_equal; apply Rabs_pos_eq; pose proof (bpow_gt_0 radix2 (-50)); lra).
  assert (Ry1 : bpow radix2 (-739) <= Rabs y1 <= bpow radix2 864).
  { pose proof (bpow_dbl (-739)) as D1. pose proof (bpow_dbl 863) as D2. change (-739 + 1)%Z with (-738)%Z in D1. change (863 + 1)%Z with 864%Z in D2. pose proof (bpow_gt_0 radix2 (-739)).
    assert (ur * Rabs a <= / 2 * Rabs a) by (apply Rmult_le_compat_r; [apply Rabs_pos|lra]). lra. }
  assert (Rb : bpow radix2 (-789) <= Rabs b <= bpow radix2 864).
  { rewrite Hb. split.
    - apply Rle_trans with (bpow radix2 (-739) * bpow radix2 (-50)); [rewrite <- bpow_plus; apply bp_le; lia|]. apply Rmult_le_compat; try apply bpow_ge_0; lra.
    - pose proof (bpow_gt_0 radix2 (-50)). pose proof (Rabs_pos y1). nra. }
  destruct (div_ok (Q / nqe)%float (f_ofZ N) F1) as [F2 V2]; [rewrite VN; lra|rewrite VN; fold y1; fold b; apply small_ok; eapply Rle_trans; [apply Rb|apply bp_le; lia]|]. rewrite VN in V2. fold y1 in V2. fold b in V2.
  assert (R2 : Rabs (rn b - b) <= ur * Rabs b) by (apply rn_err; eapply Rle_trans; [|apply Rb]; apply bp_le; lia). rewrite <- V2 in R2.
  set (y2 := FR (Q / nqe / f_ofZ N)%float) in *. assert (A2 : (1 - ur) * Rabs b <= Rabs y2 <= (1 + ur) * Rabs b).
  { pose proof (Rabs_triang_inv y2 b). pose proof (Rabs_triang_inv b y2). rewrite (Rabs_minus_sym b y2) in *. lra. }
  set (d := y2 * e). assert (Hd : Rabs d = Rabs y2 * e) by (unfold d; rewrite Rabs_mult; f_equal; apply Rabs_pos_eq; lra).
  assert (Ry2 : bpow radix2 (-790) <= Rabs y2 <= bpow radix2 865).
  { pose proof (bpow_dbl (-790)) as D1. pose proof (bpow_dbl 864) as D2. change (-790 + 1)%Z with (-789)%Z in D1. change (864 + 1)%Z with 865%Z in D2. pose proof (bpow_gt_0 radix2 (-790)).
    assert (ur * Rabs b <= / 2 * Rabs b) by (apply Rmult_le_compat_r; [apply Rabs_pos|lra]). lra. }
  assert (Rd : bpow radix2 (-853) <= Rabs d <= bpow radix2 865).
  { rewrite Hd. split.
    - apply Rle_trans with (bpow radix2 (-790) * bpow radix2 (-63)); [rewrite <- bpow_plus; apply bp_le; lia|]. apply Rmult_le_compat; try apply bpow_ge_0; lra.
    - assert (bpow radix2 (-62) <= 1) by (change 1 with (bpow radix2 0); apply bp_le; lia). pose proof (Rabs_pos y2). nra. }
  destruct (mul_ok (Q / nqe / f_ofZ N)%float nqe F2 Fe) as [F3 V3]; [fold y2 e; fold d; apply small_ok; eapply Rle_trans; [apply Rd|apply bp_le; lia]|]. fold y2 e in V3. fold d in V3.
  assert (R3 : Rabs (rn d - d) <= ur * Rabs d) by (apply rn_err; eapply Rle_trans; [|apply Rd]; apply bp_le; lia). rewrite <- V3 in R3.
  split; [exact F3|]. set (y3 := FR (Q / nqe / f_ofZ N * nqe)%float) in *.
  assert (X : IZR N * y3 - FR Q = IZR N * (y3 - d) + (IZR N * e * (y2 - b) + e * (y1 - a))) by (unfold d, b, a; field; lra).
  rewrite X. assert (Q0 := Rabs_pos (FR Q)).
  assert (T3 : Rabs (e * (y1 - a)) <= ur * Rabs (FR Q)).
  { rewrite Rabs_mult, (Rabs_pos_eq e) by lra. apply Rle_trans with (e * (ur * Rabs a)); [apply Rmult_le_compat_l; lra|]. rewrite Ha. right. field. lra. }
  assert (T2 : Rabs (IZR N * e * (y2 - b)) <= ur * (1 + ur) * Rabs (FR Q)).
  { rewrite !Rabs_mult, (Rabs_pos_eq e), (Rabs_pos_eq (IZR N)) by lra. apply Rle_trans with (IZR N * e * (ur * Rabs b)); [apply Rmult_le_compat_l; [apply Rmult_le_pos; lra|exact R2]|].
    rewrite Hb. replace (IZR N * e * (ur * (Rabs y1 * / IZR N))) with (ur * (e * Rabs y1)) by (field; lra). rewrite Rmult_assoc. apply Rmult_le_compat_l; [lra|].
    apply Rle_trans with (e * ((1 + ur) * Rabs a)); [apply Rmult_le_compat_l; lra|]. rewrite Ha. right. field. lra. }
  assert (T1 : Rabs (IZR N * (y3 - d)) <= ur * ((1 + ur) * (1 + ur)) * Rabs (FR Q)).
  { rewrite Rabs_mult, (Rabs_pos_eq (IZR N)) by lra. apply Rle_trans with (IZR N * (ur * Rabs d)); [apply Rmult_le_compat_l; lra|]. rewrite Hd.
    replace (IZR N * (ur * (Rabs y2 * e))) with (ur * (IZR N * e * Rabs y2)) by ring. replace (ur * ((1 + ur) * (1 + ur)) * Rabs (FR Q)) with (ur * ((1 + ur) * (1 + ur) * Rabs (FR Q))) by ring. apply Rmult_le_compat_l; [lra|].
    apply Rle_trans with (IZR N * e * ((1 + ur) * ((1 + ur) * Rabs a * / IZR N))).
    - apply Rmult_le_compat_l; [apply Rmult_le_pos; lra|]. eapply Rle_trans; [apply A2|]. apply Rmult_le_compat_l; [lra|]. rewrite Hb. apply Rmult_le_compat_r; [|lra].
      pose proof (bpow_gt_0 radix2 (-50)); lra.
    - rewrite Ha. right. field. lra. }
  eapply Rle_trans; [apply Rabs_triang|]. eapply Rle_trans; [apply Rplus_le_compat_l, Rabs_triang|].
  assert (ur * ((1 + ur) * (1 + ur)) * Rabs (FR Q) + (ur * (1 + ur) * Rabs (FR Q) + ur * Rabs (FR Q)) <= 4 * ur * Rabs (FR Q)); [|lra].
  assert (UQ : 0 <= ur * Rabs (FR Q)) by (apply Rmult_le_pos; lra).
  replace (ur * ((1 + ur) * (1 + ur)) * Rabs (FR Q) + (ur * (1 + ur) * Rabs (FR Q) + ur * Rabs (FR Q))) with ((3 + 3 * ur + ur * ur) * (ur * Rabs (FR Q))) by ring.
  replace (4 * ur * Rabs (FR Q)) with (4 * (ur * Rabs (FR Q))) by ring. apply Rmult_le_compat_r; [exact UQ|]. nra.
Qed.
Lemma charge_run (c : flt) (bu : bunch flt) : Forall (fun p => getCharge p = c) bu -> forall s,
  fold_left (fun s p => s + getCharge p)%num bu s = nat_rect (fun _ => flt) s (fun _ x => (x + c)%float) (length bu).
Proof.
  induction bu as [|p bu IH] using rev_ind; intros H s; [reflexivity|]. rewrite Forall_app in H. destruct H as [H1 H2].
  rewrite fold_left_app, app_length, Nat.add_comm. cbn [fold_left length Nat.add nat_rect]. rewrite IH by exact H1. apply Forall_inv in H2. rewrite H2. reflexivity.
Qed.
Lemma same_charges (c : flt) (bu : bunch flt) : fin c -> Forall (fun p => getCharge p = c) bu -> (Z.of_nat (length bu) <= 2 ^ 51)%Z ->
  INR (length bu) * Rabs (FR c) <= bpow radix2 1022 ->
  fin (bunch_charge bu) /\ Rabs (FR (bunch_charge bu) - INR (length bu) * FR c) <= INR (length bu) * (2 * ur) * (INR (length bu) * Rabs (FR c)).
Proof.
  intros Fc H Hn HM. unfold bunch_charge. rewrite (charge_run c bu H). set (n := length bu) in *. destruct (ofZ_ok 0 ltac:(lia)) as [F0 V0].
  destruct (sums_ok (fun k => nat_rect (fun _ => flt) (f_ofZ 0) (fun _ x => (x + c)%float) k) (fun _ => c) (FR c) n n) as [F E]; cbn [nat_rect]; try assumption.
  - intros i Hi. auto.
  - apply nat_ur. exact Hn.
  - rewrite V0, Rabs_R0, Rplus_0_l. exact HM.
  - lia.
  - split; [exact F|]. cbn [nat_rect] in E. rewrite V0, Rabs_R0, !Rplus_0_l in E. exact E.
Qed.
Lemma bunch_total (CT : Calc flt) (WT : World flt) i n (b b' : pbeam (T:=flt)) s s' : p_bunch i n b s = (s', Ok b') -> (1 <= n_attr n <= 357913941)%Z ->
  fin (num_attr (psEnv s) n "charge") -> bpow radix2 (-800) <= Rabs (FR (num_attr (psEnv s) n "charge")) <= bpow radix2 800 ->
  exists bu, bmB (pbBeam b') = (bmB (pbBeam b) ++ [bu]) /\ Z.of_nat (length bu) = n_attr n /\ fin (bunch_charge bu) /\
    Rabs (FR (bunch_charge bu) - FR (num_attr (psEnv s) n "charge")) <= (IZR (n_attr n) + 4) * bpow radix2 (-52) * Rabs (FR (num_attr (psEnv s) n "charge")).
Proof.
  intros H HN FQ RQ. destruct (bunch_made i n b b' s s' H) as (bu & E & L & F). exists bu. split; [exact E|]. split; [rewrite L; lia|].
  set (Q := num_attr (psEnv s) n "charge") in *. set (N := n_attr n) in *. destruct (share_ok Q N FQ RQ ltac:(lia)) as [Fc Ec]. cbn zeta in *.
  set (c := (Q / nqe / f_ofZ N * nqe)%float) in *.
  assert (G : Forall (fun p => getCharge p = c) bu). { eapply Forall_impl; [|exact F]. cbn beta. intros p [P _]. unfold getCharge. rewrite P. reflexivity. }
  assert (LN : INR (length bu) = IZR N) by (rewrite L, INR_IZR_INZ, Z2Nat.id by lia; reflexivity).
  pose proof ur_gt0 as U. assert (UV : ur <= / 1000000000000) by (rewrite ur_eq; lra). assert (N1 : 1 <= IZR N) by (apply IZR_le; lia).
  assert (N2 : IZR N <= 357913941) by (apply IZR_le; lia). pose proof (Rabs_pos (FR Q)) as Q0.
  assert (Mc : IZR N * Rabs (FR c) <= (1 + 4 * ur) * Rabs (FR Q)).
  { rewrite <- (Rabs_pos_eq (IZR N)) at 1 by lra. rewrite <- Rabs_mult. replace (IZR N * FR c) with ((IZR N * FR c - FR Q) + FR Q) by ring. eapply Rle_trans; [apply Rabs_triang|]. lra. }
  destruct (same_charges c bu Fc G) as [Fs Es].
  { rewrite L. lia. }
  { rewrite LN. eapply Rle_trans; [exact Mc|]. apply Rle_trans with (2 * bpow radix2 800); [|rewrite bpow_dbl; apply bp_le; lia]. pose proof (bpow_gt_0 radix2 800). nra. }
  split; [exact Fs|]. rewrite LN in Es. replace (bpow radix2 (-52)) with (2 * ur) by (unfold ur; change 2 with (bpow radix2 1); rewrite <- bpow_plus; reflexivity).
  replace (FR (bunch_charge bu) - FR Q) with ((FR (bunch_charge bu) - IZR N * FR c) + (IZR N * FR c - FR Q)) by ring. eapply Rle_trans; [apply Rabs_triang|].
  assert (X : IZR N * (2 * ur) * (IZR N * Rabs (FR c)) <= (2 * IZR N + 1) * (ur * Rabs (FR Q))).
  { apply Rle_trans with (IZR N * (2 * ur) * ((1 + 4 * ur) * Rabs (FR Q))); [apply Rmult_le_compat_l; [apply Rmult_le_pos; lra|exact Mc]|].
    replace (IZR N * (2 * ur) * ((1 + 4 * ur) * Rabs (FR Q))) with (2 * IZR N * (1 + 4 * ur) * (ur * Rabs (FR Q))) by ring. apply Rmult_le_compat_r; [apply Rmult_le_pos; lra|].
    assert (IZR N * ur <= 357913941 * / 1000000000000) by (apply Rmult_le_compat; lra). lra. }
  replace ((IZR N + 4) * (2 * ur) * Rabs (FR Q)) with ((2 * IZR N + 8) * (ur * Rabs (FR Q))) by ring. assert (UQ : 0 <= ur * Rabs (FR Q)) by (apply Rmult_le_pos; lra). nra.
Qed.
