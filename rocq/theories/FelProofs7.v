(* A time step with which the clocks of FEL field and beam drift apart in double precision. *)
From Coq Require Import ZArith Reals List Bool Lia Lra Floats.
From Flocq Require Import Core.
From Verif Require Import Base BaseFacts Num NumFloat FloatFacts VecModel ParticleModel BunchModel ElementModel DriverModel DriverSpec
  FelModel FelSpec FelProofs FelProofs2 FelProofs4 FelProofs6.
Import ListNotations.
Local Open Scope R_scope.


Definition dt_bad : flt := (f_ofZ 134217729 / f_ofZ 134217728)%float.
Definition n_bad : Z := 100663304.
Lemma rn_F2R m e : (Z.abs m < 2 ^ 53)%Z -> (-1074 <= e)%Z -> rn (IZR m * bpow radix2 e) = IZR m * bpow radix2 e.
Proof.
  intros Hm He. apply round_generic; [apply valid_rnd_N|]. apply generic_format_FLT.
  exists (Float radix2 m e); [reflexivity|exact Hm|exact He].
Qed.
Lemma bad_val : fin dt_bad /\ FR dt_bad = 1 + bpow radix2 (-27).
Proof.
  destruct (ofZ_ok 134217729 ltac:(lia)) as [F1 V1]. destruct (ofZ_ok 134217728 ltac:(lia)) as [F2 V2].
  assert (Q : rn (FR (f_ofZ 134217729) / FR (f_ofZ 134217728)) = 1 + bpow radix2 (-27)).
  { rewrite V1, V2. replace (134217729 / 134217728) with (IZR 134217729 * bpow radix2 (-27)) by (cbn; lra). rewrite rn_F2R by lia. cbn. lra. }
  destruct (div_ok (f_ofZ 134217729) (f_ofZ 134217728) F1) as [F V].
  - rewrite V2. lra.
  - rewrite Q. apply Rlt_trans with (bpow radix2 1); [rewrite Rabs_pos_eq; cbn; lra|apply bpow_lt; lia].
  - split; [exact F|]. unfold dt_bad. rewrite V. exact Q.
Qed.
(* exact up to 2^26 steps *)
Lemma bad_first n : (Z.of_nat n <= 2 ^ 26)%Z -> fin (clock dt_bad n) /\ FR (clock dt_bad n) = INR n * (1 + bpow radix2 (-27)).
Proof.
  destruct bad_val as [Fd Vd]. induction n as [|n IH]; intros Hn.
  - change (clock dt_bad 0) with (f_ofZ 0). destruct (ofZ_ok 0 ltac:(lia)) as [F ->]. split; [exact F|]. cbn [INR]. ring.
  - destruct IH as [F V]; [lia|]. rewrite S_INR.
    assert (E : FR (clock dt_bad n) + FR dt_bad = (INR n + 1) * (1 + bpow radix2 (-27))) by (rewrite V, Vd; ring).
    assert (X : rn ((INR n + 1) * (1 + bpow radix2 (-27))) = (INR n + 1) * (1 + bpow radix2 (-27))).
    { rewrite INR_IZR_INZ. rewrite <- plus_IZR. set (z := (Z.of_nat n + 1)%Z) in *.
      destruct (Z.eq_dec z (2 ^ 26)) as [Ez|Nz].
      - rewrite Ez. replace (IZR (2 ^ 26) * (1 + bpow radix2 (-27))) with (IZR 134217729 * bpow radix2 (-1)) by (cbn; lra).
        apply rn_F2R; lia.
      - replace (IZR z * (1 + bpow radix2 (-27))) with (IZR (z * 134217729) * bpow radix2 (-27)) by (rewrite mult_IZR; cbn; lra).
        apply rn_F2R; lia. }
    change (clock dt_bad (S n)) with (clock dt_bad n + dt_bad)%float. destruct (add_ok _ _ F Fd) as [F' V'].
    + rewrite E. apply small_ok. pose proof (pos_INR n) as P. rewrite INR_IZR_INZ in *. rewrite Rabs_pos_eq.
      * apply Rle_trans with (bpow radix2 30); [|apply bp; lia]. apply (IZR_le _ (2 ^ 26)) in Hn. rewrite Nat2Z.inj_succ, succ_IZR in Hn. change (IZR (2^26)) with 67108864 in Hn. cbn. lra.
      * apply Rmult_le_pos; [lra|]. pose proof (bpow_gt_0 radix2 (-27)). lra.
    + split; [exact F'|]. rewrite V', E. exact X.
Qed.
(* a tie is rounded to the even neighbour *)
Lemma tie_even M : (2 ^ 52 <= M < 2 ^ 53)%Z -> Z.even M = true ->
  rn (IZR M * bpow radix2 (-26) + bpow radix2 (-27)) = IZR M * bpow radix2 (-26).
Proof.
  intros HM EV. set (x := IZR M * bpow radix2 (-26) + bpow radix2 (-27)).
  assert (HR : 4503599627370496 <= IZR M <= 9007199254740991) by (split; apply IZR_le; lia).
  assert (B : 67108864 < x < 134217728) by (unfold x; cbn; lra).
  assert (MG : mag radix2 x = 27%Z :> Z).
  { apply mag_unique_pos. change (bpow radix2 (27 - 1)) with 67108864. change (bpow radix2 27) with 134217728. lra. }
  unfold rn, round, F2R, scaled_mantissa, cexp. rewrite MG. change (FLT_exp (-1074) 53 27) with (-26)%Z. cbn [Fnum Fexp]. f_equal. f_equal.
  assert (SM : x * bpow radix2 (- -26) = IZR M + / 2) by (unfold x; cbn; lra). rewrite SM.
  unfold Znearest. assert (FL : Zfloor (IZR M + / 2) = M) by (apply Zfloor_imp; rewrite plus_IZR; lra). rewrite FL.
  replace (IZR M + / 2 - IZR M) with (/ 2) by ring. rewrite Rcompare_Eq by reflexivity. rewrite EV. reflexivity.
Qed.
Lemma bad_second n0 m : Z.of_nat n0 = (2 ^ 26)%Z -> (Z.of_nat m <= 2 ^ 25 + 8)%Z ->
  fin (clock dt_bad (m + n0)) /\ FR (clock dt_bad (m + n0)) = 67108864 + / 2 + INR m.
Proof.
  intros H0. destruct bad_val as [Fd Vd]. induction m as [|m IH]; intros Hm.
  - cbn [Nat.add]. destruct (bad_first n0) as [F V]; [lia|]. split; [exact F|]. rewrite V, INR_IZR_INZ, H0. cbn. lra.
  - destruct IH as [F V]; [lia|]. rewrite S_INR. change (S m + n0)%nat with (S (m + n0)).
    change (clock dt_bad (S (m + n0))) with (clock dt_bad (m + n0) + dt_bad)%float.
    assert (X : rn (FR (clock dt_bad (m + n0)) + FR dt_bad) = 67108864 + / 2 + (INR m + 1)).
    { rewrite V, Vd, INR_IZR_INZ. set (M := (2 ^ 52 + 2 ^ 25 + (Z.of_nat m + 1) * 2 ^ 26)%Z).
      assert (EM : IZR M * bpow radix2 (-26) = 67108864 + / 2 + (IZR (Z.of_nat m) + 1)).
      { unfold M. rewrite !plus_IZR, mult_IZR, plus_IZR. change (IZR (2 ^ 52)) with 4503599627370496. change (IZR (2 ^ 25)) with 33554432.
        change (IZR (2 ^ 26)) with 67108864. cbn. lra. }
      replace (67108864 + / 2 + IZR (Z.of_nat m) + (1 + bpow radix2 (-27))) with (IZR M * bpow radix2 (-26) + bpow radix2 (-27)) by (rewrite EM; ring).
      rewrite tie_even; [exact EM| |].
      - unfold M. lia.
      - unfold M. rewrite !Z.even_add, Z.even_mul. reflexivity || (rewrite Bool.orb_true_r; reflexivity). }
    destruct (add_ok _ _ F Fd) as [F' V'].
    + rewrite X. pose proof (pos_INR m) as P. assert (Q : INR m <= 33554440) by (rewrite INR_IZR_INZ; apply (IZR_le _ 33554440); lia).
      apply Rle_lt_trans with (bpow radix2 30); [rewrite Rabs_pos_eq; cbn; lra|apply bpow_lt; lia].
    + split; [exact F'|]. rewrite V'. exact X.
Qed.
Lemma bad_late (f : fel flt) n : Z.of_nat n = n_bad -> feTime f = clock dt_bad n -> feDt f = dt_bad -> beam_late f n_bad = true.
Proof.
  intros Hn H1 H2. destruct bad_val as [Fd Vd]. unfold n_bad in *.
  set (n0 := Z.to_nat (2 ^ 26)). set (m := Z.to_nat (2 ^ 25 + 8)).
  assert (En : n = (m + n0)%nat) by (unfold m, n0; lia). destruct (bad_second n0 m) as [FC VC]; [unfold n0; lia|unfold m; lia|]. rewrite <- En in FC, VC.
  rewrite INR_IZR_INZ in VC. unfold m in VC. rewrite Z2Nat.id in VC by lia. change (IZR (2 ^ 25 + 8)) with 33554440 in VC.
  unfold beam_late. rewrite H1, H2, quarter_F.
  change (@nabs flt NumF) with Coq.Floats.PrimFloat.abs. change (@nltb flt NumF) with Coq.Floats.PrimFloat.ltb.
  change (@nmul flt NumF) with Coq.Floats.PrimFloat.mul. change (@nsub flt NumF) with Coq.Floats.PrimFloat.sub. change (@nZ flt NumF) with f_ofZ.
  assert (R : reasonable dt_bad).
  { split; [exact Fd|]. rewrite Vd. pose proof (bpow_gt_0 radix2 (-27)). split.
    - apply Rle_trans with (bpow radix2 0); [apply bp; lia|cbn; lra].
    - apply Rle_trans with (bpow radix2 1); [cbn; lra|apply bp; lia]. }
  destruct (limit_ok dt_bad R) as [FL VL].
  assert (VL' : FR (0.25 * dt_bad)%float = 1 / 4 + bpow radix2 (-29)).
  { rewrite VL, Vd. replace (/ 4 * (1 + bpow radix2 (-27))) with (IZR 134217729 * bpow radix2 (-29)) by (cbn; lra). rewrite rn_F2R by lia. cbn. lra. }
  destruct (ofZ_ok 100663304 ltac:(lia)) as [FZ VZ].
  assert (P : rn (FR (f_ofZ 100663304) * FR dt_bad) = IZR 6755400028258308 * bpow radix2 (-26)).
  { rewrite VZ, Vd. replace (100663304 * (1 + bpow radix2 (-27))) with (IZR 6755400028258308 * bpow radix2 (-26) + 0) by (cbn; lra).
    rewrite Rplus_0_r. apply rn_F2R; lia. }
  destruct (mul_ok _ _ FZ Fd) as [FP VP].
  { rewrite P. apply Rlt_trans with (bpow radix2 30); [rewrite Rabs_pos_eq; cbn; lra|apply bpow_lt; lia]. }
  rewrite P in VP.
  assert (D : rn (FR (f_ofZ 100663304 * dt_bad)%float - FR (clock dt_bad n)) = 1 / 4 + bpow radix2 (-24)).
  { rewrite VP, VC. replace (IZR 6755400028258308 * bpow radix2 (-26) - (67108864 + / 2 + 33554440)) with (IZR 4194305 * bpow radix2 (-24)) by (cbn; lra).
    rewrite rn_F2R by lia. cbn. lra. }
  destruct (sub_ok _ _ FP FC) as [FS VS].
  { rewrite D. apply Rlt_trans with (bpow radix2 0); [rewrite Rabs_pos_eq; cbn; lra|apply bpow_lt; lia]. }
  rewrite D in VS. destruct (abs_ok _ FS) as [FA VA]. rewrite ltb_ok by assumption. rewrite VA, VS, VL'.
  destruct (Rltb_spec (1 / 4 + bpow radix2 (-29)) (Rabs (1 / 4 + bpow radix2 (-24)))) as [L|L]; [reflexivity|].
  exfalso. apply L. rewrite Rabs_pos_eq; cbn; lra.
Qed.
Section Len.
Context {T : Type} {NT : Num T} {TT : Trans T}.
Lemma start_fels NOTS lat (bm : beam T) s : sim_start full_field inter_init NOTS lat bm = Ok s -> length (snd (sLat s)) = length (snd lat).
Proof.
  unfold sim_start. intros H. destruct (bmTracker bm); try discriminate H. bget H as tr Htr. bget H as l' Hl. okinj H. cbn [sLat].
  unfold inter_init in Hl. bget Hl as fs Hfs. okinj Hl. cbn [snd]. apply (DriverProofs.map_res_len _ _ _ Hfs).
Qed.
Lemma step_fels s s' : sim_step (T:=T) full_field inter_step s = Ok s' -> length (snd (sLat s')) = length (snd (sLat s)).
Proof.
  unfold sim_step. intros H. bget H as tr Htr. bget H as l' Hl. okinj H. cbn [sLat].
  unfold inter_step in Hl. bget Hl as fs Hfs. okinj Hl. cbn [snd]. apply (DriverProofs.map_res_len _ _ _ Hfs).
Qed.
Lemma steps_fels n : forall s s', iter_res (sim_step (T:=T) full_field inter_step) n s = Ok s' -> length (snd (sLat s')) = length (snd (sLat s)).
Proof.
  induction n as [|n IH]; intros s s' H; cbn [iter_res] in H; [okinj H; reflexivity|]. bget H as s1 H1. rewrite (IH _ _ H). apply step_fels. exact H1.
Qed.
End Len.
Lemma bad_run : forall (TT : Trans flt) NOTS lat (bm : beam flt) k s,
  bmdt bm = dt_bad -> Forall (fun p => pt p = nZ 0) (concat (bmB bm)) -> snd lat <> [] -> Forall (fun f => feTime f = nZ 0 /\ feDt f = dt_bad) (snd lat) ->
  (n_bad <= Z.of_nat k)%Z -> sim_run full_field inter_init inter_step NOTS lat bm k <> Ok s.
Proof.
  intros TT NOTS lat bm k s H1 H2 NE H3 Hk H.
  set (n := Z.to_nat (n_bad - 1)). assert (Hn : Z.of_nat (S n) = n_bad) by (unfold n, n_bad; lia).
  assert (Ek : k = (n + S (k - S n))%nat) by lia. clearbody n. rewrite Ek in H.
  assert (A : exists s1 s2, sim_run full_field inter_init inter_step NOTS lat bm n = Ok s1 /\ length (snd (sLat s1)) = length (snd lat) /\ sim_step full_field inter_step s1 = Ok s2).
  { unfold sim_run in *. bget H as s0 H0. rewrite iter_res_plus in H. bget H as s1 Hs1. cbn [iter_res] in H. bget H as s2 Hs2.
    exists s1, s2. rewrite H0. cbn [bind]. split; [exact Hs1|]. split; [|exact Hs2]. rewrite (steps_fels _ _ _ Hs1). apply (start_fels _ _ _ _ H0). }
  destruct A as (s1 & s2 & R1 & L1 & S2). destruct (run_in_time dt_bad NOTS lat bm H1 H2 H3 n s1 R1) as (I1 & I2 & I3 & I4 & I5).
  unfold sim_step in S2. bget S2 as tr Htr. bget S2 as l' Hl. unfold inter_step in Hl. bget Hl as fs Hfs. clear Hl S2.
  destruct (snd (sLat s1)) as [|f r]; [apply NE, length_zero_iff_nil; symmetry; exact L1|]. apply Forall_inv in I1. destruct I1 as [F1 F2].
  cbn [map_res] in Hfs. bget Hfs as g Hg. unfold fel_step in Hg. cbn [bmNOTS] in Hg. rewrite I4 in Hg.
  replace (Z.of_nat n + 1)%Z with n_bad in Hg by lia. rewrite (bad_late f (S n) Hn F1 F2) in Hg. discriminate Hg.
Qed.
