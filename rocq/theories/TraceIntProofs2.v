(* Integration of a trajectory into a field trace: one step and the whole run. *)
From Coq Require Import ZArith Reals Lra Lia Psatz List Bool.
From Flocq Require Import Core.Raux.
From Coquelicot Require Import Coquelicot.
From Verif Require Import Base BaseFacts Num VecModel VecFacts ParticleModel ParticleSpec
  ParticleSpec2 ParticleProofs ParticleProofs2 VaySpec TraceModel RetardModel RetardSpec
  RetardProofs TraceIntSpec TraceIntProofs.
Import ListNotations.
Local Open Scope R_scope.

Lemma round_bucket t0 dt ts : 0 < dt ->
  let i := Zround_away ((ts - t0) / dt) in bucket_lo t0 dt i <= ts <= bucket_hi t0 dt i.
Proof.
  intros Hd i. pose proof (round_bounds ((ts - t0) / dt)) as H. fold i in H.
  assert (E : (ts - t0) / dt * dt = ts - t0) by (field; lra).
  unfold bucket_lo, bucket_hi. nra.
Qed.

Lemma to_int_ok z : (int_min <= z <= int_max)%Z -> to_int (Some z) = Ok z.
Proof.
  intros H. unfold to_int, in_int. destruct (Z.leb_spec int_min z); [|lia].
  destruct (Z.leb_spec z int_max); [reflexivity|lia].
Qed.

Lemma int_bounds : int_min = (-2147483648)%Z /\ int_max = 2147483647%Z.
Proof. split; reflexivity. Qed.

Section Step.
Variables (t0 dt ts1 ts2 : R) (f1 f2 : emf R).
Hypothesis Hd : 0 < dt.
Hypothesis H12 : ts1 < ts2.

Lemma share_inside c k : linear c ->
  ts1 <= bucket_lo t0 dt k -> bucket_hi t0 dt k <= ts2 ->
  c (lin_field ts1 ts2 f1 f2 (t0 + IZR k * dt)) = share t0 dt ts1 ts2 (c f1) (c f2) k / dt.
Proof using Hd H12.
  intros Hc H1 H2. unfold share. cbv zeta. pose proof (bucket_width t0 dt k) as Hw.
  rewrite clip_below, clip_above by lra. rewrite linear_lin by (auto; lra).
  unfold bucket_lo, bucket_hi in *. field. lra.
Qed.
Lemma share_end c k : linear c ->
  ts1 <= bucket_lo t0 dt k -> bucket_lo t0 dt k <= ts2 <= bucket_hi t0 dt k ->
  (c (lin_field ts1 ts2 f1 f2 (bucket_lo t0 dt k)) + c f2) * / 2 * ((ts2 - bucket_lo t0 dt k) / dt)
  = share t0 dt ts1 ts2 (c f1) (c f2) k / dt.
Proof using Hd H12.
  intros Hc H1 H2. unfold share. cbv zeta. pose proof (bucket_width t0 dt k) as Hw.
  rewrite clip_below, clip_in by lra. rewrite linear_lin by (auto; lra).
  generalize (bucket_lo t0 dt k). intros u. field. lra.
Qed.
Lemma share_begin c k : linear c ->
  bucket_lo t0 dt k <= ts1 <= bucket_hi t0 dt k -> bucket_hi t0 dt k <= ts2 ->
  (c f1 + c (lin_field ts1 ts2 f1 f2 (bucket_hi t0 dt k))) * / 2 * ((bucket_hi t0 dt k - ts1) / dt)
  = share t0 dt ts1 ts2 (c f1) (c f2) k / dt.
Proof using Hd H12.
  intros Hc H1 H2. unfold share. cbv zeta. pose proof (bucket_width t0 dt k) as Hw.
  rewrite clip_in, clip_above by lra. rewrite linear_lin by (auto; lra).
  generalize (bucket_hi t0 dt k). intros u. field. lra.
Qed.
Lemma share_same c k : linear c ->
  bucket_lo t0 dt k <= ts1 -> ts2 <= bucket_hi t0 dt k ->
  (c f1 + c f2) * / 2 * ((ts2 - ts1) / dt) = share t0 dt ts1 ts2 (c f1) (c f2) k / dt.
Proof using Hd H12.
  intros Hc H1 H2. unfold share. cbv zeta.
  rewrite !clip_in by lra. field. lra.
Qed.

Lemma share_zero_lo c k : ts2 <= bucket_lo t0 dt k -> share t0 dt ts1 ts2 (c f1) (c f2) k / dt = 0.
Proof using Hd H12. intros H. rewrite share_none_before by lra. unfold Rdiv. ring. Qed.
Lemma share_zero_hi c k : bucket_hi t0 dt k <= ts1 -> share t0 dt ts1 ts2 (c f1) (c f2) k / dt = 0.
Proof using Hd H12. intros H. rewrite share_none_after by lra. unfold Rdiv. ring. Qed.

(* full buckets a..b-1 and the last bucket b (possibly behind the trace) *)
Lemma tail_ok (tr : ftrace R) nots a i2 : 
  nots = tr_N tr -> (0 <= a <= Z.min i2 nots)%Z ->
  ts1 <= bucket_lo t0 dt a -> bucket_lo t0 dt i2 <= ts2 <= bucket_hi t0 dt i2 ->
  let idx2 := if (nots <? i2)%Z then nots else i2 in
  exists tr', bind (add_full t0 dt ts1 ts2 f1 f2 a (Z.to_nat (idx2 - a)) tr)
                   (add_last t0 dt ts1 ts2 f1 f2 idx2 nots) = Ok tr' /\ same_timing tr tr' /\
    forall c, linear c -> changed tr tr' c
      (fun j => if (a <=? j)%Z then share t0 dt ts1 ts2 (c f1) (c f2) j / dt else 0).
Proof using Hd H12.
  intros Hn Ha H1 H2 idx2.
  assert (Hi : idx2 = Z.min i2 nots).
  { unfold idx2. destruct (Z.ltb_spec nots i2); lia. }
  destruct (add_full_ok t0 dt ts1 ts2 f1 f2 (Z.to_nat (idx2 - a)) a tr) as (tr1 & E1 & S1 & C1); [lia|lia|].
  rewrite E1. cbn [bind].
  assert (HN : nots = tr_N tr1) by (unfold tr_N in *; destruct S1 as (_ & _ & ->); exact Hn).
  destruct (add_last_ok t0 dt ts1 ts2 f1 f2 idx2 nots tr1) as (tr2 & E2 & S2 & C2); [lia|exact HN|].
  exists tr2. split; [exact E2|]. split; [eapply same_timing_trans; eauto|].
  intros c Hc. eapply changed_ext; [|eapply changed_trans; [apply C1; exact Hc|apply C2; exact Hc]].
  intros j Hj. cbn beta. rewrite Z2Nat.id by lia. replace (a + (idx2 - a))%Z with idx2 by lia.
  assert (Hlo : (a <= j)%Z -> ts1 <= bucket_lo t0 dt j).
  { intros Haj. destruct (Z.eq_dec a j) as [<-|]; [exact H1|].
    pose proof (bucket_order t0 dt a j Hd ltac:(lia)). pose proof (bucket_width t0 dt a). lra. }
  destruct (Z.leb_spec a j); cbn [andb].
  - destruct (Z.ltb_spec j idx2).
    + destruct (Z.eqb_spec j idx2); [lia|]. rewrite Rplus_0_r. apply share_inside; auto.
      pose proof (bucket_order t0 dt j i2 Hd ltac:(lia)). lra.
    + rewrite Rplus_0_l. destruct (Z.eqb_spec j idx2) as [->|Hne].
      * assert (Eii : idx2 = i2) by lia. rewrite Eii in *. apply share_end; auto.
      * rewrite share_zero_lo; [reflexivity|].
        pose proof (bucket_order t0 dt i2 j Hd ltac:(lia)). lra.
  - destruct (Z.eqb_spec j idx2); [lia|]. ring.
Qed.

Lemma integrate_step_ok (tr : ftrace R) nots :
  nots = tr_N tr -> (0 < nots <= int_max)%Z -> (ts2 - t0) / dt < 2147483647 ->
  t0 - dt * / 2 < ts2 -> ts1 < t0 + dt * (IZR nots - / 2) ->
  exists tr', integrate_step t0 dt nots ts1 ts2 f1 f2 tr = Ok tr' /\ same_timing tr tr' /\
    forall c, linear c -> changed tr tr' c
      (fun j => share t0 dt ts1 ts2 (c f1) (c f2) j / dt).
Proof using Hd H12.
  intros Hn Hnn Hmax Hlo Hhi. destruct int_bounds as [Emin Emax].
  pose proof (round_bucket t0 dt ts1 Hd) as B1. pose proof (round_bucket t0 dt ts2 Hd) as B2.
  pose proof (round_bounds ((ts2 - t0) / dt)) as R2.
  cbv zeta in B1, B2. set (i1 := Zround_away ((ts1 - t0) / dt)) in *.
  set (i2 := Zround_away ((ts2 - t0) / dt)) in *.
  assert (Hi2 : (0 <= i2 <= int_max)%Z).
  { split.
    - destruct (Z_le_gt_dec 0 i2); [assumption|exfalso].
      pose proof (bucket_order t0 dt i2 0 Hd ltac:(lia)) as X. unfold bucket_lo at 1 in X. lra.
    - rewrite Emax. destruct (Z_le_gt_dec i2 2147483647); [assumption|exfalso].
      assert (2147483648 <= IZR i2) by (apply IZR_le; lia). lra. }
  unfold integrate_step.
  replace (t0 - dt * nhalf)%num with (t0 - dt * / 2) by (unfold nhalf; unnum; lra).
  change ((ts2 - t0) / dt)%num with ((ts2 - t0) / dt). change ((ts1 - t0) / dt)%num with ((ts1 - t0) / dt).
  change (nround ((ts1 - t0) / dt)) with (Some i1). change (nround ((ts2 - t0) / dt)) with (Some i2).
  rewrite (to_int_ok i2) by lia.
  change (nleb ts1 (t0 - dt * / 2)) with (Rleb ts1 (t0 - dt * / 2)).
  destruct (Rleb_spec ts1 (t0 - dt * / 2)) as [Hle|Hgt]; cbn [bind].
  - assert (Hb0 : bucket_lo t0 dt 0 = t0 - dt * / 2) by (unfold bucket_lo; lra).
    destruct (tail_ok tr nots 0 i2 Hn) as (tr' & E & S & C); [lia|lra|exact B2|].
    rewrite Z.sub_0_r in E. exists tr'. split; [exact E|]. split; [exact S|].
    intros c Hc. eapply changed_ext; [|apply C; exact Hc]. intros j Hj. cbn beta.
    destruct (Z.leb_spec 0 j); [reflexivity|lia].
  - assert (Hi1 : (0 <= i1 < nots)%Z).
    { split.
      - destruct (Z_le_gt_dec 0 i1); [assumption|exfalso].
        pose proof (bucket_order t0 dt i1 0 Hd ltac:(lia)) as X. unfold bucket_lo at 1 in X. lra.
      - destruct (Z_lt_ge_dec i1 nots); [assumption|exfalso].
        pose proof (bucket_order t0 dt (nots - 1) i1 Hd ltac:(lia)) as X. unfold bucket_hi at 1 in X.
        rewrite minus_IZR in X. lra. }
    assert (Hi12 : (i1 <= i2)%Z).
    { destruct (Z_le_gt_dec i1 i2); [assumption|exfalso].
      pose proof (bucket_order t0 dt i2 i1 Hd ltac:(lia)) as X. lra. }
    rewrite (to_int_ok i1) by lia. cbn [bind].
    destruct (Z.eqb_spec i1 (if (nots <? i2)%Z then nots else i2)) as [E|Hne].
    + assert (E12 : i1 = i2) by (destruct (Z.ltb_spec nots i2); lia).
      match goal with |- exists tr', tr_acc tr i1 ?f = _ /\ _ => destruct (tr_acc_ok tr i1 f) as (tr1 & E1 & S1 & C1) end; [lia|].
      exists tr1. split; [exact E1|]. split; [exact S1|]. intros c Hc.
      eapply changed_ext; [|apply C1; exact Hc]. intros j Hj. cbn beta.
      destruct (Z.eqb_spec j i1) as [->|Hji].
      * pose proof Hc as (Ha & Hm & _). rewrite !Hm, Ha.
        rewrite <- share_same; [|exact Hc|lra|rewrite E12; lra].
        unfold nhalf; unnum. lra.
      * symmetry. destruct (Z_lt_ge_dec j i1).
        -- apply share_zero_hi. pose proof (bucket_order t0 dt j i1 Hd ltac:(lia)). lra.
        -- apply share_zero_lo. pose proof (bucket_order t0 dt i2 j Hd ltac:(lia)). lra.
    + assert (Hlt : (i1 < Z.min i2 nots)%Z) by (destruct (Z.ltb_spec nots i2); lia).
      replace (t0 + (nZ i1 + nhalf) * dt)%num with (bucket_hi t0 dt i1)
        by (unfold nhalf, bucket_hi; unnum; lra).
      match goal with |- exists tr', bind (tr_acc tr i1 ?f) _ = _ /\ _ => destruct (tr_acc_ok tr i1 f) as (tr1 & E1 & S1 & C1) end; [lia|].
      rewrite E1. cbn [bind].
      assert (HN : nots = tr_N tr1) by (unfold tr_N in *; destruct S1 as (_ & _ & ->); exact Hn).
      pose proof (bucket_order t0 dt i1 (i1 + 1) Hd ltac:(lia)) as O1.
      pose proof (bucket_order t0 dt i1 i2 Hd ltac:(lia)) as O2.
      destruct (tail_ok tr1 nots (i1 + 1) i2 HN) as (tr2 & E2 & S2 & C2); [lia|lra|exact B2|].
      exists tr2. split; [exact E2|]. split; [eapply same_timing_trans; eauto|].
      intros c Hc. eapply changed_ext; [|eapply changed_trans; [apply C1; exact Hc|apply C2; exact Hc]].
      intros j Hj. cbn beta.
      destruct (Z.leb_spec (i1 + 1) j); destruct (Z.eqb_spec j i1) as [->|Hji]; try lia.
      * ring.
      * pose proof Hc as (Ha & Hm & _). rewrite !Hm, Ha. rewrite Rplus_0_r.
        rewrite <- share_begin; [|exact Hc|lra|lra]. unfold nhalf; unnum. lra.
      * rewrite Rplus_0_l. symmetry. apply share_zero_hi.
        pose proof (bucket_order t0 dt j i1 Hd ltac:(lia)). lra.
Qed.
End Step.

(* ---- the whole trajectory ---- *)
Fixpoint shares (t0 dt : R) (c : emf R -> R) (pts : list (R * emf R)) (k : Z) : R :=
  match pts with
  | (ta, fa) :: (((tb, fb) :: _) as r) =>
      share t0 dt ta tb (c fa) (c fb) k + shares t0 dt c r k
  | _ => 0
  end.

Lemma skipn_nth {A} (l : list A) n a : nth_error l n = Some a -> skipn n l = a :: skipn (S n) l.
Proof.
  revert l; induction n as [|n IH]; intros [|x l] H; cbn in H; try discriminate.
  - injection H as ->. reflexivity.
  - cbn [skipn]. rewrite (IH l H). reflexivity.
Qed.

Lemma integrate_one_ok (p : particle R) obs t0 dt nots (tr : ftrace R) i a b :
  wf p -> 0 < dt -> nots = tr_N tr -> (0 < nots <= int_max)%Z ->
  nth_error (trajectory p) i = Some a -> nth_error (trajectory p) (S i) = Some b ->
  arrival obs a < arrival obs b -> (arrival obs b - t0) / dt < 2147483647 ->
  exists tr', integrate_one p obs t0 dt nots tr (Z.of_nat i) = Ok tr' /\ same_timing tr tr' /\
    forall c, linear c -> changed tr tr' c
      (fun j => share t0 dt (arrival obs a) (arrival obs b)
                  (c (point_field (pCharge p) a obs)) (c (point_field (pCharge p) b obs)) j / dt).
Proof.
  intros Hw Hd Hn Hnn Ha Hb Hlt Hmax. unfold integrate_one.
  destruct (RetardedField_index_point p i a obs Hw Ha) as [Fa Ta].
  destruct (RetardedField_index_point p (S i) b obs Hw Hb) as [Fb Tb].
  replace (Z.of_nat i + 1)%Z with (Z.of_nat (S i)) by lia.
  rewrite Ta, Tb. cbn [bind].
  replace (t0 - dt * nhalf)%num with (t0 - dt * / 2) by (unfold nhalf; unnum; lra).
  replace (t0 + dt * (nZ nots - nhalf))%num with (t0 + dt * (IZR nots - / 2)) by (unfold nhalf; unnum; lra).
  change (nltb (t0 - dt * / 2) (arrival obs b)) with (Rltb (t0 - dt * / 2) (arrival obs b)).
  change (nltb (arrival obs a) (t0 + dt * (IZR nots - / 2))) with (Rltb (arrival obs a) (t0 + dt * (IZR nots - / 2))).
  destruct (Rltb_spec (t0 - dt * / 2) (arrival obs b)) as [L1|L1].
  - destruct (Rltb_spec (arrival obs a) (t0 + dt * (IZR nots - / 2))) as [L2|L2]; cbn [andb].
    + rewrite Fa, Fb. cbn [bind]. apply integrate_step_ok; auto.
    + exists tr. split; [reflexivity|]. split; [apply same_timing_refl|]. intros c Hc.
      eapply changed_ext; [|apply changed_refl]. intros j Hj. cbn beta. symmetry.
      apply share_zero_hi; auto. 
      assert (IZR j <= IZR nots - 1) by (rewrite <- minus_IZR; apply IZR_le; lia).
      unfold bucket_hi. nra.
  - cbn [andb]. exists tr. split; [reflexivity|]. split; [apply same_timing_refl|]. intros c Hc.
    eapply changed_ext; [|apply changed_refl]. intros j Hj. cbn beta. symmetry.
    apply share_zero_lo; auto.
    assert (0 <= IZR j) by (apply IZR_le; lia). unfold bucket_lo. nra.
Qed.

Lemma integrate_run_ok (p : particle R) obs t0 dt nots m : forall s (tr : ftrace R),
  wf p -> 0 < dt -> nots = tr_N tr -> (0 < nots <= int_max)%Z ->
  increasing (map (arrival obs) (trajectory p)) ->
  (forall b, In b (trajectory p) -> (arrival obs b - t0) / dt < 2147483647) ->
  (s + m + 1 = length (trajectory p))%nat ->
  exists tr', fold_res (integrate_one p obs t0 dt nots) (zseq (Z.of_nat s) m) tr = Ok tr' /\
    same_timing tr tr' /\
    forall c, linear c -> changed tr tr' c
      (fun j => shares t0 dt c (skipn s (signal_points p obs)) j / dt).
Proof.
  induction m as [|m IH]; intros s tr Hw Hd Hn Hnn Hinc Hmax Hs.
  - exists tr. split; [reflexivity|]. split; [apply same_timing_refl|]. intros c Hc.
    eapply changed_ext; [|apply changed_refl]. intros j Hj. cbn beta.
    destruct (nth_error (signal_points p obs) s) as [x|] eqn:Ex.
    + rewrite (skipn_nth _ _ _ Ex). rewrite skipn_all2.
      * destruct x. cbn. unfold Rdiv. ring.
      * unfold signal_points. rewrite map_length. lia.
    + rewrite skipn_all2; [cbn; unfold Rdiv; ring|]. apply nth_error_None. exact Ex.
  - destruct (nth_trajectory_inv p s Hw) as [a Ha]; [lia|].
    destruct (nth_trajectory_inv p (S s) Hw) as [b Hb]; [lia|].
    assert (Hlt : arrival obs a < arrival obs b).
    { apply (Hinc s (S s)); [lia| |]; rewrite nth_error_map; [rewrite Ha|rewrite Hb]; reflexivity. }
    destruct (integrate_one_ok p obs t0 dt nots tr s a b Hw Hd Hn Hnn Ha Hb Hlt) as (tr1 & E1 & S1 & C1).
    { apply Hmax. eapply nth_error_In; exact Hb. }
    cbn [zseq fold_res]. rewrite E1. cbn [bind].
    assert (HN : nots = tr_N tr1) by (unfold tr_N in *; destruct S1 as (_ & _ & ->); exact Hn).
    destruct (IH (S s) tr1 Hw Hd HN Hnn Hinc Hmax) as (tr2 & E2 & S2 & C2); [lia|].
    replace (Z.of_nat s + 1)%Z with (Z.of_nat (S s)) by lia.
    exists tr2. split; [exact E2|]. split; [eapply same_timing_trans; eauto|].
    intros c Hc. eapply changed_ext; [|eapply changed_trans; [apply C1; exact Hc|apply C2; exact Hc]].
    intros j Hj. cbn beta.
    assert (Sa : nth_error (signal_points p obs) s = Some (arrival obs a, point_field (pCharge p) a obs))
      by (unfold signal_points; rewrite nth_error_map, Ha; reflexivity).
    assert (Sb : nth_error (signal_points p obs) (S s) = Some (arrival obs b, point_field (pCharge p) b obs))
      by (unfold signal_points; rewrite nth_error_map, Hb; reflexivity).
    rewrite (skipn_nth _ _ _ Sa), (skipn_nth _ _ _ Sb). cbn [shares]. unfold Rdiv. ring.
Qed.

Lemma i32_small z : (0 <= z <= int_max)%Z -> i32 z = z.
Proof.
  destruct int_bounds as [_ ->]. intros H. unfold i32. change (2 ^ 31)%Z with 2147483648%Z.
  change (2 ^ 32)%Z with 4294967296%Z. rewrite Z.mod_small; lia.
Qed.

Lemma integrateFieldTrace_ok (p : particle R) obs (tr : ftrace R) :
  wf p -> 0 < tr_dt tr -> (2 <= tr_N tr <= int_max)%Z ->
  increasing (map (arrival obs) (trajectory p)) ->
  (forall b, In b (trajectory p) -> (arrival obs b - tr_t0 tr) / tr_dt tr < 2147483647) ->
  exists tr', integrateFieldTrace p obs tr = Ok tr' /\ same_timing tr tr' /\
    forall c, linear c -> changed tr tr' c
      (fun j => shares (tr_t0 tr) (tr_dt tr) c (signal_points p obs) j / tr_dt tr).
Proof.
  intros Hw Hd Hn Hinc Hmax. unfold integrateFieldTrace. rewrite i32_small by lia.
  pose proof (trajectory_length p Hw) as HL.
  destruct (Z.ltb_spec (tr_N tr) 2); [lia|].
  destruct (Z.ltb_spec (pNP p) 2).
  - exists tr. split; [reflexivity|]. split; [apply same_timing_refl|]. intros c Hc.
    eapply changed_ext; [|apply changed_refl]. intros j Hj. cbn beta.
    unfold signal_points. destruct (trajectory p) as [|x [|y l]]; cbn [map shares length] in *;
      [unfold Rdiv; ring|unfold Rdiv; ring|lia].
  - change 0%Z with (Z.of_nat 0).
    apply (integrate_run_ok p obs (tr_t0 tr) (tr_dt tr) (tr_N tr) (Z.to_nat (pNP p - 1)) 0 tr); auto; lia.
Qed.

(* ---- the integral of the signal ---- *)
Definition inc_pts (pts : list (R * emf R)) : Prop := increasing (map fst pts).

Lemma inc_tail x l : inc_pts (x :: l) -> inc_pts l.
Proof. intros H i j a b Hij Ha Hb. apply (H (S i) (S j)); auto. lia. Qed.

Lemma signal_before pts t x r : pts = x :: r -> t < fst x -> signal pts t = ezero.
Proof.
  intros -> H. destruct x as [ta fa]. cbn [fst] in H. cbn [signal].
  destruct r as [|[tb fb] r]; [reflexivity|]. destruct (Rle_dec ta t); [lra|reflexivity].
Qed.

Lemma signal_integral t0 dt c pts k :
  linear c -> 0 < dt -> inc_pts pts ->
  is_RInt (fun t => c (signal pts t)) (bucket_lo t0 dt k) (bucket_hi t0 dt k) (shares t0 dt c pts k).
Proof.
  intros Hc Hd. pose proof Hc as (_ & _ & Hc0).
  assert (Z0 : forall a b, is_RInt (fun _ => 0) a b 0).
  { intros a b. pose proof (is_RInt_const a b 0) as H. unfold scal in H; cbn in H. unfold mult in H; cbn in H.
    rewrite Rmult_0_r in H. exact H. }
  induction pts as [|[ta fa] r IH]; intros Hinc.
  - cbn [signal shares]. apply is_RInt_ext with (f := fun _ => 0); [intros; symmetry; exact Hc0|apply Z0].
  - destruct r as [|[tb fb] r].
    + cbn [signal shares]. apply is_RInt_ext with (f := fun _ => 0); [intros; symmetry; exact Hc0|apply Z0].
    + assert (Hab : ta < tb) by (apply (Hinc 0%nat 1%nat); auto).
      specialize (IH (inc_tail _ _ Hinc)).
      change (shares t0 dt c ((ta, fa) :: (tb, fb) :: r) k)
        with (share t0 dt ta tb (c fa) (c fb) k + shares t0 dt c ((tb, fb) :: r) k).
      set (g := fun t => if Rle_dec ta t then if Rlt_dec t tb then c (interp_field ta tb fa fb t) else 0 else 0).
      set (rest := (tb, fb) :: r) in *.
      apply is_RInt_ext with (f := fun t => plus (g t) (c (signal rest t))).
      { intros t _. change (g t + c (signal rest t) = c (signal ((ta, fa) :: rest) t)). unfold g.
        change (signal ((ta, fa) :: rest) t) with
          (if Rle_dec ta t then if Rlt_dec t tb then interp_field ta tb fa fb t else signal rest t else ezero).
        destruct (Rle_dec ta t).
        - destruct (Rlt_dec t tb).
          + rewrite (signal_before rest t (tb, fb) r eq_refl) by (cbn; lra). rewrite Hc0. ring.
          + ring.
        - rewrite (signal_before rest t (tb, fb) r eq_refl) by (cbn; lra). rewrite Hc0. ring. }
      apply (is_RInt_plus g (fun t => c (signal rest t))); [|exact IH].
      pose proof (bucket_width t0 dt k) as Hw.
      assert (Hg : forall t, ta <= t -> t < tb ->
         g t = (c fa - (c fb - c fa) * ta / (tb - ta)) + ((c fb - c fa) / (tb - ta)) * t).
      { intros t L1 L2. unfold g. destruct (Rle_dec ta t); [|lra]. destruct (Rlt_dec t tb); [|lra].
        rewrite linear_interp by exact Hc. field. lra. }
      pose proof (is_RInt_segment g _ _ ta tb (bucket_lo t0 dt k) (bucket_hi t0 dt k) Hab ltac:(lra) Hg) as H.
      cbv zeta in H. unfold share. cbv zeta.
      match goal with |- is_RInt _ _ _ ?v => match type of H with _ -> _ -> is_RInt _ _ _ ?w =>
        replace v with w end end.
      * apply H.
        -- intros t L. unfold g. destruct (Rle_dec ta t); [lra|reflexivity].
        -- intros t L. unfold g. destruct (Rle_dec ta t); [|reflexivity]. destruct (Rlt_dec t tb); [lra|reflexivity].
      * match goal with |- context [clip ?x ?y ta] => generalize (clip x y ta) end.
        match goal with |- context [clip ?x ?y tb] => generalize (clip x y tb) end.
        intros. field. lra.
Qed.

Lemma signal_points_inc p obs :
  increasing (map (arrival obs) (trajectory p)) -> inc_pts (signal_points p obs).
Proof.
  intros H. unfold inc_pts, signal_points. rewrite map_map. exact H.
Qed.
