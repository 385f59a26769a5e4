(* Integration of a trajectory into a field trace: exactly when it is defined. *)
From Coq Require Import ZArith Reals Lra Lia Psatz List Bool.
From Flocq Require Import Core.Raux.
From Coquelicot Require Import Coquelicot.
From Verif Require Import Base BaseFacts Num VecModel VecFacts ParticleModel ParticleSpec
  ParticleSpec2 ParticleProofs ParticleProofs2 VaySpec TraceModel RetardModel RetardSpec
  RetardProofs TraceIntSpec TraceIntSpec2 TraceIntProofs TraceIntProofs2.
Import ListNotations.
Local Open Scope R_scope.

Section Step.
Variables (t0 dt ts1 ts2 : R) (f1 f2 : emf R).
Hypothesis Hd : 0 < dt.
Hypothesis H12 : ts1 < ts2.
Lemma step_reach (tr : ftrace R) nots :
  nots = tr_N tr -> (0 < nots <= int_max)%Z -> (Zround_away ((ts2 - t0) / dt) <= int_max)%Z ->
  t0 - dt * / 2 < ts2 -> ts1 < t0 + dt * (IZR nots - / 2) ->
  exists tr', integrate_step t0 dt nots ts1 ts2 f1 f2 tr = Ok tr' /\ same_timing tr tr' /\
    forall c, linear c -> changed tr tr' c
      (fun j => share t0 dt ts1 ts2 (c f1) (c f2) j / dt).
Proof using Hd H12.
  intros Hn Hnn Hmax Hlo Hhi. destruct int_bounds as [Emin Emax].
  pose proof (round_bucket t0 dt ts1 Hd) as B1. pose proof (round_bucket t0 dt ts2 Hd) as B2.
  pose proof (round_bounds ((ts2 - t0) / dt)) as R2.
  cbv zeta in B1, B2. set (i1 := Zround_away ((ts1 - t0) / dt)) in *.
  set (i2 := Zround_away ((ts2 - t0) / dt)) in *.
  assert (Hi2 : (0 <= i2 <= int_max)%Z).
  { split.
    - destruct (Z_le_gt_dec 0 i2); [assumption|exfalso].
      pose proof (bucket_order t0 dt i2 0 Hd ltac:(lia)) as X. unfold bucket_lo at 1 in X. lra.
    - exact Hmax. }
  unfold integrate_step.
  replace (t0 - dt * nhalf)%num with (t0 - dt * / 2) by (unfold nhalf; unnum; lra).
  change ((ts2 - t0) / dt)%num with ((ts2 - t0) / dt). change ((ts1 - t0) / dt)%num with ((ts1 - t0) / dt).
  change (nround ((ts1 - t0) / dt)) with (Some i1). change (nround ((ts2 - t0) / dt)) with (Some i2).
  rewrite (to_int_ok i2) by lia.
  change (nleb ts1 (t0 - dt * / 2)) with (Rleb ts1 (t0 - dt * / 2)).
  destruct (Rleb_spec ts1 (t0 - dt * / 2)) as [Hle|Hgt]; cbn [bind].
  - assert (Hb0 : bucket_lo t0 dt 0 = t0 - dt * / 2) by (unfold bucket_lo; lra).
    destruct ((tail_ok t0 dt ts1 ts2 f1 f2 Hd H12) tr nots 0 i2 Hn) as (tr' & E & S & C); [lia|lra|exact B2|].
    rewrite Z.sub_0_r in E. exists tr'. split; [exact E|]. split; [exact S|].
    intros c Hc. eapply changed_ext; [|apply C; exact Hc]. intros j Hj. cbn beta.
    destruct (Z.leb_spec 0 j); [reflexivity|lia].
  - assert (Hi1 : (0 <= i1 < nots)%Z).
    { split.
      - destruct (Z_le_gt_dec 0 i1); [assumption|exfalso].
        pose proof (bucket_order t0 dt i1 0 Hd ltac:(lia)) as X. unfold bucket_lo at 1 in X. lra.
      - destruct (Z_lt_ge_dec i1 nots); [assumption|exfalso].
        pose proof (bucket_order t0 dt (nots - 1) i1 Hd ltac:(lia)) as X. unfold bucket_hi at 1 in X.
        rewrite minus_IZR in X. lra. }
    assert (Hi12 : (i1 <= i2)%Z).
    { destruct (Z_le_gt_dec i1 i2); [assumption|exfalso].
      pose proof (bucket_order t0 dt i2 i1 Hd ltac:(lia)) as X. lra. }
    rewrite (to_int_ok i1) by lia. cbn [bind].
    destruct (Z.eqb_spec i1 (if (nots <? i2)%Z then nots else i2)) as [E|Hne].
    + assert (E12 : i1 = i2) by (destruct (Z.ltb_spec nots i2); lia).
      match goal with |- exists tr', tr_acc tr i1 ?f = _ /\ _ => destruct (tr_acc_ok tr i1 f) as (tr1 & E1 & S1 & C1) end; [lia|].
      exists tr1. split; [exact E1|]. split; [exact S1|]. intros c Hc.
      eapply changed_ext; [|apply C1; exact Hc]. intros j Hj. cbn beta.
      destruct (Z.eqb_spec j i1) as [->|Hji].
      * pose proof Hc as (Ha & Hm & _). rewrite !Hm, Ha.
        rewrite <- (share_same t0 dt ts1 ts2 f1 f2 Hd H12); [|exact Hc|lra|rewrite E12; lra].
        unfold nhalf; unnum. lra.
      * symmetry. destruct (Z_lt_ge_dec j i1).
        -- apply (share_zero_hi t0 dt ts1 ts2 f1 f2 Hd H12). pose proof (bucket_order t0 dt j i1 Hd ltac:(lia)). lra.
        -- apply (share_zero_lo t0 dt ts1 ts2 f1 f2 Hd H12). pose proof (bucket_order t0 dt i2 j Hd ltac:(lia)). lra.
    + assert (Hlt : (i1 < Z.min i2 nots)%Z) by (destruct (Z.ltb_spec nots i2); lia).
      replace (t0 + (nZ i1 + nhalf) * dt)%num with (bucket_hi t0 dt i1)
        by (unfold nhalf, bucket_hi; unnum; lra).
      match goal with |- exists tr', bind (tr_acc tr i1 ?f) _ = _ /\ _ => destruct (tr_acc_ok tr i1 f) as (tr1 & E1 & S1 & C1) end; [lia|].
      rewrite E1. cbn [bind].
      assert (HN : nots = tr_N tr1) by (unfold tr_N in *; destruct S1 as (_ & _ & ->); exact Hn).
      pose proof (bucket_order t0 dt i1 (i1 + 1) Hd ltac:(lia)) as O1.
      pose proof (bucket_order t0 dt i1 i2 Hd ltac:(lia)) as O2.
      destruct ((tail_ok t0 dt ts1 ts2 f1 f2 Hd H12) tr1 nots (i1 + 1) i2 HN) as (tr2 & E2 & S2 & C2); [lia|lra|exact B2|].
      exists tr2. split; [exact E2|]. split; [eapply same_timing_trans; eauto|].
      intros c Hc. eapply changed_ext; [|eapply changed_trans; [apply C1; exact Hc|apply C2; exact Hc]].
      intros j Hj. cbn beta.
      destruct (Z.leb_spec (i1 + 1) j); destruct (Z.eqb_spec j i1) as [->|Hji]; try lia.
      * ring.
      * pose proof Hc as (Ha & Hm & _). rewrite !Hm, Ha. rewrite Rplus_0_r.
        rewrite <- (share_begin t0 dt ts1 ts2 f1 f2 Hd H12); [|exact Hc|lra|lra]. unfold nhalf; unnum. lra.
      * rewrite Rplus_0_l. symmetry. apply (share_zero_hi t0 dt ts1 ts2 f1 f2 Hd H12).
        pose proof (bucket_order t0 dt j i1 Hd ltac:(lia)). lra.
Qed.
End Step.
Lemma round_int x : (0 <= x) -> ((Zround_away x <= int_max)%Z <-> x < 2147483647 + / 2).
Proof.
  intros Hx. unfold Zround_away. destruct (Rle_dec 0 x); [|lra]. destruct int_bounds as [_ ->].
  pose proof (Zfloor_lb (x + / 2)) as L. pose proof (Zfloor_ub (x + / 2)) as U. split.
  - intros H. apply IZR_le in H. lra.
  - intros H. assert (IZR (Zfloor (x + / 2)) < IZR 2147483648) by lra. apply lt_IZR in H0. lia.
Qed.
Lemma step_far t0 dt ts1 ts2 f1 f2 (tr : ftrace R) nots : (int_max < Zround_away ((ts2 - t0) / dt))%Z -> integrate_step t0 dt nots ts1 ts2 f1 f2 tr = UB.
Proof.
  intros H. unfold integrate_step.
  assert (X : to_int (nround (ndiv (nsub ts2 t0) dt)) = UB).
  { change (nround (ndiv (nsub ts2 t0) dt)) with (Some (Zround_away ((ts2 - t0) / dt))).
    unfold to_int, in_int. destruct (Z.leb_spec (Zround_away ((ts2 - t0) / dt)) int_max) as [L|L]; [lia|]. rewrite andb_false_r. reflexivity. }
  rewrite X. cbv zeta. destruct (nleb ts1 _); [reflexivity|].
  destruct (to_int (nround (ndiv (nsub ts1 t0) dt))) eqn:E; cbn [bind]; try reflexivity.
  all: unfold to_int in E; destruct (nround (ndiv (nsub ts1 t0) dt)) as [z|]; try discriminate; destruct (in_int z); discriminate.
Qed.

Section One.
Context (p : particle R) (obs : vec R) (tr0 : ftrace R).
Let t0 := tr_t0 tr0.
Let dt := tr_dt tr0.
Let nots := tr_N tr0.
Hypothesis Hw : wf p.
Hypothesis Hd : 0 < dt.
Hypothesis Hn : (2 <= nots <= int_max)%Z.
Hypothesis Hinc : increasing (map (arrival obs) (trajectory p)).

Lemma late_dec i : late_step p obs tr0 i \/ ~ late_step p obs tr0 i.
Proof using.
  unfold late_step. destruct (nth_error (trajectory p) i) as [a|]; [|right; intros (a & b & H & _); discriminate].
  destruct (nth_error (trajectory p) (S i)) as [b|]; [|right; intros (a' & b & _ & H & _); discriminate].
  destruct (Rlt_dec (tr_t0 tr0 - / 2 * tr_dt tr0) (arrival obs b)); [|right; intros (a' & b' & E1 & E2 & K & _); injection E2 as <-; lra].
  destruct (Rlt_dec (arrival obs a) (tr_t0 tr0 + (IZR (tr_N tr0) - / 2) * tr_dt tr0)); [|right; intros (a' & b' & E1 & E2 & _ & K & _); injection E1 as <-; lra].
  destruct (Rle_dec (2147483647 + / 2) ((arrival obs b - tr_t0 tr0) / tr_dt tr0)); [|right; intros (a' & b' & E1 & E2 & _ & _ & K); injection E2 as <-; lra].
  left. exists a, b. auto.
Qed.
Lemma steps_inc i a b : nth_error (trajectory p) i = Some a -> nth_error (trajectory p) (S i) = Some b -> arrival obs a < arrival obs b.
Proof using Hw Hd Hn Hinc. intros Ha Hb. apply (Hinc i (S i)); [lia| |]; rewrite nth_error_map; [rewrite Ha|rewrite Hb]; reflexivity. Qed.

Lemma one_reach (tr : ftrace R) i a b : nots = tr_N tr ->
  nth_error (trajectory p) i = Some a -> nth_error (trajectory p) (S i) = Some b ->
  (~ late_step p obs tr0 i -> exists tr', integrate_one p obs t0 dt nots tr (Z.of_nat i) = Ok tr' /\ same_timing tr tr' /\
    forall c, linear c -> changed tr tr' c
      (fun j => share t0 dt (arrival obs a) (arrival obs b)
                  (c (point_field (pCharge p) a obs)) (c (point_field (pCharge p) b obs)) j / dt)) /\
  (late_step p obs tr0 i -> integrate_one p obs t0 dt nots tr (Z.of_nat i) = UB).
Proof using Hw Hd Hn Hinc.
  intros HN Ha Hb. pose proof (steps_inc i a b Ha Hb) as Hlt. unfold integrate_one.
  destruct (RetardedField_index_point p i a obs Hw Ha) as [Fa Ta].
  destruct (RetardedField_index_point p (S i) b obs Hw Hb) as [Fb Tb].
  replace (Z.of_nat i + 1)%Z with (Z.of_nat (S i)) by lia.
  rewrite Ta, Tb. cbn [bind].
  replace (t0 - dt * nhalf)%num with (t0 - dt * / 2) by (unfold nhalf; unnum; lra).
  replace (t0 + dt * (nZ nots - nhalf))%num with (t0 + dt * (IZR nots - / 2)) by (unfold nhalf; unnum; lra).
  change (nltb (t0 - dt * / 2) (arrival obs b)) with (Rltb (t0 - dt * / 2) (arrival obs b)).
  change (nltb (arrival obs a) (t0 + dt * (IZR nots - / 2))) with (Rltb (arrival obs a) (t0 + dt * (IZR nots - / 2))).
  assert (LS : late_step p obs tr0 i <-> t0 - / 2 * dt < arrival obs b /\ arrival obs a < t0 + (IZR nots - / 2) * dt /\ 2147483647 + / 2 <= (arrival obs b - t0) / dt).
  { unfold late_step. fold t0 dt nots. split.
    - intros (a' & b' & E1 & E2 & K). rewrite Ha in E1. rewrite Hb in E2. injection E1 as <-. injection E2 as <-. exact K.
    - intros K. exists a, b. auto. }
  assert (RD : t0 - dt * / 2 < arrival obs b -> ((Zround_away ((arrival obs b - t0) / dt) <= int_max)%Z <-> ~ 2147483647 + / 2 <= (arrival obs b - t0) / dt)).
  { intros L. destruct (Rle_dec 0 ((arrival obs b - t0) / dt)) as [P|P].
    - rewrite (round_int _ P). split; lra.
    - split; [lra|]. intros _. unfold Zround_away. destruct (Rle_dec 0 _); [lra|]. pose proof (Zceil_glb 0 ((arrival obs b - t0) / dt - / 2)) as Q.
      destruct int_bounds as [_ ->]. apply Z.le_trans with 0%Z; [apply Q; lra|lia]. }
  destruct (Rltb_spec (t0 - dt * / 2) (arrival obs b)) as [L1|L1].
  - specialize (RD L1). destruct (Rltb_spec (arrival obs a) (t0 + dt * (IZR nots - / 2))) as [L2|L2]; cbn [andb].
    + rewrite Fa, Fb. cbn [bind]. split; intros K.
      * apply step_reach; auto; [lia|]. apply RD. intros Q. apply K. apply LS. split; [lra|]. split; [lra|exact Q].
      * apply step_far. apply LS in K. destruct (Z_le_gt_dec (Zround_away ((arrival obs b - t0) / dt)) int_max) as [G|G]; [apply RD in G; tauto|lia].
    + split; [|intros K; apply LS in K; lra]. intros _. exists tr. split; [reflexivity|]. split; [apply same_timing_refl|]. intros c Hc.
      eapply changed_ext; [|apply changed_refl]. intros j Hj. cbn beta. symmetry.
      apply share_zero_hi; auto.
      assert (IZR j <= IZR nots - 1) by (rewrite <- minus_IZR; apply IZR_le; lia).
      unfold bucket_hi. nra.
  - cbn [andb]. split; [|intros K; apply LS in K; lra]. intros _. exists tr. split; [reflexivity|]. split; [apply same_timing_refl|]. intros c Hc.
    eapply changed_ext; [|apply changed_refl]. intros j Hj. cbn beta. symmetry.
    apply share_zero_lo; auto.
    assert (0 <= IZR j) by (apply IZR_le; lia). unfold bucket_lo. nra.
Qed.

Lemma run_reach m : forall s (tr : ftrace R), nots = tr_N tr -> (s + m + 1 = length (trajectory p))%nat ->
  ((forall i, (s <= i)%nat -> ~ late_step p obs tr0 i) ->
   exists tr', fold_res (integrate_one p obs t0 dt nots) (zseq (Z.of_nat s) m) tr = Ok tr' /\
    same_timing tr tr' /\
    forall c, linear c -> changed tr tr' c
      (fun j => shares t0 dt c (skipn s (signal_points p obs)) j / dt)) /\
  ((exists i, (s <= i)%nat /\ late_step p obs tr0 i) -> fold_res (integrate_one p obs t0 dt nots) (zseq (Z.of_nat s) m) tr = UB).
Proof using Hw Hd Hn Hinc.
  induction m as [|m IH]; intros s tr HN Hs.
  - split.
    + intros _. exists tr. split; [reflexivity|]. split; [apply same_timing_refl|]. intros c Hc.
      eapply changed_ext; [|apply changed_refl]. intros j Hj. cbn beta.
      destruct (nth_error (signal_points p obs) s) as [x|] eqn:Ex.
      * rewrite (skipn_nth _ _ _ Ex). rewrite skipn_all2.
        -- destruct x. cbn. unfold Rdiv. ring.
        -- unfold signal_points. rewrite map_length. lia.
      * rewrite skipn_all2; [cbn; unfold Rdiv; ring|]. apply nth_error_None. exact Ex.
    + intros (i & Hi & a & b & _ & Hb & _). exfalso. assert (S i < length (trajectory p))%nat by (apply nth_error_Some; congruence). lia.
  - destruct (nth_trajectory_inv p s Hw) as [a Ha]; [lia|].
    destruct (nth_trajectory_inv p (S s) Hw) as [b Hb]; [lia|].
    destruct (one_reach tr s a b HN Ha Hb) as [OK BAD]. cbn [zseq fold_res].
    replace (Z.of_nat s + 1)%Z with (Z.of_nat (S s)) by lia.
    destruct (late_dec s) as [LT|LT].
    + split; [intros K; exfalso; apply (K s); [lia|exact LT]|]. intros _. rewrite (BAD LT). reflexivity.
    + destruct (OK LT) as (tr1 & E1 & S1 & C1). rewrite E1. cbn [bind].
      assert (HN1 : nots = tr_N tr1) by (unfold tr_N in *; destruct S1 as (_ & _ & ->); exact HN).
      destruct (IH (S s) tr1 HN1 ltac:(lia)) as [OK2 BAD2]. split.
      * intros K. destruct OK2 as (tr2 & E2 & S2 & C2); [intros i Hi; apply K; lia|].
        exists tr2. split; [exact E2|]. split; [eapply same_timing_trans; eauto|].
        intros c Hc. eapply changed_ext; [|eapply changed_trans; [apply C1; exact Hc|apply C2; exact Hc]].
        intros j Hj. cbn beta.
        assert (Sa : nth_error (signal_points p obs) s = Some (arrival obs a, point_field (pCharge p) a obs))
          by (unfold signal_points; rewrite nth_error_map, Ha; reflexivity).
        assert (Sb : nth_error (signal_points p obs) (S s) = Some (arrival obs b, point_field (pCharge p) b obs))
          by (unfold signal_points; rewrite nth_error_map, Hb; reflexivity).
        rewrite (skipn_nth _ _ _ Sa), (skipn_nth _ _ _ Sb). cbn [shares]. unfold Rdiv. ring.
      * intros (i & Hi & Li). apply BAD2. exists i. split; [|exact Li]. destruct (Nat.eq_dec i s) as [->|]; [contradiction|lia].
Qed.
End One.

Lemma trace_reach (p : particle R) obs (tr : ftrace R) :
  wf p -> 0 < tr_dt tr -> (2 <= tr_N tr <= int_max)%Z -> increasing (map (arrival obs) (trajectory p)) ->
  ((forall i, ~ late_step p obs tr i) ->
   exists tr', integrateFieldTrace p obs tr = Ok tr' /\ same_timing tr tr' /\
    forall c, linear c -> changed tr tr' c (fun j => shares (tr_t0 tr) (tr_dt tr) c (signal_points p obs) j / tr_dt tr)) /\
  ((exists i, late_step p obs tr i) -> integrateFieldTrace p obs tr = UB).
Proof.
  intros Hw Hd Hn Hinc. unfold integrateFieldTrace. rewrite i32_small by lia.
  pose proof (trajectory_length p Hw) as HL.
  destruct (Z.ltb_spec (tr_N tr) 2); [lia|].
  destruct (Z.ltb_spec (pNP p) 2).
  - split.
    + intros _. exists tr. split; [reflexivity|]. split; [apply same_timing_refl|]. intros c Hc.
      eapply changed_ext; [|apply changed_refl]. intros j Hj. cbn beta.
      unfold signal_points. destruct (trajectory p) as [|x [|y l]]; cbn [map shares length] in *;
        [unfold Rdiv; ring|unfold Rdiv; ring|lia].
    + intros (i & a & b & _ & Hb & _). exfalso. assert (S i < length (trajectory p))%nat by (apply nth_error_Some; congruence). lia.
  - destruct (run_reach p obs tr Hw Hd Hn Hinc (Z.to_nat (pNP p - 1)) 0 tr eq_refl ltac:(lia)) as [OK BAD]. split.
    + intros K. apply OK. intros i _. apply K.
    + intros (i & Li). apply BAD. exists i. split; [lia|exact Li].
Qed.
Lemma late_any (p : particle R) obs (tr : ftrace R) : (exists i, late_step p obs tr i) \/ (forall i, ~ late_step p obs tr i).
Proof.
  assert (G : forall n, (exists i, late_step p obs tr i) \/ (forall i, (i < n)%nat -> ~ late_step p obs tr i)).
  { induction n as [|n [IH|IH]]; [right; intros; lia|left; exact IH|]. destruct (late_dec p obs tr n) as [L|L]; [left; eauto|].
    right. intros i Hi. destruct (Nat.eq_dec i n) as [->|]; [exact L|apply IH; lia]. }
  destruct (G (length (trajectory p))) as [H|H]; [left; exact H|]. right. intros i L. pose proof L as (a & b & Ha & _).
  apply (H i); [|exact L]. apply nth_error_Some. congruence.
Qed.
