(* The program integrate_field in exact arithmetic. *)
From Coq Require Import ZArith Reals Lra Lia Psatz List Bool.
From Coquelicot Require Import Coquelicot.
From Verif Require Import Base BaseFacts Num VecModel VecFacts ParticleModel ParticleSpec TraceModel RetardModel RetardSpec TraceIntSpec
  TraceIntProofs TraceIntProofs2 TestModel TestProofs5.
Import ListNotations.
Local Open Scope R_scope.

Definition exc (f : emf R) : R := vx (fE f).
Lemma exc_linear : linear exc.
Proof. apply components_linear. left. reflexivity. Qed.
Lemma special_one (s : special (T:=R)) (tr : ftrace R) :
  0 < tr_dt tr -> (2 <= tr_N tr <= int_max)%Z -> sp1 s < sp2 s -> (sp2 s - tr_t0 tr) / tr_dt tr < 2147483647 ->
  exists tr', special_integrate tr s = Ok tr' /\ same_timing tr tr' /\
    changed tr tr' exc (fun j => share (tr_t0 tr) (tr_dt tr) (sp1 s) (sp2 s) (spf1 s) (spf2 s) j / tr_dt tr).
Proof.
  intros Hd Hn H12 Hmax. unfold special_integrate. rewrite i32_small by lia. destruct (Z.ltb_spec (tr_N tr) 2); [lia|].
  set (t0 := tr_t0 tr) in *. set (dt := tr_dt tr) in *.
  replace (t0 - dt * nhalf)%num with (t0 - dt * / 2) by (unfold nhalf; unnum; lra).
  replace (t0 + dt * (nZ (tr_N tr) - nhalf))%num with (t0 + dt * (IZR (tr_N tr) - / 2)) by (unfold nhalf; unnum; lra).
  change (nltb (t0 - dt * / 2) (sp2 s)) with (Rltb (t0 - dt * / 2) (sp2 s)).
  change (nltb (sp1 s) (t0 + dt * (IZR (tr_N tr) - / 2))) with (Rltb (sp1 s) (t0 + dt * (IZR (tr_N tr) - / 2))).
  destruct (Rltb_spec (t0 - dt * / 2) (sp2 s)) as [L1|L1].
  - destruct (Rltb_spec (sp1 s) (t0 + dt * (IZR (tr_N tr) - / 2))) as [L2|L2]; cbn [andb].
    + destruct (integrate_step_ok t0 dt (sp1 s) (sp2 s) (Ex (spf1 s)) (Ex (spf2 s)) Hd H12 tr (tr_N tr) eq_refl ltac:(lia) Hmax L1 L2) as (tr' & E & S & C).
      exists tr'. split; [exact E|]. split; [exact S|]. exact (C exc exc_linear).
    + exists tr. split; [reflexivity|]. split; [apply same_timing_refl|].
      intros k f Hk. exists f. split; [exact Hk|]. replace (share _ _ _ _ _ _ _ / dt) with 0; [ring|]. symmetry.
      assert (K : (k < length (tr_f tr))%nat) by (apply nth_error_Some; congruence).
      apply (share_zero_hi t0 dt (sp1 s) (sp2 s) (Ex (spf1 s)) (Ex (spf2 s)) Hd H12 exc).
      assert (IZR (Z.of_nat k) <= IZR (tr_N tr) - 1) by (rewrite <- minus_IZR; apply IZR_le; unfold tr_N; lia).
      unfold bucket_hi. nra.
  - cbn [andb]. exists tr. split; [reflexivity|]. split; [apply same_timing_refl|].
    intros k f Hk. exists f. split; [exact Hk|]. replace (share _ _ _ _ _ _ _ / dt) with 0; [ring|]. symmetry.
    apply (share_zero_lo t0 dt (sp1 s) (sp2 s) (Ex (spf1 s)) (Ex (spf2 s)) Hd H12 exc).
    assert (0 <= IZR (Z.of_nat k)) by (apply IZR_le; lia). unfold bucket_lo. nra.
Qed.
Definition sumsh (b : list (special (T:=R))) (t0 dt : R) (k : Z) : R :=
  fold_right (fun s a => share t0 dt (sp1 s) (sp2 s) (spf1 s) (spf2 s) k / dt + a) 0 b.
Lemma special_run : forall (b : list (special (T:=R))) (tr : ftrace R),
  0 < tr_dt tr -> (2 <= tr_N tr <= int_max)%Z -> List.Forall (fun s => sp1 s < sp2 s /\ (sp2 s - tr_t0 tr) / tr_dt tr < 2147483647) b ->
  exists tr', fold_res special_integrate b tr = Ok tr' /\ same_timing tr tr' /\ changed tr tr' exc (sumsh b (tr_t0 tr) (tr_dt tr)).
Proof.
  induction b as [|s b IH]; intros tr Hd Hn F.
  - exists tr. split; [reflexivity|]. split; [apply same_timing_refl|]. apply changed_refl.
  - inversion F as [|? ? (H12 & Hm) F']; subst. destruct (special_one s tr Hd Hn H12 Hm) as (tr1 & E1 & S1 & C1).
    pose proof S1 as (T1 & D1 & L1). assert (N1 : tr_N tr1 = tr_N tr) by (unfold tr_N; congruence).
    destruct (IH tr1) as (tr2 & E2 & S2 & C2); [rewrite D1; exact Hd|rewrite N1; exact Hn|rewrite T1, D1; exact F'|].
    rewrite T1, D1 in C2. exists tr2. cbn [fold_res]. rewrite E1. cbn [bind]. split; [exact E2|]. split; [eapply same_timing_trans; eauto|].
    cbn [sumsh fold_right]. exact (changed_trans _ _ _ _ _ _ C1 C2).
Qed.
(* the field of one particle: linear between its two points, zero elsewhere *)
Definition ramp (s : special (T:=R)) (t : R) : R :=
  if Rle_dec (sp1 s) t then if Rlt_dec t (sp2 s) then spf1 s + (spf2 s - spf1 s) * ((t - sp1 s) / (sp2 s - sp1 s)) else 0 else 0.
Lemma ramp_share (s : special (T:=R)) t0 dt k : 0 < dt -> sp1 s < sp2 s ->
  is_RInt (ramp s) (t0 + (IZR k - / 2) * dt) (t0 + (IZR k + / 2) * dt) (share t0 dt (sp1 s) (sp2 s) (spf1 s) (spf2 s) k).
Proof.
  intros Hd H12.
  assert (I : inc_pts [(sp1 s, Ex (spf1 s)); (sp2 s, Ex (spf2 s))]).
  { intros [|[|i]] [|[|j]] a b Hij Ha Hb; cbn in Ha, Hb; try lia; try discriminate; try (destruct i; discriminate); try (destruct j; discriminate).
    injection Ha as <-. injection Hb as <-. exact H12. }
  pose proof (signal_integral t0 dt exc _ k exc_linear Hd I) as Q. cbn [shares] in Q. rewrite Rplus_0_r in Q.
  unfold bucket_lo, bucket_hi in Q. eapply is_RInt_ext; [|exact Q]. intros t _. cbv beta. cbn [signal]. unfold ramp.
  destruct (Rle_dec _ _); [|reflexivity]. destruct (Rlt_dec _ _); [|reflexivity].
  unfold interp_field, exc, Ex. vunfold; unnum. cbn. ring.
Qed.
Lemma sum_ramps (b : list (special (T:=R))) t0 dt k : 0 < dt -> List.Forall (fun s => sp1 s < sp2 s) b ->
  is_RInt (fun t => fold_right (fun s a => ramp s t + a) 0 b) (t0 + (IZR k - / 2) * dt) (t0 + (IZR k + / 2) * dt) (dt * sumsh b t0 dt k).
Proof.
  intros Hd F. induction F as [|s b H F IH].
  - cbn [fold_right sumsh]. replace (dt * 0) with (scal (t0 + (IZR k + / 2) * dt - (t0 + (IZR k - / 2) * dt)) 0) by (unfold scal; cbn; unfold mult; cbn; ring). apply @is_RInt_const.
  - cbn [fold_right sumsh]. fold (sumsh b t0 dt k). replace (dt * _) with (plus (share t0 dt (sp1 s) (sp2 s) (spf1 s) (spf2 s) k) (dt * sumsh b t0 dt k)).
    + apply @is_RInt_plus; [apply ramp_share; assumption|exact IH].
    + unfold plus; cbn. field. lra.
Qed.
Lemma special_trace (b : list (special (T:=R))) t0 dt n :
  0 < dt -> (2 <= Z.of_nat n <= int_max)%Z -> List.Forall (fun s => sp1 s < sp2 s /\ (sp2 s - t0) / dt < 2147483647) b ->
  exists tr, fold_res special_integrate b (tr_new t0 dt n) = Ok tr /\ length (tr_f tr) = n /\
    forall k, (k < n)%nat -> exists f, nth_error (tr_f tr) k = Some f /\ vx (fE f) = sumsh b t0 dt (Z.of_nat k).
Proof.
  intros Hd Hn F. assert (L : length (tr_f (tr_new (T:=R) t0 dt n)) = n) by (cbn; apply repeat_length).
  destruct (special_run b (tr_new t0 dt n)) as (tr & E & (_ & _ & S) & C); [exact Hd|unfold tr_N; rewrite L; exact Hn|exact F|].
  exists tr. split; [exact E|]. split; [congruence|]. intros k Hk.
  destruct (C k ezero) as (f & Nf & Ef); [cbn; apply nth_error_repeat; exact Hk|]. exists f. split; [exact Nf|]. unfold exc in Ef. rewrite Ef. cbn. ring.
Qed.
Lemma test_passes (b : list (special (T:=R))) t0 dt expected :
  0 < dt -> (2 <= Z.of_nat (length expected) <= int_max)%Z -> List.Forall (fun s => sp1 s < sp2 s /\ (sp2 s - t0) / dt < 2147483647) b ->
  (forall k x, nth_error expected k = Some x -> Rabs (sumsh b t0 dt (Z.of_nat k) - x) <= 1 / 1000000) ->
  trace_test b t0 dt expected = Ok 0%Z.
Proof.
  intros Hd Hn F H. destruct (special_trace b t0 dt (length expected) Hd Hn F) as (tr & E & L & V).
  destruct (trace_checks b t0 dt expected tr E L) as (n & -> & _ & I). f_equal. apply I. clear I E.
  assert (G : forall l m k, length l = length m -> (forall j x, nth_error m j = Some x -> Rabs (sumsh b t0 dt (Z.of_nat (k + j)) - x) <= 1 / 1000000) ->
    (forall j, (j < length m)%nat -> exists f, nth_error l j = Some f /\ vx (fE f) = sumsh b t0 dt (Z.of_nat (k + j))) -> Forall2 (fun f x => Rabs (vx (fE f) - x) <= 1 / 1000000) l m).
  { induction l as [|f l IH]; intros [|x m] k Lm Hm Vm; try discriminate; constructor.
    - destruct (Vm 0%nat) as (g & Ng & Eg); [cbn; lia|]. injection Ng as <-. rewrite Eg. apply Hm. reflexivity.
    - apply (IH m (S k)); [injection Lm as Lm; exact Lm| |].
      + intros j y Hj. replace (S k + j)%nat with (k + S j)%nat by lia. apply Hm. exact Hj.
      + intros j Hj. replace (S k + j)%nat with (k + S j)%nat by lia. apply (Vm (S j)). cbn; lia. }
  apply (G _ _ 0%nat L H V).
Qed.

Ltac cuts := repeat match goal with
  | |- context[Rmin ?a ?b] => first [rewrite (Rmin_left a b) by lra | rewrite (Rmin_right a b) by lra]
  | |- context[Rmax ?a ?b] => first [rewrite (Rmax_left a b) by lra | rewrite (Rmax_right a b) by lra] end.
Ltac sample := unfold sumsh, fold_right, sp1, sp2, spf1, spf2, share, clip, bucket_lo, bucket_hi; cbv zeta; cuts; apply Rabs_le; lra.
Ltac samples := intros k x Hk;
  repeat (destruct k as [|k]; [injection Hk as <-; cbn [Z.of_nat Pos.of_succ_nat Pos.succ]; sample|cbn [nth_error] in Hk]); destruct k; discriminate Hk.
Lemma run_exact : @integrate_field_main R NumR = Ok 0%Z.
Proof.
  unfold integrate_field_main, lit. cbv zeta. change (10 ^ 1)%Z with 10%Z. change (10 ^ 2)%Z with 100%Z. change (10 ^ 3)%Z with 1000%Z. change (10 ^ 4)%Z with 10000%Z. change (10 ^ 6)%Z with 1000000%Z. unnum.
  rewrite !test_passes; [reflexivity|..]; try lra; try (cbn [length]; unfold int_max; lia);
    try (repeat (apply List.Forall_cons; [cbn [sp1 sp2]; lra|]); apply List.Forall_nil); samples.
Qed.
