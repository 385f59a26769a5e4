(* C53, C69: consequences for the field seen in space; examples. *)
From Coq Require Import ZArith Reals List Bool Lia Lra.
From Flocq Require Import Core.Raux Core.Round_NE Core.Generic_fmt.
From Verif Require Import Base BaseFacts Num VecModel VecFacts ParticleModel BunchModel ElementModel DriverModel FelModel FelSpec FelProofs FelProofs2 FelProofs3.
Import ListNotations.
Local Open Scope R_scope.

Section R.
Context {TT : Trans R}.
Lemma undriven_same (a : Z -> R) n j : (0 <= j)%Z -> a 0%Z = 0 -> a 1%Z = 0 -> undriven a n j = a j.
Proof. intros Hj H0 H1. unfold undriven. rewrite H0, H1. destruct (Z.even j), (j / 2 <? n)%Z, (j / 2 + 1 <? n)%Z; lra. Qed.
Lemma undriven_shape (f0 f1 f : fel R) bm0 bms : fel_wf f0 -> fePrev f0 = feE f0 -> fel_init bm0 f0 = Ok f1 -> Forall (quiet f0) bms -> fel_steps bms f1 = Ok f ->
  bms <> [] -> (feE f = feE f0 <-> cell (feE f0) 0 = 0 /\ cell (feE f0) 1 = 0).
Proof.
  intros W HP H1 HF H Hb. pose proof H1 as H1'. apply init_inv in H1'; [|exact W]. destruct H1' as (HN & _).
  destruct (undriven_run f0 f1 f bm0 bms W HP H1 HF H) as (C & W' & N' & _).
  assert (L : (1 <= length bms)%nat) by (destruct bms; [contradiction|cbn; lia]). split.
  - intros E. rewrite E in C. rewrite (C 0%Z), (C 1%Z) by lia. rewrite undriven_head, undriven_one by lia. auto.
  - intros [E0 E1]. apply cells_eq.
    + destruct W as (_ & L1 & _), W' as (_ & L2 & _). lia.
    + intros j Hj. rewrite C by (destruct W' as (_ & L2 & _); lia). apply undriven_same; [lia|assumption|assumption].
Qed.
Lemma undriven_moves (f0 f1 f : fel R) bm0 bms X : fel_wf f0 -> fePrev f0 = feE f0 -> fel_init bm0 f0 = Ok f1 -> Forall (quiet f0) bms -> fel_steps bms f1 = Ok f ->
  cell (feE f0) 0 = 0 -> cell (feE f0) 1 = 0 ->
  fel_field_at f (vadd X (vmul (feProp f0) ((INR (length bms) + 1) * feDs f0))) = fel_field_at f0 X.
Proof.
  intros W HP H1 HF H E0 E1. destruct (undriven_run f0 f1 f bm0 bms W HP H1 HF H) as (C & W' & N' & P' & D' & X' & Y' & H').
  assert (EE : feE f = feE f0).
  { apply cells_eq.
    + destruct W as (_ & L1 & _), W' as (_ & L2 & _). lia.
    + intros j Hj. rewrite C by (destruct W' as (_ & L2 & _); lia). apply undriven_same; [lia|assumption|assumption]. }
  unfold fel_field_at. rewrite P', D', X', Y', N', EE, H'.
  replace (vsub (vadd (feHead f0) (vmul (feProp f0) ((INR (length bms) + 1) * feDs f0))) (vadd X (vmul (feProp f0) ((INR (length bms) + 1) * feDs f0))))
    with (vsub (feHead f0) X) by (apply vec_eq; cbn; ring). reflexivity.
Qed.

(* a time step of the field with a matching beam exists *)
Lemma init_exists (f : fel R) bm : fel_wf f -> (2 <= feN f)%Z -> (int_min <= feNst f < int_max)%Z -> bmdt bm = feDt f -> exists g, fel_init bm f = Ok g.
Proof.
  intros W HN HS Hd. destruct (init_ok f bm W HN HS) as (r & E & _); [|eauto]. rewrite Hd. unnum. replace (feDt f - feDt f) with 0 by ring.
  rewrite Rabs_R0. unfold Rdiv. rewrite Rmult_0_l. destruct (Rltb_spec (1 * / 1000000000) 0); [lra|reflexivity].
Qed.
(* an empty beam at the right time *)
Definition no_beam (k : Z) (dt : R) : beam R := BM [] k dt TRACKING_VAY.
Lemma step_exists (f : fel R) s k : fel_wf f -> (2 <= feN f)%Z -> (int_min <= feNst f < int_max)%Z -> feEvery f = Some s -> s <> 0%Z -> 0 < feDt f ->
  feTime f = IZR k * feDt f ->
  exists g, fel_step (no_beam k (feDt f)) f = Ok g /\ fel_wf g /\ feN g = feN f /\ feNst g = (feNst f + 1)%Z /\ feEvery g = Some s /\ feDt g = feDt f /\
    feTime g = IZR (k + 1) * feDt g /\ feEx g = feEx f.
Proof.
  intros W HN HS Hs Hs0 Hd Ht. unfold fel_step, no_beam. cbn [bmNOTS bmB concat fold_res].
  assert (L : beam_late f k = false).
  { unfold beam_late, quarter. rewrite Ht. unnum. destruct (Rltb_spec (1 / 4 * feDt f) (Rabs (IZR k * feDt f - IZR k * feDt f))) as [A|A]; [|reflexivity].
    exfalso. revert A. replace (IZR k * feDt f - IZR k * feDt f) with 0 by ring. rewrite Rabs_R0. lra. }
  rewrite L. destruct (zeros_ok (feN f) ltac:(lia)) as (z & -> & Lz & _). cbn [bind].
  destruct (advance_ok f z s W HN Lz HS Hs Hs0) as (r & e & -> & R1 & _ & E1 & _). eexists. split; [reflexivity|].
  split; [apply advanced_wf; assumption|]. unfold advanced. cbn [feN feNst feEvery feDt feTime feEx]. repeat split; auto.
  rewrite Ht, plus_IZR. unnum. ring.
Qed.
Lemma steps_exist s : s <> 0%Z -> forall n (f : fel R) k, fel_wf f -> (2 <= feN f)%Z -> (0 <= feNst f)%Z -> (feNst f + Z.of_nat n <= int_max)%Z -> feEvery f = Some s -> 0 < feDt f ->
  feTime f = IZR k * feDt f ->
  exists bms gs, length bms = n /\ Forall (quiet f) bms /\ fel_states bms f = Ok gs.
Proof.
  intros Hs0. induction n as [|n IH]; intros f k W HN HS HM Hs Hd Ht.
  - exists [], []. split; [reflexivity|]. split; [constructor|reflexivity].
  - destruct (step_exists f s k W HN ltac:(unfold int_min; lia) Hs Hs0 Hd Ht) as (g & G & G0 & G1 & G2 & G3 & G4 & G5 & G6).
    destruct (IH g (k + 1)%Z G0 ltac:(lia) ltac:(lia) ltac:(lia) G3 ltac:(rewrite G4; exact Hd) G5) as (bms & gs & L & Q & S).
    exists (no_beam k (feDt f) :: bms), (g :: gs). split; [cbn; lia|]. split.
    + constructor; [constructor|]. eapply Forall_impl; [|exact Q]. unfold quiet. intros b Hb. rewrite <- G6. exact Hb.
    + cbn [fel_states]. rewrite G. cbn [bind]. rewrite S. reflexivity.
Qed.
Lemma states_steps : forall bms (f : fel R) gs, fel_states bms f = Ok gs -> exists g, fel_steps bms f = Ok g.
Proof.
  unfold fel_steps. induction bms as [|b r IH]; intros f gs H; cbn [fel_states] in H; [eexists; reflexivity|].
  bget H as f' Hf. bget H as l Hl. destruct (IH f' l Hl) as [g Hg]. exists g. cbn [fold_res]. rewrite Hf. exact Hg.
Qed.

(* ---- C69 ---- *)
Lemma vnormalize_dot_0 (a b : vec R) : vdot a b = 0 -> vdot (vnormalize a) b = 0.
Proof. intros H. rewrite vnormalize_div, vdot_div_l, H. unfold Rdiv. ring. Qed.
Lemma pol_perp (u pol : vec R) : vabs2 u = 1 -> vdot (vsub pol (vmul u (vdot pol u))) u = 0.
Proof. intros H. rewrite vdot_sub_l, vdot_mul_l, <- vabs2_dot, H. ring. Qed.
Lemma field_wave (f : fel R) X e : vdot (feEx f) (feProp f) = 0 -> feEy f = vcross (feProp f) (feEx f) -> fel_field_at f X = Ok e ->
  vdot (fE e) (feProp f) = 0 /\ fB e = vdiv (vcross (feProp f) (fE e)) nc.
Proof.
  intros H1 H2 H. unfold fel_field_at in H. bget H as i Hi. destruct (_ || _)%bool; [discriminate H|]. bget H as v Hv. okinj H. cbn [fE fB].
  split; [rewrite vdot_mul_l, H1; ring|]. rewrite H2. generalize (@nc R _). intros cc.
  apply vec_eq; cbn; unfold Rdiv; ring.
Qed.
End R.
