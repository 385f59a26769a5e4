(* Integration of a trajectory into a field trace with a negative time step. *)
From Coq Require Import ZArith Reals Lra Lia Psatz List Bool.
From Flocq Require Import Core.Raux.
From Verif Require Import Base BaseFacts Num VecModel VecFacts ParticleModel ParticleSpec
  ParticleSpec2 ParticleProofs ParticleProofs2 VaySpec TraceModel RetardModel RetardSpec
  RetardProofs TraceIntSpec TraceIntSpec3 TraceIntProofs TraceIntProofs2.
Import ListNotations.
Local Open Scope R_scope.

(* negative indices are refused *)
Lemma step_back t0 dt ts1 ts2 f1 f2 (tr : ftrace R) nots : dt < 0 -> (2 <= nots)%Z ->
  t0 - / 2 * dt < ts2 -> ts1 < t0 + (IZR nots - / 2) * dt -> -2147483648 - / 2 < (ts2 - t0) / dt ->
  integrate_step t0 dt nots ts1 ts2 f1 f2 tr = Throw IOexc.
Proof.
  intros Hd Hn L1 L2 Hr. apply IZR_le in Hn. destruct int_bounds as [Emin Emax].
  assert (X : (ts2 - t0) / dt < - / 2).
  { assert (Q : (ts2 - t0) / dt * dt = ts2 - t0) by (field; lra). nra. }
  unfold integrate_step. cbv zeta.
  replace (t0 - dt * nhalf)%num with (t0 - / 2 * dt) by (unfold nhalf; unnum; lra).
  change (nleb ts1 (t0 - / 2 * dt)) with (Rleb ts1 (t0 - / 2 * dt)).
  destruct (Rleb_spec ts1 (t0 - / 2 * dt)) as [_|K]; [|exfalso; nra].
  change (nround (ndiv (nsub ts2 t0) dt)) with (Some (Zround_away ((ts2 - t0) / dt))).
  assert (B : (int_min <= Zround_away ((ts2 - t0) / dt) <= -1)%Z).
  { unfold Zround_away. destruct (Rle_dec 0 _); [lra|]. pose proof (Zceil_ub ((ts2 - t0) / dt - / 2)) as U. split.
    - rewrite Emin. assert (Q : IZR (-2147483649) < IZR (Zceil ((ts2 - t0) / dt - / 2))) by lra. apply lt_IZR in Q. lia.
    - apply Zceil_glb. lra. }
  revert B. generalize (Zround_away ((ts2 - t0) / dt)). intros z B. rewrite (to_int_ok z) by lia. cbn [bind].
  assert (Hn' : (2 <= nots)%Z) by (apply le_IZR; exact Hn).
  destruct (Z.ltb_spec nots z); [lia|]. replace (Z.to_nat z) with 0%nat by lia. unfold add_full. cbn [zseq fold_res bind].
  unfold add_last. destruct (Z.ltb_spec z nots); [|lia]. unfold tr_acc.
  replace (tr_in tr z) with false; [reflexivity|]. symmetry. unfold tr_in. destruct (Z.leb_spec 0 z); [lia|reflexivity].
Qed.

Section One.
Context (p : particle R) (obs : vec R) (tr : ftrace R).
Let t0 := tr_t0 tr.
Let dt := tr_dt tr.
Let nots := tr_N tr.
Hypothesis Hw : wf p.
Hypothesis Hd : dt < 0.
Hypothesis Hn : (2 <= nots <= int_max)%Z.
Lemma one_back i a b : nth_error (trajectory p) i = Some a -> nth_error (trajectory p) (S i) = Some b ->
  (~ covering_step p obs tr i -> integrate_one p obs t0 dt nots tr (Z.of_nat i) = Ok tr) /\
  (covering_step p obs tr i -> -2147483648 - / 2 < (arrival obs b - t0) / dt -> integrate_one p obs t0 dt nots tr (Z.of_nat i) = Throw IOexc).
Proof using Hw Hd Hn.
  intros Ha Hb. unfold integrate_one.
  destruct (RetardedField_index_point p i a obs Hw Ha) as [Fa Ta].
  destruct (RetardedField_index_point p (S i) b obs Hw Hb) as [Fb Tb].
  replace (Z.of_nat i + 1)%Z with (Z.of_nat (S i)) by lia.
  rewrite Ta, Tb. cbn [bind].
  replace (t0 - dt * nhalf)%num with (t0 - / 2 * dt) by (unfold nhalf; unnum; lra).
  replace (t0 + dt * (nZ nots - nhalf))%num with (t0 + (IZR nots - / 2) * dt) by (unfold nhalf; unnum; lra).
  change (nltb (t0 - / 2 * dt) (arrival obs b)) with (Rltb (t0 - / 2 * dt) (arrival obs b)).
  change (nltb (arrival obs a) (t0 + (IZR nots - / 2) * dt)) with (Rltb (arrival obs a) (t0 + (IZR nots - / 2) * dt)).
  assert (LS : covering_step p obs tr i <-> arrival obs a < t0 + (IZR nots - / 2) * dt /\ t0 - / 2 * dt < arrival obs b).
  { unfold covering_step. fold t0 dt nots. split.
    - intros (a' & b' & E1 & E2 & K). rewrite Ha in E1. rewrite Hb in E2. injection E1 as <-. injection E2 as <-. exact K.
    - intros K. exists a, b. auto. }
  destruct (Rltb_spec (t0 - / 2 * dt) (arrival obs b)) as [L1|L1]; [|cbn [andb]; split; [reflexivity|intros K; apply LS in K; lra]].
  destruct (Rltb_spec (arrival obs a) (t0 + (IZR nots - / 2) * dt)) as [L2|L2]; cbn [andb]; [|split; [reflexivity|intros K; apply LS in K; lra]].
  rewrite Fa, Fb. cbn [bind]. split; [intros K; exfalso; apply K, LS; auto|]. intros _ Hr. apply step_back; try assumption. lia.
Qed.
Lemma run_back m : forall s, (s + m + 1 = length (trajectory p))%nat ->
  ((forall i, (s <= i)%nat -> ~ covering_step p obs tr i) -> fold_res (integrate_one p obs t0 dt nots) (zseq (Z.of_nat s) m) tr = Ok tr) /\
  (forall i b, (s <= i)%nat -> (forall j, (j < i)%nat -> ~ covering_step p obs tr j) -> covering_step p obs tr i ->
     nth_error (trajectory p) (S i) = Some b -> -2147483648 - / 2 < (arrival obs b - t0) / dt ->
     fold_res (integrate_one p obs t0 dt nots) (zseq (Z.of_nat s) m) tr = Throw IOexc).
Proof using Hw Hd Hn.
  induction m as [|m IH]; intros s Hs.
  - split; [reflexivity|]. intros i b Hi _ (a & b' & _ & Hb & _). exfalso. assert (S i < length (trajectory p))%nat by (apply nth_error_Some; congruence). lia.
  - destruct (nth_trajectory_inv p s Hw) as [a Ha]; [lia|].
    destruct (nth_trajectory_inv p (S s) Hw) as [b Hb]; [lia|].
    destruct (one_back s a b Ha Hb) as [OK BAD]. destruct (IH (S s) ltac:(lia)) as [OK2 BAD2]. cbn [zseq fold_res].
    replace (Z.of_nat s + 1)%Z with (Z.of_nat (S s)) by lia. split.
    + intros K. rewrite OK by (apply K; lia). cbn [bind]. apply OK2. intros i Hi. apply K. lia.
    + intros i b' Hi Hf C Hb' Hr. destruct (Nat.eq_dec i s) as [->|Ne].
      * assert (b' = b) by congruence. subst b'. rewrite (BAD C Hr). reflexivity.
      * rewrite OK by (apply Hf; lia). cbn [bind]. apply (BAD2 i b'); auto. lia.
Qed.
End One.

(* a step which covers the trace is the only one *)
Lemma covering_once p obs tr i j : tr_dt tr < 0 -> (2 <= tr_N tr)%Z -> increasing (map (arrival obs) (trajectory p)) ->
  covering_step p obs tr i -> covering_step p obs tr j -> (j < i)%nat -> False.
Proof.
  intros Hd Hn Hinc (a & b & Ha & Hb & L1 & L2) (c & d & Hc & He & L3 & L4) Hij. apply IZR_le in Hn.
  assert (Q : arrival obs d <= arrival obs a).
  { destruct (Nat.eq_dec (S j) i) as [E|E]; [subst i; assert (d = a) by congruence; subst d; lra|].
    apply Rlt_le. apply (Hinc (S j) i); [lia| |]; rewrite nth_error_map; [rewrite He|rewrite Ha]; reflexivity. }
  nra.
Qed.

Lemma trace_back (p : particle R) obs (tr : ftrace R) :
  wf p -> tr_dt tr < 0 -> (2 <= tr_N tr <= int_max)%Z -> increasing (map (arrival obs) (trajectory p)) ->
  ((forall i, ~ covering_step p obs tr i) -> integrateFieldTrace p obs tr = Ok tr) /\
  (forall i b, covering_step p obs tr i -> nth_error (trajectory p) (S i) = Some b -> -2147483648 - / 2 < (arrival obs b - tr_t0 tr) / tr_dt tr ->
     integrateFieldTrace p obs tr = Throw IOexc).
Proof.
  intros Hw Hd Hn Hinc. unfold integrateFieldTrace. rewrite i32_small by lia.
  pose proof (trajectory_length p Hw) as HL.
  destruct (Z.ltb_spec (tr_N tr) 2); [lia|].
  destruct (Z.ltb_spec (pNP p) 2).
  - split; [reflexivity|]. intros i b _ Hb. exfalso. assert (S i < length (trajectory p))%nat by (apply nth_error_Some; congruence). lia.
  - destruct (run_back p obs tr Hw Hd Hn (Z.to_nat (pNP p - 1)) 0 ltac:(lia)) as [OK BAD]. split.
    + intros K. apply OK. intros i _. apply K.
    + intros i b C Hb Hr. apply (BAD i b); auto; [lia|]. intros j Hj Cj. apply (covering_once p obs tr i j); auto; lia.
Qed.
