(* The points recorded of the tracked particles and the fields they have seen. *)
From Coq Require Import ZArith String Reals List Lia Lra Bool.
From Verif Require Import Base BaseFacts Num VecModel VecFacts ParticleModel ParticleSpec ParticleProofs ParticleProofs2 VaySpec VayProofs VayTracking VayTracking2
  TraceModel BunchModel BunchSpec BunchProofs BeamSpec DriverModel DriverSpec DriverProofs HybridProofs OutputModel OutputSpec ParserModel ProgramModel ProgramSpec ResultSpec ResultProofs ResultSpec2 ResultProofs2.
Import ListNotations.
Local Open Scope R_scope.

Section Sim.
Context {L : Type} (Fof : L -> field_fn R) (linit lstep : beam R -> L -> res L).
(* the fields of the lattice with which step j was made *)
Definition fields_of NOTS lat bm (j : nat) (l : L) : Prop :=
  match j with O => l = lat | S j' => exists s, sim_run Fof linit lstep NOTS lat bm j' = Ok s /\ sLat s = l end.
Lemma sim_seen NOTS lat bm : 0 < bmdt bm -> forall k s, sim_run Fof linit lstep NOTS lat bm k = Ok s ->
  List.Forall (fun q => nth_error (trajectory q) k = Some (current q) /\ exists l, fields_of NOTS lat bm k l /\ Fof l (pt q) (pX q) = Ok (EB (pE q) (pB q))) (sTracked s).
Proof.
  intros Hd [|k] s H; unfold sim_run in H; bget H as s0 H0.
  - cbn [iter_res] in H. okinj H. unfold sim_start in H0. cbv zeta in H0. destruct (bmTracker bm); try discriminate H0.
    bget H0 as tr Htr. bget H0 as l' Hl. okinj H0. cbn [sTracked bmB] in *. rewrite spread_concat in Htr by apply map_length.
    rewrite restart_zip in Htr. apply map_res_ok_iff in Htr. apply Forall2_map_left in Htr. refine (Forall2_right _ _ _ _ _ Htr).
    intros p q H. set (r := no_field (restarted (NOTS + 1) (current p) p)) in *.
    assert (W : wf r) by (unfold wf, r, no_field, restarted; cbn; lia). split.
    + destruct (InitVay_trajectory _ _ r q W H) as (i & l & a & A & B & C & _). assert (T1 : trajectory r = [current p]) by reflexivity. rewrite T1 in A.
      destruct i as [|i0 i]; [|destruct i; discriminate]. rewrite B, C. reflexivity.
    + exists lat. split; [reflexivity|]. unfold InitVay in H. destruct (Z.ltb_spec (pNP r) 1); [discriminate|].
      bget H as t Ht'. bget H as x Hx'. bget H as m Hm'. bget H as eb Heb. destruct (vay_half _ _ _ _) as [p1 g]. bget H as acs Hacs. injection H as <-.
      cbn [pt pX pE pB]. rewrite Heb. destruct eb; reflexivity.
  - rewrite iter_res_S_r in H. bget H as s1 H1.
    assert (R1 : sim_run Fof linit lstep NOTS lat bm k = Ok s1) by (unfold sim_run; rewrite H0; exact H1).
    pose proof (sim_good Fof linit lstep NOTS lat bm Hd k s1 R1) as G1.
    unfold sim_step in H. bget H as tr Htr. cbv zeta in H. bget H as l' Hl. okinj H. cbn [sTracked] in *. apply map_res_ok_iff in Htr.
    refine (Forall2_right _ _ _ _ _ (Forall2_comp (good_from (bmdt bm) k) _ (fun p q => nth_error (trajectory q) (S k) = Some (current q) /\
       exists l, fields_of NOTS lat bm (S k) l /\ Fof l (pt q) (pX q) = Ok (EB (pE q) (pB q))) _ _ _ _ G1 Htr)); [auto|].
    intros p q q' (T1 & _ & Ln & _) Hq. pose proof (tracked_tstate _ q T1) as (Hw & _). split.
    + destruct (StepVay_trajectory _ q q' Hw Hq) as (-> & _). rewrite nth_error_app2 by lia. rewrite Ln, Nat.sub_diag. reflexivity.
    + exists (sLat s1). split; [exists s1; auto|]. unfold StepVay in Hq. bget Hq as eb Heb. destruct (vay_half _ _ _ _) as [p1 g]. injection Hq as <-.
      transitivity (Ok eb); [exact Heb|]. destruct eb; reflexivity.
Qed.
Lemma sim_kept NOTS lat bm : 0 < bmdt bm -> forall j k s s', (j <= k)%nat -> sim_run Fof linit lstep NOTS lat bm j = Ok s -> sim_run Fof linit lstep NOTS lat bm k = Ok s' ->
  Forall2 (fun p q => nth_error (trajectory q) j = Some (current p)) (sTracked s) (sTracked s').
Proof.
  intros Hd j k s s' Hjk Hj. revert s'. induction Hjk as [|k Hjk IH]; intros s' H.
  - rewrite Hj in H. apply Ok_inj in H. subst s'. pose proof (sim_seen _ _ _ Hd _ _ Hj) as F.
    induction F as [|q l (N & _) F IHF]; constructor; assumption.
  - unfold sim_run in H, IH. bget H as s0 H0. rewrite iter_res_S_r in H. bget H as s1 H1.
    assert (F1 : Forall2 (fun p q => nth_error (trajectory q) j = Some (current p)) (sTracked s) (sTracked s1)) by (apply IH; rewrite H0; exact H1).
    assert (G1 : Forall2 (good_from (bmdt bm) k) (concat (bmB bm)) (sTracked s1)).
    { apply (sim_good Fof linit lstep NOTS lat bm Hd). unfold sim_run. rewrite H0. exact H1. }
    assert (W1 : List.Forall (fun q => wf q) (sTracked s1)).
    { refine (Forall2_right _ _ _ _ _ G1). intros p q (T1 & _). exact (proj1 (tracked_tstate _ q T1)). }
    unfold sim_step in H. bget H as tr Htr. cbv zeta in H. bget H as l' Hl. okinj H. cbn [sTracked] in *. apply map_res_ok_iff in Htr.
    refine (Forall2_comp _ _ _ _ _ _ _ (Forall2_withr _ _ _ _ F1 W1) Htr). intros p q q' (N & Hw) Hq.
    destruct (StepVay_trajectory _ q q' Hw Hq) as (-> & _). rewrite nth_error_app1; [exact N|]. apply nth_error_Some. congruence.
Qed.
End Sim.
