(* The record of a probe particle after tracking. *)
From Coq Require Import ZArith List Lia.
From Verif Require Import Base BaseFacts Num VecModel ParticleModel ParticleSpec ParticleProofs BunchModel BeamSpec.
Import ListNotations.

Section P.
Context {T : Type} {NT : Num T}.

(* the current point is the last one of the trajectory, the fields are those of F there *)
Definition recorded (F : field_fn T) (p : particle T) : Prop :=
  wf p /\ exists i eb, trajectory p = i ++ [current p] /\ F (pt p) (pX p) = Ok eb /\ pE p = fE eb /\ pB p = fB eb.

Lemma recorded_setup dt F (p q : particle T) : wf p -> InitVay dt F p = Ok q -> recorded F q.
Proof.
  intros W H. split; [exact (wf_apply p q (OpSetup dt F) W H)|].
  destruct (InitVay_trajectory dt F p q W H) as (i & l & a' & _ & Tq & Cq & _).
  unfold InitVay in H. destruct (pNP p <? 1)%Z; [discriminate|].
  bget H as t Ht. bget H as x Hx. bget H as m Hm. bget H as eb Heb.
  destruct (vay_half _ _ _ _) as [p1 g]. bget H as acs Hacs. okinj H.
  exists i, eb. rewrite Tq, <- Cq. auto.
Qed.
Lemma recorded_step F (p q : particle T) : wf p -> StepVay F p = Ok q -> recorded F q.
Proof.
  intros W H. split; [exact (wf_apply p q (OpStep F) W H)|].
  destruct (StepVay_trajectory F p q W H) as [Tq _].
  unfold StepVay in H. bget H as eb Heb. destruct (vay_half _ _ _ _) as [p1 g]. okinj H.
  exists (trajectory p), eb. rewrite Tq. auto.
Qed.
Lemma recorded_run : forall Fs F0 (p q : particle T), recorded F0 p -> run_steps Fs p = Ok q -> recorded (last Fs F0) q.
Proof.
  induction Fs as [|F Fs IH]; intros F0 p q R H.
  - cbn in H. okinj H. exact R.
  - unfold run_steps in H. cbn [fold_res] in H. bget H as p1 H1.
    replace (last (F :: Fs) F0) with (last Fs F); [apply (IH F p1 q); [exact (recorded_step F p p1 (proj1 R) H1)|exact H]|].
    clear. revert F F0; induction Fs as [|G Fs IH]; intros F F0; [reflexivity|]. change (last (F :: G :: Fs) F0) with (last (G :: Fs) F0). rewrite <- (IH G F), <- (IH G F0). reflexivity.
Qed.
Lemma record_tracked dt F0 Fs (p0 p1 p : particle T) :
  wf p0 -> InitVay dt F0 p0 = Ok p1 -> run_steps Fs p1 = Ok p ->
  exists i t x m a e b, trajectory p = i ++ [TP t x m a] /\ last Fs F0 t x = Ok (EB e b) /\
    probe_record p = [t; vx x; vy x; vz x; vx m; vy m; vz m; vx a; vy a; vz a; vx e; vy e; vz e; vx b; vy b; vz b].
Proof.
  intros W H1 H. destruct (recorded_run Fs F0 p1 p (recorded_setup dt F0 p0 p1 W H1) H) as (_ & i & eb & Ti & Fi & Ei & Bi).
  exists i, (pt p), (pX p), (pP p), (pA p), (pE p), (pB p). split; [exact Ti|]. split; [|reflexivity].
  rewrite Fi, Ei, Bi. destruct eb. reflexivity.
Qed.
End P.
