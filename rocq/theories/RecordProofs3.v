(* Exactly which beams an observer in time can integrate. *)
From Coq Require Import ZArith Reals List Lia Lra Bool.
From Verif Require Import Base BaseFacts Num VecModel VecFacts ParticleModel ParticleSpec ParticleSpec2 TraceModel RetardModel RetardSpec RetardProofs3 TraceIntSpec TraceIntSpec2 TraceSpec BunchModel BunchSpec BeamSpec
  ObserverModel ObserverSpec ObserverSpec2 ObserverProofs ObserverProofs2 ObserverProofs3 ObserverProofs4 ObserverProofs5 ObserverProofs6 RecordSpec RecordSpec2 RecordProofs RecordProofs2 PropSample PropTrace PropTrace3.
Import ListNotations.
Local Open Scope R_scope.

Lemma late_same p x (tr tr' : ftrace R) i : tr_t0 tr = tr_t0 tr' -> tr_dt tr = tr_dt tr' -> tr_N tr = tr_N tr' -> late_step p x tr i -> late_step p x tr' i.
Proof. intros T D N (a & b & H). exists a, b. rewrite <- T, <- D, <- N. exact H. Qed.

Lemma beam_iff (x : vec R) : forall ps (tr : ftrace R),
  0 < tr_dt tr -> (2 <= tr_N tr <= int_max)%Z ->
  (forall p, In p ps -> wf p /\ subluminal (trajectory p)) ->
  ((exists tr2, fold_res (fun tr p => integrateFieldTrace p x tr) ps tr = Ok tr2) <-> forall p i, In p ps -> ~ late_step p x tr i).
Proof.
  induction ps as [|p ps IH]; intros tr Hd Hn Hp.
  - split; [intros _ p i []|]. intros _. exists tr. reflexivity.
  - destruct (Hp p (or_introl eq_refl)) as [W S]. destruct (C15_defined p x tr W Hd Hn (arrivals_increase _ x S)) as [OK _]. cbn [fold_res].
    assert (N : forall tr1, integrateFieldTrace p x tr = Ok tr1 ->
      ((exists tr2, fold_res (fun tr p => integrateFieldTrace p x tr) ps tr1 = Ok tr2) <-> forall q i, In q ps -> ~ late_step q x tr i)).
    { intros tr1 E1. destruct (C14_completed_partial p x tr tr1 W Hd Hn (arrivals_increase _ x S) E1) as ((L & T0 & Dt) & _).
      assert (N1 : tr_N tr = tr_N tr1) by (unfold tr_N; congruence).
      specialize (IH tr1 ltac:(rewrite <- Dt; exact Hd) ltac:(rewrite <- N1; exact Hn) (fun q Hq => Hp q (or_intror Hq))).
      rewrite IH. split; intros K q i Hq Q; apply (K q i Hq); revert Q; apply late_same; congruence. }
    split.
    + intros (tr2 & E). bget E as tr1 E1. intros q i [<-|Hq]; [apply OK; eauto|].
      apply (proj1 (N tr1 E1)); [eauto|exact Hq].
    + intros K. destruct (proj2 OK) as (tr1 & E1). { intros i. apply K. left. reflexivity. }
      rewrite E1. cbn [bind]. apply (N tr1 E1). intros q i Hq. apply K. right. exact Hq.
Qed.

Lemma recorded_iff (o : observer R) bm :
  shaped o -> int_sized o -> timed o -> (2 <= snd (extent o) <= int_max)%Z -> (match o with OSnap _ => False | _ => True end) ->
  (forall a b t0 dt, in_cells o (a, b) -> cell_clock o a b t0 dt -> 0 < dt) ->
  (forall p, In p (beam_ps bm) -> wf p /\ subluminal (trajectory p)) ->
  ((exists o1, obs_integrate (SBeam bm) o = Ok o1) <-> ~ late_cell o (beam_ps bm)).
Proof.
  intros Sh Is Ti Hn Ns Hd Hp. split.
  - intros (o1 & E) (a & b & x & tr & p & i & IC & Px & Ck & Hl & Hi & L).
    destruct (integrate_ok _ _ _ Sh E) as [_ C]. destruct (C (a, b) IC) as (tr1 & r & C0 & C1 & _).
    destruct (cell_beam o bm a b tr1 (Ok r) Sh Is Ti IC Ns C0 C1) as (y & Py & Cy & Ly & Fy).
    assert (y = x) by (eapply place_once; eassumption). subst y.
    destruct (clock_once _ _ _ _ _ _ _ Ck Cy) as [T D].
    destruct (beam_iff x (beam_ps bm) tr1 (Hd _ _ _ _ IC Cy) ltac:(rewrite Ly; exact Hn) Hp) as [Q _].
    apply (Q (ex_intro _ r (eq_sym Fy)) p i Hi). revert L. apply late_same; congruence.
  - intros K. apply integrate_total; [exact Sh|]. intros [a b] IC.
    destruct (cell_ok o (a, b) Sh IC) as (tr & C0 & _). exists tr.
    destruct (cell_beam o bm a b tr _ Sh Is Ti IC Ns C0 eq_refl) as (x & Px & Ck & Ly & Fy).
    destruct (proj2 (beam_iff x (beam_ps bm) tr (Hd _ _ _ _ IC Ck) ltac:(rewrite Ly; exact Hn) Hp)) as (r & E).
    { intros p i Hi L. apply K. exists a, b, x, tr, p, i. auto 10. }
    exists r. split; [exact C0|]. rewrite Fy. exact E.
Qed.
