(* The trace of a cell after a completed integration over all particles of a beam. *)
From Coq Require Import ZArith Reals List Lia Lra Bool.
From Coquelicot Require Import Coquelicot.
From Verif Require Import Base BaseFacts Num VecModel VecFacts ParticleModel ParticleSpec TraceModel RetardModel RetardSpec RetardProofs3 TraceIntSpec TraceSpec TraceProofs2 BunchModel BunchSpec BeamSpec DistProofs BeamProofs
  DriverModel ObserverModel ObserverSpec ObserverSpec2 ObserverProofs ObserverProofs2 ObserverProofs3 ObserverProofs4 ObserverProofs5 ObserverProofs6 RecordSpec PropTrace PropSample PropBeam RecordProofs PropTrace3.
Import ListNotations.
Local Open Scope R_scope.

Lemma beam_trace_completed (x : vec R) : forall ps (tr tr2 : ftrace R),
  0 < tr_dt tr -> (2 <= tr_N tr <= int_max)%Z ->
  (forall p, In p ps -> wf p /\ subluminal (trajectory p)) ->
  fold_res (fun tr p => integrateFieldTrace p x tr) ps tr = Ok tr2 ->
  same_sampling tr tr2 /\
    forall k f f', nth_error (tr_f tr) k = Some f -> nth_error (tr_f tr2) k = Some f' ->
    forall c, In c components ->
      is_RInt (beam_signal ps x c)
        (tr_t0 tr + (IZR (Z.of_nat k) - / 2) * tr_dt tr) (tr_t0 tr + (IZR (Z.of_nat k) + / 2) * tr_dt tr)
        (tr_dt tr * (c f' - c f)).
Proof.
  induction ps as [|p ps IH]; intros tr tr2 Hd Hn Hp E.
  - cbn [fold_res] in E. apply Ok_inj in E. subst tr2. split; [repeat split|]. intros k f f' F F' c Hc.
    assert (f' = f) by congruence. subst f'.
    replace (tr_dt tr * (c f - c f)) with ((tr_t0 tr + (IZR (Z.of_nat k) + / 2) * tr_dt tr - (tr_t0 tr + (IZR (Z.of_nat k) - / 2) * tr_dt tr)) * 0) by ring.
    apply (is_RInt_ext (fun _ => 0)); [reflexivity|]. apply (is_RInt_const (V := R_NormedModule)).
  - destruct (Hp p (or_introl eq_refl)) as [W S]. cbn [fold_res] in E. bget E as tr1 E1.
    destruct (C14_completed_partial p x tr tr1 W Hd Hn (arrivals_increase _ x S) E1) as (SS & V1).
    pose proof SS as (L & T0 & Dt).
    assert (N1 : tr_N tr1 = tr_N tr) by (unfold tr_N; congruence).
    destruct (IH tr1 tr2) as (SS2 & V2).
    { rewrite <- Dt. exact Hd. } { rewrite N1. exact Hn. }
    { intros q Hq. apply Hp. right. exact Hq. } { exact E. }
    pose proof SS2 as (L2 & T02 & Dt2).
    split; [repeat split; congruence|].
    intros k f f' F F' c Hc.
    destruct (nth_error (tr_f tr1) k) as [f1|] eqn:F1.
    2:{ apply nth_error_None in F1. assert (nth_error (tr_f tr) k <> None) as Q by congruence. apply nth_error_Some in Q. lia. }
    specialize (V1 k f f1 F F1 c Hc). specialize (V2 k f1 f' F1 F' c Hc). rewrite <- T0, <- Dt in V2.
    replace (tr_dt tr * (c f' - c f)) with (tr_dt tr * (c f1 - c f) + tr_dt tr * (c f' - c f1)) by ring.
    apply (is_RInt_ext (fun t => c (signal (signal_points p x) t) + beam_signal ps x c t)); [reflexivity|].
    apply (is_RInt_plus (V := R_NormedModule)); assumption.
Qed.

Lemma recorded_completed (o o1 : observer R) bm a b c x t0 dt :
  shaped o -> int_sized o -> timed o -> blank o -> inside o (a, b, c) -> (2 <= snd (extent o) <= int_max)%Z ->
  cell_place o a b x -> cell_clock o a b t0 dt -> 0 < dt ->
  (forall p, In p (beam_ps bm) -> wf p /\ subluminal (trajectory p)) ->
  obs_integrate (SBeam bm) o = Ok o1 ->
  exists f, obs_get o1 (a, b, c) = Ok f /\
    forall comp, In comp components ->
      is_RInt (beam_signal (beam_ps bm) x comp) (t0 + (IZR c - / 2) * dt) (t0 + (IZR c + / 2) * dt) (dt * comp f).
Proof.
  intros Sh Is Ti B I Hn Px Ck Hd Hp E. destruct (integrate_ok _ _ _ Sh E) as [K C].
  pose proof (inside_cell _ _ _ _ I) as IC. destruct (C (a, b) IC) as (tr & r & C0 & C1 & C2).
  assert (I1 : inside o1 (a, b, c)) by (eapply like_inside; eassumption).
  assert (Ns : match o with OSnap _ => False | _ => True end) by (destruct o; auto).
  destruct (cell_beam o bm a b tr (Ok r) Sh Is Ti IC Ns C0 C1) as (y & Py & Cy & Ly & Fy).
  assert (y = x) by (eapply place_once; eassumption). subst y.
  destruct (clock_once _ _ _ _ _ _ _ Ck Cy) as [-> ->]. symmetry in Fy.
  destruct (beam_trace_completed x (beam_ps bm) tr r Hd ltac:(rewrite Ly; exact Hn) Hp Fy) as ((L & T0 & Dt) & Q).
  assert (Hc : (0 <= c < tr_N tr)%Z). { rewrite Ly. destruct o; cbn [inside extent snd] in *; tauto. }
  assert (Hk : (Z.to_nat c < length (tr_f tr))%nat) by (unfold tr_N in Hc; lia).
  destruct (nth_error (tr_f tr) (Z.to_nat c)) as [f0|] eqn:F0; [|apply nth_error_None in F0; lia].
  destruct (nth_error (tr_f r) (Z.to_nat c)) as [f|] eqn:F; [|apply nth_error_None in F; lia].
  assert (G0 : obs_get o (a, b, c) = Ok f0).
  { rewrite (get_cell o a b c I), C0. cbn [bind]. unfold tr_get. replace (tr_in tr c) with true; [|symmetry; unfold tr_in; apply andb_true_intro; split; [apply Z.leb_le|apply Z.ltb_lt]; lia].
    rewrite <- (Z2Nat.id c) by lia. apply zget_nth. exact F0. }
  assert (G1 : obs_get o1 (a, b, c) = Ok f).
  { rewrite (get_cell o1 a b c I1), C2. cbn [bind]. unfold tr_get. replace (tr_in r c) with true.
    2:{ symmetry. unfold tr_in, tr_N. rewrite <- L. apply andb_true_intro; split; [apply Z.leb_le|apply Z.ltb_lt]; unfold tr_N in Hc; lia. }
    rewrite <- (Z2Nat.id c) by lia. apply zget_nth. exact F. }
  exists f. split; [exact G1|]. intros comp Hcomp. specialize (Q (Z.to_nat c) f0 f F0 F comp Hcomp).
  rewrite Z2Nat.id in Q by lia. rewrite (B _ _ I G0), (component_zero comp Hcomp), Rminus_0_r in Q. exact Q.
Qed.
