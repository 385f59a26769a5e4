(* The trace of a cell after the integration over all particles of a beam. *)
From Coq Require Import ZArith Reals List Lia Lra Bool.
From Coquelicot Require Import Coquelicot.
From Verif Require Import Base BaseFacts Num VecModel VecFacts ParticleModel ParticleSpec TraceModel RetardModel RetardSpec TraceIntSpec TraceSpec TraceProofs2 BunchModel BunchSpec BeamSpec DistProofs BeamProofs
  DriverModel ObserverModel ObserverSpec ObserverSpec2 ObserverProofs ObserverProofs2 ObserverProofs3 ObserverProofs4 ObserverProofs5 ObserverProofs6 RecordSpec PropTrace PropSample PropBeam.
Import ListNotations.
Local Open Scope R_scope.

Lemma component_zero c : In c components -> c (@ezero R NumR) = 0.
Proof. intros H. cbn [components In] in H. repeat (destruct H as [<-|H]; [reflexivity|]). destruct H. Qed.

Lemma beam_trace (x : vec R) : forall ps (tr : ftrace R),
  0 < tr_dt tr -> (2 <= tr_N tr <= int_max)%Z ->
  (forall p, In p ps -> wf p /\ subluminal (trajectory p)) -> in_reach ps x (tr_t0 tr) (tr_dt tr) ->
  exists tr', fold_res (fun tr p => integrateFieldTrace p x tr) ps tr = Ok tr' /\ same_sampling tr tr' /\
    forall k f f', nth_error (tr_f tr) k = Some f -> nth_error (tr_f tr') k = Some f' ->
    forall c, In c components ->
      is_RInt (beam_signal ps x c)
        (tr_t0 tr + (IZR (Z.of_nat k) - / 2) * tr_dt tr) (tr_t0 tr + (IZR (Z.of_nat k) + / 2) * tr_dt tr)
        (tr_dt tr * (c f' - c f)).
Proof.
  induction ps as [|p ps IH]; intros tr Hd Hn Hp Hr.
  - exists tr. split; [reflexivity|]. split; [repeat split|]. intros k f f' E E' c Hc.
    assert (f' = f) by congruence. subst f'.
    replace (tr_dt tr * (c f - c f)) with ((tr_t0 tr + (IZR (Z.of_nat k) + / 2) * tr_dt tr - (tr_t0 tr + (IZR (Z.of_nat k) - / 2) * tr_dt tr)) * 0) by ring.
    apply (is_RInt_ext (fun _ => 0)); [reflexivity|]. apply (is_RInt_const (V := R_NormedModule)).
  - destruct (Hp p (or_introl eq_refl)) as [W S].
    destruct (C14_bucket_average_subluminal_partial p x tr W Hd Hn S) as (tr1 & E1 & SS & V1).
    { intros a Ha. apply (Hr p); [left; reflexivity|exact Ha]. }
    pose proof SS as (L & T0 & Dt).
    assert (N1 : tr_N tr1 = tr_N tr) by (unfold tr_N; congruence).
    destruct (IH tr1) as (tr2 & E2 & SS2 & V2).
    { rewrite <- Dt. exact Hd. } { rewrite N1. exact Hn. }
    { intros q Hq. apply Hp. right. exact Hq. }
    { intros q a Hq Ha. rewrite <- T0, <- Dt. apply (Hr q); [right; exact Hq|exact Ha]. }
    exists tr2. cbn [fold_res]. rewrite E1. cbn [bind]. split; [exact E2|]. pose proof SS2 as (L2 & T02 & Dt2).
    split; [repeat split; congruence|].
    intros k f f' F F' c Hc.
    destruct (nth_error (tr_f tr1) k) as [f1|] eqn:F1.
    2:{ apply nth_error_None in F1. assert (nth_error (tr_f tr) k <> None) as Q by congruence. apply nth_error_Some in Q. lia. }
    specialize (V1 k f f1 F F1 c Hc). specialize (V2 k f1 f' F1 F' c Hc). rewrite <- T0, <- Dt in V2.
    replace (tr_dt tr * (c f' - c f)) with (tr_dt tr * (c f1 - c f) + tr_dt tr * (c f' - c f1)) by ring.
    apply (is_RInt_ext (fun t => c (signal (signal_points p x) t) + beam_signal ps x c t)); [reflexivity|].
    apply (is_RInt_plus (V := R_NormedModule)); assumption.
Qed.

(* a cell of an observer which records in time *)
Lemma cell_beam (o : observer R) bm a b tr r : shaped o -> int_sized o -> timed o -> in_cells o (a, b) ->
  (match o with OSnap _ => False | _ => True end) ->
  cell_of o (a, b) = Ok tr -> cell_op (SBeam bm) o (a, b) tr = r ->
  exists x, cell_place o a b x /\ cell_clock o a b (tr_t0 tr) (tr_dt tr) /\ tr_N tr = snd (extent o) /\
    r = fold_res (fun tr p => integrateFieldTrace p x tr) (beam_ps bm) tr.
Proof.
  intros Sh Is Ti IC Ns C0 C1. destruct (cell_ok o (a, b) Sh IC) as (tr0 & C0' & Ln). rewrite C0 in C0'. apply Ok_inj in C0'. subst tr0.
  specialize (Ln _ eq_refl).
  destruct o as [s|s|s|s]; cbn [cell_op cell_of fst snd extent] in *; [|destruct Ns| |].
  - pose proof Sh as (H1 & H2 & H3 & H4 & H5). destruct Is as [I2 I3]. destruct IC as (J1 & J2). cbn [fst snd extent] in *.
    destruct (centre_screen s a b) as [P1 P2]; try lia. unfold screen_cell in C1. rewrite P1 in C1. cbn [bind] in C1.
    exists (along (scO s) (scdX s) (scdY s) (IZR (a - scNx s / 2)) (IZR (b - scNy s / 2))). split; [reflexivity|]. split; [apply (Ti a b tr J1 J2 C0)|]. split; [exact Ln|].
    rewrite <- C1. apply C62_field_trace.
  - apply Ok_inj in C0. subst tr. exists (poX s). split; [reflexivity|]. split; [split; reflexivity|]. split; [exact Ln|]. rewrite <- C1. apply C62_field_trace.
  - pose proof Sh as (H1 & H2 & H3). destruct IC as (J1 & J2). cbn [fst snd extent] in *. unfold mesh_Np in J1.
    destruct (zget_ok (msX s) a) as (x & Hx & _); [lia|]. unfold mesh_cell in C1. rewrite Hx in C1. cbn [bind] in C1.
    exists x. apply zget_inv in Hx. apply zget_inv in C0. split; [apply Hx|]. split; [exists tr; split; [apply C0|split; reflexivity]|]. split; [exact Ln|].
    rewrite <- C1. apply C62_field_trace.
Qed.
Lemma place_once (o : observer R) a b x y : cell_place o a b x -> cell_place o a b y -> x = y.
Proof. destruct o; cbn [cell_place]; intros; congruence. Qed.
Lemma clock_once (o : observer R) a b t dt t' dt' : cell_clock o a b t dt -> cell_clock o a b t' dt' -> t = t' /\ dt = dt'.
Proof.
  destruct o; cbn [cell_clock]; try tauto.
  - intros [] []. split; congruence.
  - intros [] []. split; congruence.
  - intros (tr & E & -> & ->) (tr' & E' & -> & ->). split; congruence.
Qed.

Lemma recorded (o o1 : observer R) bm a b c x t0 dt :
  shaped o -> int_sized o -> timed o -> blank o -> inside o (a, b, c) -> (2 <= snd (extent o) <= int_max)%Z ->
  cell_place o a b x -> cell_clock o a b t0 dt -> 0 < dt ->
  (forall p, In p (beam_ps bm) -> wf p /\ subluminal (trajectory p)) -> in_reach (beam_ps bm) x t0 dt ->
  obs_integrate (SBeam bm) o = Ok o1 ->
  exists f, obs_get o1 (a, b, c) = Ok f /\
    forall comp, In comp components ->
      is_RInt (beam_signal (beam_ps bm) x comp) (t0 + (IZR c - / 2) * dt) (t0 + (IZR c + / 2) * dt) (dt * comp f).
Proof.
  intros Sh Is Ti B I Hn Px Ck Hd Hp Hr E. destruct (integrate_ok _ _ _ Sh E) as [K C].
  pose proof (inside_cell _ _ _ _ I) as IC. destruct (C (a, b) IC) as (tr & r & C0 & C1 & C2).
  assert (I1 : inside o1 (a, b, c)) by (eapply like_inside; eassumption).
  assert (Ns : match o with OSnap _ => False | _ => True end) by (destruct o; auto).
  destruct (cell_beam o bm a b tr (Ok r) Sh Is Ti IC Ns C0 C1) as (y & Py & Cy & Ly & Fy).
  assert (y = x) by (eapply place_once; eassumption). subst y.
  destruct (clock_once _ _ _ _ _ _ _ Ck Cy) as [-> ->]. symmetry in Fy.
  destruct (beam_trace x (beam_ps bm) tr Hd ltac:(rewrite Ly; exact Hn) Hp Hr) as (r' & E' & (L & T0 & Dt) & Q).
  rewrite E' in Fy. apply Ok_inj in Fy. subst r'.
  assert (Hc : (0 <= c < tr_N tr)%Z). { rewrite Ly. destruct o; cbn [inside extent snd] in *; tauto. }
  assert (Hk : (Z.to_nat c < length (tr_f tr))%nat) by (unfold tr_N in Hc; lia).
  destruct (nth_error (tr_f tr) (Z.to_nat c)) as [f0|] eqn:F0; [|apply nth_error_None in F0; lia].
  destruct (nth_error (tr_f r) (Z.to_nat c)) as [f|] eqn:F; [|apply nth_error_None in F; lia].
  assert (G0 : obs_get o (a, b, c) = Ok f0).
  { rewrite (get_cell o a b c I), C0. cbn [bind]. unfold tr_get. replace (tr_in tr c) with true; [|symmetry; unfold tr_in; apply andb_true_intro; split; [apply Z.leb_le|apply Z.ltb_lt]; lia].
    rewrite <- (Z2Nat.id c) by lia. apply zget_nth. exact F0. }
  assert (G1 : obs_get o1 (a, b, c) = Ok f).
  { rewrite (get_cell o1 a b c I1), C2. cbn [bind]. unfold tr_get. replace (tr_in r c) with true.
    2:{ symmetry. unfold tr_in, tr_N. rewrite <- L. apply andb_true_intro; split; [apply Z.leb_le|apply Z.ltb_lt]; unfold tr_N in Hc; lia. }
    rewrite <- (Z2Nat.id c) by lia. apply zget_nth. exact F. }
  exists f. split; [exact G1|]. intros comp Hcomp. specialize (Q (Z.to_nat c) f0 f F0 F comp Hcomp).
  rewrite Z2Nat.id in Q by lia. rewrite (B _ _ I G0), (component_zero comp Hcomp), Rminus_0_r in Q. exact Q.
Qed.

(* the integration succeeds *)
Lemma recorded_defined (o : observer R) bm :
  shaped o -> int_sized o -> timed o -> (2 <= snd (extent o) <= int_max)%Z -> (match o with OSnap _ => False | _ => True end) ->
  (forall p, In p (beam_ps bm) -> wf p /\ subluminal (trajectory p)) ->
  (forall a b x t0 dt, in_cells o (a, b) -> cell_place o a b x -> cell_clock o a b t0 dt -> 0 < dt /\ in_reach (beam_ps bm) x t0 dt) ->
  exists o1, obs_integrate (SBeam bm) o = Ok o1.
Proof.
  intros Sh Is Ti Hn Ns Hp H. apply integrate_total; [exact Sh|]. intros [a b] IC.
  destruct (cell_ok o (a, b) Sh IC) as (tr & C0 & _). exists tr.
  destruct (cell_beam o bm a b tr _ Sh Is Ti IC Ns C0 eq_refl) as (x & Px & Ck & Ly & Fy).
  destruct (H a b x _ _ IC Px Ck) as [Hd Hr].
  destruct (beam_trace x (beam_ps bm) tr Hd ltac:(rewrite Ly; exact Hn) Hp Hr) as (r & E & _).
  exists r. split; [exact C0|]. rewrite Fy. exact E.
Qed.

(* snapshots *)
Lemma snap_recorded (s : snapshot R) o1 bm a b x : shaped (OSnap s) -> int_sized (OSnap s) -> inside (OSnap s) (a, b, 0%Z) ->
  cell_place (OSnap s) a b x -> obs_integrate (SBeam bm) (OSnap s) = Ok o1 ->
  exists f, obs_get o1 (a, b, 0%Z) = Ok f /\ beam_RetardedField bm (snt s) x = Ok f.
Proof.
  intros Sh Is I Px E. destruct (integrate_ok _ _ _ Sh E) as [K C].
  pose proof (inside_cell _ _ _ _ I) as IC. destruct (C (a, b) IC) as (tr & r & C0 & C1 & C2).
  assert (I1 : inside o1 (a, b, 0%Z)) by (eapply like_inside; eassumption).
  rewrite (get_cell o1 a b 0 I1), C2. cbn [bind]. cbn [cell_op fst snd] in C1. bget C1 as f Hf. okinj C1.
  exists f. split; [reflexivity|]. unfold snap_cell in Hf. rewrite <- Hf. f_equal.
  destruct Is as [I2 I3]. destruct I as (J1 & J2 & J3). cbn [extent] in *.
  cbn [cell_place] in Px. subst x. unfold snap_pos. rewrite !i32_id by (unfold int_min; lia).
  unfold nhalf. destruct (snO s), (sndX s), (sndY s). vunfold. unnum. vsplit; field.
Qed.

(* new screens *)
Lemma screen_timed (pos dx dy : vec R) nx ny t0 dt dtx dty nots s : (0 <= nx <= int_max)%Z -> (0 <= ny <= int_max)%Z -> (0 <= nots <= int_max)%Z ->
  screen_new pos dx dy nx ny t0 dt dtx dty nots = Ok s -> timed (OScreen s) /\ int_sized (OScreen s) /\ snd (extent (OScreen s)) = nots.
Proof.
  intros H1 H2 H3 E. destruct (screen_new_ok pos dx dy nx ny t0 dt dtx dty nots) as (s' & E' & Sh & S1 & S2 & S3 & S4 & S5 & S6 & S7 & S8 & S9 & S10 & C); try lia.
  rewrite E in E'. apply Ok_inj in E'. subst s'. split; [|split].
  - intros a b tr Ha Hb G. destruct (C a b ltac:(lia) ltac:(lia)) as (t & Ht & G'). rewrite G in G'. apply Ok_inj in G'. subst tr.
    cbn [cell_clock tr_t0 tr_dt tr_new]. split; [|congruence].
    destruct (centre_screen s a b) as [_ P2]; try lia. unfold screen_t0 in P2. rewrite S4, S5, S7, S9, S10 in P2. rewrite S4, S5, S7, S9, S10. rewrite P2 in Ht. apply Ok_inj in Ht. symmetry. exact Ht.
  - unfold int_sized, extent. lia.
  - cbn [extent snd]. exact S6.
Qed.
