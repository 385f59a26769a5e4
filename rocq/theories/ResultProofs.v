(* The files of the observers of the beam. *)
From Coq Require Import ZArith Reals List Lia Lra Bool.
From Coquelicot Require Import Coquelicot.
From Verif Require Import Base BaseFacts Num VecModel VecFacts ParticleModel ParticleSpec ParticleSpec2 ParticleProofs ParticleProofs2 VaySpec VayProofs VayTracking VayTracking2
  TraceModel RetardModel RetardSpec RetardProofs RetardProofs2 RetardProofs3 TraceIntSpec BunchModel BunchSpec BeamSpec DriverModel DriverSpec DriverProofs HybridProofs
  ElementModel FelModel ObserverModel ObserverSpec ObserverSpec2 ObserverProofs ObserverProofs2 ObserverProofs3 ObserverProofs4 ObserverProofs5 ObserverProofs6 PropSample RecordSpec RecordProofs
  ParserModel ParserSpec ParserSpec2 ProgramModel ProgramSpec ResultSpec.
Import ListNotations.
Local Open Scope R_scope.

(* ---- tracked particles ---- *)
Definition good_from (dt : R) (n : nat) (p q : particle R) : Prop :=
  tracked dt q /\ subluminal (trajectory q) /\ length (trajectory q) = S n /\ pCharge q = pCharge p /\ pMass q = pMass p /\
  (pt q = pt p + INR n * dt /\ forall k a, nth_error (trajectory q) k = Some a -> tpt a = pt p + INR k * dt) /\
  exists a, nth_error (trajectory q) 0 = Some (TP (pt p) (pX p) (pP p) a).

Lemma good_start dt F n (p q : particle R) :
  InitVay dt F (no_field (restarted n (current p) p)) = Ok q -> good_from dt 0 p q.
Proof.
  intros H. set (r := no_field (restarted n (current p) p)) in *.
  assert (W : wf r) by (unfold wf, r, no_field, restarted; cbn; lia).
  assert (S1 : subluminal (trajectory r)).
  { intros k x y Hx Hy. unfold r, no_field, restarted, trajectory in Hy. cbn in Hy. destruct k; discriminate. }
  destruct (InitVay_trajectory dt F r q W H) as (i & l & a & A & B & C & D & E & G & I).
  assert (T1 : trajectory r = [current p]) by reflexivity. rewrite T1 in A.
  destruct i as [|i0 i]; [|destruct i; discriminate]. injection A as <-.
  split; [exists r, q, F, []; repeat split; auto; apply W|]. split; [exact (setup_subluminal dt F r q W S1 H)|].
  split; [rewrite B; reflexivity|]. split; [exact E|]. split; [exact G|]. split.
  { pose proof (f_equal tpt C) as Q. cbn [current tpt] in Q. split; [rewrite Q; cbn [INR]; lra|].
    intros k b Hb. rewrite B in Hb. destruct k as [|k]; [|destruct k; discriminate Hb]. injection Hb as <-. cbn [tpt current INR]. lra. }
  exists a. rewrite B. reflexivity.
Qed.
Lemma good_next dt F n (p q q' : particle R) : 0 < dt -> good_from dt n p q -> StepVay F q = Ok q' -> good_from dt (S n) p q'.
Proof.
  intros Hd (T1 & S1 & L & E1 & E2 & (Et & Es) & a & N) H. pose proof (tracked_tstate dt q T1) as (Hw & _ & Ed & _ & _ & HN & Hsy).
  destruct (StepVay_trajectory F q q' Hw H) as (Htr & _ & _ & _ & _ & C & M & Q).
  assert (Q' : pt q' = pt p + INR (S n) * dt).
  { rewrite Q, Et, Ed, S_INR. change (pt p + INR n * dt + dt = pt p + (INR n + 1) * dt). ring. }
  split; [exact (tracked_step dt F q q' T1 H)|]. split; [|split; [|split; [|split; [|split]]]].
  - rewrite Htr. destruct (nth_last_app _ _ (synced_last q Hw Hsy ltac:(lia))) as [i Hi]. rewrite Hi in S1 |- *.
    apply subluminal_app; [exact S1|]. unfold slower_than_light, current. cbn [tpt tpx]. exact (step_subluminal dt F q q' Hd T1 H).
  - rewrite Htr, app_length, L. cbn [length]. lia.
  - congruence.
  - congruence.
  - split; [exact Q'|]. intros k b Hb. rewrite Htr in Hb. destruct (Nat.lt_ge_cases k (length (trajectory q))) as [Hk|Hk].
    + rewrite nth_error_app1 in Hb by exact Hk. exact (Es k b Hb).
    + rewrite nth_error_app2 in Hb by exact Hk. destruct (k - length (trajectory q))%nat as [|m] eqn:Ek; [|destruct m; discriminate Hb].
      assert (k = S n) by lia. subst k. injection Hb as <-. exact Q'.
  - exists a. rewrite Htr, nth_error_app1 by lia. exact N.
Qed.

Lemma restart_zip n : forall ps : list (particle R), zip_in (restarted n) (map current ps) ps = map (fun p => restarted n (current p) p) ps.
Proof. induction ps as [|p ps IH]; [reflexivity|]. cbn [map zip_in]. rewrite IH. reflexivity. Qed.
Lemma Forall2_comp {A B C} (P : A -> B -> Prop) (Q : B -> C -> Prop) (S : A -> C -> Prop) : (forall a b c, P a b -> Q b c -> S a c) ->
  forall l m k, Forall2 P l m -> Forall2 Q m k -> Forall2 S l k.
Proof.
  intros H l m k F. revert k. induction F; intros k G; inversion G; subst; constructor; eauto.
Qed.
Lemma Forall2_map_left {A B C} (P : B -> C -> Prop) (f : A -> B) : forall l m, Forall2 P (map f l) m -> Forall2 (fun a c => P (f a) c) l m.
Proof. induction l as [|a l IH]; intros m F; inversion F; subst; constructor; auto. Qed.

Lemma Forall2_imp {A B} (P Q : A -> B -> Prop) : (forall a b, P a b -> Q a b) -> forall l m, Forall2 P l m -> Forall2 Q l m.
Proof. intros H l m F. induction F; constructor; auto. Qed.

Section Sim.
Context {L : Type} (Fof : L -> field_fn R) (linit lstep : beam R -> L -> res L).
Lemma sim_good NOTS lat bm : 0 < bmdt bm -> forall k s, sim_run Fof linit lstep NOTS lat bm k = Ok s ->
  Forall2 (good_from (bmdt bm) k) (concat (bmB bm)) (sTracked s).
Proof.
  intros Hd. induction k as [|k IH]; intros s H.
  - unfold sim_run in H. bget H as s0 H0. cbn [iter_res] in H. okinj H. unfold sim_start in H0. cbv zeta in H0. destruct (bmTracker bm); try discriminate H0.
    bget H0 as tr Htr. bget H0 as l' Hl. okinj H0. cbn [sTracked]. cbn [bmB] in Htr. rewrite spread_concat in Htr by apply map_length.
    rewrite restart_zip in Htr. apply map_res_ok_iff in Htr. apply Forall2_map_left in Htr.
    revert Htr. apply Forall2_imp. intros p q Hq. eapply good_start. exact Hq.
  - unfold sim_run in H, IH. bget H as s0 H0. rewrite iter_res_S_r in H. bget H as s1 H1.
    assert (G : Forall2 (good_from (bmdt bm) k) (concat (bmB bm)) (sTracked s1)) by (apply IH; rewrite H0; exact H1).
    unfold sim_step in H. bget H as tr Htr. cbv zeta in H. bget H as l' Hl. okinj H. cbn [sTracked]. apply map_res_ok_iff in Htr.
    revert G Htr. apply Forall2_comp. intros p q q' Gq Hq. eapply good_next; eassumption.
Qed.
End Sim.

Lemma state_tracked {TT : Trans R} i s : 0 < bmdt (inBeam i) -> @state_at R NumR TT i (steps i) s -> tracked_from i (sTracked s).
Proof.
  intros Hd H. unfold state_at in H. pose proof (sim_good _ _ _ _ _ _ Hd _ _ H) as G. unfold tracked_from.
  revert G. apply Forall2_imp. intros p q (T1 & S1 & Ln & E1 & E2 & (_ & Es) & N). pose proof (tracked_tstate _ q T1) as (Hw & _). auto 10.
Qed.
Lemma from_sub i ps : tracked_from i ps -> forall p, In p ps -> wf p /\ subluminal (trajectory p).
Proof. intros F. induction F as [|p q l m H F IH]; [intros ? []|]. intros r [<-|Hr]; [tauto|auto]. Qed.

(* ---- the observers of a document ---- *)
Lemma component_in c : (0 <= c < 6)%Z -> In (component c) components.
Proof. intros H. unfold component. apply nth_In. cbn [components length]. lia. Qed.

Lemma inside_sizes (o : observer R) a b c : shaped o -> (6 * fields o <= int_max)%Z -> inside o (a, b, c) -> int_sized o /\ (snd (extent o) <= int_max)%Z.
Proof.
  intros Sh F I. unfold int_sized, fields, inside in *. destruct (extent o) as [[nx ny] n]. cbn [snd]. destruct I as (I1 & I2 & I3).
  assert (1 <= nx /\ 1 <= ny /\ 1 <= n)%Z by lia. assert (1 <= nx * ny)%Z by nia. assert (nx <= nx * ny)%Z by nia. assert (ny <= nx * ny)%Z by nia.
  assert (nx * ny <= nx * ny * n)%Z by nia. assert (n <= nx * ny * n)%Z by nia. lia.
Qed.

Lemma observed (o o' : observer R) ps dt0 : shaped o -> (6 * fields o <= int_max)%Z -> blank o -> (forall a b c, inside o (a, b, c) -> timed o) ->
  (match o with OSnap _ => False | _ => True end) ->
  (forall p, In p ps -> wf p /\ subluminal (trajectory p)) -> observable o ps ->
  obs_integrate (SBeam (BM [ps] 0 dt0 TRACKING_VAY)) o = Ok o' ->
  forall a b it, inside o (a, b, it) -> exists f, obs_get o' (a, b, it) = Ok f /\ forall c, (0 <= c < 6)%Z -> averaged o ps (a, b, it) c (component c f).
Proof.
  intros Sh F B Ti Ns Hp (Hn & Hr) E a b it I. destruct (inside_sizes o a b it Sh F I) as [Is Hs]. specialize (Ti _ _ _ I).
  assert (Bp : beam_ps (BM [ps] 0 dt0 TRACKING_VAY) = ps) by (unfold beam_ps; cbn [bmB concat]; apply app_nil_r).
  pose proof (inside_cell _ _ _ _ I) as IC. destruct (cell_ok o (a, b) Sh IC) as (tr & C0 & _).
  destruct (cell_beam o (BM [ps] 0 dt0 TRACKING_VAY) a b tr _ Sh Is Ti IC Ns C0 eq_refl) as (x & Px & Ck & Ly & Fy).
  destruct (Hr a b x _ _ IC Px Ck) as [Hd HR].
  destruct (recorded o o' (BM [ps] 0 dt0 TRACKING_VAY) a b it x _ _ Sh Is Ti B I Hn Px Ck Hd) as (f & G & Q); [rewrite Bp; exact Hp|rewrite Bp; exact HR|exact E|].
  exists f. split; [exact G|]. intros c Hc. exists x, (tr_t0 tr), (tr_dt tr). split; [exact Px|]. split; [exact Ck|]. split; [exact Hd|].
  specialize (Q _ (component_in c Hc)). rewrite Bp in Q. exact Q.
Qed.

(* ---- the observers described by a document ---- *)
Section Doc.
Context {TT : Trans R} {CT : Calc R} {W : World R}.
Lemma screen_from (e : cenv R) n o : (forall t, (int_min <= @cInt R CT t <= int_max)%Z) -> observer_described e n o -> (6 * fields o <= int_max)%Z ->
  forall a b c, inside o (a, b, c) -> timed o.
Proof.
  intros CI D F a b c I. destruct D as [| t p h v nh nv nt s Hn Ht Hnt Hp Hh Hnh Hv Hnv E | |]; try exact Logic.I.
  assert (Q : scNx s = u32 (cInt nh) /\ scNy s = u32 (cInt nv) /\ scN s = u32 (cInt nt)).
  { unfold screen_new in E. cbv zeta in E. bget E as tr Htr. okinj E. repeat split. }
  destruct Q as (Q1 & Q2 & Q3). unfold fields, inside, extent in F, I. destruct I as (I1 & I2 & I3).
  assert (1 <= scNx s /\ 1 <= scNy s /\ 1 <= scN s)%Z by lia.
  assert (1 <= scNx s * scNy s)%Z by nia. assert (scNx s <= scNx s * scNy s)%Z by nia. assert (scNy s <= scNx s * scNy s)%Z by nia.
  assert (scNx s * scNy s <= scNx s * scNy s * scN s)%Z by nia. assert (scN s <= scNx s * scNy s * scN s)%Z by nia.
  assert (K : forall t, (u32 (cInt t) <= int_max)%Z -> (0 <= @cInt R CT t <= int_max)%Z).
  { intros t0 Ht0. pose proof (CI t0) as J. split; [|lia]. destruct (Z_lt_le_dec (cInt t0) 0) as [Neg|]; [|assumption]. exfalso.
    unfold u32 in Ht0. rewrite <- (Z_mod_plus_full (cInt t0) 1 (2 ^ 32)), Z.mod_small in Ht0 by (unfold int_min in J; lia). unfold int_min, int_max in *; lia. }
  refine (proj1 (screen_timed _ _ _ _ _ _ _ _ _ _ _ (K nh _) (K nv _) (K nt _) E)); lia.
Qed.
Lemma observers_timed : forall (e : cenv R) l os, (forall t, (int_min <= @cInt R CT t <= int_max)%Z) -> observers_described e l os ->
  List.Forall (fun o => (6 * fields (fst (fst o)) <= int_max)%Z -> forall a b c, inside (fst (fst o)) (a, b, c) -> timed (fst (fst o))) os.
Proof.
  intros e l os CI D. induction D as [| |e n r o src fn os D1 D2 D3 D4 IH]; auto. constructor; [|exact IH]. cbn [fst]. eapply screen_from; eassumption.
Qed.
Lemma input_timed consts root i : (forall t, (int_min <= @cInt R CT t <= int_max)%Z) -> input_described consts root i ->
  List.Forall (fun o => (6 * fields (fst (fst o)) <= int_max)%Z -> forall a b c, inside (fst (fst o)) (a, b, c) -> timed (fst (fst o))) (inObs i).
Proof. intros CI H. destruct H. eapply observers_timed; eauto. Qed.
End Doc.
