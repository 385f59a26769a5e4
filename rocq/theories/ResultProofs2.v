(* The files written during the tracking. *)
From Coq Require Import ZArith String Reals List Lia Lra Bool.
From Verif Require Import Base BaseFacts Num VecModel VecFacts ParticleModel ParticleSpec ParticleProofs ParticleProofs2 VaySpec VayProofs VayTracking VayTracking2
  BunchModel BunchSpec BunchProofs BeamSpec DriverModel DriverSpec DriverProofs HybridProofs OutputModel OutputSpec ParserModel ProgramModel ProgramSpec ResultSpec ResultProofs ResultSpec2.
Import ListNotations.
Local Open Scope R_scope.

(* p has the coordinates of point j of the trajectory of q *)
Definition at_step (j : nat) (p q : particle R) : Prop :=
  exists a, nth_error (trajectory q) j = Some a /\ tpt a = pt p /\ tpx a = pX p /\ tpp a = pP p.

Lemma zip_current : forall (b tr : list (particle R)), length tr = length b ->
  Forall2 (fun p q => pt p = pt q /\ pX p = pX q /\ pP p = pP q) (zip_in append_point (map current tr) b) tr.
Proof.
  induction b as [|p b IH]; intros [|q tr] H; try discriminate H; [constructor|]. cbn [map zip_in]. constructor; [cbn; auto|]. apply IH. now injection H.
Qed.
Lemma Forall2_and {A B} (P Q : A -> B -> Prop) : forall l m, Forall2 P l m -> Forall2 Q l m -> Forall2 (fun a b => P a b /\ Q a b) l m.
Proof. intros l m F. induction F; intros G; inversion G; subst; constructor; auto. Qed.
Lemma Forall2_right {A B} (P : A -> B -> Prop) (Q : B -> Prop) l m : (forall a b, P a b -> Q b) -> Forall2 P l m -> List.Forall Q m.
Proof. intros H F. induction F; constructor; eauto. Qed.
Lemma Forall2_withr {A B} (P : A -> B -> Prop) (Q : B -> Prop) : forall l m, Forall2 P l m -> List.Forall Q m -> Forall2 (fun a b => P a b /\ Q b) l m.
Proof. intros l m F. induction F; intros G; constructor; [split; [assumption|exact (Forall_inv G)]|exact (IHF (Forall_inv_tail G))]. Qed.
Lemma Forall2_len {A B} (P : A -> B -> Prop) l m : Forall2 P l m -> length l = length m.
Proof. intros F. induction F; cbn [length]; congruence. Qed.

Section Sim.
Context {L : Type} (Fof : L -> field_fn R) (linit lstep : beam R -> L -> res L).
Lemma sim_master NOTS lat bm : 0 < bmdt bm -> forall k s, sim_run Fof linit lstep NOTS lat bm k = Ok s ->
  map (@length _) (bmB (sMaster s)) = map (@length _) (bmB bm) /\ Forall2 (at_step k) (concat (bmB (sMaster s))) (sTracked s).
Proof.
  intros Hd. induction k as [|k IH]; intros s H; pose proof (sim_good Fof linit lstep NOTS lat bm Hd _ s H) as G.
  - unfold sim_run in H. bget H as s0 H0. cbn [iter_res] in H. okinj H. unfold sim_start in H0. cbv zeta in H0. destruct (bmTracker bm); try discriminate H0.
    bget H0 as tr Htr. bget H0 as l' Hl. okinj H0. cbn [sTracked sMaster bmB] in *. split; [apply spread_length, map_length|].
    rewrite spread_concat by apply map_length. rewrite restart_zip. revert G. clear. intros G. induction G as [|p q l m Gq G IHG]; [constructor|].
    cbn [map]. constructor; [|exact IHG]. destruct Gq as (_ & _ & _ & _ & _ & _ & a & N). eexists. split; [exact N|]. repeat split.
  - unfold sim_run in H, IH. bget H as s0 H0. rewrite iter_res_S_r in H. bget H as s1 H1.
    destruct (IH s1) as [L1 F1]; [rewrite H0; exact H1|].
    assert (G1 : Forall2 (good_from (bmdt bm) k) (concat (bmB bm)) (sTracked s1)).
    { apply (sim_good Fof linit lstep NOTS lat bm Hd). unfold sim_run. rewrite H0. exact H1. }
    unfold sim_step in H. bget H as tr Htr. cbv zeta in H. bget H as l' Hl. okinj H. cbn [sTracked sMaster bmB] in *. apply map_res_ok_iff in Htr.
    pose proof (Forall2_len _ _ _ F1) as E1. pose proof (Forall2_len _ _ _ Htr) as E2.
    assert (E3 : length (map current tr) = length (concat (bmB (sMaster s1)))) by (rewrite map_length; congruence).
    split; [rewrite spread_length by exact E3; exact L1|]. rewrite spread_concat by exact E3.
    assert (Q : List.Forall (fun q => nth_error (trajectory q) (S k) = Some (current q)) tr).
    { refine (Forall2_right _ _ _ _ _ (Forall2_comp (good_from (bmdt bm) k) _ (fun p q' => nth_error (trajectory q') (S k) = Some (current q')) _ _ _ _ G1 Htr)); [auto|].
      intros p q q' (T1 & _ & Ln & _) Hq. pose proof (tracked_tstate _ q T1) as (Hw & _). destruct (StepVay_trajectory _ q q' Hw Hq) as (-> & _).
      rewrite nth_error_app2 by lia. rewrite Ln, Nat.sub_diag. reflexivity. }
    refine (Forall2_imp _ _ _ _ _ (Forall2_withr _ _ _ _ (zip_current (concat (bmB (sMaster s1))) tr ltac:(congruence)) Q)).
    intros p q ((X1 & X2 & X3) & N). exists (current q). split; [exact N|]. cbn [current tpt tpx tpp]. auto.
Qed.
Lemma sim_later NOTS lat bm : 0 < bmdt bm -> forall j k s s', (j <= k)%nat -> sim_run Fof linit lstep NOTS lat bm j = Ok s -> sim_run Fof linit lstep NOTS lat bm k = Ok s' ->
  Forall2 (at_step j) (concat (bmB (sMaster s))) (sTracked s').
Proof.
  intros Hd j k s s' Hjk Hj. revert s'. induction Hjk as [|k Hjk IH]; intros s' H.
  - rewrite Hj in H. okinj H. exact (proj2 (sim_master _ _ _ Hd _ _ Hj)).
  - unfold sim_run in H, IH. bget H as s0 H0. rewrite iter_res_S_r in H. bget H as s1 H1.
    assert (F1 : Forall2 (at_step j) (concat (bmB (sMaster s))) (sTracked s1)) by (apply IH; rewrite H0; exact H1).
    assert (G1 : Forall2 (good_from (bmdt bm) k) (concat (bmB bm)) (sTracked s1)).
    { apply (sim_good Fof linit lstep NOTS lat bm Hd). unfold sim_run. rewrite H0. exact H1. }
    assert (W1 : List.Forall (fun q => wf q) (sTracked s1)).
    { refine (Forall2_right _ _ _ _ _ G1). intros p q (T1 & _). exact (proj1 (tracked_tstate _ q T1)). }
    unfold sim_step in H. bget H as tr Htr. cbv zeta in H. bget H as l' Hl. okinj H. cbn [sTracked] in *. apply map_res_ok_iff in Htr.
    refine (Forall2_comp _ _ _ _ _ _ _ (Forall2_withr _ _ _ _ F1 W1) Htr). intros p q q' ((a & N & Ea) & Hw) Hq.
    exists a. split; [|exact Ea]. destruct (StepVay_trajectory _ q q' Hw Hq) as (-> & _). rewrite nth_error_app1; [exact N|]. apply nth_error_Some. congruence.
Qed.
End Sim.

(* bunches *)
Lemma firstn_app_l {A} (l m : list A) n : length l = n -> firstn n (l ++ m) = l /\ skipn n (l ++ m) = m.
Proof. intros <-. rewrite firstn_app, skipn_app, Nat.sub_diag, firstn_all, skipn_all. cbn. rewrite app_nil_r. auto. Qed.
Lemma regroup_nth {A B C} (P : A -> B -> Prop) : forall (bs0 : list (list C)) (bs : list (list A)) l ib b, map (@length _) bs = map (@length _) bs0 ->
  Forall2 P (concat bs) l -> nth_error bs ib = Some b -> exists qs, nth_error (regroup bs0 l) ib = Some qs /\ Forall2 P b qs.
Proof.
  induction bs0 as [|b0 bs0 IH]; intros bs l ib b E F N.
  - destruct bs; [|discriminate E]. destruct ib; discriminate N.
  - destruct bs as [|b1 bs]; [discriminate E|]. cbn [map] in E. injection E as E1 E2. cbn [concat] in F.
    apply Forall2_app_inv_l in F. destruct F as (l1 & l2 & F1 & F2 & ->). cbn [regroup].
    pose proof (Forall2_len _ _ _ F1) as Q. destruct (firstn_app_l l1 l2 (length b0) ltac:(congruence)) as [-> ->].
    destruct ib as [|ib]; cbn [nth_error] in *; [|exact (IH bs l2 ib b E2 F2 N)]. injection N as <-. eauto.
Qed.

(* averages of particles with the coordinates of points *)
Lemma at_points j : forall (b qs : list (particle R)), Forall2 (at_step j) b qs ->
  exists pts, points_at j qs pts /\ Forall2 (fun p a => tpt a = pt p /\ tpx a = pX p /\ tpp a = pP p) b pts.
Proof.
  intros b qs F. induction F as [|p q b qs (a & N & E) F (pts & P1 & P2)]; [exists []; split; constructor|].
  exists (a :: pts). split; constructor; assumption.
Qed.
Lemma map_points {A} (f : particle R -> A) (g : tpoint R -> A) : (forall p a, tpt a = pt p /\ tpx a = pX p /\ tpp a = pP p -> f p = g a) ->
  forall b pts, Forall2 (fun p a => tpt a = pt p /\ tpx a = pX p /\ tpp a = pP p) b pts -> map f b = map g pts.
Proof. intros H b pts F. induction F; [reflexivity|]. cbn [map]. f_equal; auto. Qed.
