(* Input read with different random numbers; particles of an input file. *)
From Coq Require Import ZArith String List Bool Reals Lra Lia.
From Verif Require Import Base BaseFacts Num VecModel VecFacts ParticleModel TraceModel BunchModel DriverModel LoggerModel
  ElementModel FelModel ObserverModel ParserModel ParserSpec ParserSpec2 ParserProofs ParserProofs2 ParserProofs3 ParserProofs4 ParserProofs5
  FelProofs2 TraceProofs2 RetardProofs.
Import ListNotations.

Section Ranks.
Context {T : Type} {NT : Num T} {TT : Trans T} {CT : Calc T}.
Variables W1 W2 : World T.
Hypothesis HW : same_files W1 W2.

Lemma element_rank : forall e n el, @element_described T NT CT W1 e n el -> @element_described T NT CT W2 e n el.
Proof.
  intros e n el H; destruct H.
  - now apply D_planar.
  - now apply D_tgu.
  - now apply D_wave.
  - now apply D_packet.
  - eapply D_screen; eauto. destruct HW as (_ & A & _). now rewrite <- A.
  - now apply D_hard.
  - now apply D_soft.
  - now apply D_background.
Qed.
Lemma lattice_rank : forall e l els, @lattice_described T NT CT W1 e l els -> @lattice_described T NT CT W2 e l els.
Proof. intros e l els H; induction H; [apply DL_nil|now apply DL_calc|apply DL_element; auto using element_rank]. Qed.
Lemma observer_rank : forall e n o, @observer_described T NT CT W1 e n o -> @observer_described T NT CT W2 e n o.
Proof.
  intros e n o H; destruct H.
  - now apply DO_snapshot.
  - eapply DO_screen; eauto.
  - eapply DO_mesh; eauto. destruct HW as (_ & _ & A). now rewrite <- A.
  - now apply DO_point.
Qed.
Lemma observers_rank : forall e l os, @observers_described T NT CT W1 e l os -> @observers_described T NT CT W2 e l os.
Proof. intros e l os H; induction H; [apply DV_nil|now apply DV_calc|apply DV_observer; auto using observer_rank]. Qed.

Lemma starts_kind : forall p q : particle T, forall c m t x y x' y', starts p c m t x y -> starts q c m t x' y' -> same_kind p q.
Proof. unfold starts; intros p q c m t x y x' y' -> ->; repeat split. Qed.
Lemma traj_length : forall n ib (b b' : bunch T) l, length b = length b' -> traj_described n ib b l -> traj_described n ib b' l.
Proof.
  intros n ib b b' l H D; destruct D as [E|t fn E F]; [now apply DT_none|].
  replace (tlog_new b (int_attr t "step" 1) (int_attr t "particles" 1000000)) with (tlog_new b' (int_attr t "step" 1) (int_attr t "particles" 1000000)).
  - now apply DT_some.
  - unfold tlog_new, bunch_NOP; now rewrite H.
Qed.
Lemma Forall2_refl_kind : forall b : bunch T, Forall2 same_kind b b.
Proof. induction b; constructor; auto; repeat split. Qed.
Lemma bunch_rank : forall i ib e n bu lo, @bunch_described T NT CT W1 i ib e n bu lo ->
  exists bu', @bunch_described T NT CT W2 i ib e n bu' lo /\ Forall2 same_kind bu bu'.
Proof.
  intros i ib e n bu lo H. destruct H as [e1 pn mn t0 p logs q N E1 P M T0 Q gamma St L|et ep em pn mn t0 q N cors bu logs trj Nn Et Ep1 Ep2 Em1 Em2 Et0 Eq EN HN gamma bg Dc Lb Pb Dl Dt|e1 fn dir b0 cors bu logs Nn E1 Ef Ed Ew Dc Fc Dl].
  - exists [p]. split; [eapply DB_particle; eauto|apply Forall2_refl_kind].
  - set (cc := fun k : nat => fold_left correlate_coord cors
          (@drawn T NT W2 i bg (opt_attr ep pn "xrms") (opt_attr ep pn "yrms") (opt_attr ep pn "zrms") (opt_attr ep pn "zft")
             (opt_attr em mn "xrms") (opt_attr em mn "yrms") (opt_attr em mn "delta") (Z.of_nat k))).
    set (mk := fun k : nat => initTrajectory (nadd t0 (nZ 0)) (vadd (vec_attr ep pn) (V (cc k 0%Z) (cc k 1%Z) (cc k 2%Z)))
          (vadd (vmul (vnormalize (vec_attr em mn)) bg) (V (cc k 3%Z) (cc k 4%Z) (cc k 5%Z))) vzero
          (new_particle (ndiv q (nZ N)) (ndiv (ndiv q (num_attr e n "cmr")) (nZ N)))).
    exists (map mk (seq 0 (Z.to_nat N))).
    assert (L2 : length (map mk (seq 0 (Z.to_nat N))) = Z.to_nat N) by now rewrite map_length, seq_length.
    assert (N2 : forall k p, nth_error (map mk (seq 0 (Z.to_nat N))) k = Some p -> p = mk k).
    { intros k p K. assert (B : (k < Z.to_nat N)%nat) by (rewrite <- L2; apply nth_error_Some; congruence).
      rewrite nth_error_map, (nth_error_nth' _ O), seq_nth in K by (rewrite ?seq_length; exact B). cbn in K; congruence. }
    split.
    + eapply DB_bunch with (N := N); eauto.
      * intros k p K. exists (cc k). split; [reflexivity|]. rewrite (N2 k p K). reflexivity.
      * eapply traj_length; [|exact Dt]. congruence.
    + clear -Lb L2 Pb N2.
      assert (G : forall (a b : bunch T) (P Q : nat -> particle T -> Prop), length a = length b ->
         (forall k p, nth_error a k = Some p -> P k p) -> (forall k p, nth_error b k = Some p -> Q k p) ->
         (forall k p p', P k p -> Q k p' -> same_kind p p') -> Forall2 same_kind a b).
      { induction a as [|p a IH]; intros [|p' b] P Q L A B C; try discriminate; constructor.
        - apply (C O); [apply A|apply B]; reflexivity.
        - apply (IH b (fun k => P (S k)) (fun k => Q (S k))); [cbn in L; lia| | |].
          + intros k x K; now apply (A (S k)).
          + intros k x K; now apply (B (S k)).
          + intros k x y; apply (C (S k)). }
      refine (G _ _ _ _ _ Pb N2 _); [congruence|]. intros k p p' (c & _ & St) ->. eapply starts_kind; [exact St|reflexivity].
  - exists bu. split; [|apply Forall2_refl_kind]. eapply DB_sdds; eauto. destruct HW as (A & _). now rewrite <- A.
Qed.
Lemma beam_rank : forall i ib e l bs ls pr, @beam_described T NT CT W1 i ib e l bs ls pr ->
  exists bs', @beam_described T NT CT W2 i ib e l bs' ls pr /\ Forall2 (Forall2 same_kind) bs bs'.
Proof.
  intros i ib e l bs ls pr H; induction H as [i ib e|i ib e m r' bs ls pr N D IH|i ib e m r' bu lo bs ls pr B D IH|i ib e m r' fn bs ls pr N F D IH].
  - exists []; split; [constructor|constructor].
  - destruct IH as (bs' & A & C). exists bs'; split; [now apply DN_calc|exact C].
  - destruct IH as (bs' & A & C). destruct (bunch_rank _ _ _ _ _ _ B) as (bu' & A' & C').
    exists (bu' :: bs'); split; [now apply DN_bunch|now constructor].
  - destruct IH as (bs' & A & C). exists bs'; split; [now apply DN_probe|exact C].
Qed.
Lemma input_rank : forall consts root pin, @input_described T NT TT CT W1 consts root pin ->
  exists pin', @input_described T NT TT CT W2 consts root pin' /\ same_but_coordinates pin pin'.
Proof.
  intros consts root pin H.
  destruct H as [e0 e1 e2 e3 l b t o els bs ls pr ts tn dt N ws fs os L B Tn O X0 X1 X2 X3 DL DB M Dt Edt Nt IN DT DO].
  destruct (beam_rank _ _ _ _ _ _ _ DB) as (bs' & DB' & F).
  eexists; split.
  - eapply DI_; eauto using lattice_rank, observers_rank.
  - unfold same_but_coordinates; cbn [inLattice inLogs inProbe inWatch inFel inObs inBeam bmNOTS bmdt bmTracker bmB]. repeat (split; [reflexivity|]). exact F.
Qed.
End Ranks.

(* one value only *)
Lemma input_unique : forall (T : Type) (NT : Num T) (TT : Trans T) (CT : Calc T) (WT : World T) consts root a b,
  input_described consts root a -> input_described consts root b -> a = b.
Proof. intros T NT TT CT WT consts root a b H1 H2. apply input_iff in H1, H2. destruct H1 as [s1 H1], H2 as [s2 H2]. congruence. Qed.

(* the interactions have the time step of the beam if there are no definitions in <tracking> *)
Lemma tracking_same_step : forall (T : Type) (NT : Num T) (TT : Trans T) (CT : Calc T) ts e l ws fs,
  tracking_described ts e l ws fs -> filter is_def (flat_map visit_tracking l) = [] ->
  Forall (fun f => feDt f = text_value e ts) fs.
Proof.
  intros T NT TT CT ts e l ws fs H; induction H as [e|e m r' ws fs N D IH|e m r' f ws fs F D IH|e m r' st z fn ws fs N S I G D IH|e m r' st z fn ws fs N S I G D IH];
    intros E; cbn [flat_map] in E; rewrite ?filter_app in E; try (apply app_eq_nil in E; destruct E as [E1 E2]); auto.
  - unfold visit_tracking in E1; rewrite (proj2 (calc_name m) N) in E1. unfold after in IH; rewrite E1 in IH. auto.
  - assert (N : nName m = "fel1d"%string) by (inversion F; auto).
    unfold visit_tracking in E1; rewrite (not_calc m _ N eq_refl), N in E1; cbn [String.eqb Ascii.eqb Bool.eqb] in E1.
    unfold after in IH, F; rewrite E1 in IH, F; cbn [seq_env] in IH, F. constructor; [|auto].
    inversion F; subst. assert (NM : (N0 <= int_max)%Z).
    { match goal with K : int_text _ _ _ |- _ => unfold int_text in K; destruct (cEval _ _); [lia|subst; unfold int_max; lia] end. }
    match goal with K : fel_new _ _ _ _ _ _ _ _ _ _ = Ok _ |- _ => apply new_wf in K; [|exact NM]; decompose [and] K; assumption end.
Qed.
