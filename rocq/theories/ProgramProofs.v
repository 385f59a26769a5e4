(* The loggers and watch files of a run, all at once. *)
From Coq Require Import ZArith String List Bool Lia Arith.
From Verif Require Import Base BaseFacts Num VecModel ParticleModel ParticleSpec BunchModel BunchSpec BeamSpec BeamProofs
  DriverModel DriverSpec DriverProofs DriverProofs2 DriverProofs3 ObserverProofs3 ObserverProofs5 ProbeProofs
  LoggerModel LoggerSpec LoggerProofs LoggerProofs2 LoggerProofs3 LoggerProofs4.
Import ListNotations.
Local Open Scope list_scope.
Local Open Scope res_scope.
Local Open Scope nat_scope.

Section P.
Context {T : Type} {NT : Num T} (absBF : bunch T -> T -> T).
Context {L : Type} (Fof : L -> field_fn T) (linit lstep : beam T -> L -> res L).
Context {W : Type}.
Variables (NOTS : Z) (lat : L) (bm0 : beam T) (bms : list (beam T)) (k : nat).
Hypothesis V : valid_run NOTS bm0 bms k.
Notation P := (Z.of_nat (length bms)).
Notation lrun := (@logged_run T NT absBF L Fof linit lstep W P NOTS lat bms).
Notation drun := (driver_run Fof linit lstep P NOTS lat bms).
Notation srun := (sim_run Fof linit lstep NOTS lat bm0).

(* the state of a logger after the run *)
Definition log_result (l l' : logger T) : Prop :=
  match l with
  | LPar ib p => exists i bs, ib = Z.of_nat i /\ Forall2 (bunch_in_step Fof linit lstep NOTS lat bm0 i) (due (Z.to_nat (plStep p)) k) bs /\
      l' = LPar ib (fold_left (fun l b => plog_update absBF b l) bs p)
  | LTraj ib p => exists i bs, ib = Z.of_nat i /\ Forall2 (bunch_in_step Fof linit lstep NOTS lat bm0 i) (due (Z.to_nat (blStep p)) k) bs /\
      l' = LTraj ib (blog_of (blStep p) (blNOP p) 6 (map (coordinates (Z.to_nat (blNOP p))) bs)) /\
      Forall (fun b => Z.to_nat (blNOP p) <= length b) bs /\ (0 <= 6 * blNOP p < 2 ^ 32)%Z
  | LProbe p => exists pss, Forall2 (tracked_in_step Fof linit lstep NOTS lat bm0) (due (Z.to_nat (blStep p)) k) pss /\
      l' = LProbe (blog_of (blStep p) (blNOP p) 16 (map (probe_values (Z.to_nat (blNOP p))) pss)) /\
      Forall (fun ps => Z.to_nat (blNOP p) <= length ps) pss /\ (0 <= 16 * blNOP p < 2 ^ 32)%Z
  end.

Definition due_watches (ws : list (Z * W)) (n : nat) : list (nat * W) :=
  flat_map (fun j => map (fun w => (j, snd w)) (filter (fun w => (fst w =? Z.of_nat j)%Z) ws)) (seq 0 (S n)).

Lemma watch_order (ws : list (Z * W)) n : (Z.of_nat n <= NOTS)%Z -> forall fs, watch_files Fof linit lstep P NOTS lat bms ws n = Ok fs ->
  Forall2 (fun jw f => fst f = snd jw /\ master_in_step Fof linit lstep NOTS lat bm0 (fst jw) (snd f)) (due_watches ws n) fs.
Proof.
  destruct V as (HH & HF & H1 & H2 & HN & Hk).
  induction n as [|n IH]; intros Hn fs H; cbn [watch_files] in H.
  - cbn [bind] in H. pose proof (node0 Fof linit lstep NOTS lat bm0 bms HH HF H1 H2 HN 0 Hn) as A.
    destruct (drun 0) as [ns| | |]; try discriminate. cbn [bind] in H. destruct A as (s & nd & A1 & A2 & A3 & A4). rewrite A2 in H. cbn [bind] in H.
    apply Ok_inj in H. subst fs. cbn [app]. unfold due_watches. cbn [seq flat_map]. rewrite app_nil_r.
    clear -A1 A3. induction (filter _ ws) as [|w l IHl]; cbn [map]; constructor; [|exact IHl]. split; [reflexivity|]. exists s. split; [exact A1|]. cbn [fst snd]. congruence.
  - destruct (watch_files Fof linit lstep P NOTS lat bms ws n) as [prev| | |] eqn:E; try discriminate. cbn [bind] in H.
    specialize (IH ltac:(lia) prev eq_refl). pose proof (node0 Fof linit lstep NOTS lat bm0 bms HH HF H1 H2 HN (S n) Hn) as A.
    destruct (drun (S n)) as [ns| | |]; try discriminate. cbn [bind] in H. destruct A as (s & nd & A1 & A2 & A3 & A4). rewrite A2 in H. cbn [bind] in H.
    apply Ok_inj in H. subst fs.
    assert (D : due_watches ws (S n) = due_watches ws n ++ map (fun w => (S n, snd w)) (filter (fun w => (fst w =? Z.of_nat (S n))%Z) ws)).
    { unfold due_watches. rewrite (seq_S (S n)), flat_map_app. cbn [flat_map]. rewrite app_nil_r. reflexivity. }
    rewrite D. apply Forall2_app; [exact IH|].
    clear -A1 A3. induction (filter _ ws) as [|w l IHl]; cbn [map]; constructor; [|exact IHl]. split; [reflexivity|]. exists s. split; [exact A1|]. cbn [fst snd]. congruence.
Qed.

Lemma in_steps s0 ib (bs : list (bunch T)) steps ss : Forall2 (fun j s => srun j = Ok s) steps ss ->
  nth_error (bmB bm0) ib = Some s0 ->
  Forall2 (fun s b => nth_error (bmB (sMaster s)) ib = Some b) ss bs -> Forall (fun b => length b = length s0) bs.
Proof.
  destruct V as (HH & HF & H1 & H2 & HN & Hk). intros A N B. revert steps A. induction B as [|s b ss bs H B IH]; intros steps A; [constructor|].
  inversion A as [|j x l l' Hj A' X Y]; subst. constructor; [|eapply IH; eauto].
  destruct (sim_lens Fof linit lstep NOTS lat bm0 j s Hj) as (SL & _).
  destruct (same_lens bm0 s ib s0 SL N) as (b' & N' & L'). congruence.
Qed.

Lemma due_count s : (Z.of_nat (length (due s k)) < 2 ^ 32)%Z.
Proof. destruct V as (_ & _ & _ & _ & HN & Hk). apply due_short. lia. Qed.

Lemma tracked_steps st ss : Forall2 (fun j s => srun j = Ok s) st ss ->
  Forall2 (tracked_in_step Fof linit lstep NOTS lat bm0) st (map (fun s => sTracked s) ss).
Proof. intros H; induction H; cbn [map]; constructor; auto. eexists; eauto. Qed.
Lemma tracked_lens st ss : Forall2 (fun j s => srun j = Ok s) st ss -> Forall (fun s => length (sTracked s) = length (concat (bmB bm0))) ss.
Proof. intros H; induction H as [|j s l l' H S1 IH]; constructor; auto. exact (proj2 (sim_lens Fof linit lstep NOTS lat bm0 j s H)). Qed.

Lemma feed_result l l' : created bm0 P l -> feed absBF Fof linit lstep P NOTS lat bms (due (Z.to_nat (logger_step l)) k) l = Ok l' -> log_result l l'.
Proof.
  intros C H. assert (G : good bm0 bms l) by (eapply created_good; eauto).
  pose proof V as (HH & HF & H1 & H2 & HN & Hk).
  assert (DB := due_bound NOTS (Z.to_nat (logger_step l)) k Hk).
  destruct (feed_spec absBF Fof linit lstep NOTS lat bm0 bms HH HF H1 H2 HN _ DB _ _ G H) as (ss & S1 & S2 & S3).
  destruct l as [ib p|ib p|p]; destruct l' as [ib' p'|ib' p'|p']; try contradiction; cbn [log_result logger_step] in *.
  - destruct S3 as (-> & bs & S3 & ->). destruct G as (j & b0 & -> & _). rewrite Nat2Z.id in S3.
    exists j, bs. split; [reflexivity|]. split; [exact (bunches_in Fof linit lstep _ _ _ _ _ _ _ S1 S3)|]. reflexivity.
  - destruct S3 as (-> & bs & S3 & Hp). destruct G as (j & b0 & step & nop & vals & -> & N0 & E & Hst & Hnop & Hlen).
    specialize (Hp _ _ _ E). rewrite Nat2Z.id in S3. destruct C as (i2 & b & st & nu & _ & _ & E2 & _).
    assert (vals = []) by (rewrite E2 in E; unfold tlog_new, blog_with in E; inversion E as [[X1 X2 X3 X4]]; destruct vals; [reflexivity|discriminate]).
    subst vals. assert (Ep : p = blog_with step nop 6 []) by exact E. clear E E2.
    exists j, bs. split; [reflexivity|]. split; [exact (bunches_in Fof linit lstep _ _ _ _ _ _ _ S1 S3)|].
    rewrite Ep. cbn [blog_with blStep blNOP]. split; [|split; [|exact Hnop]].
    + f_equal. rewrite Hp. cbn [app]. apply blog_with_of. rewrite map_length.
      assert (LL : length (due (Z.to_nat (blStep p)) k) = length bs) by (rewrite (forall2_length _ _ _ S1); exact (forall2_length _ _ _ S3)).
      exact (eq_ind _ (fun n => (Z.of_nat n < 2 ^ 32)%Z) (due_count _) _ LL).
    + pose proof (in_steps _ _ _ _ _ S1 N0 S3) as F. eapply Forall_impl; [|exact F]. intros b' Hb. cbn beta in Hb. lia.
  - destruct G as (step & nop & vals & E & Hst & Hnop & Hlen). specialize (S3 _ _ _ E).
    destruct C as (tb & st & nu & E2 & _). assert (vals = []).
    { unfold prlog_new in E2. destruct (beam_NOP tb); try discriminate. cbn [bind] in E2. apply Ok_inj in E2. rewrite <- E2 in E. unfold blog_with in E.
      inversion E as [[X1 X2 X3 X4]]; destruct vals; [reflexivity|discriminate]. }
    subst vals. clear E2 tb st nu. subst p. cbn [blog_with blStep blNOP].
    exists (map (fun s => sTracked s) ss). split; [|split; [|split]].
    + exact (tracked_steps _ _ S1).
    + f_equal. rewrite S3. cbn [app]. rewrite map_map. apply blog_with_of. rewrite map_length, <- (forall2_length _ _ _ S1). apply due_count.
    + apply Forall_map. eapply Forall_impl; [|exact (tracked_lens _ _ S1)]. intros s SL. cbn beta in SL. lia.
    + unfold probeNOD in Hnop. exact Hnop.
Qed.

Lemma logged_all ls ws ns ls' fs : Forall (created bm0 P) ls -> lrun ls ws k = Ok (ns, (ls', fs)) ->
  exists s n0, srun k = Ok s /\ drun k = Ok ns /\ first_node ns = Ok n0 /\ nMaster n0 = sMaster s /\ nLat n0 = sLat s /\
    Forall2 log_result ls ls' /\
    Forall2 (fun jw f => fst f = snd jw /\ master_in_step Fof linit lstep NOTS lat bm0 (fst jw) (snd f)) (due_watches ws k) fs.
Proof.
  intros HC H. pose proof V as (HH & HF & H1 & H2 & HN & Hk). unfold int_max in HN.
  assert (HP : Forall (fun l => (0 < logger_step l)%Z) ls).
  { eapply Forall_impl; [|exact HC]. intros l C. eapply good_step. eapply created_good; eauto. }
  destruct (logged_run_inv absBF Fof linit lstep P NOTS lat bms ls ws HP k ns ls' fs ltac:(lia) H) as (A & B & C).
  pose proof (driver_run_ok Fof linit lstep NOTS lat bm0 bms (length bms) _ k eq_refl HH HF H1 H2 HN Hk eq_refl) as D.
  rewrite A in D. destruct (srun k) as [s| | |] eqn:ES; cbn in D; try contradiction.
  assert (HN' : (0 <= NOTS < int_max)%Z) by (unfold int_max; lia).
  pose proof (node0 Fof linit lstep NOTS lat bm0 bms HH HF H1 H2 HN' k Hk) as N0. rewrite A in N0. destruct N0 as (s' & n0 & E1 & E2 & E3 & _).
  exists s, n0. split; [reflexivity|]. split; [exact A|]. split; [exact E2|]. assert (s' = s) by congruence. subst s'. split; [exact E3|].
  split. { destruct ns as [|nd ns]; [discriminate|]. cbn in E2. apply Ok_inj in E2. subst nd. destruct D as (D & _). inversion D; subst. tauto. }
  split; [|apply watch_order; assumption].
  clear -B HC V. revert HC. induction B as [|l l' ls ls'' [_ F] B IH]; intros HC; [constructor|]. inversion HC; subst. constructor; [|auto].
  apply feed_result; [assumption|exact F].
Qed.

Lemma logged_exists ls ws s : Forall (created bm0 P) ls -> srun k = Ok s -> exists ns ls' fs, lrun ls ws k = Ok (ns, (ls', fs)).
Proof.
  intros HC Hs. pose proof V as (HH & HF & H1 & H2 & HN & Hk).
  assert (HG : Forall (good bm0 bms) ls) by (eapply Forall_impl; [|exact HC]; intros; eapply created_good; eauto).
  pose proof (run_same absBF Fof linit lstep NOTS lat bm0 bms HH HF H1 H2 HN ls ws k HG Hk) as A. rewrite Hs in A.
  destruct A as (ns & ls' & fs & _ & A). eauto.
Qed.
End P.
