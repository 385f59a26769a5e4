From Coq Require Import ZArith List Bool Lia Arith.
From Verif Require Import Base BaseFacts Num VecModel ParticleModel ParticleSpec BunchModel BunchSpec BeamSpec BeamProofs
  DriverModel DriverSpec DriverProofs DriverProofs2 DriverProofs3 ObserverProofs3 ObserverProofs5 ProbeProofs
  LoggerModel LoggerSpec LoggerProofs LoggerProofs2 LoggerProofs3.
Import ListNotations.
Local Open Scope res_scope.
Local Open Scope nat_scope.

Lemma u32_pos z : (int_min <= z <= int_max)%Z -> z <> 0%Z -> (0 < u32 z)%Z.
Proof.
  unfold int_min, int_max, u32. intros H N. destruct (Z.le_gt_cases 0 z).
  - rewrite Z.mod_small; lia.
  - rewrite <- (Z.mod_add z 1) by lia. rewrite Z.mod_small; lia.
Qed.
Lemma u32_id z : (0 <= z < 2 ^ 32)%Z -> u32 z = z.
Proof. apply Z.mod_small. Qed.

Section P.
Context {T : Type} {NT : Num T} (absBF : bunch T -> T -> T).
Context {L : Type} (Fof : L -> field_fn T) (linit lstep : beam T -> L -> res L).
Context {W : Type}.

(* the loggers the program can create with step widths other than 0 *)
Definition created (bm0 : beam T) (P : Z) (l : logger T) : Prop :=
  match l with
  | LPar ib p => exists i step freq, ib = Z.of_nat i /\ i < length (bmB bm0) /\ p = plog_new step freq /\
      (int_min <= step <= int_max)%Z /\ step <> 0%Z
  | LTraj ib p => exists i b step number, ib = Z.of_nat i /\ nth_error (bmB bm0) i = Some b /\ p = tlog_new b step number /\
      (int_min <= step <= int_max)%Z /\ step <> 0%Z
  | LProbe p => exists tb step number, prlog_new tb step number = Ok p /\ count tb = first_share bm0 P /\
      (int_min <= step <= int_max)%Z /\ step <> 0%Z
  end.

Lemma nth_concat_len {A} (bs : list (list A)) : forall i b, nth_error bs i = Some b -> length b <= length (concat bs).
Proof.
  induction bs as [|c bs IH]; intros [|i] b H; try discriminate; cbn in *; rewrite app_length.
  - injection H as <-. lia.
  - specialize (IH i b H). lia.
Qed.

Lemma count_small NOTS (bm0 : beam T) bms k : valid_run NOTS bm0 bms k -> (10 * count bm0 <= int_max)%Z /\ (1 <= length bms) /\
  (0 <= share (count bm0) (Z.of_nat (length bms)))%Z.
Proof.
  intros (HH & _ & H1 & H2 & _). assert (1 <= length bms) by (destruct bms; [discriminate|cbn; lia]).
  destruct (share_bounds (count bm0) (Z.of_nat (length bms))) as (A & B & C); [unfold count; lia|lia|]. split; [lia|auto].
Qed.

Lemma created_good NOTS bm0 bms k l : valid_run NOTS bm0 bms k -> created bm0 (Z.of_nat (length bms)) l -> good bm0 bms l.
Proof.
  intros V. destruct (count_small _ _ _ _ V) as (HC & HP & HS). unfold int_max in HC.
  destruct l as [ib p|ib p|p]; cbn [created good].
  - intros (i & step & freq & -> & Hi & -> & Hs & N). destruct (nth_error (bmB bm0) i) as [b0|] eqn:E; [|apply nth_error_None in E; lia].
    exists i, b0. repeat split; auto. cbn [plog_new plStep]. apply u32_pos; assumption.
  - intros (i & b & step & number & -> & E & -> & Hs & N). pose proof (nth_concat_len _ _ _ E) as HL.
    unfold count in HC. unfold tlog_new, bunch_NOP.
    rewrite (u32_id (Z.of_nat (length b))) by lia. pose proof (Z.mod_pos_bound number (2 ^ 32) ltac:(lia)) as B. fold (u32 number) in B.
    exists i, b, (u32 step), (Z.min (Z.of_nat (length b)) (u32 number)), []. repeat split; auto.
    + apply u32_pos; assumption.
    + lia.
    + lia.
    + lia.
  - intros (tb & step & number & E & Ec & Hs & N). unfold prlog_new in E.
    destruct (beam_NOP tb) as [n| | |] eqn:EN; try discriminate. cbn [bind] in E. apply Ok_inj in E. subst p.
    apply beam_NOP_inv in EN. subst n. rewrite Ec. unfold first_share.
    pose proof (Z.mod_pos_bound number (2 ^ 32) ltac:(lia)) as B. fold (u32 number) in B.
    set (sh := share (count bm0) (Z.of_nat (length bms))) in *. assert (C0 : (0 <= count bm0)%Z) by (unfold count; lia).
    rewrite (u32_id (Z.min sh (count bm0))) by lia.
    exists (u32 step), (Z.min (Z.min sh (count bm0)) (u32 number)), []. unfold probeNOD. repeat split; auto.
    + apply u32_pos; assumption.
    + lia.
    + lia.
    + unfold perNode. fold sh. unfold count. lia.
Qed.

Notation lrun bms NOTS lat := (@logged_run T NT absBF L Fof linit lstep W (Z.of_nat (length bms)) NOTS lat bms).
Notation drun bms NOTS lat := (driver_run Fof linit lstep (Z.of_nat (length bms)) NOTS lat bms).

Lemma logging_harmless NOTS lat bm0 bms k ls ws : valid_run NOTS bm0 bms k ->
  Forall (created bm0 (Z.of_nat (length bms))) ls ->
  match lrun bms NOTS lat ls ws k with
  | Ok s => drun bms NOTS lat k = Ok (fst s)
  | Throw e => drun bms NOTS lat k = Throw e
  | UB => drun bms NOTS lat k = UB
  | Loop => drun bms NOTS lat k = Loop
  end.
Proof.
  intros V HC. assert (HG : Forall (good bm0 bms) ls) by (eapply Forall_impl; [|exact HC]; intros; eapply created_good; eauto).
  destruct V as (HH & HF & H1 & H2 & HN & Hk).
  pose proof (run_same absBF Fof linit lstep NOTS lat bm0 bms HH HF H1 H2 HN ls ws k HG Hk) as A.
  pose proof (node0 Fof linit lstep NOTS lat bm0 bms HH HF H1 H2 HN k Hk) as B.
  destruct (sim_run _ _ _ _ _ _ _) as [s| | |] eqn:ES.
  - destruct A as (ns & ls' & fs & A1 & A2). rewrite A2. exact A1.
  - rewrite A. destruct (drun bms NOTS lat k); try discriminate; [destruct B as (? & ? & B & _); discriminate|congruence].
  - rewrite A. destruct (drun bms NOTS lat k); try discriminate; auto. destruct B as (? & ? & B & _); discriminate.
  - rewrite A. destruct (drun bms NOTS lat k); try discriminate; auto. destruct B as (? & ? & B & _); discriminate.
Qed.

(* the sequences of the states *)
Lemma forall2_compose {A B C} (R : A -> B -> Prop) (S : B -> C -> Prop) l m n : Forall2 R l m -> Forall2 S m n ->
  Forall2 (fun a c => exists b, R a b /\ S b c) l n.
Proof. intros H. revert n. induction H; intros k H2; inversion H2; subst; constructor; eauto. Qed.

Lemma logger_run NOTS lat bm0 bms k ls ws s i l : valid_run NOTS bm0 bms k ->
  Forall (created bm0 (Z.of_nat (length bms))) ls -> nth_error ls i = Some l ->
  sim_run Fof linit lstep NOTS lat bm0 k = Ok s ->
  exists ns ls' fs l', lrun bms NOTS lat ls ws k = Ok (ns, (ls', fs)) /\ nth_error ls' i = Some l' /\
    feed absBF Fof linit lstep (Z.of_nat (length bms)) NOTS lat bms (due (Z.to_nat (logger_step l)) k) l = Ok l' /\ good bm0 bms l.
Proof.
  intros V HC Hi Hs. assert (HG : Forall (good bm0 bms) ls) by (eapply Forall_impl; [|exact HC]; intros; eapply created_good; eauto).
  assert (Hg : good bm0 bms l) by (rewrite Forall_forall in HG; apply HG; apply (nth_error_In _ _ Hi)).
  destruct V as (HH & HF & H1 & H2 & HN & Hk).
  destruct (run_logger absBF Fof linit lstep NOTS lat bm0 bms HH HF H1 H2 HN ls ws k s i l HG Hk Hs Hi) as (ns & ls' & fs & l' & A & B & C).
  exists ns, ls', fs, l'. auto.
Qed.

Lemma bunches_in NOTS lat bm0 ib (ss : list sim) bs steps :
  Forall2 (fun j s => sim_run Fof linit lstep NOTS lat bm0 j = Ok s) steps ss ->
  Forall2 (fun s b => nth_error (bmB (sMaster s)) ib = Some b) ss bs ->
  Forall2 (bunch_in_step Fof linit lstep NOTS lat bm0 ib) steps bs.
Proof. intros A B. exact (forall2_compose _ _ _ _ _ A B). Qed.

Lemma par_run NOTS lat bm0 bms k ls ws s i ib step freq : valid_run NOTS bm0 bms k ->
  Forall (created bm0 (Z.of_nat (length bms))) ls -> nth_error ls i = Some (LPar (Z.of_nat ib) (plog_new step freq)) ->
  sim_run Fof linit lstep NOTS lat bm0 k = Ok s ->
  exists ns ls' fs bs, lrun bms NOTS lat ls ws k = Ok (ns, (ls', fs)) /\
    Forall2 (bunch_in_step Fof linit lstep NOTS lat bm0 ib) (due (Z.to_nat (u32 step)) k) bs /\
    nth_error ls' i = Some (LPar (Z.of_nat ib) (plog_of absBF step freq bs)).
Proof.
  intros V HC Hi Hs. destruct (logger_run NOTS lat bm0 bms k ls ws s i _ V HC Hi Hs) as (ns & ls' & fs & l' & A & B & C & G).
  destruct V as (HH & HF & H1 & H2 & HN & Hk).
  assert (DB := due_bound NOTS (Z.to_nat (logger_step (LPar (Z.of_nat ib) (plog_new step freq)))) k Hk).
  destruct (feed_spec absBF Fof linit lstep NOTS lat bm0 bms HH HF H1 H2 HN _ DB _ _ G C) as (ss & S1 & S2 & S3).
  destruct l' as [ib' p'| |]; try contradiction. destruct S3 as (-> & bs & S3 & ->). rewrite Nat2Z.id in S3.
  exists ns, ls', fs, bs. split; [exact A|]. split; [exact (bunches_in _ _ _ _ _ _ _ S1 S3)|].
  rewrite B. do 2 f_equal. apply plog_new_fold.
  rewrite <- (forall2_length _ _ _ S3), <- (forall2_length _ _ _ S1), due_length.
  unfold int_max in HN. destruct (Z.to_nat (logger_step (LPar (Z.of_nat ib) (plog_new step freq)))) as [|sn]; [cbn [Nat.div]; lia|].
  pose proof (Nat.div_le_upper_bound k (S sn) k ltac:(lia) ltac:(nia)). lia.
Qed.

Lemma blog_with_of step nop nod (vals : list (list T)) : (Z.of_nat (length vals) < 2 ^ 32)%Z ->
  blog_with step nop nod vals = blog_of step nop nod vals.
Proof. intros H. unfold blog_with, blog_of. rewrite u32_id by lia. reflexivity. Qed.

Lemma due_short s k : (Z.of_nat k < int_max)%Z -> (Z.of_nat (length (due s k)) < 2 ^ 32)%Z.
Proof.
  intros H. rewrite due_length. unfold int_max in H. destruct s as [|s]; [cbn [Nat.div]; lia|].
  pose proof (Nat.div_le_upper_bound k (S s) k ltac:(lia) ltac:(nia)). lia.
Qed.

Lemma traj_run NOTS lat bm0 bms k ls ws s i ib b0 step number : valid_run NOTS bm0 bms k ->
  Forall (created bm0 (Z.of_nat (length bms))) ls -> nth_error (bmB bm0) ib = Some b0 ->
  nth_error ls i = Some (LTraj (Z.of_nat ib) (tlog_new b0 step number)) ->
  sim_run Fof linit lstep NOTS lat bm0 k = Ok s ->
  let nop := Z.min (bunch_NOP b0) (u32 number) in
  exists ns ls' fs bs, lrun bms NOTS lat ls ws k = Ok (ns, (ls', fs)) /\
    Forall2 (bunch_in_step Fof linit lstep NOTS lat bm0 ib) (due (Z.to_nat (u32 step)) k) bs /\
    Forall (fun b => length b = length b0) bs /\
    nth_error ls' i = Some (LTraj (Z.of_nat ib) (blog_of (u32 step) nop 6 (map (coordinates (Z.to_nat nop)) bs))).
Proof.
  intros V HC Hb Hi Hs nop. destruct (logger_run NOTS lat bm0 bms k ls ws s i _ V HC Hi Hs) as (ns & ls' & fs & l' & A & B & C & G).
  destruct (count_small _ _ _ _ V) as (HC10 & HP & HSh). destruct V as (HH & HF & H1 & H2 & HN & Hk).
  match type of C with feed _ _ _ _ _ _ _ _ (due ?s _) _ = _ => assert (DB := due_bound NOTS s k Hk) end.
  destruct (feed_spec absBF Fof linit lstep NOTS lat bm0 bms HH HF H1 H2 HN _ DB _ _ G C) as (ss & S1 & S2 & S3).
  destruct l' as [|ib' p'|]; try contradiction. destruct S3 as (-> & bs & S3 & S4). rewrite Nat2Z.id in S3.
  exists ns, ls', fs, bs. split; [exact A|]. split; [exact (bunches_in _ _ _ _ _ _ _ S1 S3)|]. split.
  - clear -S1 S3 Hb. revert bs S3. induction S1 as [|j s l l' E1 E2 IH]; intros bs S3; inversion S3; subst; constructor; auto.
    destruct (sim_lens Fof linit lstep NOTS lat bm0 j s E1) as [M _]. destruct (same_lens bm0 s ib b0 M Hb) as (b & Eb & Lb). congruence.
  - rewrite B. do 2 f_equal. pose proof (nth_concat_len _ _ _ Hb) as HL. unfold count, int_max in HC10.
    assert (EN : u32 (bunch_NOP b0) = bunch_NOP b0) by (apply u32_id; unfold bunch_NOP; lia).
    rewrite (S4 (u32 step) nop []).
    + cbn [app]. apply blog_with_of. rewrite map_length. pose proof (forall2_length _ _ _ S3) as Q3. pose proof (forall2_length _ _ _ S1) as Q1.
      pose proof (due_short (Z.to_nat (logger_step (LTraj (Z.of_nat ib) (tlog_new b0 step number)))) k ltac:(lia)) as Q.
      rewrite Q1, Q3 in Q. exact Q.
    + unfold tlog_new, blog_with, nop. rewrite EN. reflexivity.
Qed.

Lemma probe_run NOTS lat bm0 bms k ls ws s i tb step number p : valid_run NOTS bm0 bms k ->
  Forall (created bm0 (Z.of_nat (length bms))) ls ->
  prlog_new tb step number = Ok p -> count tb = first_share bm0 (Z.of_nat (length bms)) ->
  nth_error ls i = Some (LProbe p) ->
  sim_run Fof linit lstep NOTS lat bm0 k = Ok s ->
  let nop := Z.min (first_share bm0 (Z.of_nat (length bms))) (u32 number) in
  exists ns ls' fs pss, lrun bms NOTS lat ls ws k = Ok (ns, (ls', fs)) /\
    Forall2 (tracked_in_step Fof linit lstep NOTS lat bm0) (due (Z.to_nat (u32 step)) k) pss /\
    Forall (fun ps => Z.of_nat (length ps) = count bm0) pss /\
    nth_error ls' i = Some (LProbe (blog_of (u32 step) nop 16 (map (probe_values (Z.to_nat nop)) pss))).
Proof.
  intros V HC Ep Ec Hi Hs nop. destruct (logger_run NOTS lat bm0 bms k ls ws s i _ V HC Hi Hs) as (ns & ls' & fs & l' & A & B & C & G).
  destruct (count_small _ _ _ _ V) as (HC10 & HP & HSh). destruct V as (HH & HF & H1 & H2 & HN & Hk).
  match type of C with feed _ _ _ _ _ _ _ _ (due ?s _) _ = _ => assert (DB := due_bound NOTS s k Hk) end.
  destruct (feed_spec absBF Fof linit lstep NOTS lat bm0 bms HH HF H1 H2 HN _ DB _ _ G C) as (ss & S1 & S2 & S3).
  destruct l' as [| |p']; try contradiction. unfold prlog_new in Ep.
  destruct (beam_NOP tb) as [n| | |] eqn:EN; try discriminate. cbn [bind] in Ep. apply Ok_inj in Ep. apply beam_NOP_inv in EN. rewrite EN, Ec in Ep.
  assert (C0 : (0 <= first_share bm0 (Z.of_nat (length bms)) < 2 ^ 32)%Z) by (unfold first_share, int_max, count in *; lia).
  rewrite (u32_id _ C0) in Ep. fold nop in Ep.
  exists ns, ls', fs, (map (@sTracked T L) ss). split; [exact A|]. split; [|split].
  - subst p. cbn [logger_step blStep] in S1. clear -S1. induction S1; cbn [map]; constructor; auto. exists y. auto.
  - clear -S1. induction S1 as [|j s l l' E1 E2 IH]; cbn [map]; constructor; auto.
    destruct (sim_lens Fof linit lstep NOTS lat bm0 j s E1) as [_ M]. rewrite M. reflexivity.
  - rewrite B. do 2 f_equal. rewrite (S3 (u32 step) nop []) by (subst p; reflexivity). cbn [app]. rewrite map_map.
    apply blog_with_of. rewrite map_length, <- (forall2_length _ _ _ S1). apply due_short. lia.
Qed.

Lemma watch_run NOTS lat bm0 bms k ls ws ns ls' fs : valid_run NOTS bm0 bms k ->
  Forall (created bm0 (Z.of_nat (length bms))) ls ->
  lrun bms NOTS lat ls ws k = Ok (ns, (ls', fs)) ->
  watch_files Fof linit lstep (Z.of_nat (length bms)) NOTS lat bms ws k = Ok fs.
Proof.
  intros V HC H. assert (HG : Forall (good bm0 bms) ls) by (eapply Forall_impl; [|exact HC]; intros; eapply created_good; eauto).
  assert (HS : Forall (fun l => (0 < logger_step l)%Z) ls) by (eapply Forall_impl; [|exact HG]; intros; eapply good_step; eauto).
  destruct V as (HH & HF & H1 & H2 & HN & Hk). unfold int_max in HN.
  destruct (logged_run_inv absBF Fof linit lstep _ NOTS lat bms ls ws HS k ns ls' fs ltac:(lia) H) as (_ & _ & E). exact E.
Qed.

(* a logger with step width 0 *)
Lemma step_zero (P NOTS : Z) lat bms l ws k ns l' n : logger_step l = 0%Z ->
  driver_run Fof linit lstep P NOTS lat bms 0 = Ok ns -> first_node ns = Ok n -> logger_update absBF n l = Ok l' ->
  (forall e, driver_run Fof linit lstep P NOTS lat bms 1 <> Throw e) ->
  driver_run Fof linit lstep P NOTS lat bms 1 <> Loop ->
  @logged_run T NT absBF L Fof linit lstep W P NOTS lat bms [l] ws (S k) = UB.
Proof.
  intros Hl H0 Hn Hu HT HLo. unfold logged_run.
  assert (D0 : driver_run Fof linit lstep P NOTS lat bms 0 = driver_start Fof linit P NOTS lat bms).
  { unfold driver_run. cbn [zseq]. destruct (driver_start _ _ _ _ _ _); reflexivity. }
  rewrite D0 in H0. rewrite H0. cbn [bind]. unfold log_init. rewrite Hn. cbn [bind map_res]. rewrite Hu. cbn [bind zseq fold_res].
  unfold logged_step at 1. cbn [fst snd].
  assert (D1 : driver_run Fof linit lstep P NOTS lat bms 1 = driver_step Fof lstep ns 0).
  { unfold driver_run. rewrite H0. cbn [bind zseq fold_res]. destruct (driver_step Fof lstep ns 0); reflexivity. }
  rewrite D1 in HT, HLo. destruct (driver_step Fof lstep ns 0) as [ns1|e| |] eqn:ED; cbn [bind]; try reflexivity.
  - unfold first_node. destruct ns1; [reflexivity|]. cbn [bind]. unfold log_step. cbn [fst snd map_res]. unfold log_one at 1.
    rewrite (update_step absBF _ _ _ Hu), Hl. reflexivity.
  - destruct (HT e eq_refl).
  - congruence.
Qed.
End P.

(* runs exist: with fields defined everywhere the tracking succeeds *)
Section E.
Context {T : Type} {NT : Num T} {L : Type} (Fof : L -> field_fn T) (linit lstep : beam T -> L -> res L).
Hypothesis HF : forall l t x, exists e, Fof l t x = Ok e.
Hypothesis HI : forall b l, exists l', linit b l = Ok l'.
Hypothesis HS : forall b l, exists l', lstep b l = Ok l'.

Lemma step_exists F : (forall t x, exists e, F t x = Ok e) -> forall p : particle T, exists q, StepVay F p = Ok q.
Proof. intros H p. unfold StepVay. match goal with |- context [F ?t ?x] => destruct (H t x) as (e & ->) end. cbn [bind]. destruct (vay_half _ _ _ _). eauto. Qed.
Lemma init_exists dt F n c p : (forall t x, exists e, F t x = Ok e) -> exists q : particle T, InitVay dt F (no_field (restarted n c p)) = Ok q.
Proof.
  intros H. unfold InitVay, no_field, restarted. cbn [pNP pTimes pXs pPs pAs]. change (1 <? 1)%Z with false. cbn beta iota.
  cbn [lback last bind]. unfold lback. cbn [rev bind app]. match goal with |- context [F ?t ?x] => destruct (H t x) as (e & ->) end. cbn [bind].
  destruct (vay_half _ _ _ _). cbn. eauto.
Qed.
Lemma map_res_exists {A B} (f : A -> res B) l : (forall x, In x l -> exists y, f x = Ok y) -> exists l', map_res f l = Ok l'.
Proof.
  induction l as [|a l IH]; intros H; [exists []; reflexivity|]. destruct (H a (or_introl eq_refl)) as (y & E).
  destruct IH as (l' & E'); [intros x Hx; apply H; right; exact Hx|]. exists (y :: l'). cbn. rewrite E. cbn. rewrite E'. reflexivity.
Qed.
Lemma in_zip {C} (f : C -> particle T -> particle T) : forall cs b x, In x (zip_in f cs b) -> exists c p, x = f c p.
Proof. induction cs as [|c cs IH]; intros [|p b] x H; cbn in H; try contradiction. destruct H as [<-|H]; eauto. Qed.
Lemma sim_exists NOTS lat (bm : beam T) k : bmTracker bm = TRACKING_VAY -> exists s, sim_run Fof linit lstep NOTS lat bm k = Ok s.
Proof.
  intros HT. induction k as [|k (s & IH)].
  - unfold sim_run. cbn [iter_res]. unfold sim_start. rewrite HT.
    match goal with |- context [map_res ?f ?l] => destruct (map_res_exists f l) as (tr & ->) end.
    + intros x Hx. cbn [bmB] in Hx. rewrite spread_concat in Hx by (rewrite map_length; reflexivity).
      apply in_zip in Hx. destruct Hx as (c & p & ->). apply init_exists. apply HF.
    + cbn [bind]. match goal with |- context [linit ?b ?l] => destruct (HI b l) as (l' & ->) end. cbn [bind]. eauto.
  - rewrite srun_S, IH. cbn [bind]. unfold sim_step.
    match goal with |- context [map_res ?f ?l] => destruct (map_res_exists f l) as (tr & ->) end.
    + intros x _. apply step_exists. apply HF.
    + cbn [bind]. match goal with |- context [lstep ?b ?l] => destruct (HS b l) as (l' & ->) end. cbn [bind]. eauto.
Qed.
Lemma run_exists NOTS lat (bm : beam T) bms k : valid_run NOTS bm bms k -> bmTracker bm = TRACKING_VAY ->
  exists ns n, driver_run Fof linit lstep (Z.of_nat (length bms)) NOTS lat bms k = Ok ns /\ first_node ns = Ok n /\
    map (@length _) (bmB (nMaster n)) = map (@length _) (bmB bm).
Proof.
  intros (HH & HI' & H1 & H2 & HN & Hk) HT. destruct (sim_exists NOTS lat bm k HT) as (s & Hs).
  pose proof (node0 Fof linit lstep NOTS lat bm bms HH HI' H1 H2 HN k Hk) as N. rewrite Hs in N.
  destruct (driver_run _ _ _ _ _ _ _ _) as [ns| | |]; try discriminate N. destruct N as (s' & n & E & A & B & _).
  apply Ok_inj in E. subst s'. exists ns, n. split; [reflexivity|]. split; [exact A|]. rewrite B.
  exact (proj1 (sim_lens _ _ _ _ _ _ k s Hs)).
Qed.
Lemma zero_exists absBF NOTS lat (bm : beam T) bms freq : valid_run NOTS bm bms 1 -> bmTracker bm = TRACKING_VAY -> bmB bm <> [] ->
  let l := LPar 0 (plog_new 0 freq) in
  exists ns n l' ns1, logger_step l = 0%Z /\
    driver_run Fof linit lstep (Z.of_nat (length bms)) NOTS lat bms 0 = Ok ns /\ first_node ns = Ok n /\
    logger_update absBF n l = Ok l' /\
    driver_run Fof linit lstep (Z.of_nat (length bms)) NOTS lat bms 1 = Ok ns1.
Proof.
  intros V HT HB l. assert (V0 : valid_run NOTS bm bms 0).
  { destruct V as (A & B & C & D & E & G). repeat (split; [assumption|]). lia. }
  destruct (run_exists NOTS lat bm bms 0 V0 HT) as (ns & n & A1 & A2 & A3).
  destruct (run_exists NOTS lat bm bms 1 V HT) as (ns1 & n1 & B1 & _).
  destruct (bmB (nMaster n)) as [|b r] eqn:EB.
  - destruct (bmB bm); [congruence|discriminate].
  - exists ns, n, (LPar 0 (plog_update absBF b (plog_new 0 freq))), ns1. split; [reflexivity|]. split; [exact A1|]. split; [exact A2|].
    split; [|exact B1]. unfold l. cbn [logger_update]. unfold beam_bunch. rewrite EB. reflexivity.
Qed.
End E.
