From Coq Require Import ZArith List Bool Lia Arith.
From Verif Require Import Base BaseFacts Num VecModel ParticleModel ParticleSpec BunchModel BunchSpec BeamSpec BeamProofs
  DriverModel DriverSpec DriverProofs DriverProofs2 DriverProofs3 ObserverProofs3 ObserverProofs5 ProbeProofs
  LoggerModel LoggerSpec LoggerProofs LoggerProofs2.
Import ListNotations.
Local Open Scope res_scope.
Local Open Scope nat_scope.

Lemma round_robin_single {A} (b : list A) : round_robin [b] = b.
Proof.
  unfold round_robin. cbn [longest fold_right]. rewrite Nat.max_0_r. unfold row. cbn [flat_map].
  induction b as [|a b IH]; [reflexivity|]. cbn [length seq flat_map nth_error opt_list]. cbn [app]. f_equal.
  rewrite <- seq_shift, flat_map_concat_map, map_map, <- flat_map_concat_map. exact IH.
Qed.

Lemma due_bound (NOTS : Z) (s k : nat) : (Z.of_nat k <= NOTS)%Z -> Forall (fun j => (Z.of_nat j <= NOTS)%Z) (due s k).
Proof. intros H. apply Forall_forall. intros j Hj. apply due_le in Hj. lia. Qed.

Section P.
Context {T : Type} {NT : Num T} (absBF : bunch T -> T -> T).
Context {L : Type} (Fof : L -> field_fn T) (linit lstep : beam T -> L -> res L).
Context {W : Type}.
Variables (NOTS : Z) (lat : L) (bm0 : beam T) (bms : list (beam T)).
Notation P := (Z.of_nat (length bms)).
Hypothesis HH : hd_error bms = Some bm0.
Hypothesis HF : Forall (same_input bm0) bms.
Hypothesis H1 : (count bm0 + P <= int_max)%Z.
Hypothesis H2 : (10 * (share (count bm0) P * P) <= int_max)%Z.
Hypothesis HN : (0 <= NOTS < int_max)%Z.
Notation upd := (@logger_update T NT absBF L).
Notation drun := (driver_run Fof linit lstep P NOTS lat bms).
Notation lrun := (@logged_run T NT absBF L Fof linit lstep W P NOTS lat bms).
Notation srun := (sim_run Fof linit lstep NOTS lat bm0).
Definition perNode : nat := Z.to_nat (share (count bm0) P).

Lemma srun_S k : srun (S k) = (s <- srun k;; sim_step Fof lstep s).
Proof. unfold sim_run. destruct (sim_start _ _ _ _ _) as [s| | |]; cbn [bind]; auto. apply iter_res_S_r. Qed.

Lemma sim_lens k : forall s, srun k = Ok s ->
  map (@length _) (bmB (sMaster s)) = map (@length _) (bmB bm0) /\ length (sTracked s) = length (concat (bmB bm0)).
Proof.
  induction k as [|k IH]; intros s H.
  - unfold sim_run in H. cbn [iter_res] in H. unfold sim_start in H.
    assert (E : map (@length _) (spread (restarted (NOTS + 1)) (map current (concat (bmB bm0))) (bmB bm0)) = map (@length _) (bmB bm0)).
    { apply spread_length. rewrite map_length. reflexivity. }
    destruct (bmTracker bm0); try discriminate.
    destruct (map_res _ _) as [tr| | |] eqn:EM; try discriminate. cbn [bind] in H.
    destruct (linit _ lat); try discriminate. cbn [bind] in H. apply Ok_inj in H. subst s. cbn [sMaster sTracked bmB].
    split; [exact E|]. rewrite (map_res_len _ _ _ EM). cbn [bmB]. apply lengths_concat. exact E.
  - rewrite srun_S in H. destruct (srun k) as [s0| | |]; try discriminate. cbn [bind] in H.
    destruct (IH s0 eq_refl) as [I1 I2]. unfold sim_step in H.
    destruct (map_res _ _) as [tr| | |] eqn:EM; try discriminate. cbn [bind] in H.
    destruct (lstep _ _); try discriminate. cbn [bind] in H. apply Ok_inj in H. subst s. cbn [sMaster sTracked bmB].
    pose proof (map_res_len _ _ _ EM) as LT. split; [|congruence]. rewrite <- I1. apply spread_length.
    rewrite map_length, LT, I2. symmetry. apply lengths_concat. exact I1.
Qed.

Lemma node0 j : (Z.of_nat j <= NOTS)%Z ->
  match drun j with
  | Ok ns => exists s n, srun j = Ok s /\ first_node ns = Ok n /\ nMaster n = sMaster s /\
      nTracked n = BM [firstn perNode (sTracked s)] (Z.of_nat j) (bmdt bm0) TRACKING_VAY
  | Throw e => srun j = Throw e | UB => srun j = UB | Loop => srun j = Loop
  end.
Proof.
  intros Hj. pose proof (driver_run_ok Fof linit lstep NOTS lat bm0 bms (length bms) perNode j eq_refl HH HF H1 H2 HN Hj eq_refl) as A.
  destruct (srun j) as [s| | |], (drun j) as [ns| | |]; cbn in A; try contradiction; auto; [|congruence].
  destruct A as (A1 & _). destruct bms as [|b r] eqn:E; [discriminate|]. cbn [length seq] in A1. inversion A1 as [|x n l l' B1 B2]; subst.
  exists s, n. destruct B1 as (C1 & C2 & C3 & C4). repeat split; auto.
Qed.

Lemma bunch_of s ib : 0 <= ib -> map (@length _) (bmB (sMaster s)) = map (@length _) (bmB bm0) ->
  beam_bunch (@sMaster T L s) (Z.of_nat ib) = nth_error (bmB (sMaster s)) ib.
Proof.
  intros _ _. unfold beam_bunch. rewrite Nat2Z.id.
  destruct (Z.leb_spec 0 (Z.of_nat ib)); [|lia]. destruct (Z.ltb_spec (Z.of_nat ib) (Z.of_nat (length (bmB (sMaster s))))); cbn [andb]; auto.
  symmetry. apply nth_error_None. lia.
Qed.
Lemma same_lens s ib (b0 : bunch T) : map (@length _) (bmB (@sMaster T L s)) = map (@length _) (bmB bm0) ->
  nth_error (bmB bm0) ib = Some b0 -> exists b, nth_error (bmB (sMaster s)) ib = Some b /\ length b = length b0.
Proof.
  intros E H. assert (G : nth_error (map (@length _) (bmB (sMaster s))) ib = Some (length b0)) by (rewrite E; apply map_nth_error; exact H).
  rewrite nth_error_map in G. change (@nth_error (list (particle T))) with (@nth_error (bunch T)) in G. destruct (nth_error (bmB (sMaster s)) ib) as [b|] eqn:E2; cbn [option_map] in G.
  - exists b. split; [reflexivity|congruence].
  - congruence.
Qed.

(* a logger of particle data which has recorded vals *)
Definition blog_with (step nop nod : Z) (vals : list (list T)) : blog T :=
  BL (u32 (Z.of_nat (length vals))) step nop nod (map (map Some) vals).
Definition good (l : logger T) : Prop :=
  match l with
  | LPar ib p => exists i b0, ib = Z.of_nat i /\ nth_error (bmB bm0) i = Some b0 /\ (0 < plStep p)%Z
  | LTraj ib p => exists i b0 step nop vals, ib = Z.of_nat i /\ nth_error (bmB bm0) i = Some b0 /\
      p = blog_with step nop 6 vals /\ (0 < step)%Z /\ (0 <= 6 * nop < 2 ^ 32)%Z /\ Z.to_nat nop <= length b0
  | LProbe p => exists step nop vals, p = blog_with step nop probeNOD vals /\ (0 < step)%Z /\
      (0 <= probeNOD * nop < 2 ^ 32)%Z /\ Z.to_nat nop <= Nat.min perNode (length (concat (bmB bm0)))
  end.
Lemma good_step l : good l -> (0 < logger_step l)%Z.
Proof.
  destruct l; cbn [good logger_step].
  - intros (i & b0 & _ & _ & H). exact H.
  - intros (i & b0 & step & nop & vals & _ & _ & -> & H & _). exact H.
  - intros (step & nop & vals & -> & H & _). exact H.
Qed.

(* what one update does *)
Definition update_spec (s : sim) (l l' : logger T) : Prop :=
  match l, l' with
  | LPar ib p, LPar ib' p' => ib' = ib /\ exists b, nth_error (bmB (@sMaster T L s)) (Z.to_nat ib) = Some b /\ p' = plog_update absBF b p
  | LTraj ib p, LTraj ib' p' => ib' = ib /\ exists b, nth_error (bmB (sMaster s)) (Z.to_nat ib) = Some b /\
      forall step nop vals, p = blog_with step nop 6 vals -> p' = blog_with step nop 6 (vals ++ [coordinates (Z.to_nat nop) b])
  | LProbe p, LProbe p' =>
      forall step nop vals, p = blog_with step nop probeNOD vals ->
        p' = blog_with step nop probeNOD (vals ++ [probe_values (Z.to_nat nop) (sTracked s)])
  | _, _ => False
  end.
Lemma blog_with_inj step nop nod v step' nop' nod' v' : blog_with step nop nod v = blog_with step' nop' nod' v' ->
  step = step' /\ nop = nop' /\ map (map Some) v = map (map (@Some T)) v'.
Proof. unfold blog_with. intros H. assert (A := f_equal blStep H). assert (B := f_equal blNOP H). assert (C := f_equal blData H). cbn in *. auto. Qed.
Lemma map_inj {A B} (f : A -> B) : (forall x y, f x = f y -> x = y) -> forall l m, map f l = map f m -> l = m.
Proof.
  intros H. induction l as [|a l IH]; intros [|b m] E; try discriminate; auto. cbn in E.
  assert (E1 : f a = f b) by congruence. assert (E2 : map f l = map f m) by congruence. f_equal; auto.
Qed.
Lemma blog_with_inj' step nop nod v step' nop' nod' v' : blog_with step nop nod v = blog_with step' nop' nod' v' ->
  step = step' /\ nop = nop' /\ v = v'.
Proof.
  intros H. apply blog_with_inj in H. destruct H as (-> & -> & H). repeat split. revert H. apply map_inj.
  apply map_inj. intros x y E. congruence.
Qed.

Lemma good_update j s n l : srun j = Ok s -> nMaster n = sMaster s ->
  nTracked n = BM [firstn perNode (sTracked s)] (Z.of_nat j) (bmdt bm0) TRACKING_VAY -> good l ->
  exists l', upd n l = Ok l' /\ good l' /\ update_spec s l l'.
Proof.
  intros Hs EM ET HG. destruct (sim_lens j s Hs) as [L1 L2].
  destruct l as [ib p|ib p|p]; cbn [good logger_update] in *.
  - destruct HG as (i & b0 & -> & Hb & Hst). destruct (same_lens s i b0 L1 Hb) as (b & Eb & Lb).
    rewrite EM, bunch_of, Eb by (try lia; assumption). eexists. split; [reflexivity|]. split.
    + exists i, b0. auto.
    + cbn [update_spec]. rewrite Nat2Z.id. split; [reflexivity|]. exists b. auto.
  - destruct HG as (i & b0 & step & nop & vals & -> & Hb & -> & Hst & HB & HL).
    destruct (same_lens s i b0 L1 Hb) as (b & Eb & Lb). rewrite EM, bunch_of, Eb by (try lia; assumption).
    unfold blog_with at 1. rewrite tlog_update_of by (try assumption; lia). cbn [bind]. eexists. split; [reflexivity|]. split.
    + exists i, b0, step, nop, (vals ++ [coordinates (Z.to_nat nop) b]). repeat split; auto; lia.
    + cbn [update_spec]. rewrite Nat2Z.id. split; [reflexivity|]. exists b. split; [exact Eb|].
      intros st' nop' vals' E. apply blog_with_inj' in E. destruct E as (<- & <- & <-). reflexivity.
  - destruct HG as (step & nop & vals & -> & Hst & HB & HL). rewrite ET. unfold prlog_update. cbn [blog_with blNOP].
    unfold probeNOD in HB.
    assert (HLf : Z.to_nat nop <= length (firstn perNode (sTracked s))) by (rewrite firstn_length, L2; exact HL).
    pose proof (probe_ok (BM [firstn perNode (sTracked s)] (Z.of_nat j) (bmdt bm0) TRACKING_VAY) (Z.to_nat nop)) as PO.
    rewrite Z2Nat.id in PO by lia. unfold blog_with at 1. cbn [blNOP].
    rewrite PO by (cbn [bmB concat]; rewrite app_nil_r; exact HLf). cbn [bind bmB]. rewrite round_robin_single.
    rewrite firstn_firstn, (Nat.min_l (Z.to_nat nop) perNode) by lia.
    change (flat_map bufferProbe (firstn (Z.to_nat nop) (sTracked s))) with (probe_values (Z.to_nat nop) (sTracked s)).
    assert (HL2 : Z.to_nat nop <= length (sTracked s)) by lia.
    rewrite push_full.
    + cbn [blog_with blNOTS blStep blNOP blNOD blData bind]. eexists. split; [reflexivity|].
      set (v := @probe_values T _ _). set (l' := LProbe _).
      assert (E : l' = LProbe (blog_with step nop probeNOD (vals ++ [v]))).
      { unfold l', blog_with. rewrite map_app, app_length. cbn [map length]. do 2 f_equal. unfold u32. rewrite Zplus_mod_idemp_l. f_equal. lia. }
      rewrite E. split.
      * exists step, nop, (vals ++ [v]). unfold probeNOD. repeat split; auto; lia.
      * cbn [update_spec]. intros st' nop' vals' E'. apply blog_with_inj' in E'. destruct E' as (<- & <- & <-). reflexivity.
    + rewrite probe_values_len by exact HL2. cbn [blog_with blNOP blNOD]. unfold u32, probeNOD. rewrite Z.mod_small by lia. lia.
Qed.

(* ---- the whole run ---- *)
Lemma run_same ls ws k : Forall good ls -> (Z.of_nat k <= NOTS)%Z ->
  match srun k with
  | Ok s => exists ns ls' fs, drun k = Ok ns /\ lrun ls ws k = Ok (ns, (ls', fs))
  | Throw e => lrun ls ws k = Throw e
  | UB => lrun ls ws k = UB
  | Loop => lrun ls ws k = Loop
  end.
Proof.
  intros HG Hk.
  pose proof (logged_run_ok absBF Fof linit lstep P NOTS lat bms ls ws good good_step HG k) as A.
  unfold int_max in HN. specialize (A ltac:(lia)).
  assert (N : forall j ns, j <= k -> drun j = Ok ns -> exists n, first_node ns = Ok n /\ forall l, good l -> exists l', upd n l = Ok l' /\ good l').
  { intros j ns Hj E. pose proof (node0 j ltac:(lia)) as B. rewrite E in B. destruct B as (s & n & B1 & B2 & B3 & B4).
    exists n. split; [exact B2|]. intros l Hl. destruct (good_update j s n l B1 B3 B4 Hl) as (l' & C1 & C2 & _). eauto. }
  specialize (A N). pose proof (node0 k Hk) as B.
  destruct (drun k) as [ns| | |].
  - destruct B as (s & n & -> & _). destruct A as (ls' & fs & A & _). eauto.
  - rewrite B. exact A.
  - rewrite B. exact A.
  - rewrite B. exact A.
Qed.

Lemma feed_spec steps : Forall (fun j => (Z.of_nat j <= NOTS)%Z) steps -> forall l l', good l ->
  feed absBF Fof linit lstep P NOTS lat bms steps l = Ok l' ->
  exists ss, Forall2 (fun j s => srun j = Ok s) steps ss /\ good l' /\
    match l, l' with
    | LPar ib p, LPar ib' p' => ib' = ib /\ exists bs, Forall2 (fun s b => nth_error (bmB (sMaster s)) (Z.to_nat ib) = Some b) ss bs /\
        p' = fold_left (fun p b => plog_update absBF b p) bs p
    | LTraj ib p, LTraj ib' p' => ib' = ib /\ exists bs, Forall2 (fun s b => nth_error (bmB (sMaster s)) (Z.to_nat ib) = Some b) ss bs /\
        forall step nop vals, p = blog_with step nop 6 vals -> p' = blog_with step nop 6 (vals ++ map (coordinates (Z.to_nat nop)) bs)
    | LProbe p, LProbe p' =>
        forall step nop vals, p = blog_with step nop probeNOD vals ->
          p' = blog_with step nop probeNOD (vals ++ map (fun s => probe_values (Z.to_nat nop) (sTracked s)) ss)
    | _, _ => False
    end.
Proof.
  unfold feed. induction 1 as [|j r Hj Hr IH]; intros l l' HG H.
  - cbn in H. apply Ok_inj in H. subst l'. exists []. split; [constructor|]. split; [exact HG|].
    destruct l; [split; [reflexivity|]; exists []; split; [constructor|reflexivity] |split; [reflexivity|]; exists []; split; [constructor|] |];
      intros step nop vals ->; cbn [map]; rewrite app_nil_r; reflexivity.
  - cbn [fold_res] in H. pose proof (node0 j Hj) as B. destruct (drun j) as [ns| | |]; try discriminate. cbn [bind] in H.
    destruct B as (s & n & B1 & B2 & B3 & B4). rewrite B2 in H. cbn [bind] in H.
    destruct (good_update j s n l B1 B3 B4 HG) as (l1 & C1 & C2 & C3). rewrite C1 in H. cbn [bind] in H.
    destruct (IH l1 l' C2 H) as (ss & D1 & D2 & D3). exists (s :: ss). split; [constructor; auto|]. split; [exact D2|].
    destruct l as [ib p|ib p|p], l1 as [ib1 p1|ib1 p1|p1]; try contradiction; destruct l' as [ib' p'|ib' p'|p']; try contradiction; cbn [update_spec] in C3.
    + destruct C3 as (-> & b & E1 & ->). destruct D3 as (-> & bs & E2 & ->). split; [reflexivity|]. exists (b :: bs). split; [constructor; auto|reflexivity].
    + destruct C3 as (-> & b & E1 & E3). destruct D3 as (-> & bs & E2 & E4). split; [reflexivity|]. exists (b :: bs). split; [constructor; auto|].
      intros step nop vals Ep. rewrite (E4 _ _ _ (E3 _ _ _ Ep)). rewrite <- app_assoc. reflexivity.
    + intros step nop vals Ep. rewrite (D3 _ _ _ (C3 _ _ _ Ep)). rewrite <- app_assoc. reflexivity.
Qed.


(* the logger number i after a successful run *)
Lemma run_logger ls ws k s i l : Forall good ls -> (Z.of_nat k <= NOTS)%Z -> srun k = Ok s -> nth_error ls i = Some l ->
  exists ns ls' fs l', lrun ls ws k = Ok (ns, (ls', fs)) /\ nth_error ls' i = Some l' /\
    feed absBF Fof linit lstep P NOTS lat bms (due (Z.to_nat (logger_step l)) k) l = Ok l'.
Proof.
  intros HG Hk Hs Hi. pose proof (run_same ls ws k HG Hk) as A. rewrite Hs in A. destruct A as (ns & ls' & fs & A1 & A2).
  assert (HS : Forall (fun l => (0 < logger_step l)%Z) ls) by (eapply Forall_impl; [|exact HG]; intros; apply good_step; assumption).
  unfold int_max in HN.
  destruct (logged_run_inv absBF Fof linit lstep P NOTS lat bms ls ws HS k ns ls' fs ltac:(lia) A2) as (_ & B2 & _).
  assert (G : exists l', nth_error ls' i = Some l').
  { destruct (nth_error ls' i) eqn:E; [eauto|]. apply nth_error_None in E. rewrite <- (forall2_length _ _ _ B2) in E.
    apply nth_error_None in E. congruence. }
  destruct G as (l' & Hl'). destruct (forall2_nth _ _ _ _ _ B2 Hl') as (l0 & E0 & E1 & E2). assert (l0 = l) by congruence. subst l0.
  exists ns, ls', fs, l'. auto.
Qed.

(* ---- watch points ---- *)
Lemma watch_spec ws k : (Z.of_nat k <= NOTS)%Z -> forall fs, watch_files Fof linit lstep P NOTS lat bms ws k = Ok fs ->
  length fs = length (filter (fun w : @watch W => (0 <=? fst w) && (fst w <=? Z.of_nat k))%Z ws) /\
  (forall f m, In (f, m) fs -> exists j, In (Z.of_nat j, f) ws /\ j <= k /\ master_in_step Fof linit lstep NOTS lat bm0 j m) /\
  (forall j f, In (Z.of_nat j, f) ws -> j <= k -> exists m, master_in_step Fof linit lstep NOTS lat bm0 j m /\ In (f, m) fs).
Proof.
  induction k as [|k IH]; intros Hk fs H; cbn [watch_files] in H.
  - cbn [bind] in H. pose proof (node0 0 Hk) as B. destruct (drun 0) as [ns| | |]; try discriminate. cbn [bind] in H.
    destruct B as (s & n & B1 & B2 & B3 & _). rewrite B2 in H. cbn [bind app] in H. apply Ok_inj in H. subst fs. split; [|split].
    + rewrite map_length. f_equal. apply filter_ext. intros w. cbn. apply eq_true_iff_eq. rewrite Z.eqb_eq, andb_true_iff, !Z.leb_le. lia.
    + intros f m Hi. apply in_map_iff in Hi. destruct Hi as ((st & f') & E & Hi). cbn in E. apply filter_In in Hi. cbn in Hi. destruct Hi as [Hi E0].
      apply Z.eqb_eq in E0. exists 0. cbn. assert (f' = f) by congruence. subst. split; [exact Hi|]. split; [lia|]. exists s. split; [exact B1|congruence].
    + intros j f Hi Hj. assert (j = 0) by lia. subst j. exists (nMaster n). split; [exists s; split; [exact B1|congruence]|].
      apply in_map_iff. exists (0%Z, f). split; [reflexivity|]. apply filter_In. split; [exact Hi|reflexivity].
  - destruct (watch_files Fof linit lstep P NOTS lat bms ws k) as [prev| | |]; try discriminate. cbn [bind] in H.
    destruct (IH ltac:(lia) prev eq_refl) as (I1 & I2 & I3). pose proof (node0 (S k) Hk) as B.
    destruct (drun (S k)) as [ns| | |]; try discriminate. cbn [bind] in H.
    destruct B as (s & n & B1 & B2 & B3 & _). rewrite B2 in H. cbn [bind] in H. apply Ok_inj in H. subst fs. split; [|split].
    + rewrite app_length, map_length, I1. clear. induction ws as [|w ws IH]; [reflexivity|]. cbn [filter].
      destruct (Z.eqb_spec (fst w) (Z.of_nat (S k))), (Z.leb_spec 0 (fst w)), (Z.leb_spec (fst w) (Z.of_nat k)), (Z.leb_spec (fst w) (Z.of_nat (S k)));
        cbn [andb length] in *; try lia.
    + intros f m Hi. apply in_app_or in Hi. destruct Hi as [Hi|Hi].
      * destruct (I2 f m Hi) as (j & J1 & J2 & J3). exists j. repeat split; auto.
      * apply in_map_iff in Hi. destruct Hi as ((st & f') & E & Hi). apply filter_In in Hi. cbn [fst snd] in *. destruct Hi as [Hi E0].
        apply Z.eqb_eq in E0. exists (S k). assert (f' = f) by congruence. subst. split; [exact Hi|]. split; [lia|]. exists s. split; [exact B1|congruence].
    + intros j f Hi Hj. destruct (Nat.eq_dec j (S k)) as [->|N].
      * exists (nMaster n). split; [exists s; split; [exact B1|congruence]|]. apply in_or_app. right.
        apply in_map_iff. exists (Z.of_nat (S k), f). split; [reflexivity|]. apply filter_In. split; [exact Hi|apply Z.eqb_refl].
      * destruct (I3 j f Hi ltac:(lia)) as (m & M1 & M2). exists m. split; [exact M1|]. apply in_or_app. left. exact M2.
Qed.
End P.
