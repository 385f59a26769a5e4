(* Loggers and watch points: C40, C68. *)
From Coq Require Import ZArith Reals List Bool Lia Arith.
From Verif Require Import Base BaseFacts Num VecModel ParticleModel ParticleSpec BunchModel BunchSpec BeamSpec DriverModel DriverSpec
  DriverProofs LoggerModel LoggerSpec LoggerProofs LoggerProofs2 LoggerProofs3 LoggerProofs4.
Import ListNotations.
Local Open Scope nat_scope.

Definition ex_part (k : Z) : particle R := initTrajectory (IZR k) (V 1 2 3)%R (V 0 0 5)%R vzero (new_particle (-1)%R 1%R).
Definition ex_bm : beam R := BM [[ex_part 1; ex_part 2]; [ex_part 3]] 0 (1%R) TRACKING_VAY.
Lemma ex_input : same_input ex_bm ex_bm.
Proof.
  split; [reflexivity|]. split; [reflexivity|]. split; [reflexivity|].
  generalize (concat (bmB ex_bm)). induction l; constructor; [repeat split|assumption].
Qed.
Lemma ex_valid k : k <= 10 -> valid_run 10 ex_bm [ex_bm] k.
Proof.
  intros Hk. unfold valid_run. split; [reflexivity|]. split; [constructor; [exact ex_input|constructor]|].
  change (count ex_bm) with 3%Z. unfold int_max. cbn [length]. split; [lia|]. split; [vm_compute; intros E; discriminate E|lia].
Qed.
Definition ex_F (_ : unit) : field_fn R := fun _ _ => Ok ezero.
Definition ex_keep (_ : beam R) (l : unit) : res unit := Ok l.
Lemma ex_run k : exists s, sim_run ex_F ex_keep ex_keep 10 tt ex_bm k = Ok s.
Proof.
  apply sim_exists; [intros; exists ezero; reflexivity|intros b l; exists l; reflexivity|intros b l; exists l; reflexivity|reflexivity].
Qed.
Definition ex_bf (b : bunch R) (f : R) : R := 0%R.

(* ==== C40 ==== *)
(* logging does not change the run: with any loggers the program creates (step width not
   0) and any watch points it ends like the run without, with the same nodes *)
Theorem C40_harmless : forall (T : Type) (NT : Num T) (absBF : bunch T -> T -> T) (L : Type) (Fof : L -> field_fn T)
    (linit lstep : beam T -> L -> res L) (W : Type) NOTS lat bm0 bms k ls (ws : list (@watch W)),
  let P := Z.of_nat (length bms) in
  valid_run NOTS bm0 bms k -> Forall (created bm0 P) ls ->
  match logged_run absBF Fof linit lstep P NOTS lat bms ls ws k with
  | Ok s => driver_run Fof linit lstep P NOTS lat bms k = Ok (fst s)
  | Throw e => driver_run Fof linit lstep P NOTS lat bms k = Throw e
  | UB => driver_run Fof linit lstep P NOTS lat bms k = UB
  | Loop => driver_run Fof linit lstep P NOTS lat bms k = Loop
  end.
Proof. intros; eapply logging_harmless; eassumption. Qed.
Print Assumptions C40_harmless.
Example C40_harmless_ex : valid_run 10 ex_bm [ex_bm; ex_bm] 7 /\
  Forall (created ex_bm 2) [LPar 1 (plog_new (-3) None); LTraj 0 (tlog_new [ex_part 1; ex_part 2] 2 1)].
Proof.
  pose proof ex_input as SI.
  split.
  - unfold valid_run. split; [reflexivity|]. split; [constructor; [exact SI|constructor; [exact SI|constructor]]|].
    change (count ex_bm) with 3%Z. unfold int_max. cbn [length]. split; [lia|]. split; [vm_compute; intros E; discriminate E|lia].
  - repeat constructor.
    + exists 1, (-3)%Z, None. cbn [ex_bm bmB length]. unfold int_min, int_max. repeat split; lia.
    + exists 0, [ex_part 1; ex_part 2], 2%Z, 1%Z. unfold int_min, int_max. repeat split; lia.
Qed.

(* The parameter log with step width s>0 after k steps: the rows written to the file are
   those of the bunch in the steps 0, s, 2s, ... not exceeding k; these are 1+k/s
   records, and all columns have this length.  Partial: the parser also accepts 0 and
   negative widths, see below. *)
Theorem C40_parameter_log_partial : forall (T : Type) (NT : Num T) (absBF : bunch T -> T -> T) (L : Type) (Fof : L -> field_fn T)
    (linit lstep : beam T -> L -> res L) (W : Type) NOTS lat bm0 bms k ls (ws : list (@watch W)) s i ib step freq,
  let P := Z.of_nat (length bms) in
  valid_run NOTS bm0 bms k -> Forall (created bm0 P) ls -> (0 < step <= int_max)%Z ->
  nth_error ls i = Some (LPar (Z.of_nat ib) (plog_new step freq)) ->
  sim_run Fof linit lstep NOTS lat bm0 k = Ok s ->
  exists ns ls' fs p bs, logged_run absBF Fof linit lstep P NOTS lat bms ls ws k = Ok (ns, (ls', fs)) /\
    nth_error ls' i = Some (LPar (Z.of_nat ib) p) /\
    Forall2 (bunch_in_step Fof linit lstep NOTS lat bm0 ib) (due (Z.to_nat step) k) bs /\
    plog_write p = Ok (map (fun b => parameter_row (match freq with Some f => absBF b f | None => nZ 0 end) b) bs) /\
    let n := 1 + k / Z.to_nat step in
    length bs = n /\ plNOTS p = Z.of_nat n /\ length (plTime p) = n /\ length (plPos p) = n /\ length (plBG p) = n /\
    length (plPosRMS p) = n /\ length (plGamma p) = n /\ length (plBGRMS p) = n /\ length (plPosBG p) = n /\
    length (plBF p) = n /\ length (plDelta p) = n.
Proof.
  intros T NT absBF L Fof linit lstep W NOTS lat bm0 bms k ls ws s i ib step freq P V HC Hst Hi Hs.
  destruct (par_run absBF Fof linit lstep NOTS lat bm0 bms k ls ws s i ib step freq V HC Hi Hs) as (ns & ls' & fs & bs & A & B & C).
  unfold int_max in Hst. rewrite u32_id in B by lia.
  exists ns, ls', fs, (plog_of absBF step freq bs), bs. split; [exact A|]. split; [exact C|]. split; [exact B|].
  split; [apply plog_write_of|]. cbn zeta. pose proof (forall2_length _ _ _ B) as E. rewrite due_length in E.
  cbn [plog_of plNOTS plTime plPos plBG plPosRMS plGamma plBGRMS plPosBG plBF plDelta].
  rewrite !map_length, <- E. cbn [Nat.add]. repeat split.
Qed.
Print Assumptions C40_parameter_log_partial.
(* the steps are 0, s, 2s, ...: the multiples of s not exceeding k, each once, in order *)
Theorem C40_due : forall s k, 0 < s ->
  length (due s k) = 1 + k / s /\ (forall i, i <= k / s -> nth_error (due s k) i = Some (i * s)) /\
  (forall j, In j (due s k) <-> j <= k /\ Nat.divide s j).
Proof.
  intros s k Hs. split; [apply due_length|]. split.
  - intros i Hi. unfold due. rewrite (map_nth_error _ i (seq 0 (S (k / s))) (d := i)); [reflexivity|].
    rewrite nth_error_nth' with (d := 0) by (rewrite seq_length; lia). rewrite seq_nth by lia. reflexivity.
  - intros j. split.
    + intros H. split; [exact (due_le s k j H)|]. unfold due in H. apply in_map_iff in H. destruct H as (i & <- & _). exists i. reflexivity.
    + intros (Hk & i & ->). unfold due. apply in_map_iff. exists i. split; [reflexivity|]. apply in_seq.
      assert (i <= k / s) by (apply Nat.div_le_lower_bound; lia). lia.
Qed.
Print Assumptions C40_due.
Example C40_due_ex : 0 < 3 /\ due 3 7 = [0; 3; 6].
Proof. split; [lia|reflexivity]. Qed.

(* trajectory and probe logs: recorded values in the same steps *)
Theorem C40_trajectory_log_partial : forall (T : Type) (NT : Num T) (absBF : bunch T -> T -> T) (L : Type) (Fof : L -> field_fn T)
    (linit lstep : beam T -> L -> res L) (W : Type) NOTS lat bm0 bms k ls (ws : list (@watch W)) s i ib b0 step number,
  let P := Z.of_nat (length bms) in let n := Z.min (bunch_NOP b0) (u32 number) in
  valid_run NOTS bm0 bms k -> Forall (created bm0 P) ls -> (0 < step <= int_max)%Z ->
  nth_error (bmB bm0) ib = Some b0 ->
  nth_error ls i = Some (LTraj (Z.of_nat ib) (tlog_new b0 step number)) ->
  sim_run Fof linit lstep NOTS lat bm0 k = Ok s ->
  exists ns ls' fs p bs, logged_run absBF Fof linit lstep P NOTS lat bms ls ws k = Ok (ns, (ls', fs)) /\
    nth_error ls' i = Some (LTraj (Z.of_nat ib) p) /\
    Forall2 (bunch_in_step Fof linit lstep NOTS lat bm0 ib) (due (Z.to_nat step) k) bs /\
    blNOTS p = Z.of_nat (1 + k / Z.to_nat step) /\ blNOP p = n /\
    blData p = map (fun b => map Some (coordinates (Z.to_nat n) b)) bs.
Proof.
  intros T NT absBF L Fof linit lstep W NOTS lat bm0 bms k ls ws s i ib b0 step number P n V HC Hst Hb Hi Hs.
  destruct (traj_run absBF Fof linit lstep NOTS lat bm0 bms k ls ws s i ib b0 step number V HC Hb Hi Hs) as (ns & ls' & fs & bs & A & B & _ & C).
  unfold int_max in Hst. rewrite u32_id in B by lia.
  eexists ns, ls', fs, _, bs. split; [exact A|]. split; [exact C|]. split; [exact B|].
  cbn [blog_of blNOTS blNOP blData]. rewrite map_length, map_map. split; [|split; reflexivity].
  pose proof (forall2_length _ _ _ B) as E. rewrite due_length in E. f_equal. exact (eq_sym E).
Qed.
Print Assumptions C40_trajectory_log_partial.
(* The probe logger observes the particles tracked by node 0, tb; it records the first of
   them.  The particles recorded are the first ones of the beam in the order of the
   bunches. *)
Theorem C40_probe_log_partial : forall (T : Type) (NT : Num T) (absBF : bunch T -> T -> T) (L : Type) (Fof : L -> field_fn T)
    (linit lstep : beam T -> L -> res L) (W : Type) NOTS lat bm0 bms k ls (ws : list (@watch W)) s i tb step number p,
  let P := Z.of_nat (length bms) in let n := Z.min (first_share bm0 P) (u32 number) in
  valid_run NOTS bm0 bms k -> Forall (created bm0 P) ls -> (0 < step <= int_max)%Z ->
  prlog_new tb step number = Ok p -> count tb = first_share bm0 P ->
  nth_error ls i = Some (LProbe p) ->
  sim_run Fof linit lstep NOTS lat bm0 k = Ok s ->
  exists ns ls' fs p pss, logged_run absBF Fof linit lstep P NOTS lat bms ls ws k = Ok (ns, (ls', fs)) /\
    nth_error ls' i = Some (LProbe p) /\
    Forall2 (tracked_in_step Fof linit lstep NOTS lat bm0) (due (Z.to_nat step) k) pss /\
    blNOTS p = Z.of_nat (1 + k / Z.to_nat step) /\ blNOP p = n /\
    blData p = map (fun ps => map Some (probe_values (Z.to_nat n) ps)) pss.
Proof.
  intros T NT absBF L Fof linit lstep W NOTS lat bm0 bms k ls ws s i tb step number p P n V HC Hst Hp Hc Hi Hs.
  destruct (probe_run absBF Fof linit lstep NOTS lat bm0 bms k ls ws s i tb step number p V HC Hp Hc Hi Hs) as (ns & ls' & fs & pss & A & B & _ & C).
  unfold int_max in Hst. rewrite u32_id in B by lia.
  eexists ns, ls', fs, _, pss. split; [exact A|]. split; [exact C|]. split; [exact B|].
  cbn [blog_of blNOTS blNOP blData]. rewrite map_length, map_map. split; [|split; reflexivity].
  pose proof (forall2_length _ _ _ B) as E. rewrite due_length in E. f_equal. exact (eq_sym E).
Qed.
Print Assumptions C40_probe_log_partial.
(* how many particles the probe file holds depends on the number of nodes *)
Theorem C40_probe_depends_on_nodes_refuted : exists (bm : beam R) number,
  Z.min (first_share bm 1) (u32 number) <> Z.min (first_share bm 2) (u32 number).
Proof. exists ex_bm, 3%Z. vm_compute. discriminate. Qed.
Print Assumptions C40_probe_depends_on_nodes_refuted.
(* runs of any length with every kind of logger exist: tracking without fields *)
Example C40_log_ex : exists (ls : list (logger R)) (tb : beam R) p,
  valid_run 10 ex_bm [ex_bm] 1 /\ Forall (created ex_bm 1) ls /\
  nth_error ls 0 = Some (LPar (Z.of_nat 1) (plog_new 1 None)) /\
  nth_error (bmB ex_bm) 0 = Some [ex_part 1; ex_part 2] /\
  nth_error ls 1 = Some (LTraj (Z.of_nat 0) (tlog_new [ex_part 1; ex_part 2] 1 5)) /\
  prlog_new tb 1 2 = Ok p /\ count tb = first_share ex_bm 1 /\ nth_error ls 2 = Some (LProbe p) /\
  exists s, sim_run ex_F ex_keep ex_keep 10 tt ex_bm 1 = Ok s.
Proof.
  pose proof ex_input as SI.
  destruct (prlog_new ex_bm 1 2) as [p| | |] eqn:EP; try (vm_compute in EP; discriminate).
  exists [LPar (Z.of_nat 1) (plog_new 1 None); LTraj (Z.of_nat 0) (tlog_new [ex_part 1; ex_part 2] 1 5); LProbe p], ex_bm, p.
  split; [|split; [|split; [reflexivity|split; [reflexivity|split; [reflexivity|split; [exact EP|split; [reflexivity|split; [reflexivity|]]]]]]]].
  - apply ex_valid. lia.
  - repeat constructor.
    + exists 1, 1%Z, None. cbn [ex_bm bmB length]. unfold int_min, int_max. repeat split; lia.
    + exists 0, [ex_part 1; ex_part 2], 1%Z, 5%Z. unfold int_min, int_max. repeat split; lia.
    + exists ex_bm, 1%Z, 2%Z. split; [exact EP|]. split; [reflexivity|]. unfold int_min, int_max. repeat split; lia.
  - apply ex_run.
Qed.

(* The watch points: every one with a step between 0 and k is written once, from the
   beam in that step; nothing else is written. *)
Theorem C40_watch : forall (T : Type) (NT : Num T) (absBF : bunch T -> T -> T) (L : Type) (Fof : L -> field_fn T)
    (linit lstep : beam T -> L -> res L) (W : Type) NOTS lat bm0 bms k ls (ws : list (@watch W)) ns ls' fs,
  let P := Z.of_nat (length bms) in
  valid_run NOTS bm0 bms k -> Forall (created bm0 P) ls ->
  logged_run absBF Fof linit lstep P NOTS lat bms ls ws k = Ok (ns, (ls', fs)) ->
  length fs = length (filter (fun w => (0 <=? fst w)%Z && (fst w <=? Z.of_nat k)%Z) ws) /\
  (forall f m, In (f, m) fs -> exists j, In (Z.of_nat j, f) ws /\ j <= k /\ master_in_step Fof linit lstep NOTS lat bm0 j m) /\
  (forall j f, In (Z.of_nat j, f) ws -> j <= k -> exists m, master_in_step Fof linit lstep NOTS lat bm0 j m /\ In (f, m) fs).
Proof.
  intros T NT absBF L Fof linit lstep W NOTS lat bm0 bms k ls ws ns ls' fs P V HC H.
  pose proof (watch_run absBF Fof linit lstep NOTS lat bm0 bms k ls ws ns ls' fs V HC H) as E.
  destruct V as (HH & HF & H1 & H2 & HN & Hk).
  exact (watch_spec Fof linit lstep NOTS lat bm0 bms HH HF H1 H2 HN ws k Hk fs E).
Qed.
Print Assumptions C40_watch.
(* (hypotheses: C40_log_ex with C40_harmless) *)

(* A step width of 0 divides by zero in the first step. *)
Theorem C40_zero_refuted : forall (T : Type) (NT : Num T) (absBF : bunch T -> T -> T) (L : Type) (Fof : L -> field_fn T)
    (linit lstep : beam T -> L -> res L) (W : Type) P NOTS lat bms l (ws : list (@watch W)) k ns n l' ns1,
  logger_step l = 0%Z ->
  driver_run Fof linit lstep P NOTS lat bms 0 = Ok ns -> first_node ns = Ok n -> logger_update absBF n l = Ok l' ->
  driver_run Fof linit lstep P NOTS lat bms 1 = Ok ns1 ->
  logged_run absBF Fof linit lstep P NOTS lat bms [l] ws (S k) = UB.
Proof.
  intros T NT absBF L Fof linit lstep W P NOTS lat bms l ws k ns n l' ns1 H1 H2 H3 H4 H5.
  apply (step_zero absBF Fof linit lstep P NOTS lat bms l ws k ns l' n H1 H2 H3 H4); rewrite H5; discriminate.
Qed.
Print Assumptions C40_zero_refuted.
Example C40_zero_ex : let l := LPar 0 (plog_new 0 None) in
  exists ns n l' ns1, logger_step l = 0%Z /\
  driver_run ex_F ex_keep ex_keep (Z.of_nat (length [ex_bm])) 10 tt [ex_bm] 0 = Ok ns /\ first_node ns = Ok n /\
  logger_update ex_bf n l = Ok l' /\
  driver_run ex_F ex_keep ex_keep (Z.of_nat (length [ex_bm])) 10 tt [ex_bm] 1 = Ok ns1.
Proof.
  apply (zero_exists ex_F ex_keep ex_keep) with (bm := ex_bm);
    [intros; exists ezero; reflexivity|intros b l; exists l; reflexivity|intros b l; exists l; reflexivity|
     apply ex_valid; lia|reflexivity|discriminate].
Qed.

(* A negative step width is converted to a width of more than 2^31 and only the initial
   state is recorded. *)
Theorem C40_negative_refuted : forall (T : Type) (NT : Num T) (absBF : bunch T -> T -> T) (L : Type) (Fof : L -> field_fn T)
    (linit lstep : beam T -> L -> res L) (W : Type) NOTS lat bm0 bms k ls (ws : list (@watch W)) s i ib step freq,
  let P := Z.of_nat (length bms) in
  valid_run NOTS bm0 bms k -> Forall (created bm0 P) ls -> (int_min <= step < 0)%Z ->
  nth_error ls i = Some (LPar (Z.of_nat ib) (plog_new step freq)) ->
  sim_run Fof linit lstep NOTS lat bm0 k = Ok s ->
  exists ns ls' fs p b, logged_run absBF Fof linit lstep P NOTS lat bms ls ws k = Ok (ns, (ls', fs)) /\
    nth_error ls' i = Some (LPar (Z.of_nat ib) p) /\
    bunch_in_step Fof linit lstep NOTS lat bm0 ib 0 b /\
    plog_write p = Ok [parameter_row (match freq with Some f => absBF b f | None => nZ 0 end) b].
Proof.
  intros T NT absBF L Fof linit lstep W NOTS lat bm0 bms k ls ws s i ib step freq P V HC Hst Hi Hs.
  destruct (par_run absBF Fof linit lstep NOTS lat bm0 bms k ls ws s i ib step freq V HC Hi Hs) as (ns & ls' & fs & bs & A & B & C).
  destruct V as (_ & _ & _ & _ & HN & Hk). unfold int_min, int_max in *.
  assert (E : u32 step = (step + 2 ^ 32)%Z) by (unfold u32; rewrite <- (Z.mod_add step 1) by lia; rewrite Z.mod_small; lia).
  rewrite due_large in B by (rewrite E; lia). inversion B as [|j b l l' B1 B2]; subst. inversion B2; subst.
  exists ns, ls', fs, (plog_of absBF step freq [b]), b. split; [exact A|]. split; [exact C|]. split; [exact B1|].
  exact (plog_write_of absBF step freq [b]).
Qed.
Print Assumptions C40_negative_refuted.
Example C40_negative_ex : valid_run 10 ex_bm [ex_bm] 1 /\ Forall (created ex_bm 1) [LPar (Z.of_nat 1) (plog_new (-3) None)] /\
  (int_min <= -3 < 0)%Z /\
  exists s, sim_run ex_F ex_keep ex_keep 10 tt ex_bm 1 = Ok s.
Proof.
  pose proof ex_input as SI.
  split; [|split; [|split]].
  - apply ex_valid. lia.
  - repeat constructor. exists 1, (-3)%Z, None. cbn [ex_bm bmB length]. unfold int_min, int_max. repeat split; lia.
  - unfold int_min. lia.
  - apply ex_run.
Qed.

(* ==== C68: the files of the particle data loggers ==== *)
(* A logger holding NOTS records of NOP particles with NOD values each writes all of them,
   in order, with these dimensions.  Partial: if there are less than 2^32 values. *)
Theorem C68_file_partial : forall (T : Type) (step nop nod : Z) (vals : list (list T)),
  (0 <= nop * nod < 2 ^ 32)%Z -> Forall (fun v => Z.of_nat (length v) = (nop * nod)%Z) vals ->
  (Z.of_nat (length vals) * (nop * nod) < 2 ^ 32)%Z ->
  blog_write (BL (Z.of_nat (length vals)) step nop nod (map (map Some) vals)) = Ok (Z.of_nat (length vals), nop, nod, concat vals).
Proof.
  intros T step nop nod vals H1 H2 H3. pose proof (blog_write_of step nop nod vals H1 H2) as E.
  rewrite (proj2 (Z.ltb_lt _ _) H3) in E. exact E.
Qed.
Print Assumptions C68_file_partial.
Example C68_file_ex : (0 <= 1 * 2 < 2 ^ 32)%Z /\ Forall (fun v => Z.of_nat (length v) = (1 * 2)%Z) [[5%R; 6%R]; [7%R; 8%R]] /\
  (Z.of_nat 2 * (1 * 2) < 2 ^ 32)%Z.
Proof. split; [lia|]. split; [repeat constructor|lia]. Qed.
(* From 2^32 values on the buffer is too small and memory behind it is overwritten. *)
Theorem C68_overflow_refuted : forall (T : Type) (step nop nod : Z) (vals : list (list T)),
  (0 <= nop * nod < 2 ^ 32)%Z -> Forall (fun v => Z.of_nat (length v) = (nop * nod)%Z) vals ->
  (2 ^ 32 <= Z.of_nat (length vals) * (nop * nod))%Z ->
  blog_write (BL (Z.of_nat (length vals)) step nop nod (map (map Some) vals)) = UB.
Proof.
  intros T step nop nod vals H1 H2 H3. pose proof (blog_write_of step nop nod vals H1 H2) as E.
  rewrite (proj2 (Z.ltb_ge _ _) H3) in E. exact E.
Qed.
Print Assumptions C68_overflow_refuted.
(* a million particles recorded 716 times *)
Example C68_overflow_ex : exists vals : list (list R), (0 <= 1000000 * 6 < 2 ^ 32)%Z /\
  Forall (fun v => Z.of_nat (length v) = (1000000 * 6)%Z) vals /\ (2 ^ 32 <= Z.of_nat (length vals) * (1000000 * 6))%Z.
Proof.
  exists (repeat (repeat 0%R (Z.to_nat 6000000)) 716). split; [lia|]. split.
  - apply Forall_forall. intros v Hv. apply repeat_spec in Hv. subst v. rewrite repeat_length, Z2Nat.id by lia. reflexivity.
  - rewrite repeat_length. lia.
Qed.
(* The trajectory logger at the end of a run is in such a state, and its file contains the
   coordinates of the first particles of the bunch in every recorded step. *)
Theorem C68_trajectory_file_partial : forall (T : Type) (NT : Num T) (absBF : bunch T -> T -> T) (L : Type) (Fof : L -> field_fn T)
    (linit lstep : beam T -> L -> res L) (W : Type) NOTS lat bm0 bms k ls (ws : list (@watch W)) s i ib b0 step number,
  let P := Z.of_nat (length bms) in let n := Z.min (bunch_NOP b0) (u32 number) in
  valid_run NOTS bm0 bms k -> Forall (created bm0 P) ls -> (0 < step <= int_max)%Z ->
  nth_error (bmB bm0) ib = Some b0 ->
  nth_error ls i = Some (LTraj (Z.of_nat ib) (tlog_new b0 step number)) ->
  sim_run Fof linit lstep NOTS lat bm0 k = Ok s ->
  let records := (1 + Z.of_nat (k / Z.to_nat step))%Z in
  (records * n * 6 < 2 ^ 32)%Z ->
  exists ns ls' fs p bs, logged_run absBF Fof linit lstep P NOTS lat bms ls ws k = Ok (ns, (ls', fs)) /\
    nth_error ls' i = Some (LTraj (Z.of_nat ib) p) /\
    Forall2 (bunch_in_step Fof linit lstep NOTS lat bm0 ib) (due (Z.to_nat step) k) bs /\
    blog_write p = Ok (records, n, 6%Z, flat_map (coordinates (Z.to_nat n)) bs).
Proof.
  intros T NT absBF L Fof linit lstep W NOTS lat bm0 bms k ls ws s i ib b0 step number P n V HC Hst Hb Hi Hs records HR.
  destruct (traj_run absBF Fof linit lstep NOTS lat bm0 bms k ls ws s i ib b0 step number V HC Hb Hi Hs) as (ns & ls' & fs & bs & A & B & HL & C).
  unfold int_max in Hst. rewrite u32_id in B by lia. fold n in C.
  eexists ns, ls', fs, _, bs. split; [exact A|]. split; [exact C|]. split; [exact B|].
  pose proof (forall2_length _ _ _ B) as E. rewrite due_length in E.
  assert (EL : Z.of_nat (length bs) = records) by (unfold records; lia).
  assert (Hn : (0 <= n)%Z) by (unfold n, bunch_NOP; pose proof (Z.mod_pos_bound number (2 ^ 32) ltac:(lia)) as X; fold (u32 number) in X; lia).
  assert (R1 : (1 <= records)%Z) by (unfold records; lia).
  rewrite blog_write_of.
  - rewrite map_length. change (@length (list (particle T)) bs) with (@length (bunch T) bs). rewrite EL. rewrite (proj2 (Z.ltb_lt _ _)) by lia. rewrite <- flat_map_concat_map. reflexivity.
  - nia.
  - apply Forall_forall. intros v Hv. apply in_map_iff in Hv. destruct Hv as (b & <- & Hb').
    rewrite Forall_forall in HL. specialize (HL b Hb'). rewrite coordinates_len; [lia|].
    rewrite HL. unfold n, bunch_NOP. lia.
Qed.
Print Assumptions C68_trajectory_file_partial.
(* (hypotheses: C40_log_ex; 2 records of 2 particles) *)
