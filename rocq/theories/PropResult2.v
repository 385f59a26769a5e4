(* C98: the files written during the tracking, from the document to the values. *)
From Coq Require Import ZArith String Reals List Bool Lia Lra.
From Verif Require Import Base BaseFacts Num VecModel VecFacts ParticleModel ParticleSpec TraceModel SddsModel SddsSpec BunchModel BunchModelR BunchSpec BunchProofs BeamSpec DriverModel DriverSpec
  ElementModel FelModel ObserverModel ObserverSpec LoggerModel LoggerSpec LoggerProofs LoggerProofs4 HybridProofs SddsModel OutputModel OutputSpec OutputProofs
  ParserModel ParserSpec ParserSpec2 ProgramModel ProgramSpec ProgramProofs4 ResultSpec ResultProofs ResultSpec2 ResultProofs2 PropParser PropProgram PropSdds PropBunch PropOutput PropResult.
Import ListNotations.
Local Open Scope string_scope.
Local Open Scope list_scope.

Lemma due_length s k : (length (due s k) <= S k)%nat.
Proof. unfold due. rewrite map_length, seq_length. destruct s as [|s]; [cbn; lia|]. apply le_n_S. apply Nat.div_le_upper_bound; nia. Qed.
Lemma due_le s k j : In j (due s k) -> (j <= k)%nat.
Proof.
  unfold due. rewrite in_map_iff. intros (x & <- & Hx). apply in_seq in Hx. destruct s as [|s]; [lia|].
  pose proof (Nat.mul_div_le k (S s) ltac:(lia)). nia.
Qed.

Section Files.
Context {TT : Trans R} {i : pinput (T := R)}.
Lemma state_bunches ib : forall js bs s, (0 < bmdt (inBeam i))%R -> @state_at R NumR TT i (steps i) s -> (forall j, In j js -> (j <= steps i)%nat) ->
  Forall2 (fun j b => exists s, @state_at R NumR TT i j s /\ nth_error (bmB (sMaster s)) ib = Some b) js bs ->
  forall r j, nth_error js r = Some j -> exists b qs, nth_error bs r = Some b /\ nth_error (regroup (bmB (inBeam i)) (sTracked s)) ib = Some qs /\ Forall2 (at_step j) b qs.
Proof.
  intros js bs s Hd St Le F r j Hr. destruct (Forall2_at _ _ _ F r j Hr) as (b & Nb & s1 & S1 & N1).
  unfold state_at in *. pose proof (sim_later _ _ _ _ _ _ Hd j (steps i) s1 s (Le j (nth_error_In _ _ Hr)) S1 St) as F1.
  pose proof (proj1 (sim_master _ _ _ _ _ _ Hd j s1 S1)) as L1.
  destruct (regroup_nth (at_step j) (bmB (inBeam i)) _ _ ib b L1 F1 N1) as (qs & Q1 & Q2). exists b, qs. auto.
Qed.
End Files.

Lemma logged_row d r freq (b : bunch R) pts : b <> [] -> Forall2 (fun p a => tpt a = pt p /\ tpx a = pX p /\ tpp a = pP p) b pts ->
  (column d "t" r = Some (bunch_avgTime b) /\
      column d "x_av" r = Some (vx (bunch_avgPosition b)) /\ column d "y_av" r = Some (vy (bunch_avgPosition b)) /\ column d "z_av" r = Some (vz (bunch_avgPosition b)) /\
      column d "bgx_av" r = Some (vx (bunch_avgMomentum b)) /\ column d "bgy_av" r = Some (vy (bunch_avgMomentum b)) /\ column d "bgz_av" r = Some (vz (bunch_avgMomentum b)) /\
      column d "gamma" r = Some (bunch_avgGamma b) /\ column d "delta" r = Some (bunch_delta b) /\
      column d "x_rms" r = Some (vx (bunch_rmsPosition b)) /\ column d "y_rms" r = Some (vy (bunch_rmsPosition b)) /\ column d "z_rms" r = Some (vz (bunch_rmsPosition b)) /\
      column d "BF" r = Some (match freq with Some f => bf_modulus b f | None => nZ 0 end)) ->
  logged d r freq pts.
Proof.
  intros Hb F (C1 & C2 & C3 & C4 & C5 & C6 & C7 & C8 & C9 & C10 & C11 & C12 & C13).
  destruct (C27_values b Hb) as (V1 & V2 & V3 & V4 & V5). cbv zeta in V5. pose proof (rmsPosition_rms b Hb) as V6.
  rewrite V1 in C1. rewrite V2 in C2, C3, C4. rewrite V3 in C5, C6, C7. rewrite V4 in C8. rewrite V5 in C9. rewrite V6 in C10, C11, C12. cbn [vx vy vz] in *.
  assert (M : forall f g, (forall p a, tpt a = pt p /\ tpx a = pX p /\ tpp a = pP p -> f p = g a) -> map f b = map g pts :> list R).
  { intros f g H. exact (map_points f g H b pts F). }
  unfold logged. cbv zeta.
  rewrite (M _ tpt) in C1 by (intros p a (E1 & E2 & E3); congruence).
  rewrite (M _ (fun a => vx (tpx a))) in C2, C10 by (intros p a (E1 & E2 & E3); congruence).
  rewrite (M _ (fun a => vy (tpx a))) in C3, C11 by (intros p a (E1 & E2 & E3); congruence).
  rewrite (M _ (fun a => vz (tpx a))) in C4, C12 by (intros p a (E1 & E2 & E3); congruence).
  rewrite (M _ (fun a => vx (tpp a))) in C5 by (intros p a (E1 & E2 & E3); congruence).
  rewrite (M _ (fun a => vy (tpp a))) in C6 by (intros p a (E1 & E2 & E3); congruence).
  rewrite (M _ (fun a => vz (tpp a))) in C7 by (intros p a (E1 & E2 & E3); congruence).
  rewrite (M _ (fun a => sqrt (vx (tpp a) * vx (tpp a) + vy (tpp a) * vy (tpp a) + vz (tpp a) * vz (tpp a) + 1))%R) in C8 by (intros p a (E1 & E2 & E3); congruence).
  rewrite (M _ (fun a => sqrt (vx (tpp a) * vx (tpp a) + vy (tpp a) * vy (tpp a) + vz (tpp a) * vz (tpp a)))%R) in C9 by (intros p a (E1 & E2 & E3); congruence).
  assert (C14 : column d "BF" r = Some match freq with
    | Some f => sqrt (mean (map (fun a => cos (2 * Rtrigo1.PI * f * vz (tpx a) / nc)) pts) * mean (map (fun a => cos (2 * Rtrigo1.PI * f * vz (tpx a) / nc)) pts) +
        mean (map (fun a => sin (2 * Rtrigo1.PI * f * vz (tpx a) / nc)) pts) * mean (map (fun a => sin (2 * Rtrigo1.PI * f * vz (tpx a) / nc)) pts))
    | None => 0 end%R).
  { rewrite C13. destruct freq as [f|]; [|reflexivity]. unfold bf_modulus. rewrite (C27_bunching_value b f Hb).
    rewrite (M _ (fun a => cos (2 * Rtrigo1.PI * f * vz (tpx a) / nc))%R) by (intros p a (E1 & E2 & E3); congruence).
    rewrite (M _ (fun a => sin (2 * Rtrigo1.PI * f * vz (tpx a) / nc))%R) by (intros p a (E1 & E2 & E3); congruence). reflexivity. }
  refine (conj C1 (conj C2 (conj C3 (conj C4 (conj C5 (conj C6 (conj C7 (conj C8 (conj C9 (conj C10 (conj C11 (conj C12 C14)))))))))))).
Qed.

(* The table of a logger: a row for every step which is due; row r has the averages over the points
   number j of the trajectories of the particles of the bunch, j the step which is due.  Missing: the sizes
   of C77; the averages of a bunch without particles (C27). *)
Theorem C98_log_partial : forall (TT : Trans R) (CT : Calc R) consts root w0 ws mdt i files ib (p : plog R) fn,
  completed TT CT bf_modulus consts root w0 ws mdt i files -> In (LPar (Z.of_nat ib) p, fn) (inLogs i) ->
  let js := due (Z.to_nat (plStep p)) (steps i) in
  exists s d qs, @state_at R NumR TT i (steps i) s /\ tracked_from i (sTracked s) /\
    nth_error (regroup (bmB (inBeam i)) (sTracked s)) ib = Some qs /\
    In (fn, FSdds d) files /\ sdRows d = Z.of_nat (length js) /\
    named (sdPar d) "NumberParticles" = Some (SLong (Z.of_nat (length qs))) /\ named (sdPar d) "BunchingFrequency" = option_map (@SDouble R) (plFreq p) /\
    forall r j, nth_error js r = Some j -> exists pts, points_at j qs pts /\ (qs <> [] -> logged d r (plFreq p) pts).
Proof.
  intros TT CT consts root w0 ws mdt i files ib p fn (CI & SF & D & FI & LF & OF & Hd & E) H js.
  destruct (@logs_ok R NumR TT CT w0 consts root i (Z.of_nat (length (w0 :: ws))) CI D LF) as (LC & _).
  apply (C77_files TT CT bf_modulus consts root w0 ws mdt i files CI SF D FI LF OF) in E.
  destruct E as (names & _ & s & tf & of & St & (s1 & wf & lf & pf & ff & S1 & _ & FL & _ & _ & ->) & _ & ->).
  destruct (In_nth_error _ _ H) as (n & Hn). destruct (Forall2_at _ _ _ FL n _ Hn) as (g & Hg & W).
  inversion W as [ib' p' fn' bs s2 b d Bs S2 Nb Pf E1 E2|]; subst. apply Nat2Z.inj in E1. subst ib'.
  rewrite Forall_forall in LC. destruct (LC _ H) as ((i0 & step & freq & _ & _ & Ep & _) & _).
  assert (Es : s2 = s) by (unfold state_at in *; congruence). subst s2.
  assert (Le : forall j, In j js -> (j <= steps i)%nat) by (intros j; apply due_le).
  destruct (state_bunches ib [steps i] [b] s Hd St) with (r := 0%nat) (j := steps i) as (b1 & qs & B1 & Q1 & Q2).
  { intros j [<-|[]]. lia. } { constructor; [exists s; auto|constructor]. } { reflexivity. }
  injection B1 as <-.
  assert (Lb : length bs = length js) by (symmetry; exact (Forall2_len _ _ _ Bs)).
  assert (Z.of_nat (length bs) <= int_max)%Z.
  { rewrite Lb. unfold js. pose proof (due_length (Z.to_nat (plStep p)) (steps i)). destruct FI as (_ & _ & FI). unfold steps in *. lia. }
  destruct (C74_parameters R NumR bf_modulus b step freq bs H0) as (d' & P1 & P2 & P3 & P4 & P5 & P6 & P7).
  rewrite Ep in Pf. rewrite P1 in Pf. apply Ok_inj in Pf. subst d'.
  exists s, d, qs. split; [exact St|]. split; [apply state_tracked; assumption|]. split; [exact Q1|].
  split; [apply in_or_app; left; apply in_or_app; right; apply in_or_app; left; exact (nth_error_In _ _ Hg)|].
  split; [rewrite P2, Lb; reflexivity|]. split; [rewrite P4, (Forall2_len _ _ _ Q2); reflexivity|]. split; [rewrite P6, Ep; reflexivity|].
  intros r j Hr. destruct (state_bunches ib js bs s Hd St Le Bs r j Hr) as (b2 & qs2 & N2 & Q3 & Q4).
  rewrite Q1 in Q3. injection Q3 as <-. destruct (at_points j b2 qs Q4) as (pts & A1 & A2). exists pts. split; [exact A1|].
  intros Hq. rewrite Ep. cbn [plog_new plFreq]. apply (logged_row d r freq b2 pts).
  - intros ->. inversion Q4; subst. contradiction.
  - exact A2.
  - exact (P7 r b2 N2).
Qed.
Print Assumptions C98_log_partial.

(* ---- coordinates ---- *)
Definition six_of (p : particle R) : list R := [vx (pX p); vy (pX p); vz (pX p); vx (pP p); vy (pP p); vz (pP p)].
Lemma six_value p a c : (0 <= c < 6)%Z -> tpx a = pX p -> tpp a = pP p -> nth_error (six_of p) (Z.to_nat c) = phase_value c a.
Proof.
  intros H E1 E2. unfold phase_value, six_of. rewrite E1, E2.
  assert (c = 0 \/ c = 1 \/ c = 2 \/ c = 3 \/ c = 4 \/ c = 5)%Z as [-> |[-> |[-> |[-> |[-> | ->]]]]] by lia; reflexivity.
Qed.
Lemma blocks_nth {A B} (g : A -> list B) n : forall l, (forall a, In a l -> length (g a) = n) -> forall i a c, nth_error l i = Some a -> (c < n)%nat ->
  nth_error (flat_map g l) (n * i + c) = nth_error (g a) c.
Proof.
  induction l as [|x l IH]; intros H [|i] a c E Hc; try discriminate.
  - injection E as ->. cbn [flat_map]. rewrite nth_error_app1 by (rewrite H by (left; reflexivity); lia). f_equal. lia.
  - cbn [flat_map]. rewrite nth_error_app2 by (rewrite H by (left; reflexivity); nia). rewrite H by (left; reflexivity).
    replace (n * S i + c - n)%nat with (n * i + c)%nat by nia. apply IH; try assumption. intros b Hb. apply H. right. exact Hb.
Qed.
Lemma flip2 {A B} (P : A -> B -> Prop) l m : Forall2 P l m -> Forall2 (fun b a => P a b) m l.
Proof. intros F. induction F; constructor; assumption. Qed.
Lemma firstn_at {A} : forall (l : list A) n k a, (k < n)%nat -> nth_error l k = Some a -> nth_error (firstn n l) k = Some a.
Proof. induction l as [|x l IH]; intros [|n] [|k] a H E; try discriminate; try lia; cbn in *; auto. apply IH; [lia|exact E]. Qed.

(* The trajectories: the element [r; k; c] is value number c of point j of particle k of the bunch, where
   j is the step number r which is due.  Missing: the sizes of C77. *)
Theorem C98_trajectories_partial : forall (TT : Trans R) (CT : Calc R) absBF consts root w0 ws mdt i files ib (p : blog R) fn,
  completed TT CT absBF consts root w0 ws mdt i files -> In (LTraj (Z.of_nat ib) p, fn) (inLogs i) ->
  let js := due (Z.to_nat (blStep p)) (steps i) in
  exists s e qs, @state_at R NumR TT i (steps i) s /\ tracked_from i (sTracked s) /\
    nth_error (regroup (bmB (inBeam i)) (sTracked s)) ib = Some qs /\
    In (fn, FHdf5 [("Trajectories", e)]) files /\ hsDims e = [Z.of_nat (length js); blNOP p; 6%Z] /\ (0 <= blNOP p <= Z.of_nat (length qs))%Z /\
    forall r j k q a c, nth_error js r = Some j -> (Z.of_nat k < blNOP p)%Z -> nth_error qs k = Some q -> nth_error (trajectory q) j = Some a -> (0 <= c < 6)%Z ->
      element_of e [Z.of_nat r; Z.of_nat k; c] = phase_value c a.
Proof.
  intros TT CT absBF consts root w0 ws mdt i files ib p fn (CI & SF & D & FI & LF & OF & Hd & E) H js.
  destruct (@logs_ok R NumR TT CT w0 consts root i (Z.of_nat (length (w0 :: ws))) CI D LF) as (LC & _).
  apply (C77_files TT CT absBF consts root w0 ws mdt i files CI SF D FI LF OF) in E.
  destruct E as (names & _ & s & tf & of & St & (s1 & wf & lf & pf & ff & S1 & _ & FL & _ & _ & ->) & _ & ->).
  destruct (In_nth_error _ _ H) as (m & Hn). destruct (Forall2_at _ _ _ FL m _ Hn) as (g & Hg & W).
  inversion W as [|ib' p' fn' bs Bs n Sz E1 E2]; subst. apply Nat2Z.inj in E1. subst ib'.
  rewrite Forall_forall in LC. destruct (LC _ H) as ((i0 & b0 & step & number & Ei & N0 & Ep & _) & _). apply Nat2Z.inj in Ei. subst i0.
  assert (Le : forall j, In j js -> (j <= steps i)%nat) by (intros j; apply due_le).
  assert (Lb : length bs = length js) by (symmetry; exact (Forall2_len _ _ _ Bs)).
  pose proof (proj1 (sim_master _ _ _ _ _ _ Hd _ _ St)) as L1.
  assert (Nb : exists b, nth_error (bmB (sMaster s)) ib = Some b).
  { destruct (nth_error (bmB (sMaster s)) ib) as [b|] eqn:X; [eauto|]. apply nth_error_None in X. assert (ib < length (bmB (inBeam i)))%nat by (apply nth_error_Some; congruence).
    apply (f_equal (@length _)) in L1. rewrite !map_length in L1. exfalso. apply (Nat.lt_irrefl ib). eapply Nat.lt_le_trans; [eassumption|].
    unfold bunch in *. rewrite <- L1. exact X. }
  destruct Nb as (b & Nb).
  destruct (state_bunches ib [steps i] [b] s Hd St) with (r := 0%nat) (j := steps i) as (b1 & qs & B1 & Q1 & Q2).
  { intros j [<-|[]]. lia. } { constructor; [exists s; auto|constructor]. } { reflexivity. }
  injection B1 as <-.
  assert (Lq : length qs = length b0).
  { rewrite <- (Forall2_len _ _ _ Q2). apply (f_equal (fun l => nth_error l ib)) in L1. rewrite !nth_error_map in L1. unfold bunch in *. rewrite Nb, N0 in L1. now injection L1. }
  assert (NP : (0 <= blNOP p <= Z.of_nat (length qs))%Z).
  { rewrite Ep. cbn [tlog_new blNOP]. unfold bunch_NOP, u32. pose proof (Z.mod_pos_bound (Z.of_nat (length b0)) (2 ^ 32) ltac:(lia)). pose proof (Z.mod_pos_bound number (2 ^ 32) ltac:(lia)).
    pose proof (Z.mod_le (Z.of_nat (length b0)) (2 ^ 32) ltac:(lia) ltac:(lia)). lia. }
  assert (R : forall r j, nth_error js r = Some j -> exists b, nth_error bs r = Some b /\ Forall2 (at_step j) b qs).
  { intros r j Hr. destruct (state_bunches ib js bs s Hd St Le Bs r j Hr) as (b2 & qs2 & N2 & Q3 & Q4). rewrite Q1 in Q3. injection Q3 as <-. eauto. }
  exists s, (H5 [n; blNOP p; 6%Z] (HDoubles (flat_map (coordinates (Z.to_nat (blNOP p))) bs)) [att_int "NOTS" n; att_int "NOP" (blNOP p)]), qs.
  split; [exact St|]. split; [apply state_tracked; assumption|]. split; [exact Q1|].
  split; [apply in_or_app; left; apply in_or_app; right; apply in_or_app; left; exact (nth_error_In _ _ Hg)|].
  split; [cbn [hsDims]; unfold n; rewrite Lb; reflexivity|]. split; [exact NP|].
  intros r j k q a c Hr Hk Hq Ha Hc. destruct (R r j Hr) as (b2 & N2 & F2).
  assert (r < length bs)%nat by (apply nth_error_Some; congruence).
  unfold element_of. cbn [hsDims hsData row_major]. rewrite !inb by (unfold n; lia). cbn [fold_right].
  assert (Lc : forall b3, In b3 bs -> length (coordinates (Z.to_nat (blNOP p)) b3) = (6 * Z.to_nat (blNOP p))%nat).
  { intros b3 I3. destruct (In_nth_error _ _ I3) as (r3 & H3). destruct (nth_error js r3) as [j3|] eqn:X3.
    - destruct (R r3 j3 X3) as (b4 & N4 & F4). rewrite H3 in N4. injection N4 as <-. unfold coordinates.
      rewrite (block_length _ 6) by reflexivity. rewrite firstn_length_le by (rewrite (Forall2_len _ _ _ F4); lia). reflexivity.
    - apply nth_error_None in X3. assert (r3 < length bs)%nat by (apply nth_error_Some; congruence). lia. }
  replace (Z.to_nat (Z.of_nat r * (blNOP p * (6 * 1)) + (Z.of_nat k * (6 * 1) + (c * 1 + 0))))
    with (6 * Z.to_nat (blNOP p) * r + (6 * k + Z.to_nat c))%nat.
  2:{ assert (X : exists z, blNOP p = Z.of_nat z) by (exists (Z.to_nat (blNOP p)); lia). destruct X as (z & ->). rewrite Nat2Z.id.
      assert (X : exists y, c = Z.of_nat y) by (exists (Z.to_nat c); lia). destruct X as (y & ->). rewrite Nat2Z.id.
      apply Nat2Z.inj. rewrite Z2Nat.id by nia. rewrite !Nat2Z.inj_add, !Nat2Z.inj_mul. ring. }
  rewrite (blocks_nth _ _ bs Lc r b2) by (try assumption; nia).
  destruct (Forall2_at (fun q p => at_step j p q) qs b2 (flip2 _ _ _ F2) k q Hq) as (p2 & Np & a' & Ha' & E1 & E3 & E4). rewrite Ha in Ha'. injection Ha' as <-.
  unfold coordinates. rewrite (block_nth _ 6) with (a := p2); [|reflexivity|apply firstn_at; [lia|exact Np]|lia].
  apply (six_value p2 a c Hc E3 E4).
Qed.
Print Assumptions C98_trajectories_partial.

(* A watch file in HDF5 format of step j: the element [k; c] is value number c of point j of particle k.
   Missing: the sizes of C77. *)
Theorem C98_watch_partial : forall (TT : Trans R) (CT : Calc R) absBF consts root w0 ws mdt i files j fn,
  completed TT CT absBF consts root w0 ws mdt i files -> In (Z.of_nat j, (WHdf5, fn)) (inWatch i) -> (j <= steps i)%nat ->
  exists s e, @state_at R NumR TT i (steps i) s /\ tracked_from i (sTracked s) /\
    In (fn, FHdf5 [("electrons", e)]) files /\ hsDims e = [Z.of_nat (length (sTracked s)); 6%Z] /\
    forall k q a c, nth_error (sTracked s) k = Some q -> nth_error (trajectory q) j = Some a -> (0 <= c < 6)%Z ->
      element_of e [Z.of_nat k; c] = phase_value c a.
Proof.
  intros TT CT absBF consts root w0 ws mdt i files j fn (CI & SF & D & FI & LF & OF & Hd & E) H Hj.
  apply (C77_files TT CT absBF consts root w0 ws mdt i files CI SF D FI LF OF) in E.
  destruct E as (names & _ & s & tf & of & St & (s1 & wf & lf & pf & ff & S1 & FW & _ & _ & _ & ->) & _ & ->).
  assert (I : In (j, (WHdf5, fn)) (watches_due i)).
  { unfold watches_due. apply in_flat_map. exists j. split; [apply in_seq; lia|]. apply in_map_iff. exists (Z.of_nat j, (WHdf5, fn)). split; [reflexivity|].
    apply filter_In. split; [exact H|]. apply Z.eqb_refl. }
  destruct (In_nth_error _ _ I) as (m & Hn). destruct (Forall2_at _ _ _ FW m _ Hn) as (g & Hg & W).
  inversion W as [j' fn' s2 S2 ps|]; subst.
  pose proof (sim_later _ _ _ _ _ _ Hd j (steps i) s2 s Hj S2 St) as F. fold ps in F.
  eexists s, _. split; [exact St|]. split; [apply state_tracked; assumption|].
  split; [apply in_or_app; left; apply in_or_app; left; exact (nth_error_In _ _ Hg)|].
  split; [cbn [hsDims]; rewrite (Forall2_len _ _ _ F); reflexivity|].
  intros k q a c Hq Ha Hc. destruct (Forall2_at (fun q p => at_step j p q) _ _ (flip2 _ _ _ F) k q Hq) as (p2 & Np & a' & Ha' & E1 & E3 & E4). rewrite Ha in Ha'. injection Ha' as <-.
  assert (k < length ps)%nat by (apply nth_error_Some; congruence).
  unfold element_of. cbn [hsDims hsData row_major]. rewrite !inb by lia. cbn [fold_right].
  replace (Z.to_nat (Z.of_nat k * (6 * 1) + (c * 1 + 0))) with (6 * k + Z.to_nat c)%nat by lia.
  rewrite (block_nth _ 6) with (a := p2); [|reflexivity|exact Np|lia]. apply (six_value p2 a c Hc E3 E4).
Qed.
Print Assumptions C98_watch_partial.

(* a particle moving freely, with all these files *)
Definition logged_doc : node := Node "teufel" []
  [Node "lattice" [] []; Node "beam" [] [Node "bunch" [("gamma","1"); ("charge","1"); ("cmr","1")]
                     [Node "position" [("x","1")] []; Node "momentum" [("z","1")] []; Node "log" [("file","l"); ("bunching-freq","1")] []; Node "trajectories" [("file","t")] []];
                          Node "probe" [("file","p")] []];
   tracking_ [Node "watch" [("step","1"); ("file","w")] []; Node "watch-sdds" [("step","0"); ("file","s")] []]; Node "observer" [] []].
Definition logged_input (p : particle R) : pinput (T := R) :=
  PIN [] (BM [[p]] 1 1%R TRACKING_VAY) [(LPar 0 (plog_new 1 (Some 1%R)), "l"); (LTraj 0 (tlog_new [p] 1 1), "t")] (PI true "p" 1 1)
    [(1%Z, (WHdf5, "w")); (0%Z, (WSdds, "s"))] [] [].
Lemma logged_described (TT : Trans R) : exists p, @input_described R NumR TT (toy_calc R NumR) (toy_world R NumR) [] logged_doc (logged_input p).
Proof.
  eexists. eapply (DI_ [] logged_doc) with (pr := Some (PI true "p" 1 1)) (ts := "1") (tn := "1"); try reflexivity.
  + apply DL_nil.
  + eapply (DN_bunch 0 0 _ _ _ _ [_; _] _ []); [|match goal with |- beam_described ?i ?ib ?e (?n :: ?r) _ _ _ => exact (DN_probe i ib e n r "p" [] [] None eq_refl eq_refl (DN_nil _ _ _)) end].
    eapply DB_bunch with (N := 1%Z) (cors := []) (logs := [_]) (trj := [_]); try reflexivity.
    * unfold int_max. lia.
    * apply DC_none. reflexivity.
    * intros [|k] p N; [|destruct k; discriminate N]. injection N as <-. eexists. split; [reflexivity|]. reflexivity.
    * match goal with |- log_described ?e ?n _ _ _ => exact (DG_some e n 0%Z true (Node "log" [("file","l"); ("bunching-freq","1")] []) "l" eq_refl eq_refl) end.
    * match goal with |- traj_described ?n _ _ _ => exact (DT_some n 0%Z _ (Node "trajectories" [("file","t")] []) "t" eq_refl eq_refl) end.
  + split; [|unfold int_min, int_max; lia]. change (Some (Generic_fmt.Znearest (fun x => negb (Z.even x)) (IZR 1)) = Some 1%Z). rewrite near_1. reflexivity.
  + eapply (DK_watch _ _ _ _ "1" 1); try reflexivity.
    { split; [|unfold int_min, int_max; lia]. change (Some (Generic_fmt.Znearest (fun x => negb (Z.even x)) (IZR 1)) = Some 1%Z). rewrite near_1. reflexivity. }
    eapply (DK_sdds _ _ _ _ "0" 0); try reflexivity; [|apply DK_nil].
    split; [|unfold int_min, int_max; lia]. change (Some (Generic_fmt.Znearest (fun x => negb (Z.even x)) (IZR 0)) = Some 0%Z). rewrite near_0. reflexivity.
  + apply DV_nil.
Qed.
Lemma logged_state (TT : Trans R) p : exists s0 s1 b0 b1, @state_at R NumR TT (logged_input p) 0 s0 /\ @state_at R NumR TT (logged_input p) 1 s1 /\
  bmB (sMaster s0) = [b0] /\ bmB (sMaster s1) = [b1] /\ snd (sLat s1) = [].
Proof.
  assert (HF : forall t x, exists e, @full_field R NumR TT ([], []) t x = Ok e) by (intros; eexists; reflexivity).
  destruct (@init_exists R NumR 1%R (@full_field R NumR TT ([], [])) 2%Z (current p) p HF) as (q & Hq).
  destruct (@step_exists R NumR _ HF q) as (q' & Hq').
  unfold state_at, sim_run. cbn [iter_res]. unfold sim_start. cbv zeta.
  cbn [inBeam logged_input bmTracker bmB bmdt bmNOTS concat app map length firstn skipn spread zip_in map_res inLattice inFel].
  change (1 + 1)%Z with 2%Z. rewrite Hq. cbn [bind map_res inter_init fst snd].
  unfold sim_step. cbn [sLat sTracked sMaster map_res]. rewrite Hq'. cbn [bind inter_step map_res snd fst].
  do 4 eexists. split; [reflexivity|]. split; [reflexivity|]. split; [reflexivity|]. split; reflexivity.
Qed.
Example C98_ex : forall (TT : Trans R) mdt, exists i files p fn q fn' fn'' fn3,
  completed TT (toy_calc R NumR) bf_modulus [] logged_doc (toy_world R NumR) [] mdt i files /\
  In (LPar (Z.of_nat 0) p, fn) (inLogs i) /\ In (LTraj (Z.of_nat 0) q, fn') (inLogs i) /\ In (Z.of_nat 1, (WHdf5, fn'')) (inWatch i) /\ (1 <= steps i)%nat /\
  In (Z.of_nat 0, (WSdds, fn3)) (inWatch i) /\ piReq (inProbe i) = true.
Proof.
  intros TT mdt. destruct (logged_described TT) as (p & D). destruct (logged_state TT p) as (s0 & s1 & b0 & b1 & S0 & S1 & B0 & B1 & Sl).
  assert (CI : int_texts (toy_calc R NumR)).
  { intros t. unfold toy_calc, int_min, int_max. cbn [cInt]. destruct (String.eqb t "0"); [lia|]. destruct (String.eqb t "2"); [lia|]. destruct (String.eqb t "7"); lia. }
  assert (FI : fitting (logged_input p) (Z.of_nat (length [toy_world R NumR]))).
  { unfold fitting. split; [|split]; [vm_compute; discriminate|vm_compute; discriminate|]. change (0 <= 1 < int_max)%Z. unfold int_max. lia. }
  assert (LF : @logs_fitting R (logged_input p)) by (split; [repeat constructor; cbn; discriminate|intros _; cbn; discriminate]).
  assert (OF : obs_fitting (logged_input p)) by constructor.
  assert (Bs : Forall2 (fun j b => exists s, @state_at R NumR TT (logged_input p) j s /\ nth_error (bmB (sMaster s)) 0 = Some b) [0; 1]%nat [b0; b1]).
  { constructor; [exists s0; rewrite B0; auto|]. constructor; [exists s1; rewrite B1; auto|constructor]. }
  destruct (C74_parameters R NumR bf_modulus b1 1 (Some 1%R) [b0; b1]) as (d & Pf & _); [cbn; unfold int_max; lia|].
  destruct (C58_written_partial R NumR (sMaster s0)) as (dw & Hw & _).
  { unfold beam_particles. rewrite B0. assert (Hd : (0 < bmdt (inBeam (logged_input p)))%R) by (cbn [logged_input inBeam bmdt]; lra). pose proof (proj1 (sim_master _ _ _ _ _ _ Hd _ _ S0)) as L0. rewrite B0 in L0. cbn [map logged_input inBeam bmB length] in L0.
    injection L0 as L0. cbn [concat]. rewrite app_nil_r. unfold bunch in *. rewrite L0. unfold int_max. lia. }
  assert (E : exists files, @program R NumR TT (toy_calc R NumR) bf_modulus [] [toy_world R NumR] mdt logged_doc = Ok files).
  { eexists. apply (C77_files TT (toy_calc R NumR) bf_modulus [] logged_doc (toy_world R NumR) [] mdt (logged_input p) _ CI ltac:(constructor) D FI LF OF).
    exists []. split; [eapply FF_some; [reflexivity|apply FN_other; [discriminate|apply FN_other; [discriminate|apply FN_nil]]]|]. eexists s1, _, []. split; [exact S1|]. split; [|split; [constructor|reflexivity]].
    eexists s1, [_; _], [_; _], [_], []. split; [exact S1|]. split.
    { constructor; [exact (W_sdds _ 0%nat "s" s0 dw S0 Hw)|]. constructor; [exact (W_hdf5 _ 1%nat "w" s1 S1)|constructor]. }
    split.
    - constructor; [|constructor; [|constructor]].
      + refine (G_par bf_modulus (logged_input p) 0%nat (plog_new 1 (Some 1%R)) "l" [b0; b1] s1 b1 d Bs S1 _ Pf). rewrite B1. reflexivity.
      + apply (G_traj bf_modulus (logged_input p) 0%nat (tlog_new [p] 1 1) "t" [b0; b1] Bs). reflexivity.
    - split; [refine (B_some (logged_input p) 1 [sTracked s0; sTracked s1] eq_refl _ _); [|reflexivity]|].
      + constructor; [exists s0; auto|]. constructor; [exists s1; auto|constructor].
      + split; [|reflexivity]. rewrite Sl. constructor. }
  destruct E as (files & E). exists (logged_input p), files. do 6 eexists. split; [|split; [|split; [|split; [|split; [|split]]]]].
  - split; [exact CI|]. split; [constructor|]. split; [exact D|]. split; [exact FI|]. split; [exact LF|]. split; [exact OF|]. split; [cbn [logged_input inBeam bmdt]; lra|exact E].
  - left. reflexivity.
  - right. left. reflexivity.
  - left. reflexivity.
  - cbn. lia.
  - right. left. reflexivity.
  - reflexivity.
Qed.
