(* C98: the probe and the watch files in SDDS format. *)
From Coq Require Import ZArith String Reals List Bool Lia Lra.
From Verif Require Import Base BaseFacts Num VecModel VecFacts ParticleModel ParticleSpec TraceModel BunchModel BunchModelR BunchSpec BeamSpec DriverModel DriverSpec
  ElementModel FelModel ObserverModel ObserverSpec LoggerModel LoggerSpec HybridProofs SddsModel SddsSpec OutputModel OutputSpec OutputProofs
  ParserModel ParserSpec ParserSpec2 ProgramModel ProgramSpec ResultSpec ResultProofs ResultSpec2 ResultProofs2 ResultProofs3 PropParser PropProgram PropSdds PropResult PropResult2.
Import ListNotations.
Local Open Scope string_scope.
Local Open Scope list_scope.

(* the field at which a particle is pushed in step j: that of the lattice and the interactions as they were
   after the step before; at the beginning those of the document *)
Definition field_seen {TT : Trans R} (i : pinput (T := R)) (j : nat) (t : R) (x : vec R) (f : emf R) : Prop :=
  match j with
  | O => full_field (inLattice i, inFel i) t x = Ok f
  | S j' => exists s, @state_at R NumR TT i j' s /\ full_field (sLat s) t x = Ok f
  end.
(* the values of a probe particle: time, position, momentum, acceleration, electric and magnetic field *)
Definition probe_row (a : tpoint R) (f : emf R) : list R :=
  [tpt a; vx (tpx a); vy (tpx a); vz (tpx a); vx (tpp a); vy (tpp a); vz (tpp a); vx (tpa a); vy (tpa a); vz (tpa a);
   vx (fE f); vy (fE f); vz (fE f); vx (fB f); vy (fB f); vz (fB f)].

(* The probe: element [r; k; c] is value number c of point j of particle k, where j is the step number r which
   is due; the fields are those which the particle has seen there.  Missing: the sizes of C77. *)
Theorem C98_probe_partial : forall (TT : Trans R) (CT : Calc R) absBF consts root w0 ws mdt i files,
  completed TT CT absBF consts root w0 ws mdt i files -> piReq (inProbe i) = true ->
  let js := due (Z.to_nat (u32 (piStep (inProbe i)))) (steps i) in
  let nop := Z.min (first_share (inBeam i) (Z.of_nat (length (w0 :: ws)))) (u32 (piNumber (inProbe i))) in
  exists s e, @state_at R NumR TT i (steps i) s /\ tracked_from i (sTracked s) /\
    In (piFile (inProbe i), FHdf5 [("Probe", e)]) files /\ hsDims e = [Z.of_nat (length js); nop; 16%Z] /\
    (0 <= nop <= Z.of_nat (length (sTracked s)))%Z /\
    forall r j k q a, nth_error js r = Some j -> (Z.of_nat k < nop)%Z -> nth_error (sTracked s) k = Some q -> nth_error (trajectory q) j = Some a ->
      exists f, field_seen i j (tpt a) (tpx a) f /\
        forall c, (0 <= c < 16)%Z -> element_of e [Z.of_nat r; Z.of_nat k; c] = nth_error (probe_row a f) (Z.to_nat c).
Proof.
  intros TT CT absBF consts root w0 ws mdt i files (CI & SF & D & FI & LF & OF & Hd & E) Rq js nop.
  apply (C77_files TT CT absBF consts root w0 ws mdt i files CI SF D FI LF OF) in E.
  destruct E as (names & _ & s & tf & of & St & (s1 & wf & lf & pf & ff & S1 & _ & _ & PW & _ & ->) & _ & ->).
  inversion PW as [N0|pss _ Ps n nop' Sz]; subst; [congruence|]. change nop' with nop in *. clear nop'.
  fold js in Ps. assert (Lb : length pss = length js) by (symmetry; exact (Forall2_len _ _ _ Ps)).
  pose proof (state_tracked i s Hd St) as Tr.
  assert (Lc : count (inBeam i) = Z.of_nat (length (sTracked s))) by (unfold count; rewrite (Forall2_len _ _ _ Tr); reflexivity).
  assert (NP : (0 <= nop <= Z.of_nat (length (sTracked s)))%Z).
  { unfold nop, first_share, share. unfold u32. pose proof (Z.mod_pos_bound (piNumber (inProbe i)) (2 ^ 32) ltac:(lia)).
    set (P := Z.of_nat (length (w0 :: ws))). assert (0 < P)%Z by (unfold P; cbn [length]; lia).
    assert (0 <= (count (inBeam i) + P - 1) / P)%Z by (apply Z.div_pos; lia). lia. }
  assert (K : forall r j, nth_error js r = Some j -> exists ps, nth_error pss r = Some ps /\ length ps = length (sTracked s) /\
    exists s', @state_at R NumR TT i j s' /\ sTracked s' = ps /\ Forall2 (fun p q => nth_error (trajectory q) j = Some (current p)) ps (sTracked s)).
  { intros r j Hr. destruct (Forall2_at _ _ _ Ps r j Hr) as (ps & Np & s' & S' & <-). exists (sTracked s'). split; [exact Np|].
    unfold state_at in *. pose proof (sim_kept _ _ _ _ _ _ Hd j (steps i) s' s (due_le _ _ _ (nth_error_In _ _ Hr)) S' St) as F.
    split; [exact (Forall2_len _ _ _ F)|]. exists s'. auto. }
  eexists s, _. split; [exact St|]. split; [exact Tr|].
  split; [apply in_or_app; left; apply in_or_app; right; apply in_or_app; right; apply in_or_app; left; left; reflexivity|].
  split; [cbn [hsDims]; unfold n; rewrite Lb; reflexivity|]. split; [exact NP|].
  intros r j k q a Hr Hk Hq Ha. destruct (K r j Hr) as (ps & Np & Lp & s' & S' & E' & F).
  destruct (Forall2_at (fun q p => nth_error (trajectory q) j = Some (current p)) _ _ (flip2 _ _ _ F) k q Hq) as (p & Hp & Np'). rewrite Ha in Np'. injection Np' as ->.
  unfold state_at in S'. pose proof (sim_seen _ _ _ _ _ _ Hd j s' S') as Sn. rewrite Forall_forall in Sn.
  destruct (Sn p) as (_ & l & Fl & Hf); [rewrite E'; exact (nth_error_In _ _ Hp)|].
  exists (EB (pE p) (pB p)). split.
  { unfold field_seen. cbn [current tpt tpx]. destruct j as [|j]; [cbn [fields_of] in Fl; subst l; exact Hf|]. destruct Fl as (s2 & S2 & <-). exists s2. auto. }
  intros c Hc. assert (r < length pss)%nat by (apply nth_error_Some; congruence).
  unfold element_of. cbn [hsDims hsData row_major]. rewrite !inb by (unfold n; lia). cbn [fold_right].
  assert (Lv : forall b, In b pss -> length (probe_values (Z.to_nat nop) b) = (16 * Z.to_nat nop)%nat).
  { intros b Ib. destruct (In_nth_error _ _ Ib) as (r3 & H3). destruct (nth_error js r3) as [j3|] eqn:X3.
    - destruct (K r3 j3 X3) as (b4 & N4 & L4 & _). rewrite H3 in N4. injection N4 as <-. unfold probe_values.
      rewrite (block_length _ 16) by reflexivity. rewrite firstn_length_le by lia. reflexivity.
    - apply nth_error_None in X3. assert (r3 < length pss)%nat by (apply nth_error_Some; congruence). lia. }
  replace (Z.to_nat (Z.of_nat r * (nop * (16 * 1)) + (Z.of_nat k * (16 * 1) + (c * 1 + 0))))
    with (16 * Z.to_nat nop * r + (16 * k + Z.to_nat c))%nat.
  2:{ clear - NP Hc. clearbody nop. assert (X : exists z, nop = Z.of_nat z) by (exists (Z.to_nat nop); lia). destruct X as (z & ->). rewrite Nat2Z.id.
      assert (X : exists y, c = Z.of_nat y) by (exists (Z.to_nat c); lia). destruct X as (y & ->). rewrite Nat2Z.id.
      apply Nat2Z.inj. rewrite Z2Nat.id by nia. rewrite !Nat2Z.inj_add, !Nat2Z.inj_mul. ring. }
  rewrite (blocks_nth _ _ pss Lv r ps) by (try assumption; nia).
  unfold probe_values. rewrite (block_nth _ 16) with (a := p); [reflexivity|reflexivity|apply firstn_at; [lia|exact Hp]|lia].
Qed.
Print Assumptions C98_probe_partial.

(* A watch file in SDDS format of step j: row k has the time, position, momentum, slopes and gamma of point j of
   particle k.  Missing: the sizes of C77. *)
Theorem C98_watch_sdds_partial : forall (TT : Trans R) (CT : Calc R) absBF consts root w0 ws mdt i files j fn,
  completed TT CT absBF consts root w0 ws mdt i files -> In (Z.of_nat j, (WSdds, fn)) (inWatch i) -> (j <= steps i)%nat ->
  exists s d, @state_at R NumR TT i (steps i) s /\ tracked_from i (sTracked s) /\
    In (fn, FSdds d) files /\ sdRows d = Z.of_nat (length (sTracked s)) /\
    forall k q a, nth_error (sTracked s) k = Some q -> nth_error (trajectory q) j = Some a ->
      column d "t" k = Some (tpt a) /\
      column d "x" k = Some (vx (tpx a)) /\ column d "y" k = Some (vy (tpx a)) /\ column d "z" k = Some (vz (tpx a)) /\
      column d "px" k = Some (vx (tpp a)) /\ column d "py" k = Some (vy (tpp a)) /\ column d "pz" k = Some (vz (tpp a)) /\
      column d "p" k = Some (vnorm (tpp a)) /\
      column d "xp" k = Some (vx (tpp a) / vz (tpp a))%R /\ column d "yp" k = Some (vy (tpp a) / vz (tpp a))%R /\
      column d "gamma" k = Some (sqrt (1 + vabs2 (tpp a))).
Proof.
  intros TT CT absBF consts root w0 ws mdt i files j fn (CI & SF & D & FI & LF & OF & Hd & E) H Hj.
  apply (C77_files TT CT absBF consts root w0 ws mdt i files CI SF D FI LF OF) in E.
  destruct E as (names & _ & s & tf & of & St & (s1 & wf & lf & pf & ff & S1 & FW & _ & _ & _ & ->) & _ & ->).
  assert (I : In (j, (WSdds, fn)) (watches_due i)).
  { unfold watches_due. apply in_flat_map. exists j. split; [apply in_seq; lia|]. apply in_map_iff. exists (Z.of_nat j, (WSdds, fn)). split; [reflexivity|].
    apply filter_In. split; [exact H|]. apply Z.eqb_refl. }
  destruct (In_nth_error _ _ I) as (m & Hn). destruct (Forall2_at _ _ _ FW m _ Hn) as (g & Hg & W).
  inversion W as [|j' fn' s2 d S2 Hw]; subst.
  pose proof (sim_later _ _ _ _ _ _ Hd j (steps i) s2 s Hj S2 St) as F.
  assert (Lm : (Z.of_nat (length (beam_particles (sMaster s2))) <= int_max)%Z).
  { pose proof (Forall2_len _ _ _ F) as L1. pose proof (Forall2_len _ _ _ (state_tracked i s Hd St)) as L2. unfold beam_particles. rewrite L1, <- L2.
    destruct FI as (FI & _). unfold count in FI. cbn [length] in FI. lia. }
  destruct (C58_written_partial R NumR (sMaster s2) Lm) as (d' & Hd' & Rw & _ & C1 & C2 & C3 & C4 & C5 & C6 & C7 & C8 & C9 & C10 & C11).
  rewrite Hw in Hd'. apply Ok_inj in Hd'. subst d'.
  exists s, d. split; [exact St|]. split; [apply state_tracked; assumption|].
  split; [apply in_or_app; left; apply in_or_app; left; exact (nth_error_In _ _ Hg)|].
  split; [rewrite Rw; unfold beam_particles; rewrite (Forall2_len _ _ _ F); reflexivity|].
  intros k q a Hq Ha. destruct (Forall2_at (fun q p => at_step j p q) _ _ (flip2 _ _ _ F) k q Hq) as (p2 & Np & a' & Ha' & E1 & E3 & E4). rewrite Ha in Ha'. injection Ha' as <-.
  assert (V : forall name (g : particle R -> R), has_column d name g (beam_particles (sMaster s2)) -> column d name k = Some (g p2)).
  { intros name g0 Hc. unfold has_column in Hc. unfold column. rewrite Hc. rewrite nth_error_map. unfold beam_particles. rewrite Np. reflexivity. }
  apply V in C1. apply V in C2. apply V in C3. apply V in C4. apply V in C5. apply V in C6. apply V in C7. apply V in C8. apply V in C9. apply V in C10. apply V in C11.
  rewrite E1, E3, E4.
  refine (conj C1 (conj C2 (conj C3 (conj C4 (conj C5 (conj C6 (conj C7 (conj C8 (conj C9 (conj C10 C11)))))))))).
Qed.
Print Assumptions C98_watch_sdds_partial.
