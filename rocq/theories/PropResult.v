(* C97: the files of the observers of the beam, from the document to the values. *)
From Coq Require Import ZArith String Reals List Bool Lia Lra.
From Coquelicot Require Import Coquelicot.
From Verif Require Import Base BaseFacts Num VecModel VecFacts ParticleModel ParticleSpec ParticleSpec2 TraceModel RetardModel RetardSpec TraceIntSpec BunchModel BunchSpec BeamSpec DriverModel DriverSpec
  ElementModel FelModel ObserverModel ObserverSpec ObserverSpec2 ObserverProofs ObserverProofs2 ObserverProofs4 PropSample RecordSpec RecordProofs LoggerModel LoggerSpec LoggerProofs3 LoggerProofs4 HybridProofs SddsModel OutputModel OutputSpec
  ParserModel ParserSpec ParserSpec2 ProgramModel ProgramSpec ProgramProofs4 ResultSpec ResultProofs PropParser PropProgram PropOutput PropRecord.
Import ListNotations.
Local Open Scope string_scope.
Local Open Scope list_scope.

Lemma value_component c (f : emf R) : (0 <= c < 6)%Z -> field_value c f = Some (component c f).
Proof.
  intros H. assert (E : (c = 0 \/ c = 1 \/ c = 2 \/ c = 3 \/ c = 4 \/ c = 5)%Z) by lia.
  destruct E as [-> | [-> | [-> | [-> | [-> | ->]]]]]; reflexivity.
Qed.
Lemma fewer n nx ny : (2 <= n)%Z -> (0 <= nx)%Z -> (0 <= ny)%Z -> (6 * (nx * ny * n) <= int_max)%Z -> (3 * (nx * ny) < 2 ^ 32)%Z.
Proof. intros. assert (0 <= nx * ny)%Z by nia. assert (nx * ny <= nx * ny * n)%Z by nia. unfold int_max in *. lia. Qed.
Lemma in_concat_2 {A B} (P : A -> list B -> Prop) l m a : Forall2 P l m -> In a l -> exists b, P a b /\ (forall x, In x b -> In x (concat m)).
Proof.
  intros F. induction F as [|x y l m H F IH]; [intros []|]. intros [<-|Ha].
  - exists y. split; [exact H|]. intros z Hz. cbn [concat]. apply in_or_app. left. exact Hz.
  - destruct (IH Ha) as (b & Pb & Ib). exists b. split; [exact Pb|]. intros z Hz. cbn [concat]. apply in_or_app. right. auto.
Qed.

Lemma Forall2_at {A B} (P : A -> B -> Prop) l m : Forall2 P l m -> forall k a, nth_error l k = Some a -> exists b, nth_error m k = Some b /\ P a b.
Proof. intros F. induction F; intros [|k] a H0; cbn in H0 |- *; try discriminate; [injection H0 as <-; eauto|auto]. Qed.

Lemma concat_sizes {A} : forall l m : list (list A), map (@length _) l = map (@length _) m -> length (concat l) = length (concat m).
Proof. induction l as [|a l IH]; intros [|b m] E; cbn in E |- *; try discriminate; [reflexivity|]. injection E as E1 E2. rewrite !app_length. auto with arith. Qed.

Section File.
Context (TT : Trans R) (CT : Calc R) (absBF : bunch R -> R -> R) (consts : cenv R) (root : node)
  (w0 : World R) (ws : list (World R)) (mdt : string -> res R) (i : pinput (T := R)) (files : list (string * outfile R)).
Let P := Z.of_nat (length (w0 :: ws)).
(* the document is understood, the sizes are those of C77, and the run ends properly *)
Definition completed : Prop :=
  int_texts CT /\ List.Forall (same_files w0) ws /\ @input_described R NumR TT CT w0 consts root i /\
  fitting i P /\ @logs_fitting R i /\ obs_fitting i /\ (0 < bmdt (inBeam i))%R /\
  program absBF consts (w0 :: ws) mdt root = Ok files.

Lemma beam_file o fn : completed -> In (o, BeamObservation, fn) (inObs i) ->
  exists s o' fs, @state_at R NumR TT i (steps i) s /\ tracked_from i (sTracked s) /\ (forall s', @state_at R NumR TT i (steps i) s' -> s' = s) /\
    shaped o /\ (6 * fields o <= int_max)%Z /\ blank o /\ (forall a b c, inside o (a, b, c) -> timed o) /\
    obs_integrate (SBeam (BM [sTracked s] 0 (bmdt (inBeam i)) TRACKING_VAY)) o = Ok o' /\ like o o' /\ shaped o' /\
    @obs_output R NumR mdt (sMaster s) BeamObservation fn o' fs /\ (forall f, In f fs -> In f files).
Proof.
  intros (CI & SF & D & FI & LF & OF & Hd & E) H.
  apply (C77_files TT CT absBF consts root w0 ws mdt i files CI SF D FI LF OF) in E. destruct E as (names & _ & s & tf & of & St & _ & O & ->).
  destruct (in_concat_2 _ _ _ _ O H) as (fs & W & I). inversion W; subst.
  assert (OF' := OF). unfold obs_fitting in OF. rewrite Forall_forall in OF. destruct (OF _ H) as [Sh F]. cbn [fst] in Sh, F.
  pose proof (@input_blank R NumR TT CT w0 consts root i D) as B. rewrite Forall_forall in B. specialize (B _ H). cbn [fst] in B.
  pose proof (@input_timed TT CT w0 consts root i CI D) as Ti. rewrite Forall_forall in Ti. specialize (Ti _ H). cbn [fst] in Ti.
  exists s, o', fs. split; [exact St|]. split; [apply state_tracked; assumption|]. split.
  { intros s' St'. unfold state_at in *. congruence. }
  split; [exact Sh|]. split; [exact F|]. split; [exact B|]. split; [exact (Ti F)|]. split; [assumption|].
  match goal with K : obs_integrate _ o = Ok o' |- _ => destruct (integrate_ok _ _ _ Sh K) as [Lk _]; pose proof (like_shaped _ _ Lk Sh) as Sh' end.
  split; [exact Lk|]. split; [exact Sh'|]. split; [assumption|]. intros f Hf. apply in_or_app. right. auto.
Qed.
End File.

(* The file of a screen observing the beam: every value of the data set ElMagField is the average, over
   the time step around the sample, of the field which arrives at the position of the cell from all
   particles of the document, tracked as described there.  Missing: the conditions of observable
   (C96), and the sizes of C71 and C77. *)
Theorem C97_screen_partial : forall (TT : Trans R) (CT : Calc R) absBF consts root w0 ws mdt i files (s0 : screen R) fn,
  completed TT CT absBF consts root w0 ws mdt i files -> In (OScreen s0, BeamObservation, fn) (inObs i) ->
  positions_fit (scNx s0) (scNy s0) ->
  exists s, @state_at R NumR TT i (steps i) s /\ tracked_from i (sTracked s) /\
    (observable (OScreen s0) (sTracked s) ->
     exists f e, In (fn, FHdf5 f) files /\ named f "ElMagField" = Some e /\ hsDims e = [scNx s0; scNy s0; scN s0; 6%Z] /\
       attribute e "t0" = Some (SDouble (sct0 s0)) /\ attribute e "dt" = Some (SDouble (scdt s0)) /\
       forall ix iy it c, inside (OScreen s0) (ix, iy, it) -> (0 <= c < 6)%Z ->
         exists v, element_of e [ix; iy; it; c] = Some v /\ averaged (OScreen s0) (sTracked s) (ix, iy, it) c v).
Proof.
  intros TT CT absBF consts root w0 ws mdt i files s0 fn C H Pf.
  destruct (beam_file _ _ _ _ _ _ _ _ _ _ _ _ C H) as (s & o' & fs & St & Tr & _ & Sh & F & B & Ti & E & Lk & Sh' & Out & In').
  exists s. split; [exact St|]. split; [exact Tr|]. intros Ob.
  destruct o' as [s1| | |]; try contradiction. pose proof (observed _ _ _ _ Sh F B Ti I (from_sub _ _ Tr) Ob E) as Q.
  assert (X : s1 = screen_with s0 (scTr s1)) by apply Lk.
  assert (Y : scNx s1 = scNx s0 /\ scNy s1 = scNy s0 /\ scN s1 = scN s0 /\ sct0 s1 = sct0 s0 /\ scdt s1 = scdt s0) by (rewrite X; repeat split).
  destruct Y as (Y1 & Y2 & Y3 & Y4 & Y5). destruct Ob as [On _]. cbn [extent snd] in On.
  destruct (C71_file R NumR s1 Sh') as (p & g & e & EF & _ & _ & (D1 & _ & D3 & D4 & _ & D6)).
  - cbn [small fields extent]. rewrite Y1, Y2, Y3. cbn [fields extent] in F. unfold int_max in F. lia.
  - rewrite Y1, Y2. exact Pf.
  - lia.
  - inversion Out as [k0 fn0 s2 fs0 O1| | | |]; subst. destruct O1 as [(f & E1 & ->)|(x & E1 & _)]; [|rewrite EF in E1; discriminate E1].
    rewrite EF in E1. apply Ok_inj in E1. subst f. eexists _, e. split; [apply In'; left; reflexivity|]. split; [reflexivity|].
    split; [rewrite D1, Y1, Y2, Y3; reflexivity|]. split; [rewrite D3, Y4; reflexivity|]. split; [rewrite D4, Y5; reflexivity|].
    intros ix iy it c I Hc. destruct (Q ix iy it I) as (fv & G & A). exists (component c fv). split; [|exact (A c Hc)].
    rewrite (D6 ix iy it c fv (like_inside _ _ _ Lk I) Hc G). apply value_component. exact Hc.
Qed.
Print Assumptions C97_screen_partial.

(* The table of a point observer: row k has the time of sample k and the averages of all components. *)
Theorem C97_point_partial : forall (TT : Trans R) (CT : Calc R) absBF consts root w0 ws mdt i files (s0 : point R) fn,
  completed TT CT absBF consts root w0 ws mdt i files -> In (OPoint s0, BeamObservation, fn) (inObs i) ->
  exists s, @state_at R NumR TT i (steps i) s /\ tracked_from i (sTracked s) /\
    (observable (OPoint s0) (sTracked s) ->
     exists d, In (fn, FSdds d) files /\ sdRows d = tr_N (poTr s0) /\
       forall k, (k < length (tr_f (poTr s0)))%nat ->
         column d "t" k = Some (tr_t0 (poTr s0) + IZR (Z.of_nat k) * tr_dt (poTr s0))%R /\
         forall j name, nth_error ["Ex"; "Ey"; "Ez"; "Bx"; "By"; "Bz"] j = Some name ->
           exists v, column d name k = Some v /\ averaged (OPoint s0) (sTracked s) (0, 0, Z.of_nat k)%Z (Z.of_nat j) v).
Proof.
  intros TT CT absBF consts root w0 ws mdt i files s0 fn C H.
  destruct (beam_file _ _ _ _ _ _ _ _ _ _ _ _ C H) as (s & o' & fs & St & Tr & _ & Sh & F & B & Ti & E & Lk & Sh' & Out & In').
  exists s. split; [exact St|]. split; [exact Tr|]. intros Ob.
  destruct o' as [| |s1|]; try contradiction. pose proof (observed _ _ _ _ Sh F B Ti I (from_sub _ _ Tr) Ob E) as Q.
  destruct Lk as (X & T0 & Dt & Ln). destruct Ob as [On _]. cbn [extent snd] in On.
  assert (N : tr_N (poTr s1) = tr_N (poTr s0)) by (unfold tr_N; congruence).
  destruct (C74_point R NumR s1 ltac:(rewrite N; lia)) as (d & EF & D1 & _ & _ & _ & D2).
  inversion Out as [| | |k0 fn0 s2 fs0 O1|]; subst. destruct O1 as [(f & E1 & ->)|(x & E1 & _)]; [|rewrite EF in E1; discriminate E1].
  rewrite EF in E1. apply Ok_inj in E1. subst f. exists d. split; [apply In'; left; reflexivity|]. split; [congruence|].
  intros k Hk. assert (I : inside (OPoint s0) (0, 0, Z.of_nat k)%Z) by (unfold inside, extent, tr_N; lia).
  destruct (Q 0%Z 0%Z (Z.of_nat k) I) as (fv & G & A).
  assert (Nf : nth_error (tr_f (poTr s1)) k = Some fv).
  { cbn [obs_get] in G. unfold tr_get in G. destruct (tr_in (poTr s1) (Z.of_nat k)); [|discriminate G].
    destruct (nth_error (tr_f (poTr s1)) k) as [g|] eqn:Ng; [|apply nth_error_None in Ng; lia].
    pose proof (zget_nth _ _ _ Ng) as Zg. rewrite Zg in G. apply Ok_inj in G. subst g. reflexivity. }
  destruct (D2 k fv Nf) as (C0 & C1 & C2 & C3 & C4 & C5 & C6). rewrite <- T0, <- Dt in C0. split; [exact C0|].
  intros j name Hj.
  destruct j as [|[|[|[|[|[|j]]]]]]; [| | | | | |destruct j; discriminate Hj]; injection Hj as <-.
  - eexists. split; [exact C1|]. exact (A 0%Z ltac:(lia)).
  - eexists. split; [exact C2|]. exact (A 1%Z ltac:(lia)).
  - eexists. split; [exact C3|]. exact (A 2%Z ltac:(lia)).
  - eexists. split; [exact C4|]. exact (A 3%Z ltac:(lia)).
  - eexists. split; [exact C5|]. exact (A 4%Z ltac:(lia)).
  - eexists. split; [exact C6|]. exact (A 5%Z ltac:(lia)).
Qed.
Print Assumptions C97_point_partial.

(* The file of a mesh: the centres of the triangles, the times of their first samples and the averages. *)
Theorem C97_mesh_partial : forall (TT : Trans R) (CT : Calc R) absBF consts root w0 ws mdt i files (s0 : mesh R) fn,
  completed TT CT absBF consts root w0 ws mdt i files -> In (OMesh s0, BeamObservation, fn) (inObs i) -> mesh_fits s0 ->
  exists s, @state_at R NumR TT i (steps i) s /\ tracked_from i (sTracked s) /\
    (observable (OMesh s0) (sTracked s) ->
     exists f o e, In (fn, FHdf5 f) files /\ named f "ObservationTime" = Some o /\ named f "ElMagField" = Some e /\ hsDims e = [mesh_Np s0; msNt s0; 6%Z] /\
       (forall k tr, nth_error (msA s0) k = Some tr -> element_of o [Z.of_nat k] = Some (tr_t0 tr)) /\
       forall k it c, inside (OMesh s0) (k, 0, it)%Z -> (0 <= c < 6)%Z ->
         exists v, element_of e [k; it; c] = Some v /\ averaged (OMesh s0) (sTracked s) (k, 0, it)%Z c v).
Proof.
  intros TT CT absBF consts root w0 ws mdt i files s0 fn C H Mf.
  destruct (beam_file _ _ _ _ _ _ _ _ _ _ _ _ C H) as (s & o' & fs & St & Tr & _ & Sh & F & B & Ti & E & Lk & Sh' & Out & In').
  exists s. split; [exact St|]. split; [exact Tr|]. intros Ob.
  destruct o' as [| | |s1]; try contradiction. pose proof (observed _ _ _ _ Sh F B Ti I (from_sub _ _ Tr) Ob E) as Q.
  destruct Lk as (X & La). assert (Y : msPts s1 = msPts s0 /\ msTri s1 = msTri s0 /\ msX s1 = msX s0 /\ msNt s1 = msNt s0) by (rewrite X; repeat split).
  destruct Y as (Y1 & Y2 & Y3 & Y4). assert (Y5 : mesh_Np s1 = mesh_Np s0) by (unfold mesh_Np; rewrite Y3; reflexivity).
  inversion Out as [| | | |k0 fn0 s2 dt fs0 Md O1]; subst.
  destruct (C72_file R NumR s1 dt Sh') as (cc & p & t & o & e & EF & _ & _ & _ & _ & D1 & _ & _ & _ & _ & _ & D2 & D3).
  - cbn [small fields extent]. rewrite Y4, Y5. exact F.
  - unfold mesh_fits in *. rewrite Y1, Y2, Y3, Y4. exact Mf.
  - destruct O1 as [(f & E1 & ->)|(x & E1 & _)]; [|rewrite EF in E1; discriminate E1].
    rewrite EF in E1. apply Ok_inj in E1. subst f. eexists _, o, e. split; [apply In'; left; reflexivity|]. split; [reflexivity|]. split; [reflexivity|].
    split; [rewrite D1, Y4, Y5; reflexivity|]. split.
    + intros k tr Hk. destruct (Forall2_at _ _ _ La k tr Hk) as (tr' & Hk' & Lt). rewrite (D2 k tr' Hk'). f_equal. symmetry. apply Lt.
    + intros k it c I Hc. destruct (Q k 0%Z it I) as (fv & G & A). exists (component c fv). split; [|exact (A c Hc)].
      assert (I1 : inside (OMesh s1) (k, 0, it)%Z) by (unfold inside, extent in *; rewrite Y4, Y5; exact I).
      rewrite (D3 k it c fv I1 Hc G). apply value_component. exact Hc.
Qed.
Print Assumptions C97_mesh_partial.

(* The file of a snapshot of the beam: every value is that of the sum of the retarded fields of all particles at the time of
   the snapshot.  Missing: the sizes of C73 and C77. *)
Theorem C97_snapshot_partial : forall (TT : Trans R) (CT : Calc R) absBF consts root w0 ws mdt i files (s0 : snapshot R) fn,
  completed TT CT absBF consts root w0 ws mdt i files -> In (OSnap s0, BeamObservation, fn) (inObs i) ->
  positions_fit (snNx s0) (snNy s0) -> (0 < count (inBeam i))%Z -> (6 * count (inBeam i) <= int_max)%Z ->
  exists s f e, @state_at R NumR TT i (steps i) s /\ tracked_from i (sTracked s) /\
    In (fn, FHdf5 f) files /\ named f "ElMagField" = Some e /\ hsDims e = [snNx s0; snNy s0; 6%Z] /\ attribute e "t0" = Some (SDouble (snt s0)) /\
    forall ix iy c x, inside (OSnap s0) (ix, iy, 0)%Z -> (0 <= c < 6)%Z -> cell_place (OSnap s0) ix iy x ->
      exists gs, Forall2 (fun p g => RetardedField_time p (snt s0) x = Ok g) (sTracked s) gs /\
        element_of e [ix; iy; c] = Some (fold_right Rplus 0%R (map (component c) gs)).
Proof.
  intros TT CT absBF consts root w0 ws mdt i files s0 fn C H Pf Hc0 Hc1.
  destruct (beam_file _ _ _ _ _ _ _ _ _ _ _ _ C H) as (s & o' & fs & St & Tr & _ & Sh & F & B & Ti & E & Lk & Sh' & Out & In').
  destruct o' as [|s1| |]; try contradiction.
  assert (X : s1 = snap_with s0 (snF s1)) by apply Lk.
  assert (Y : snNx s1 = snNx s0 /\ snNy s1 = snNy s0 /\ snt s1 = snt s0) by (rewrite X; repeat split). destruct Y as (Y1 & Y2 & Y3).
  inversion Out as [|fn0 s2 st fs0 Es O1| | |]; subst.
  assert (Cn : count (sMaster s) = count (inBeam i)).
  { unfold state_at in St. pose proof (proj1 (sim_lens _ _ _ _ _ _ _ _ St)) as L. unfold count. f_equal. apply concat_sizes. exact L. }
  destruct (C73_file R NumR s1 (sMaster s) (snt s1) Sh') as (st' & p & f & cc & E1 & E2 & _ & _ & (D1 & _ & D2 & D3) & _).
  - cbn [small fields extent]. rewrite Y1, Y2. cbn [fields extent] in F. unfold int_max in F. lia.
  - rewrite Y1, Y2. exact Pf.
  - lia.
  - lia.
  - intros q Hq. unfold snap_store in Es. bget Es as n1 Hn1. bget Es as n2 Hn2. bget Es as vals Hv. apply map_res_ok_iff in Hv.
    apply In_nth_error in Hq. destruct Hq as (k & Hk). destruct (Forall2_at _ _ _ Hv k q Hk) as (b & _ & Hb). unfold coords6 in Hb. bget Hb as xm Hxm. eauto.
  - rewrite E1 in Es. apply Ok_inj in Es. subst st'. destruct O1 as [(f0 & Q1 & ->)|(x & Q1 & _)]; [|rewrite E2 in Q1; discriminate Q1].
    rewrite E2 in Q1. apply Ok_inj in Q1. subst f0. exists s. eexists _, f. split; [exact St|]. split; [exact Tr|].
    split; [apply In'; left; reflexivity|]. split; [reflexivity|]. split; [rewrite D1, Y1, Y2; reflexivity|]. split; [rewrite D2, Y3; reflexivity|].
    intros ix iy c x I Hc Px. destruct (inside_sizes _ _ _ _ Sh F I) as [Is _].
    assert (Hyp : forall q, In q (beam_ps (BM [sTracked s] 0 (bmdt (inBeam i)) TRACKING_VAY)) -> wf q /\ trajectory q <> []).
    { intros q Hq. unfold beam_ps in Hq. cbn [bmB concat] in Hq. rewrite app_nil_r in Hq. split; [exact (proj1 (from_sub _ _ Tr q Hq))|].
      apply In_nth_error in Hq. destruct Hq as (k & Hk). clear - Tr Hk. intros Z0. unfold tracked_from in Tr. revert k Hk.
      induction Tr as [|p q' l m (_ & _ & Ln & _) Tr IH]; intros [|k] Hk; cbn in Hk; try discriminate; [|eauto]. injection Hk as ->. rewrite Z0 in Ln. discriminate Ln. }
    destruct (C96_snapshot s0 (OSnap s1) _ ix iy x Sh Is I Px Hyp E) as (gs & G1 & G2).
    exists gs. unfold beam_ps in G1. cbn [bmB concat] in G1. rewrite app_nil_r in G1. split; [exact G1|].
    rewrite (D3 ix iy c _ (like_inside _ _ _ Lk I) Hc G2), value_component by exact Hc. f_equal.
    clear - Hc. assert (K : forall a b : emf R, component c (eadd a b) = (component c a + component c b)%R).
    { intros a b. assert (Q : (c = 0 \/ c = 1 \/ c = 2 \/ c = 3 \/ c = 4 \/ c = 5)%Z) by lia. destruct Q as [-> | [-> | [-> | [-> | [-> | ->]]]]]; reflexivity. }
    induction gs as [|g gs IH]; cbn [fold_right map]; [apply component_zero, component_in; exact Hc|]. rewrite K, IH. reflexivity.
Qed.
Print Assumptions C97_snapshot_partial.
(* a particle moving freely, seen by a point observer *)
Definition seen_doc : node := Node "teufel" []
  [Node "lattice" [] []; Node "beam" [] [Node "particle" [("gamma","1"); ("charge","1"); ("cmr","1")]
                     [Node "position" [("x","1")] []; Node "momentum" [("z","1")] []]];
   tracking_ []; Node "observer" [] [Node "point" [("file","o")] [Node "position" [] []; Node "time" [("n","2"); ("dt","1")] []]]].
Definition seen_point : point R := PO (@V R 0 0 0)%R (tr_new 0%R 1%R 2).
Definition seen_particle : particle R :=
  initTrajectory 0%R (@V R 1 0 0)%R (vmul (vnormalize (@V R 0 0 1)%R) (R_sqrt.sqrt (1 * 1 - 1))%R) vzero (new_particle (1 / nqe)%R (1 / nqe / 1)%R).
Definition seen_input : pinput (T := R) :=
  PIN [] (BM [[seen_particle]] 1 1%R TRACKING_VAY) [] (PI false "" 0 0) [] [] [(OPoint seen_point, BeamObservation, "o")].
Lemma seen_described (TT : Trans R) : @input_described R NumR TT (toy_calc R NumR) (toy_world R NumR) [] seen_doc seen_input.
Proof.
  unfold seen_input, seen_particle, seen_point. eapply (DI_ [] seen_doc) with (pr := None) (ts := "1") (tn := "1"); try reflexivity.
  + apply DL_nil.
  + eapply (DN_bunch 0 0 _ _ _ _ [] _ []); [|apply DN_nil]. eapply DB_particle; try reflexivity. apply DG_none. reflexivity.
  + split; [|unfold int_min, int_max; lia]. change (Some (Generic_fmt.Znearest (fun x => negb (Z.even x)) (IZR 1)) = Some 1%Z). rewrite near_1. reflexivity.
  + apply DK_nil.
  + eapply DV_observer; [|apply DS_default; reflexivity|reflexivity|apply DV_nil].
    match goal with |- observer_described ?e ?n _ =>
      exact (@DO_point R NumR (toy_calc R NumR) (toy_world R NumR) e n (Node "time" [("n","2"); ("dt","1")] []) (Node "position" [] []) "2" eq_refl eq_refl eq_refl (Zle_0_pos 2) eq_refl) end.
Qed.
Lemma seen_state (TT : Trans R) : exists s, @state_at R NumR TT seen_input 1 s /\ snd (sLat s) = [].
Proof.
  assert (HF : forall t x, exists e, @full_field R NumR TT ([], []) t x = Ok e) by (intros; eexists; reflexivity).
  destruct (@init_exists R NumR 1%R (@full_field R NumR TT ([], [])) 2%Z (current seen_particle) seen_particle HF) as (q & Hq).
  destruct (@step_exists R NumR _ HF q) as (q' & Hq').
  unfold state_at, sim_run. cbn [iter_res]. unfold sim_start. cbv zeta.
  cbn [inBeam seen_input bmTracker bmB bmdt bmNOTS concat app map length firstn skipn spread zip_in map_res inLattice inFel].
  change (1 + 1)%Z with 2%Z. rewrite Hq. cbn [bind map_res inter_init fst snd].
  unfold sim_step. cbn [sLat sTracked sMaster map_res]. rewrite Hq'. cbn [bind inter_step map_res snd fst]. eexists. split; [reflexivity|reflexivity].
Qed.
Lemma seen_reach s (TT : Trans R) : @state_at R NumR TT seen_input (steps seen_input) s -> observable (OPoint seen_point) (sTracked s).
Proof.
  intros H. pose proof (state_tracked seen_input s ltac:(cbn; lra) H) as Tr. split; [cbn; unfold int_max; lia|].
  intros a b x t0 dt _ Px Ck. cbn [cell_place cell_clock seen_point poX poTr tr_new tr_t0 tr_dt] in Px, Ck. destruct Ck as [-> ->]. subst x. split; [lra|].
  unfold tracked_from in Tr. cbn [inBeam seen_input bmB concat app bmdt] in Tr. inversion Tr as [|p q l m (W & S1 & Ln & _ & _ & Ts & a0 & N0) Tr' E1 E2]; subst. inversion Tr'; subst.
  intros p c [<-|[]] Hc. change (steps seen_input) with 1%nat in Ln. destruct (trajectory q) as [|u [|v [|]]] eqn:Et; try discriminate Ln.
  pose proof (Ts 0%nat u eq_refl) as T0. pose proof (Ts 1%nat v eq_refl) as T1. injection N0 as E0.
  pose proof (S1 0%nat u v eq_refl eq_refl) as Sv. unfold slower_than_light in Sv. rewrite T0, T1 in Sv.
  change (pt seen_particle) with 0%R in *. cbn [INR] in *. rewrite E0 in Sv. cbn [tpx] in Sv. change (pX seen_particle) with (@V R 1 0 0)%R in *.
  assert (Hcp : (1 < @nc R NumR)%R) by (unfold nc; cbn; lra).
  assert (D0 : vnorm (vsub (@V R 0 0 0)%R (@V R 1 0 0)%R) = 1%R).
  { transitivity (sqrt (1 * 1)); [|apply sqrt_square; lra]. unfold vnorm, vabs2, vdot, vsub. unnum. cbn [vx vy vz]. f_equal. ring. }
  assert (D : (vnorm (vsub (@V R 0 0 0)%R (tpx c)) <= 1 + nc)%R /\ (tpt c <= 1)%R).
  { destruct Hc as [<- | [<- | []]].
    - rewrite E0 at 1. cbn [tpx]. change (pX seen_particle) with (@V R 1 0 0)%R. rewrite D0. lra.
    - split; [|lra]. replace (vsub (@V R 0 0 0)%R (tpx v)) with (vadd (vsub (@V R 0 0 0)%R (@V R 1 0 0)%R) (vsub (@V R 1 0 0)%R (tpx v))).
      + eapply Rle_trans; [apply triangle|]. rewrite D0, (vnorm_sub_comm _ (tpx v)). lra.
      + destruct (tpx v). unfold vadd, vsub. unnum. cbn. f_equal; ring. }
  destruct D as [D1 D2]. unfold arrival. assert (Q : (vnorm (vsub (@V R 0 0 0)%R (tpx c)) / nc <= 2)%R).
  { apply Rmult_le_reg_r with (@nc R NumR); [lra|]. unfold Rdiv. rewrite Rmult_assoc, Rinv_l by lra. lra. }
  unfold Rdiv at 1. rewrite Rinv_1. lra.
Qed.
Example C97_ex : forall (TT : Trans R) absBF mdt, exists files,
  completed TT (toy_calc R NumR) absBF [] seen_doc (toy_world R NumR) [] mdt seen_input files /\
  In (OPoint seen_point, BeamObservation, "o") (inObs seen_input) /\
  forall s, @state_at R NumR TT seen_input (steps seen_input) s -> observable (OPoint seen_point) (sTracked s).
Proof.
  intros TT absBF mdt. destruct (seen_state TT) as (s & St & Sl). pose proof (seen_reach s TT St) as Ob.
  pose proof (state_tracked seen_input s ltac:(cbn [seen_input inBeam bmdt]; lra) St) as Tr.
  assert (CI : int_texts (toy_calc R NumR)).
  { intros t. unfold toy_calc, int_min, int_max. cbn [cInt]. destruct (String.eqb t "0"); [lia|]. destruct (String.eqb t "2"); [lia|]. destruct (String.eqb t "7"); lia. }
  assert (FI : fitting seen_input (Z.of_nat (length [toy_world R NumR]))).
  { unfold fitting. split; [|split]; [vm_compute; discriminate|vm_compute; discriminate|]. change (0 <= 1 < int_max)%Z. unfold int_max. lia. }
  assert (LF : @logs_fitting R seen_input) by (split; [constructor|intros H; discriminate H]).
  assert (OF : obs_fitting seen_input) by (constructor; [|constructor]; cbn; split; [exact Logic.I|]; unfold int_max; lia).
  assert (Bp : beam_ps (BM [sTracked s] 0 1%R TRACKING_VAY) = sTracked s) by (unfold beam_ps; cbn [bmB concat]; apply app_nil_r).
  destruct (C96_defined_partial (OPoint seen_point) (BM [sTracked s] 0 1%R TRACKING_VAY)) as (o1 & Ho).
  - exact Logic.I.
  - unfold int_sized, extent, int_max. lia.
  - exact Logic.I.
  - apply Ob.
  - exact Logic.I.
  - rewrite Bp. exact (from_sub _ _ Tr).
  - rewrite Bp. apply Ob.
  - destruct (integrate_ok _ _ _ (Logic.I : shaped (OPoint seen_point)) Ho) as [Lk _]. destruct o1 as [| |p1|]; try contradiction.
    destruct (C74_point R NumR p1) as (d & Hd & _).
    { destruct Lk as (_ & _ & _ & Ln). unfold tr_N. rewrite <- Ln. cbn. unfold int_max. lia. }
    assert (E : exists files, @program R NumR TT (toy_calc R NumR) absBF [] [toy_world R NumR] mdt seen_doc = Ok files).
    { eexists. apply (C77_files TT (toy_calc R NumR) absBF [] seen_doc (toy_world R NumR) [] mdt seen_input _ CI ltac:(constructor) (seen_described TT) FI LF OF).
      exists []. split; [eapply FF_some; [reflexivity|apply FN_nil]|]. exists s, [], [[("o", FSdds d)]]. split; [exact St|]. split; [|split; [|reflexivity]].
      - exists s, [], [], [], []. split; [exact St|]. split; [constructor|]. split; [constructor|]. split; [apply B_none; reflexivity|]. split; [|reflexivity]. rewrite Sl. constructor.
      - constructor; [|constructor]. eapply O_beam; [exact Ho|]. apply U_point. left. exists d. split; [exact Hd|reflexivity]. }
    destruct E as (files & E). exists files. split; [|split].
    + split; [exact CI|]. split; [constructor|]. split; [exact (seen_described TT)|]. split; [exact FI|]. split; [exact LF|]. split; [exact OF|]. split; [cbn [seen_input inBeam bmdt]; lra|exact E].
    + left. reflexivity.
    + intros s' H. apply (seen_reach s' TT H).
Qed.
