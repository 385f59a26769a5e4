(* C97: the files of the observers of the beam of every run which ends. *)
From Coq Require Import ZArith String Reals List Bool Lia Lra.
From Coquelicot Require Import Coquelicot.
From Verif Require Import Base BaseFacts Num VecModel VecFacts ParticleModel ParticleSpec ParticleSpec2 TraceModel RetardModel RetardSpec TraceIntSpec BunchModel BunchSpec BeamSpec DriverModel DriverSpec
  ElementModel FelModel ObserverModel ObserverSpec ObserverSpec2 ObserverProofs ObserverProofs2 ObserverProofs4 PropSample RecordSpec RecordProofs LoggerModel LoggerSpec LoggerProofs3 LoggerProofs4 HybridProofs SddsModel OutputModel OutputSpec
  ParserModel ParserSpec ParserSpec2 ProgramModel ProgramSpec ProgramProofs4 ResultSpec ResultProofs PropParser PropProgram PropOutput PropRecord ResultSpec3 ResultProofs4 PropResult.
Import ListNotations.
Local Open Scope string_scope.
Local Open Scope list_scope.

(* The file of a screen observing the beam: every value of the data set ElMagField is the average, over
   the time step around the sample, of the field which arrives at the position of the cell from all
   particles of the document, tracked as described there.  For all
   beams: nothing is required of the arrival of the signals.  Missing: less than two
   samples (C97_one_sample_refuted), and the sizes of C71 and C77. *)
Theorem C97_screen_sampled_partial : forall (TT : Trans R) (CT : Calc R) absBF consts root w0 ws mdt i files (s0 : screen R) fn,
  completed TT CT absBF consts root w0 ws mdt i files -> In (OScreen s0, BeamObservation, fn) (inObs i) -> sampled (OScreen s0) ->
  positions_fit (scNx s0) (scNy s0) ->
  exists s, @state_at R NumR TT i (steps i) s /\ tracked_from i (sTracked s) /\
    (exists f e, In (fn, FHdf5 f) files /\ named f "ElMagField" = Some e /\ hsDims e = [scNx s0; scNy s0; scN s0; 6%Z] /\
       attribute e "t0" = Some (SDouble (sct0 s0)) /\ attribute e "dt" = Some (SDouble (scdt s0)) /\
       forall ix iy it c, inside (OScreen s0) (ix, iy, it) -> (0 <= c < 6)%Z ->
         exists v, element_of e [ix; iy; it; c] = Some v /\ averaged (OScreen s0) (sTracked s) (ix, iy, it) c v).
Proof.
  intros TT CT absBF consts root w0 ws mdt i files s0 fn C H Ob Pf.
  destruct (beam_file _ _ _ _ _ _ _ _ _ _ _ _ C H) as (s & o' & fs & St & Tr & _ & Sh & F & B & Ti & E & Lk & Sh' & Out & In').
  exists s. split; [exact St|]. split; [exact Tr|].
  destruct o' as [s1| | |]; try contradiction. pose proof (observed_completed _ _ _ _ Sh F B Ti I (from_sub _ _ Tr) Ob E) as Q.
  assert (X : s1 = screen_with s0 (scTr s1)) by apply Lk.
  assert (Y : scNx s1 = scNx s0 /\ scNy s1 = scNy s0 /\ scN s1 = scN s0 /\ sct0 s1 = sct0 s0 /\ scdt s1 = scdt s0) by (rewrite X; repeat split).
  destruct Y as (Y1 & Y2 & Y3 & Y4 & Y5). destruct Ob as [On _]. cbn [extent snd] in On.
  destruct (C71_file R NumR s1 Sh') as (p & g & e & EF & _ & _ & (D1 & _ & D3 & D4 & _ & D6)).
  - cbn [small fields extent]. rewrite Y1, Y2, Y3. cbn [fields extent] in F. unfold int_max in F. lia.
  - rewrite Y1, Y2. exact Pf.
  - lia.
  - inversion Out as [k0 fn0 s2 fs0 O1| | | |]; subst. destruct O1 as [(f & E1 & ->)|(x & E1 & _)]; [|rewrite EF in E1; discriminate E1].
    rewrite EF in E1. apply Ok_inj in E1. subst f. eexists _, e. split; [apply In'; left; reflexivity|]. split; [reflexivity|].
    split; [rewrite D1, Y1, Y2, Y3; reflexivity|]. split; [rewrite D3, Y4; reflexivity|]. split; [rewrite D4, Y5; reflexivity|].
    intros ix iy it c I Hc. destruct (Q ix iy it I) as (fv & G & A). exists (component c fv). split; [|exact (A c Hc)].
    rewrite (D6 ix iy it c fv (like_inside _ _ _ Lk I) Hc G). apply value_component. exact Hc.
Qed.
Print Assumptions C97_screen_sampled_partial.

(* The table of a point observer: row k has the time of sample k and the averages of all components. *)
Theorem C97_point_sampled_partial : forall (TT : Trans R) (CT : Calc R) absBF consts root w0 ws mdt i files (s0 : point R) fn,
  completed TT CT absBF consts root w0 ws mdt i files -> In (OPoint s0, BeamObservation, fn) (inObs i) -> sampled (OPoint s0) ->
  exists s, @state_at R NumR TT i (steps i) s /\ tracked_from i (sTracked s) /\
    (exists d, In (fn, FSdds d) files /\ sdRows d = tr_N (poTr s0) /\
       forall k, (k < length (tr_f (poTr s0)))%nat ->
         column d "t" k = Some (tr_t0 (poTr s0) + IZR (Z.of_nat k) * tr_dt (poTr s0))%R /\
         forall j name, nth_error ["Ex"; "Ey"; "Ez"; "Bx"; "By"; "Bz"] j = Some name ->
           exists v, column d name k = Some v /\ averaged (OPoint s0) (sTracked s) (0, 0, Z.of_nat k)%Z (Z.of_nat j) v).
Proof.
  intros TT CT absBF consts root w0 ws mdt i files s0 fn C H Ob.
  destruct (beam_file _ _ _ _ _ _ _ _ _ _ _ _ C H) as (s & o' & fs & St & Tr & _ & Sh & F & B & Ti & E & Lk & Sh' & Out & In').
  exists s. split; [exact St|]. split; [exact Tr|].
  destruct o' as [| |s1|]; try contradiction. pose proof (observed_completed _ _ _ _ Sh F B Ti I (from_sub _ _ Tr) Ob E) as Q.
  destruct Lk as (X & T0 & Dt & Ln). destruct Ob as [On _]. cbn [extent snd] in On.
  assert (N : tr_N (poTr s1) = tr_N (poTr s0)) by (unfold tr_N; congruence).
  destruct (C74_point R NumR s1 ltac:(rewrite N; lia)) as (d & EF & D1 & _ & _ & _ & D2).
  inversion Out as [| | |k0 fn0 s2 fs0 O1|]; subst. destruct O1 as [(f & E1 & ->)|(x & E1 & _)]; [|rewrite EF in E1; discriminate E1].
  rewrite EF in E1. apply Ok_inj in E1. subst f. exists d. split; [apply In'; left; reflexivity|]. split; [congruence|].
  intros k Hk. assert (I : inside (OPoint s0) (0, 0, Z.of_nat k)%Z) by (unfold inside, extent, tr_N; lia).
  destruct (Q 0%Z 0%Z (Z.of_nat k) I) as (fv & G & A).
  assert (Nf : nth_error (tr_f (poTr s1)) k = Some fv).
  { cbn [obs_get] in G. unfold tr_get in G. destruct (tr_in (poTr s1) (Z.of_nat k)); [|discriminate G].
    destruct (nth_error (tr_f (poTr s1)) k) as [g|] eqn:Ng; [|apply nth_error_None in Ng; lia].
    pose proof (zget_nth _ _ _ Ng) as Zg. rewrite Zg in G. apply Ok_inj in G. subst g. reflexivity. }
  destruct (D2 k fv Nf) as (C0 & C1 & C2 & C3 & C4 & C5 & C6). rewrite <- T0, <- Dt in C0. split; [exact C0|].
  intros j name Hj.
  destruct j as [|[|[|[|[|[|j]]]]]]; [| | | | | |destruct j; discriminate Hj]; injection Hj as <-.
  - eexists. split; [exact C1|]. exact (A 0%Z ltac:(lia)).
  - eexists. split; [exact C2|]. exact (A 1%Z ltac:(lia)).
  - eexists. split; [exact C3|]. exact (A 2%Z ltac:(lia)).
  - eexists. split; [exact C4|]. exact (A 3%Z ltac:(lia)).
  - eexists. split; [exact C5|]. exact (A 4%Z ltac:(lia)).
  - eexists. split; [exact C6|]. exact (A 5%Z ltac:(lia)).
Qed.
Print Assumptions C97_point_sampled_partial.

(* The file of a mesh: the centres of the triangles, the times of their first samples and the averages. *)
Theorem C97_mesh_sampled_partial : forall (TT : Trans R) (CT : Calc R) absBF consts root w0 ws mdt i files (s0 : mesh R) fn,
  completed TT CT absBF consts root w0 ws mdt i files -> In (OMesh s0, BeamObservation, fn) (inObs i) -> sampled (OMesh s0) -> mesh_fits s0 ->
  exists s, @state_at R NumR TT i (steps i) s /\ tracked_from i (sTracked s) /\
    (exists f o e, In (fn, FHdf5 f) files /\ named f "ObservationTime" = Some o /\ named f "ElMagField" = Some e /\ hsDims e = [mesh_Np s0; msNt s0; 6%Z] /\
       (forall k tr, nth_error (msA s0) k = Some tr -> element_of o [Z.of_nat k] = Some (tr_t0 tr)) /\
       forall k it c, inside (OMesh s0) (k, 0, it)%Z -> (0 <= c < 6)%Z ->
         exists v, element_of e [k; it; c] = Some v /\ averaged (OMesh s0) (sTracked s) (k, 0, it)%Z c v).
Proof.
  intros TT CT absBF consts root w0 ws mdt i files s0 fn C H Ob Mf.
  destruct (beam_file _ _ _ _ _ _ _ _ _ _ _ _ C H) as (s & o' & fs & St & Tr & _ & Sh & F & B & Ti & E & Lk & Sh' & Out & In').
  exists s. split; [exact St|]. split; [exact Tr|].
  destruct o' as [| | |s1]; try contradiction. pose proof (observed_completed _ _ _ _ Sh F B Ti I (from_sub _ _ Tr) Ob E) as Q.
  destruct Lk as (X & La). assert (Y : msPts s1 = msPts s0 /\ msTri s1 = msTri s0 /\ msX s1 = msX s0 /\ msNt s1 = msNt s0) by (rewrite X; repeat split).
  destruct Y as (Y1 & Y2 & Y3 & Y4). assert (Y5 : mesh_Np s1 = mesh_Np s0) by (unfold mesh_Np; rewrite Y3; reflexivity).
  inversion Out as [| | | |k0 fn0 s2 dt fs0 Md O1]; subst.
  destruct (C72_file R NumR s1 dt Sh') as (cc & p & t & o & e & EF & _ & _ & _ & _ & D1 & _ & _ & _ & _ & _ & D2 & D3).
  - cbn [small fields extent]. rewrite Y4, Y5. exact F.
  - unfold mesh_fits in *. rewrite Y1, Y2, Y3, Y4. exact Mf.
  - destruct O1 as [(f & E1 & ->)|(x & E1 & _)]; [|rewrite EF in E1; discriminate E1].
    rewrite EF in E1. apply Ok_inj in E1. subst f. eexists _, o, e. split; [apply In'; left; reflexivity|]. split; [reflexivity|]. split; [reflexivity|].
    split; [rewrite D1, Y4, Y5; reflexivity|]. split.
    + intros k tr Hk. destruct (Forall2_at _ _ _ La k tr Hk) as (tr' & Hk' & Lt). rewrite (D2 k tr' Hk'). f_equal. symmetry. apply Lt.
    + intros k it c I Hc. destruct (Q k 0%Z it I) as (fv & G & A). exists (component c fv). split; [|exact (A c Hc)].
      assert (I1 : inside (OMesh s1) (k, 0, it)%Z) by (unfold inside, extent in *; rewrite Y4, Y5; exact I).
      rewrite (D3 k it c fv I1 Hc G). apply value_component. exact Hc.
Qed.
Print Assumptions C97_mesh_sampled_partial.
(* the point observer of the document of C97_ex *)
Example C97_sampled_ex : sampled (OPoint seen_point).
Proof. split; [cbn; unfold int_max; lia|]. intros a b t0 dt _ [_ ->]. cbn. lra. Qed.
