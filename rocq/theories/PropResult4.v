(* C97: the table of a point observer with one sample. *)
From Coq Require Import ZArith String Reals List Bool Lia Lra.
From Coquelicot Require Import Coquelicot.
From Verif Require PropRetard RetardProofs.
From Verif Require Import VaySpec OrbitSpec PropOrbit.
From Verif Require Import Base BaseFacts Num VecModel VecFacts ParticleModel ParticleSpec ParticleSpec2 TraceModel RetardModel RetardSpec TraceIntSpec BunchModel BunchSpec BeamSpec DriverModel DriverSpec
  ElementModel FelModel ObserverModel ObserverSpec ObserverSpec2 ObserverProofs ObserverProofs2 ObserverProofs4 PropSample RecordSpec RecordProofs LoggerModel LoggerSpec LoggerProofs3 LoggerProofs4 HybridProofs SddsModel OutputModel OutputSpec
  ParserModel ParserSpec ParserSpec2 ProgramModel ProgramSpec ProgramProofs4 ResultSpec ResultProofs PropParser PropProgram PropOutput PropRecord PropResult.
Import ListNotations.
Local Open Scope string_scope.
Local Open Scope list_scope.

(* After every run which ends properly, whatever the document and the beam, the table of a point observer
   of the beam which asks for one sample has one row of zeros.  (The average of the field is not zero, see
   C96_one_sample_refuted and C97_one_sample_average below.) *)
Theorem C97_one_sample_refuted : forall (TT : Trans R) (CT : Calc R) absBF consts root w0 ws mdt i files (s0 : point R) fn,
  completed TT CT absBF consts root w0 ws mdt i files -> In (OPoint s0, BeamObservation, fn) (inObs i) ->
  length (tr_f (poTr s0)) = 1%nat ->
  exists d, In (fn, FSdds d) files /\ sdRows d = 1%Z /\ column d "t" 0 = Some (tr_t0 (poTr s0)) /\
    forall name, In name ["Ex"; "Ey"; "Ez"; "Bx"; "By"; "Bz"] -> column d name 0 = Some 0%R.
Proof.
  intros TT CT absBF consts root w0 ws mdt i files s0 fn C H L.
  destruct (beam_file _ _ _ _ _ _ _ _ _ _ _ _ C H) as (s & o' & fs & St & Tr & _ & Sh & F & B & Ti & E & Lk & Sh' & Out & In').
  destruct s0 as [x tr]. destruct tr as [t0 dt l]. cbn [poTr poX tr_f tr_t0] in *. destruct l as [|f0 [|]]; try discriminate L.
  assert (Z0 : f0 = ezero).
  { apply (B (0, 0, 0)%Z); [unfold inside, extent; cbn; lia|reflexivity]. }
  subst f0. destruct C96_one_sample_refuted as [Q _]. specialize (Q (BM [sTracked s] 0 (bmdt (inBeam i)) TRACKING_VAY) x t0 dt).
  change (tr_new t0 dt 1) with (FT t0 dt [@ezero R NumR]) in Q. rewrite Q in E. apply Ok_inj in E. subst o'.
  destruct (C74_point R NumR (PO x (FT t0 dt [ezero])) ltac:(cbn; unfold int_max; lia)) as (d & EF & D1 & _ & _ & _ & D2).
  inversion Out as [| | |k0 fn0 s2 fs0 O1|]; subst. destruct O1 as [(f & E1 & ->)|(y & E1 & _)]; [|rewrite EF in E1; discriminate E1].
  rewrite EF in E1. apply Ok_inj in E1. subst f. exists d. split; [apply In'; left; reflexivity|]. split; [exact D1|].
  destruct (D2 0%nat ezero eq_refl) as (C0 & C1 & C2 & C3 & C4 & C5 & C6). split.
  - rewrite C0. f_equal. cbn. ring.
  - intros name [<-|[<-|[<-|[<-|[<-|[<-|[]]]]]]]; assumption.
Qed.
Print Assumptions C97_one_sample_refuted.

(* the document of PropResult.v with one sample *)
Definition once_doc : node := Node "teufel" []
  [Node "lattice" [] []; Node "beam" [] [Node "particle" [("gamma","1"); ("charge","1"); ("cmr","1")]
                     [Node "position" [("x","1")] []; Node "momentum" [("z","1")] []]];
   tracking_ []; Node "observer" [] [Node "point" [("file","o")] [Node "position" [] []; Node "time" [("n","1"); ("dt","1")] []]]].
Definition once_point : point R := PO (@V R 0 0 0)%R (tr_new 0%R 1%R 1).
Definition once_input : pinput (T := R) :=
  PIN [] (BM [[seen_particle]] 1 1%R TRACKING_VAY) [] (PI false "" 0 0) [] [] [(OPoint once_point, BeamObservation, "o")].
Lemma once_described (TT : Trans R) : @input_described R NumR TT (toy_calc R NumR) (toy_world R NumR) [] once_doc once_input.
Proof.
  unfold once_input, seen_particle, once_point. eapply (DI_ [] once_doc) with (pr := None) (ts := "1") (tn := "1"); try reflexivity.
  + apply DL_nil.
  + eapply (DN_bunch 0 0 _ _ _ _ [] _ []); [|apply DN_nil]. eapply DB_particle; try reflexivity. apply DG_none. reflexivity.
  + split; [|unfold int_min, int_max; lia]. change (Some (Generic_fmt.Znearest (fun x => negb (Z.even x)) (IZR 1)) = Some 1%Z). rewrite near_1. reflexivity.
  + apply DK_nil.
  + eapply DV_observer; [|apply DS_default; reflexivity|reflexivity|apply DV_nil].
    match goal with |- observer_described ?e ?n _ =>
      exact (@DO_point R NumR (toy_calc R NumR) (toy_world R NumR) e n (Node "time" [("n","1"); ("dt","1")] []) (Node "position" [] []) "1" eq_refl eq_refl eq_refl (Zle_0_pos 1) eq_refl) end.
Qed.
Example C97_one_sample_ex : forall (TT : Trans R) absBF mdt, exists files,
  completed TT (toy_calc R NumR) absBF [] once_doc (toy_world R NumR) [] mdt once_input files /\
  In (OPoint once_point, BeamObservation, "o") (inObs once_input) /\ length (tr_f (poTr once_point)) = 1%nat.
Proof.
  intros TT absBF mdt. destruct (seen_state TT) as (s & St0 & Sl).
  assert (St : @state_at R NumR TT once_input 1 s) by exact St0.
  assert (CI : int_texts (toy_calc R NumR)).
  { intros t. unfold toy_calc, int_min, int_max. cbn [cInt]. destruct (String.eqb t "0"); [lia|]. destruct (String.eqb t "2"); [lia|]. destruct (String.eqb t "7"); lia. }
  assert (FI : fitting once_input (Z.of_nat (length [toy_world R NumR]))).
  { unfold fitting. split; [|split]; [vm_compute; discriminate|vm_compute; discriminate|]. change (0 <= 1 < int_max)%Z. unfold int_max. lia. }
  assert (LF : @logs_fitting R once_input) by (split; [constructor|intros H; discriminate H]).
  assert (OF : obs_fitting once_input) by (constructor; [|constructor]; cbn; split; [exact Logic.I|]; unfold int_max; lia).
  destruct C96_one_sample_refuted as [Q _]. pose proof (Q (BM [sTracked s] 0 1%R TRACKING_VAY) (@V R 0 0 0)%R 0%R 1%R) as Ho. clear Q.
  destruct (C74_point R NumR once_point) as (d & Hd & _); [cbn; unfold int_max; lia|].
  assert (E : exists files, @program R NumR TT (toy_calc R NumR) absBF [] [toy_world R NumR] mdt once_doc = Ok files).
  { eexists. apply (C77_files TT (toy_calc R NumR) absBF [] once_doc (toy_world R NumR) [] mdt once_input _ CI ltac:(constructor) (once_described TT) FI LF OF).
    exists []. split; [eapply FF_some; [reflexivity|apply FN_nil]|]. exists s, [], [[("o", FSdds d)]]. split; [exact St|]. split; [|split; [|reflexivity]].
    - exists s, [], [], [], []. split; [exact St|]. split; [constructor|]. split; [constructor|]. split; [apply B_none; reflexivity|]. split; [|reflexivity]. rewrite Sl. constructor.
    - constructor; [|constructor]. eapply O_beam; [exact Ho|]. apply U_point. left. exists d. split; [exact Hd|reflexivity]. }
  destruct E as (files & E). exists files. split; [|split; [left; reflexivity|reflexivity]].
  split; [exact CI|]. split; [constructor|]. split; [exact (once_described TT)|]. split; [exact FI|]. split; [exact LF|]. split; [exact OF|]. split; [cbn [once_input inBeam bmdt]; lra|exact E].
Qed.
(* For this document the average of the field is not zero: the particle is at rest 1 m away, its field
   arrives after 1/c and stays. *)
Lemma once_momentum : pP seen_particle = @vzero R NumR.
Proof. cbn [seen_particle initTrajectory pP]. replace (1 * 1 - 1)%R with 0%R by ring. rewrite sqrt_0. generalize (vnormalize (@V R 0 0 1)%R). intros v. destruct v. vunfold; unnum. vsplit; ring. Qed.
Lemma once_rest (TT : Trans R) s : @state_at R NumR TT once_input (steps once_input) s ->
  exists q, sTracked s = [q] /\ wf q /\ pCharge q = (1 / nqe)%R /\
    trajectory q = [TP 0%R (@V R 1 0 0)%R vzero vzero; TP 1%R (@V R 1 0 0)%R vzero vzero].
Proof.
  intros H. pose proof (state_tracked once_input s ltac:(cbn; lra) H) as Tr.
  unfold tracked_from in Tr. cbn [inBeam once_input bmB concat app bmdt] in Tr. inversion Tr as [|p q l m (W & S1 & Ln & Cq & _ & _ & _) Tr' E1 E2]; subst. inversion Tr'; subst.
  exists q. split; [reflexivity|]. split; [exact W|]. split; [exact Cq|]. change (steps once_input) with 1%nat in *.
  set (p0 := no_field (restarted 2 (current seen_particle) seen_particle)).
  assert (T0 : trajectory p0 = [] ++ [TP 0%R (@V R 1 0 0)%R vzero vzero]).
  { unfold p0. cbn [app]. transitivity [TP 0%R (@V R 1 0 0)%R (pP seen_particle) (@vzero R NumR)]; [reflexivity|]. rewrite once_momentum. reflexivity. }
  assert (HF : homogeneous (@full_field R NumR TT ([], [])) vzero vzero) by (intros t x; reflexivity).
  assert (BT : beta_of vzero = vzero) by (unfold beta_of; generalize (gamma_of vzero); intros g; vunfold; unnum; unfold Rdiv; vsplit; ring).
  destruct (C90_drift 1%R _ _ _ p0 [] 0%R (@V R 1 0 0)%R vzero vzero 1%nat ltac:(unfold wf, p0; cbn; lia) HF T0) as (q' & Hq & Lq & Nq).
  { rewrite BT. unfold lorentz. vunfold; unnum. unfold Rdiv. vsplit; ring. }
  assert (Q : q' = q).
  { revert H. unfold state_at, sim_run. cbn [iter_res]. unfold sim_start. cbv zeta.
    cbn [inBeam once_input bmTracker bmB bmdt bmNOTS concat app map length firstn skipn spread zip_in map_res inLattice inFel].
    change (1 + 1)%Z with 2%Z. fold p0. bget Hq as q1 Hq1. rewrite Hq1. cbn [bind map_res inter_init fst snd].
    cbn [StepsVay] in Hq. bget Hq as q2 Hq2. apply Ok_inj in Hq. subst q2.
    unfold sim_step. cbn [sLat sTracked sMaster map_res]. rewrite Hq2. cbn [bind inter_step map_res snd fst]. intros H. apply Ok_inj in H. subst s.
    cbn [sTracked] in *. congruence. }
  subst q'. cbn [length plus] in Lq. pose proof (Nq 0%nat ltac:(lia)) as N0. pose proof (Nq 1%nat ltac:(lia)) as N1. cbn [length plus INR] in N0, N1. rewrite BT in N0, N1.
  assert (Z0 : forall k, vadd (@V R 1 0 0)%R (vmul vzero k) = (@V R 1 0 0)%R) by (intros k; vunfold; unnum; vsplit; ring). rewrite Z0 in N0, N1.
  destruct (trajectory q) as [|u [|v [|]]]; try discriminate Lq. cbn [nth_error] in N0, N1. injection N0 as ->. injection N1 as ->. f_equal; [f_equal; ring|f_equal; f_equal; ring].
Qed.
Theorem C97_one_sample_average : forall (TT : Trans R) s, @state_at R NumR TT once_input (steps once_input) s ->
  ~ averaged (OPoint once_point) (sTracked s) (0, 0, 0)%Z 0 0%R.
Proof.
  intros TT s H (x & t0 & dt & Px & Ck & _ & A). cbn [cell_place cell_clock once_point poX poTr tr_new tr_t0 tr_dt] in Px, Ck. destruct Ck as [-> ->]. subst x.
  destruct (once_rest TT s H) as (q & ES & W & Cq & Tq). rewrite ES in A. set (obs := (@V R 0 0 0)%R) in *. set (p := (@V R 1 0 0)%R) in *.
  assert (N1 : vnorm (vsub obs p) = 1%R).
  { transitivity (sqrt (1 * 1)); [|apply sqrt_square; lra]. unfold vnorm, vabs2, vdot, vsub, obs, p. unnum. cbn [vx vy vz]. f_equal. ring. }
  set (g := point_field (1 / nqe)%R (TP 0%R p vzero vzero) obs).
  assert (SP : signal_points q obs = [(/ nc, g); (1 + / nc, g)]%R).
  { unfold signal_points. rewrite Tq, Cq. cbn [map]. unfold arrival. cbn [tpx tpt]. rewrite N1. f_equal; [f_equal; unfold Rdiv; ring|]. f_equal. f_equal. unfold Rdiv; ring. }
  assert (G : (component 0 g < 0)%R).
  { destruct (RetardProofs.RetardedField_index_point q 0 (TP 0%R p vzero vzero) obs W ltac:(rewrite Tq; reflexivity)) as [E _].
    rewrite (PropRetard.C10_coulomb_field_at_rest q 0 (TP 0%R p vzero vzero) obs W ltac:(rewrite Tq; reflexivity)) in E;
      [|cbn [tpx]; intros K; injection K; lra|reflexivity|reflexivity].
    apply Ok_inj in E. cbn [tpx] in E. rewrite N1, Cq in E. unfold g. rewrite <- E.
    generalize RetardProofs.nqe_pos RetardProofs.neps0_pos PI_RGT_0. generalize (@nqe R NumR) (@neps0 R NumR). intros u e Hu He Hp.
    unfold component. cbn. assert (0 < / (4 * Rtrigo1.PI * e))%R by (apply Rinv_0_lt_compat, Rmult_lt_0_compat; lra).
    replace (1 / u * u / (4 * Rtrigo1.PI * e) / (1 * (1 * (1 * 1))))%R with (/ (4 * Rtrigo1.PI * e))%R by (field; lra). lra. }
  assert (IC : (0 < / @nc R NumR < / 4)%R).
  { assert (4 < @nc R NumR)%R by (cbn; lra). split; [apply Rinv_0_lt_compat; lra|]. apply Rinv_lt_contravar; lra. }
  revert SP IC G. clearbody g. generalize (/ @nc R NumR)%R. intros w SP IC G.
  assert (B : is_RInt (beam_signal [q] obs (component 0)) (0 + (0 - / 2) * 1)%R (0 + (0 + / 2) * 1)%R ((/ 2 - w) * component 0 g)%R).
  { replace ((/ 2 - w) * component 0 g)%R with (plus (scal (w - (0 + (0 - / 2) * 1))%R 0%R) (scal ((0 + (0 + / 2) * 1) - w)%R (component 0 g)))
      by (unfold plus, scal; cbn; unfold mult; cbn; ring).
    refine (@is_RInt_Chasles R_NormedModule (beam_signal [q] obs (component 0)) _ w _ _ _ _ _).
    - apply (is_RInt_ext (fun _ => 0%R)); [|apply @is_RInt_const]. intros t Ht. rewrite Rmin_left, Rmax_right in Ht by lra.
      unfold beam_signal. cbn [map fold_right]. rewrite SP. cbn [signal]. destruct (Rle_dec _ _) as [K|_]; [exfalso; lra|]. unfold component. cbn. ring.
    - apply (is_RInt_ext (fun _ => component 0 g)); [|apply @is_RInt_const]. intros t Ht. rewrite Rmin_left, Rmax_right in Ht by lra.
      unfold beam_signal. cbn [map fold_right]. rewrite SP. cbn [signal]. destruct (Rle_dec _ _) as [_|K]; [|exfalso; lra]. destruct (Rlt_dec _ _) as [_|K]; [|exfalso; lra].
      unfold interp_field. generalize ((t - w) / (1 + w - w))%R. intros z. destruct g as [[a b c] h]. unfold component. cbn. ring. }
  pose proof (is_RInt_unique _ _ _ _ A) as U1. pose proof (is_RInt_unique _ _ _ _ B) as U2. rewrite U1 in U2.
  assert (0 < (/ 2 - w) * - component 0 g)%R by (apply Rmult_lt_0_compat; lra). lra.
Qed.
Print Assumptions C97_one_sample_average.
