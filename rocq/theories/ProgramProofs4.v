(* The observation part of the program and the program as a whole. *)
From Coq Require Import ZArith String Reals List Bool Lia Arith FunctionalExtensionality.
From Verif Require Import Base BaseFacts Num VecModel ParticleModel ParticleSpec TraceModel BunchModel BunchSpec BeamSpec BeamProofs
  DriverModel DriverSpec DriverProofs DriverProofs2 DriverProofs3 ElementModel FelModel ObserverModel ObserverSpec ObserverSpec2
  ObserverProofs ObserverProofs2 ObserverProofs3 ObserverProofs4 ObserverProofs5 ObserverProofs7 ObserverProofs8 ProbeProofs
  LoggerModel LoggerSpec LoggerProofs LoggerProofs2 LoggerProofs3 LoggerProofs4 SddsModel SddsSpec SddsProofs OutputModel ParserModel ParserSpec ParserSpec2 ParserProofs5 ParserProofs6
  ProgramModel ProgramSpec ProgramProofs ProgramProofs2 ProgramProofs3.
Import ListNotations.
Local Open Scope list_scope.
Local Open Scope res_scope.
Local Open Scope nat_scope.

Section Blank.
Context {T : Type} {NT : Num T} {TT : Trans T} {CT : Calc T} {WT : World T}.
Lemma map_res_in {A B} (f : A -> res B) l l' b : map_res f l = Ok l' -> In b l' -> exists a, f a = Ok b.
Proof.
  intros H. apply map_res_forall2 in H. induction H as [|x y l l' H H' IH]; intros I; [destruct I|]. destruct I as [->|I]; eauto.
Qed.
Lemma screen_blank (pos dx dy : vec T) nx ny t0 dt dtx dty nots s :
  screen_new pos dx dy nx ny t0 dt dtx dty nots = Ok s -> blank (OScreen s).
Proof.
  intros H. unfold screen_new in H. bget H as tr Etr. apply Ok_inj in H. subst s. intros [[x y] c] f I G.
  cbn [obs_get] in G. unfold screen_get in G. destruct (screen_in _ _ _ _); [|discriminate]. cbn [scTr] in G. bget G as t Et. unfold cell_get in Et.
  bget Et as r Er. apply zget_inv in Er. destruct Er as [_ Er]. apply nth_error_In in Er. destruct (map_res_in _ _ _ _ Etr Er) as (ix & E1).
  apply zget_inv in Et. destruct Et as [_ Et]. apply nth_error_In in Et. destruct (map_res_in _ _ _ _ E1 Et) as (iy & E2).
  bget E2 as z Ez. apply Ok_inj in E2. subst t. eapply new_get; eauto.
Qed.
Lemma observer_blank e n o : observer_described e n o -> blank o.
Proof.
  intros H. destruct H.
  - apply snap_new_blank.
  - eapply screen_blank; eauto.
  - apply mesh_blank.
  - apply point_blank.
Qed.
Lemma observers_blank e l os : observers_described e l os -> Forall (fun o => blank (fst (fst o))) os.
Proof. induction 1 as [| |e n r o src fn os O S F D IH]; auto. constructor; [exact (observer_blank _ _ _ O)|exact IH]. Qed.
Lemma input_blank consts root i : input_described consts root i -> Forall (fun o => blank (fst (fst o))) (inObs i).
Proof. intros H. destruct H. eapply observers_blank; eauto. Qed.
End Blank.

(* the lattice without the interactions *)
Section Remove.
Context {T : Type} {NT : Num T} {TT : Trans T}.
Lemma filter_sum {A B} (a : list A) (b : list B) :
  filter (fun e => match e with inl _ => true | inr _ => false end) (map inl a ++ map inr b) = map (@inl A B) a.
Proof.
  rewrite filter_app. assert (E : filter (fun e => match e with inl _ => true | inr _ => false end) (map (@inr A B) b) = []) by (induction b; auto).
  rewrite E, app_nil_r. induction a as [|x a IH]; [reflexivity|]. cbn. rewrite IH. reflexivity.
Qed.
Lemma remove_inter (l : lattice_T T) : main_remove l = Ok (map inl (fst l)).
Proof.
  unfold main_remove.
  pose proof (remove_ok (fun e : element T + fel T => match e with inl _ => true | inr _ => false end) _ [] (map inl (fst l) ++ map inr (snd l)) eq_refl (le_n _)) as E.
  cbn [app length] in E. change (Z.of_nat 0) with 0%Z in E. rewrite E, filter_sum. reflexivity.
Qed.
Lemma mixed_inl (els : list (element T)) : mixed_field (map inl els) = lat_field els.
Proof.
  apply functional_extensionality. intros t. apply functional_extensionality. intros X. unfold mixed_field, lat_field. generalize (@ezero T NT).
  induction els as [|a els IH]; intros z; [reflexivity|]. cbn [map fold_res]. destruct (element_field a t X); cbn [bind]; auto.
Qed.
(* the interactions do not change the lattice *)
Lemma lat_kept NOTS lat bm k (s : sim) : sim_run (T:=T) full_field inter_init inter_step NOTS lat bm k = Ok s -> fst (sLat s) = fst lat.
Proof.
  unfold sim_run. intros H. bget H as s0 E0.
  assert (E : fst (sLat s0) = fst lat).
  { unfold sim_start in E0. destruct (bmTracker bm); try discriminate. bget E0 as tr Et. bget E0 as l El. apply Ok_inj in E0. subst s0. cbn [sLat].
    unfold inter_init in El. bget El as fs Ef. apply Ok_inj in El. subst l. reflexivity. }
  rewrite <- E. clear E E0. revert s0 H. induction k as [|k IH]; intros s0 H; cbn [iter_res] in H; [apply Ok_inj in H; congruence|].
  bget H as s1 E1. rewrite (IH s1 H). unfold sim_step in E1. bget E1 as tr Et. bget E1 as l El. apply Ok_inj in E1. subst s1. cbn [sLat].
  unfold inter_step in El. bget El as fs Ef. apply Ok_inj in El. subst l. reflexivity.
Qed.
End Remove.

Section P.
Context {TT : Trans R} (absBF : bunch R -> R -> R).
Variables (i : pinput (T := R)) (rest : list (pinput (T := R))).
Notation ins := (i :: rest).
Hypothesis HS : Forall (same_but_coordinates i) ins.
Notation NOTS := (bmNOTS (inBeam i)).
Notation lat := (inLattice i, inFel i).
Notation bms := (map inBeam ins).
Notation P := (Z.of_nat (length ins)).
Hypothesis FI : fitting i P.
Hypothesis OF : obs_fitting i.
Hypothesis OB : Forall (fun o => blank (fst (fst o))) (inObs i).
Notation k := (steps i).
Notation drun := (driver_run full_field inter_init inter_step P NOTS lat bms).

Lemma fits_small (o : observer R) : (6 * fields o <= int_max)%Z -> small o.
Proof. unfold small, int_max. destruct o; cbn [fields] in *; lia. Qed.

Lemma all_observers q o : zget (inObs i) q = Ok o -> map_res (fun x : pinput (T:=R) => zget (inObs x) q) ins = Ok (repeat o (length ins)).
Proof.
  intros H. generalize HS. generalize ins as l. clear -H. intros l HL. induction HL as [|x l Hx Hl IH]; [reflexivity|]. cbn [map_res length repeat].
  destruct Hx as (_ & _ & _ & _ & _ & E & _). rewrite <- E, H. cbn [bind]. rewrite IH. reflexivity.
Qed.

Lemma sources ns s o : drun k = Ok ns -> state_at i k s ->
  map_res (fun no : pnode R (lattice_T R) * (observer R * obsource * string) => main_source (fst no) (snd (fst (snd no))))
    (combine ns (repeat o (length ns))) =
  Ok match snd (fst o) with
     | BeamObservation => map (fun n => SBeam (nTracked n)) ns
     | LatticeObservation => repeat (SLattice (lat_field (inLattice i))) (length ns)
     end /\
  (forall n, first_node ns = Ok n -> nMaster n = sMaster s) /\ length ns = length ins /\
  concat (map beam_ps (map (fun n => nTracked n) ns)) = sTracked s.
Proof.
  intros D S. destruct (run_valid i rest HS FI) as (V1 & V2 & V3 & V4 & V5 & V6).
  pose proof (driver_run_ok full_field inter_init inter_step NOTS lat (inBeam i) bms (length bms) _ k eq_refl V1 V2 V3 V4 V5 V6 eq_refl) as A.
  unfold state_at in S. rewrite S in A. rewrite bms_length in A. rewrite D in A. cbn [same_outcome] in A. destruct A as (A1 & A2 & A3 & A4).
  assert (LN : length ns = length ins). { rewrite <- (forall2_length _ _ _ A1). apply seq_length. }
  split; [|split; [|split]].
  - pose proof (lat_kept _ _ _ _ _ S) as LK. cbn [fst] in LK. clear -A1 LK. induction A1 as [|r n l ns H A1 IH]; [destruct (snd (fst o)); reflexivity|].
    cbn [length repeat combine map_res fst snd map]. unfold main_source at 1. rewrite remove_inter. cbn [bind].
    destruct H as (H1 & H2 & H3 & H4). rewrite IH. cbn [bind]. destruct (snd (fst o)); [reflexivity|]. rewrite H2, LK, mixed_inl. reflexivity.
  - intros n F. destruct ns as [|n' ns]; [discriminate|]. cbn in F. apply Ok_inj in F. subst n'. inversion A1; subst. tauto.
  - exact LN.
  - rewrite <- (chunk_concat _ _ _ A3) at 1. f_equal. clear -A1.
    induction A1 as [|r nd l l' H0 H IH]; [reflexivity|]. cbn [map]. rewrite IH. f_equal.
    destruct H0 as (_ & _ & E & _). rewrite E. unfold beam_ps. cbn [bmB concat]. apply app_nil_r.
Qed.

Lemma observe_iff mdt ns s q o fs : drun k = Ok ns -> state_at i k s -> zget (inObs i) q = Ok o ->
  main_observe mdt ins ns q = Ok fs <-> obs_written i P mdt s o fs.
Proof.
  intros D S Q. destruct (sources ns s o D S) as (A & B & C & E).
  unfold main_observe. rewrite (all_observers q o Q). cbn [bind].
  assert (RC : repeat o (length ins) = repeat o (length ns)) by (rewrite C; reflexivity). rewrite RC. unfold pobs in *. rewrite A. cbn [bind]. clear RC.
  assert (IN : In o (inObs i)). { apply zget_inv in Q. destruct Q as [_ Q]. apply nth_error_In in Q. exact Q. }
  pose proof (proj1 (Forall_forall _ _) OF _ IN) as (SH & FL). pose proof (proj1 (Forall_forall _ _) OB _ IN) as BL. cbn beta in BL.
  destruct o as [[o src] fn]. cbn [fst snd] in *. pose proof (fits_small o FL) as SM.
  assert (MR : map (fun o0 : observer R * obsource * string => fst (fst o0)) (repeat (o, src, fn) (length ns)) = repeat o (length ns)).
  { clear. generalize (length ns). intros m. induction m; cbn [repeat map fst]; congruence. }
  rewrite MR. destruct ns as [|n0 ns]; [cbn in C; discriminate|]. cbn [first_node bind length repeat].
  rewrite (B n0 eq_refl). destruct src.
  - set (whole := BM [sTracked s] 0 (bmdt (inBeam i)) TRACKING_VAY).
    assert (W : beam_ps whole = concat (map beam_ps (nTracked n0 :: map (fun n => nTracked n) ns))).
    { unfold whole, beam_ps at 1. cbn [bmB concat]. rewrite app_nil_r. symmetry. exact E. }
    assert (OW : forall o', driver_observe (map (fun n => SBeam (nTracked n)) (n0 :: ns)) (repeat o (length (n0 :: ns))) = Ok o' <-> obs_integrate (SBeam whole) o = Ok o').
    { intros o'. rewrite <- (observe_whole o whole (nTracked n0) (map (fun n => nTracked n) ns) o' SH SM FL (blank_cells o SH BL) W).
      cbn [map length]. rewrite map_length, map_map. reflexivity. }
    cbn [length repeat] in OW. split.
    + intros H. bget H as o' Eo. eapply O_beam; [apply OW; exact Eo|apply obs_output_iff; exact H].
    + intros H. inversion H as [o1 o' fn' fs' I1 I2|]; subst. rewrite (proj2 (OW o') I1). cbn [bind]. apply obs_output_iff. exact I2.
  - set (F := lat_field (inLattice i)) in *. split.
    + intros H. bget H as o' Eo.
      assert (EI : exists o1, obs_integrate (SLattice F) o = Ok o1).
      { rewrite driver_gather in Eo. bget Eo as os Eos. cbn [combine map_res fst snd] in Eos. bget Eos as o1 E1. eauto. }
      destruct EI as (o1 & E1). destruct (observe_lattice F o o1 (length (n0 :: ns)) SH SM FL ltac:(cbn; lia) E1) as (o2 & D2 & K2 & G2).
      cbn [length repeat] in D2. rewrite Eo in D2. apply Ok_inj in D2. subst o2. eapply (O_lattice i _ mdt s o o1 o'); [exact E1|exact K2| |apply obs_output_iff; exact H].
      intros j J. destruct (G2 j J) as (f & F1 & F2). exists f. split; [exact F1|]. rewrite F2. rewrite C. rewrite INR_IZR_INZ. reflexivity.
    + intros H. inversion H as [|o1' o1 o' fn' fs' I1 I2 I3 I4]; subst.
      destruct (observe_lattice F o o1 (length (n0 :: ns)) SH SM FL ltac:(cbn; lia) I1) as (o2 & D2 & K2 & G2).
      cbn [length repeat] in D2. rewrite D2. cbn [bind]. destruct (integrate_ok _ _ _ SH I1) as [K1 _].
      assert (X : o2 = o').
      { assert (S1 : shaped o1) by (eapply like_shaped; eauto).
        apply observer_ext_get; [eapply like_shaped; [exact K2|exact S1]| |].
        - eapply like_trans; [apply like_sym; exact K2|exact I2].
        - intros j J. assert (J0 : inside o j).
          { eapply like_inside; [apply like_sym; eapply like_trans; [exact K1|exact K2]|exact J]. }
          destruct (G2 j J0) as (f & F1 & F2). destruct (I3 j J0) as (f' & F1' & F2'). rewrite F1 in F1'. apply Ok_inj in F1'. subst f'.
          rewrite F2, F2', C, INR_IZR_INZ. reflexivity. }
      rewrite X. apply obs_output_iff. exact I4.
Qed.

Lemma zget_index {A} (l : list A) (Q : A -> list (string * outfile R) -> Prop) (f : Z -> res (list (string * outfile R))) :
  (forall q o fs, zget l q = Ok o -> f q = Ok fs <-> Q o fs) -> forall of, map_res f (zseq 0 (length l)) = Ok of <-> Forall2 Q l of.
Proof.
  intros H. assert (G : forall m pre, l = pre ++ m -> forall of, map_res f (zseq (Z.of_nat (length pre)) (length m)) = Ok of <-> Forall2 Q m of).
  { induction m as [|a m IH]; intros pre E of; cbn [length zseq map_res].
    - split; [intros X; apply Ok_inj in X; subst; constructor|intros X; inversion X; reflexivity].
    - assert (ZG : zget l (Z.of_nat (length pre)) = Ok a).
      { unfold zget. rewrite Nat2Z.id. destruct (Z.ltb_spec (Z.of_nat (length pre)) 0); [lia|]. rewrite E, nth_error_app2, Nat.sub_diag by lia. reflexivity. }
      specialize (IH (pre ++ [a])). rewrite app_length in IH. cbn [length] in IH. rewrite <- app_assoc in IH. specialize (IH E).
      replace (Z.of_nat (length pre) + 1)%Z with (Z.of_nat (length pre + 1)) by lia. split.
      + intros X. bget X as y Ey. bget X as ys Eys. apply Ok_inj in X. subst of. constructor; [apply (H _ _ _ ZG); exact Ey|apply IH; exact Eys].
      + intros X. apply forall2_head in X. destruct X as (y & ys & -> & X1 & X2). rewrite (proj2 (H _ _ _ ZG) X1). cbn [bind]. rewrite (proj2 (IH ys) X2). reflexivity. }
  exact (G l [] eq_refl).
Qed.

Hypothesis LC : Forall (fun l => created (inBeam i) P (fst l) /\ match fst l with LProbe _ => False | _ => True end) (inLogs i).
Hypothesis PS : (int_min <= piStep (inProbe i) <= int_max)%Z.
Hypothesis PN : piReq (inProbe i) = true -> (piStep (inProbe i)) <> 0%Z.

Lemma files_iff mdt names files : main_files absBF mdt names ins = Ok files <-> program_writes absBF i P mdt names files.
Proof.
  unfold main_files. split.
  - intros H. bget H as r Er. destruct r as [[ns ls] ws].
    destruct (track_results absBF i rest HS FI LC PS PN _ _ _ Er) as (s & n0 & l1 & S & DR & F & _).
    rewrite F in H. cbn [bind] in H. bget H as wf Ew. bget H as lf El. bget H as ff Ef. bget H as of Eo. apply Ok_inj in H. subst files.
    exists s, (wf ++ lf ++ concat ff), of. split; [exact S|]. split.
    { apply (track_files absBF i rest HS FI LC PS PN _ _ _ n0 names _ Er F). exists wf, lf, ff. auto. }
    split; [|rewrite !app_assoc; reflexivity].
    apply (zget_index (inObs i) _ (main_observe mdt ins ns)); [|exact Eo]. intros q o fs. apply observe_iff; assumption.
  - intros (s & tf & of & S & TW & OW & ->).
    destruct (track_exists absBF i rest HS FI LC PS PN s S) as ([[ns ls] ws] & Er).
    destruct (track_results absBF i rest HS FI LC PS PN _ _ _ Er) as (s' & n0 & l1 & S' & DR & F & _).
    apply (track_files absBF i rest HS FI LC PS PN _ _ _ n0 names _ Er F) in TW. destruct TW as (wf & lf & ff & E1 & E2 & E3 & ->).
    rewrite Er. cbn [bind]. rewrite F. cbn [bind]. rewrite E1. cbn [bind]. rewrite E2. cbn [bind]. rewrite E3. cbn [bind].
    rewrite (proj2 (zget_index (inObs i) (obs_written i P mdt s) (main_observe mdt ins ns) (fun q o fs => observe_iff mdt ns s q o fs DR S) of) OW).
    cbn [bind]. rewrite !app_assoc. reflexivity.
Qed.
End P.
