(* C77: the files written by the program. *)
From Coq Require Import ZArith String Reals List Bool Lia Lra Floats.
From Verif Require Import Base BaseFacts Num NumFloat VecModel ParticleModel TraceModel BunchModel BunchSpec BeamSpec DriverModel DriverSpec DriverProofs
  ElementModel FelModel ObserverModel ObserverSpec ObserverSpec2 ObserverProofs5 LoggerModel LoggerSpec LoggerProofs4 SddsModel OutputModel
  ParserModel ParserSpec ParserSpec2 ParserProofs5 ParserProofs6 ProgramModel ProgramSpec ProgramProofs ProgramProofs2 ProgramProofs3 ProgramProofs4
  PropParser PropParser2.
Import ListNotations.
Local Open Scope string_scope.
Local Open Scope list_scope.

(* The processes: the first one and others which read the same files but draw their own random
   numbers.  cInt is int conversion of a text. *)
Definition int_texts {T} (CT : Calc T) : Prop := forall t, (int_min <= @cInt T CT t <= int_max)%Z.

Lemma zseq_len n : forall a, length (zseq a n) = n.
Proof. induction n; intros a; cbn; congruence. Qed.
Lemma all_parse {T} {NT : Num T} {TT : Trans T} {CT : Calc T} consts root (w0 : World T) ws i :
  Forall (same_files w0) ws -> @input_described T NT TT CT w0 consts root i ->
  exists is, map_res (fun w => snd (@parse_input T NT TT CT w consts root)) ws = Ok is /\ Forall (same_but_coordinates i) is /\ length is = length ws.
Proof.
  intros H D. induction H as [|w ws Hw H (is & E & F & L)]; [exists []; repeat split; constructor|].
  destruct (input_rank w0 w Hw _ _ _ D) as (b & D' & S). apply input_iff in D'. destruct D' as [s2 D'].
  exists (b :: is). cbn [map_res]. rewrite D'. cbn [snd bind]. rewrite E. cbn [bind]. split; [reflexivity|]. split; [constructor; auto|cbn; congruence].
Qed.
Lemma same_files_refl {T} (w : World T) : same_files w w.
Proof. repeat split; reflexivity. Qed.

Lemma parse_all {T} {NT : Num T} {TT : Trans T} {CT : Calc T} consts root (w0 : World T) ws i :
  Forall (same_files w0) ws -> @input_described T NT TT CT w0 consts root i ->
  exists is, map_res (fun w => snd (@parse_input T NT TT CT w consts root)) (w0 :: ws) = Ok (i :: is) /\
    Forall (same_but_coordinates i) (i :: is) /\ length (i :: is) = length (w0 :: ws).
Proof.
  intros H D. destruct (all_parse consts root w0 ws i H D) as (is & E & F & L).
  destruct (all_parse consts root w0 [w0] i (Forall_cons _ (same_files_refl w0) (Forall_nil _)) D) as (is0 & E0 & F0 & L0).
  pose proof D as D0. apply input_iff in D0. destruct D0 as [s D0]. exists is. cbn [map_res]. rewrite D0. cbn [snd bind]. rewrite E. cbn [bind].
  cbn [map_res] in E0. rewrite D0 in E0. cbn [snd bind] in E0. apply Ok_inj in E0. subst is0. inversion F0; subst.
  split; [reflexivity|]. split; [constructor; auto|cbn; congruence].
Qed.

Lemma logs_ok {T} {NT : Num T} {TT : Trans T} {CT : Calc T} {WT : World T} consts root i P : int_texts CT -> input_described consts root i -> logs_fitting i ->
  Forall (fun l => created (inBeam i) P (fst l) /\ match fst l with LProbe _ => False | _ => True end) (inLogs i) /\
  (int_min <= piStep (inProbe i) <= int_max)%Z.
Proof.
  intros CI D (L1 & _). destruct (input_logs CI consts root i D) as (A & B). split; [|exact B].
  rewrite Forall_forall in *. intros l I. specialize (A l I). specialize (L1 l I). split; [apply parsed_created; assumption|].
  destruct (fst l); [exact Logic.I|exact Logic.I|destruct A].
Qed.

(* Real arithmetic: for a document which describes the input i, any number of processes and any
   random numbers of the processes other than the first, the program ends properly and writes
   the files exactly if these are the files which the tracking of all particles by a single
   process describes (ProgramSpec.v). *)
Theorem C77_files : forall (TT : Trans R) (CT : Calc R) (absBF : bunch R -> R -> R) (consts : cenv R) (root : node)
    (w0 : World R) ws (mdt : string -> res R) i files,
  let P := Z.of_nat (length (w0 :: ws)) in
  int_texts CT -> Forall (same_files w0) ws ->
  @input_described R NumR TT CT w0 consts root i ->
  fitting i P -> logs_fitting i -> obs_fitting i ->
  program absBF consts (w0 :: ws) mdt root = Ok files <-> exists names, fel_files_named root names /\ program_writes absBF i P mdt names files.
Proof.
  intros TT CT absBF consts root w0 ws mdt i files P CI SF D FI LF OF. unfold program.
  destruct (parse_all consts root w0 ws i SF D) as (is & E & F & L). rewrite E. cbn [bind]. unfold P in *. rewrite <- L in *.
  destruct (@logs_ok R NumR TT CT w0 consts root i (Z.of_nat (length (i :: is))) CI D LF) as (LC & PS).
  transitivity (program_writes absBF i (Z.of_nat (length (i :: is))) mdt (fel_names root) files).
  - apply files_iff; auto.
    + exact (@input_blank R NumR TT CT w0 consts root i D).
    + exact (proj2 LF).
  - split.
    + intros H. exists (fel_names root). split; [apply fel_names_iff; reflexivity|exact H].
    + intros (names & N & H). apply fel_names_iff in N. subst names. exact H.
Qed.
Print Assumptions C77_files.

(* A document which describes no input: the program does not write any file and does not end
   properly. *)
Theorem C77_refused : forall (T : Type) (NT : Num T) (TT : Trans T) (CT : Calc T) (absBF : bunch T -> T -> T) (consts : cenv T) (root : node)
    (w0 : World T) ws (mdt : string -> res T) files,
  program absBF consts (w0 :: ws) mdt root = Ok files -> exists i, @input_described T NT TT CT w0 consts root i.
Proof.
  intros T NT TT CT absBF consts root w0 ws mdt files H. unfold program in H. bget H as ins E. cbn [map_res] in E. bget E as i Ei.
  exists i. apply input_iff. destruct (parse_input consts root) as [s r] eqn:X. cbn [snd] in Ei. subst r. exists s. reflexivity.
Qed.
Print Assumptions C77_refused.

(* Any arithmetic, also floating point: the files written by the tracking part are those of a
   single process.  (The sum of the observed fields over the processes is the reason why this is
   not so for the observers.) *)
Theorem C77_tracking_files : forall (T : Type) (NT : Num T) (TT : Trans T) (CT : Calc T) (absBF : bunch T -> T -> T) (consts : cenv T) (root : node)
    (w0 : World T) ws (mdt : string -> res T) i files,
  let P := Z.of_nat (length (w0 :: ws)) in
  int_texts CT -> Forall (same_files w0) ws ->
  @input_described T NT TT CT w0 consts root i ->
  fitting i P -> logs_fitting i ->
  program absBF consts (w0 :: ws) mdt root = Ok files ->
  exists names tf of, fel_files_named root names /\ tracking_writes absBF i P names tf /\ length of = length (inObs i) /\ files = tf ++ concat of.
Proof.
  intros T NT TT CT absBF consts root w0 ws mdt i files P CI SF D FI LF H. unfold program in H.
  destruct (parse_all consts root w0 ws i SF D) as (is & E & F & L). rewrite E in H. cbn [bind] in H. unfold P in *. rewrite <- L in *.
  destruct (@logs_ok T NT TT CT w0 consts root i (Z.of_nat (length (i :: is))) CI D LF) as (LC & PS).
  unfold main_files in H. bget H as r Er. destruct r as [[ns ls] wl].
  destruct (track_results absBF i is F FI LC PS (proj2 LF) _ _ _ Er) as (s & n0 & l1 & S & DR & FN & _).
  rewrite FN in H. cbn [bind] in H. bget H as wf Ew. bget H as lf El. bget H as ff Ef. bget H as of Eo. apply Ok_inj in H. subst files.
  exists (fel_names root), (wf ++ lf ++ concat ff), of. split; [apply fel_names_iff; reflexivity|]. split.
  { apply (track_files absBF i is F FI LC PS (proj2 LF) _ _ _ n0 _ _ Er FN). exists wf, lf, ff. auto. }
  split; [|rewrite !app_assoc; reflexivity].
  apply map_res_forall2 in Eo. rewrite <- (forall2_length _ _ _ Eo). rewrite zseq_len. reflexivity.
Qed.
Print Assumptions C77_tracking_files.

(* The number of processes and the random numbers of the others do not matter for the
   files, if there is neither a probe nor an observer of the lattice (for these see C40 and C35). *)
Lemma writes_P absBF i P P' mdt names files (TT : Trans R) : piReq (inProbe i) = false ->
  Forall (fun o => snd (fst o) = BeamObservation) (inObs i) ->
  program_writes absBF i P mdt names files -> @program_writes R NumR TT absBF i P' mdt names files.
Proof.
  intros Q B (s & tf & of & S & (s' & wf & lf & pf & ff & S' & W & G & PB & IF & ->) & O & ->).
  exists s, (wf ++ lf ++ pf ++ concat ff), of. split; [exact S|]. split; [|split; [|reflexivity]].
  - exists s', wf, lf, pf, ff. repeat split; auto. inversion PB; [apply B_none; exact Q|congruence].
  - clear -O B. induction O as [|[[o src] fn] fs l l' H O IH]; [constructor|]. inversion B as [|x y B1 B2]; subst. constructor; [|auto].
    cbn [fst snd] in B1. subst src. inversion H; subst. eapply O_beam; eauto.
Qed.
Theorem C77_independent : forall (TT : Trans R) (CT : Calc R) (absBF : bunch R -> R -> R) (consts : cenv R) (root : node)
    (w0 : World R) ws ws' (mdt : string -> res R) i files,
  let P := Z.of_nat (length (w0 :: ws)) in let P' := Z.of_nat (length (w0 :: ws')) in
  int_texts CT -> Forall (same_files w0) ws -> Forall (same_files w0) ws' ->
  @input_described R NumR TT CT w0 consts root i ->
  fitting i P -> fitting i P' -> logs_fitting i -> obs_fitting i ->
  piReq (inProbe i) = false -> Forall (fun o => snd (fst o) = BeamObservation) (inObs i) ->
  program absBF consts (w0 :: ws) mdt root = Ok files -> program absBF consts (w0 :: ws') mdt root = Ok files.
Proof.
  intros TT CT absBF consts root w0 ws ws' mdt i files P P' CI SF SF' D FI FI' LF OF Q B H.
  apply (C77_files TT CT absBF consts root w0 ws' mdt i files CI SF' D FI' LF OF).
  apply (C77_files TT CT absBF consts root w0 ws mdt i files CI SF D FI LF OF) in H.
  destruct H as (names & N & H). exists names. split; [exact N|]. eapply writes_P; eauto.
Qed.
Print Assumptions C77_independent.

(* a document with a background field, a particle with a logger, a probe, watch files, an
   observer of the lattice *)
Definition run_doc : node := Node "teufel" []
  [Node "lattice" [] [Node "background" [] [Node "B" [("y","1")] []]];
   Node "beam" [] [Node "particle" [("gamma","1"); ("charge","1"); ("cmr","1")]
                     [Node "position" [("x","1")] []; Node "momentum" [("z","1")] []; Node "log" [("file","l")] []];
                   Node "probe" [("file","p")] []];
   tracking_ [Node "watch" [("step","1"); ("file","w")] []; Node "watch-sdds" [("step","0"); ("file","s")] []];
   Node "observer" [] [Node "point" [("file","o"); ("source","lattice")] [Node "position" [] []; Node "time" [("n","1")] []]]].
Definition other_world (T : Type) (NT : Num T) : World T :=
  MkWorld T (fun _ _ => nZ 1) (fun _ _ _ _ => nZ 1) (fun _ _ => Throw IOexc) (fun _ _ _ => Throw IOexc) (fun _ => Throw IOexc).
(* computed with floating point numbers, by two processes *)
Example C77_run_ex : forall (TT : Trans float) absBF, exists files, exists f1 f2 f3 f4 f5,
  @program float NumF TT (toy_calc float NumF) absBF [] [toy_world float NumF; other_world float NumF] (fun _ => UB) run_doc = Ok files /\
  files = [("s", f1); ("w", f2); ("l", f3); ("p", f4); ("o", f5)].
Proof. intros TT absBF. eexists _, _, _, _, _, _. split; [vm_compute; reflexivity|reflexivity]. Qed.

(* the conditions of the theorems, for the same document with real numbers *)
Definition run_input (TT : Trans R) : pinput (T := R) :=
  let p := initTrajectory 0%R (@V R 1 0 0)%R (vmul (vnormalize (@V R 0 0 1)%R) (R_sqrt.sqrt (1 * 1 - 1))%R) vzero (new_particle (1 / nqe)%R (1 / nqe / 1)%R) in
  PIN [Homogeneous (EB vzero (@V R 0 1 0)%R)] (BM [[p]] 1 1%R TRACKING_VAY) [(LPar 0 (plog_new 1 None), "l")] (PI true "p" 1 1)
    [(1%Z, (WHdf5, "w")); (0%Z, (WSdds, "s"))] []
    [(OPoint (PO (@V R 0 0 0)%R (tr_new 0%R 0%R 1)), LatticeObservation, "o")].
Lemma near_1 : Generic_fmt.Znearest (fun x => negb (Z.even x)) (IZR 1) = 1%Z. Proof. apply Generic_fmt.Zrnd_IZR. apply Generic_fmt.valid_rnd_N. Qed.
Lemma near_0 : Generic_fmt.Znearest (fun x => negb (Z.even x)) (IZR 0) = 0%Z. Proof. apply Generic_fmt.Zrnd_IZR. apply Generic_fmt.valid_rnd_N. Qed.
Example C77_ex : forall TT : Trans R, let i := run_input TT in let P := 2%Z in
  int_texts (toy_calc R NumR) /\ same_files (toy_world R NumR) (other_world R NumR) /\
  @input_described R NumR TT (toy_calc R NumR) (toy_world R NumR) [] run_doc i /\
  fitting i P /\ logs_fitting i /\ obs_fitting i.
Proof.
  intros TT i P. split; [|split; [|split; [|split; [|split]]]].
  - intros t. unfold toy_calc, int_min, int_max. cbn [cInt]. destruct (String.eqb t "0"); [lia|]. destruct (String.eqb t "2"); [lia|]. destruct (String.eqb t "7"); lia.
  - repeat split.
  - unfold i, run_input. cbv zeta. eapply (DI_ [] run_doc) with (pr := Some (PI true "p" 1 1)) (ts := "1") (tn := "1"); try reflexivity.
    + eapply DL_element; [discriminate| |apply DL_nil]. eapply D_background; reflexivity.
    + eapply (DN_bunch 0 0 _ _ _ _ [_] _ []).
      * eapply DB_particle; try reflexivity. match goal with |- log_described ?e ?n _ _ _ => exact (DG_some e n 0%Z false (Node "log" [("file","l")] []) "l" eq_refl eq_refl) end.
      * match goal with |- beam_described ?i ?ib ?e (?n :: ?r) _ _ _ => exact (DN_probe i ib e n r "p" [] [] None eq_refl eq_refl (DN_nil _ _ _)) end.
    + split; [|unfold int_min, int_max; lia]. change (Some (Generic_fmt.Znearest (fun x => negb (Z.even x)) (IZR 1)) = Some 1%Z). rewrite near_1. reflexivity.
    + eapply (DK_watch _ _ _ _ "1" 1); try reflexivity.
      { split; [|unfold int_min, int_max; lia]. change (Some (Generic_fmt.Znearest (fun x => negb (Z.even x)) (IZR 1)) = Some 1%Z). rewrite near_1. reflexivity. }
      eapply (DK_sdds _ _ _ _ "0" 0); try reflexivity; [|apply DK_nil].
      split; [|unfold int_min, int_max; lia]. change (Some (Generic_fmt.Znearest (fun x => negb (Z.even x)) (IZR 0)) = Some 0%Z). rewrite near_0. reflexivity.
    + eapply DV_observer; [|apply DS_lattice; reflexivity|reflexivity|apply DV_nil].
      match goal with |- observer_described ?e ?n _ =>
        exact (@DO_point R NumR (toy_calc R NumR) (toy_world R NumR) e n (Node "time" [("n","1")] []) (Node "position" [] []) "1" eq_refl eq_refl eq_refl (Zle_0_pos 1) eq_refl) end.
  - unfold fitting, P. split; [|split]; [vm_compute; discriminate|vm_compute; discriminate|]. change (0 <= 1 < int_max)%Z. unfold int_max. lia.
  - split; [|intros _; cbn; discriminate]. constructor; [|constructor]. cbn. discriminate.
  - constructor; [|constructor]. cbn. split; [exact Logic.I|]. unfold int_max. lia.
Qed.

(* without the probe and the observer of the lattice *)
Definition plain_doc : node := Node "teufel" []
  [Node "lattice" [] []; Node "beam" [] [Node "particle" [("gamma","1"); ("charge","1"); ("cmr","1")]
                     [Node "position" [("x","1")] []; Node "momentum" [("z","1")] []]];
   tracking_ [Node "watch" [("step","1"); ("file","w")] []];
   Node "observer" [] [Node "point" [("file","o")] [Node "position" [] []; Node "time" [("n","1")] []]]].
Definition plain_input (TT : Trans R) : pinput (T := R) :=
  let p := initTrajectory 0%R (@V R 1 0 0)%R (vmul (vnormalize (@V R 0 0 1)%R) (R_sqrt.sqrt (1 * 1 - 1))%R) vzero (new_particle (1 / nqe)%R (1 / nqe / 1)%R) in
  PIN [] (BM [[p]] 1 1%R TRACKING_VAY) [] (PI false "" 0 0) [(1%Z, (WHdf5, "w"))] []
    [(OPoint (PO (@V R 0 0 0)%R (tr_new 0%R 0%R 1)), BeamObservation, "o")].
Example C77_independent_ex : forall TT : Trans R, let i := plain_input TT in
  @input_described R NumR TT (toy_calc R NumR) (toy_world R NumR) [] plain_doc i /\
  fitting i 1 /\ fitting i 2 /\ logs_fitting i /\ obs_fitting i /\
  piReq (inProbe i) = false /\ Forall (fun o => snd (fst o) = BeamObservation) (inObs i).
Proof.
  intros TT i. split; [|split; [|split; [|split; [|split; [|split]]]]].
  - unfold i, plain_input. cbv zeta. eapply (DI_ [] plain_doc) with (pr := None) (ts := "1") (tn := "1"); try reflexivity.
    + apply DL_nil.
    + eapply (DN_bunch 0 0 _ _ _ _ [] _ []); [|apply DN_nil]. eapply DB_particle; try reflexivity. apply DG_none. reflexivity.
    + split; [|unfold int_min, int_max; lia]. change (Some (Generic_fmt.Znearest (fun x => negb (Z.even x)) (IZR 1)) = Some 1%Z). rewrite near_1. reflexivity.
    + eapply (DK_watch _ _ _ _ "1" 1); try reflexivity; [|apply DK_nil].
      split; [|unfold int_min, int_max; lia]. change (Some (Generic_fmt.Znearest (fun x => negb (Z.even x)) (IZR 1)) = Some 1%Z). rewrite near_1. reflexivity.
    + eapply DV_observer; [|apply DS_default; reflexivity|reflexivity|apply DV_nil].
      match goal with |- observer_described ?e ?n _ =>
        exact (@DO_point R NumR (toy_calc R NumR) (toy_world R NumR) e n (Node "time" [("n","1")] []) (Node "position" [] []) "1" eq_refl eq_refl eq_refl (Zle_0_pos 1) eq_refl) end.
  - unfold fitting. split; [|split]; [vm_compute; discriminate|vm_compute; discriminate|]. change (0 <= 1 < int_max)%Z. unfold int_max. lia.
  - unfold fitting. split; [|split]; [vm_compute; discriminate|vm_compute; discriminate|]. change (0 <= 1 < int_max)%Z. unfold int_max. lia.
  - split; [constructor|intros H; discriminate H].
  - constructor; [|constructor]. cbn. split; [exact Logic.I|]. unfold int_max. lia.
  - reflexivity.
  - repeat constructor.
Qed.

(* Refuted without these restrictions: the files of run_doc depend on the number of processes
   (the field of the lattice observed is doubled). *)
Theorem C77_processes_refuted : forall (TT : Trans float) absBF, exists files files',
  @program float NumF TT (toy_calc float NumF) absBF [] [toy_world float NumF] (fun _ => UB) run_doc = Ok files /\
  @program float NumF TT (toy_calc float NumF) absBF [] [toy_world float NumF; toy_world float NumF] (fun _ => UB) run_doc = Ok files' /\
  firstn 4 files' = firstn 4 files /\ files' <> files.
Proof.
  intros TT absBF. eexists _, _. split; [vm_compute; reflexivity|]. split; [vm_compute; reflexivity|]. split; [reflexivity|].
  intros H. apply (f_equal (skipn 4)) in H. cbn [skipn] in H.
  apply (f_equal (fun l : list (string * outfile float) => match l with [(_, FSdds d)] => map (fun c => match snd c with x :: _ => PrimFloat.eqb x 1 | _ => true end) (sdCol d) | _ => [] end)) in H.
  vm_compute in H. discriminate H.
Qed.
Print Assumptions C77_processes_refuted.
