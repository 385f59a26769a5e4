(* What the program is expected to write: the states of the tracking of all particles by one process
   (DriverSpec.v) determine all files. *)
From Coq Require Import ZArith String List Bool.
From Verif Require Import Base Num VecModel ParticleModel TraceModel BunchModel BeamSpec DriverSpec LoggerModel LoggerSpec
  ElementModel FelModel ObserverModel ObserverSpec SddsModel OutputModel ParserModel ProgramModel.
Import ListNotations.
Local Open Scope string_scope.
Local Open Scope list_scope.

Section Spec.
Context {T : Type} {NT : Num T} {TT : Trans T}.
Variable absBF : bunch T -> T -> T.
Variable i : pinput (T := T).

(* the state after j steps, starting with the beam and the fields of the input *)
Definition state_at (j : nat) (s : sim) : Prop :=
  sim_run full_field inter_init inter_step (bmNOTS (inBeam i)) (inLattice i, inFel i) (inBeam i) j = Ok s.
(* number of steps *)
Definition steps : nat := Z.to_nat (bmNOTS (inBeam i)).

(* watch points: step by step, in the order of the document within a step *)
Definition watches_due : list (nat * wtarget) :=
  flat_map (fun j => map (fun w => (j, snd w)) (filter (fun w => (fst w =? Z.of_nat j)%Z) (inWatch i))) (seq 0 (S steps)).
Inductive watch_written : nat * wtarget -> string * outfile T -> Prop :=
| W_hdf5 : forall j fn s, state_at j s ->
    let ps := concat (bmB (sMaster s)) in
    watch_written (j, (WHdf5, fn))
      (fn, FHdf5 [("electrons", H5 [Z.of_nat (length ps); 6%Z]
         (HDoubles (flat_map (fun p => [vx (pX p); vy (pX p); vz (pX p); vx (pP p); vy (pP p); vz (pP p)]) ps)) [])])
| W_sdds : forall j fn s d, state_at j s -> beam_watch (sMaster s) = Ok d -> watch_written (j, (WSdds, fn)) (fn, FSdds d).

(* loggers: the values of the steps which are due *)
Inductive log_written : logger T * string -> string * outfile T -> Prop :=
| G_par : forall ib p fn bs s b d,
    Forall2 (fun j b => exists s, state_at j s /\ nth_error (bmB (sMaster s)) ib = Some b) (due (Z.to_nat (plStep p)) steps) bs ->
    state_at steps s -> nth_error (bmB (sMaster s)) ib = Some b ->
    plog_file b (fold_left (fun l b => plog_update absBF b l) bs p) = Ok d ->
    log_written (LPar (Z.of_nat ib) p, fn) (fn, FSdds d)
| G_traj : forall ib p fn bs,
    Forall2 (fun j b => exists s, state_at j s /\ nth_error (bmB (sMaster s)) ib = Some b) (due (Z.to_nat (blStep p)) steps) bs ->
    let n := Z.of_nat (length bs) in
    (n * (6 * blNOP p) < 2 ^ 32)%Z ->
    log_written (LTraj (Z.of_nat ib) p, fn)
      (fn, FHdf5 [("Trajectories", H5 [n; blNOP p; 6%Z] (HDoubles (flat_map (coordinates (Z.to_nat (blNOP p))) bs))
                     [att_int "NOTS" n; att_int "NOP" (blNOP p)])]).
(* the probe of the particles of the first of P processes *)
Inductive probe_written (P : Z) : list (string * outfile T) -> Prop :=
| B_none : piReq (inProbe i) = false -> probe_written P []
| B_some : forall pss, piReq (inProbe i) = true ->
    Forall2 (fun j ps => exists s, state_at j s /\ sTracked s = ps) (due (Z.to_nat (u32 (piStep (inProbe i)))) steps) pss ->
    let n := Z.of_nat (length pss) in
    let nop := Z.min (first_share (inBeam i) P) (u32 (piNumber (inProbe i))) in
    (n * (16 * nop) < 2 ^ 32)%Z ->
    probe_written P [(piFile (inProbe i),
      FHdf5 [("Probe", H5 [n; nop; 16%Z] (HDoubles (flat_map (probe_values (Z.to_nat nop)) pss))
                     [att_int "NOTS" n; att_int "NOP" nop; att_int "NOD" 16])])].

(* one file of an observer: nothing is written if the writer gives up *)
Definition one_file {A} (fn : string) (kind : A -> outfile T) (r : res A) (fs : list (string * outfile T)) : Prop :=
  (exists f, r = Ok f /\ fs = [(fn, kind f)]) \/ (exists e, r = Throw e /\ fs = []).
(* a snapshot of the beam has the coordinates of the particles, one of the lattice has not *)
Inductive obs_output (mdt : string -> res T) (bm : beam T) : obsource -> string -> observer T -> list (string * outfile T) -> Prop :=
| U_screen : forall k fn s fs, one_file fn FHdf5 (screen_file s) fs -> obs_output mdt bm k fn (OScreen s) fs
| U_snap_beam : forall fn s st fs, snap_store (snt s) bm = Ok st -> one_file fn FHdf5 (snap_file s (Some st)) fs ->
    obs_output mdt bm BeamObservation fn (OSnap s) fs
| U_snap_lattice : forall fn s fs, one_file fn FHdf5 (snap_file s None) fs -> obs_output mdt bm LatticeObservation fn (OSnap s) fs
| U_point : forall k fn s fs, one_file fn FSdds (point_file s) fs -> obs_output mdt bm k fn (OPoint s) fs
| U_mesh : forall k fn s dt fs, mdt fn = Ok dt -> one_file fn FHdf5 (mesh_file s dt) fs -> obs_output mdt bm k fn (OMesh s) fs.

(* observers: the radiation of all particles as tracked until the end.  The field of the lattice is
   counted by each of the P processes. *)
Inductive obs_written (P : Z) (mdt : string -> res T) (s : sim (T := T) (L := lattice_T T)) :
    observer T * obsource * string -> list (string * outfile T) -> Prop :=
| O_beam : forall o o' fn fs, obs_integrate (SBeam (BM [sTracked s] 0 (bmdt (inBeam i)) TRACKING_VAY)) o = Ok o' ->
    obs_output mdt (sMaster s) BeamObservation fn o' fs -> obs_written P mdt s (o, BeamObservation, fn) fs
| O_lattice : forall o o1 o' fn fs, obs_integrate (SLattice (lat_field (inLattice i))) o = Ok o1 -> like o1 o' ->
    (forall k, inside o k -> exists f, obs_get o1 k = Ok f /\ obs_get o' k = Ok (emul f (nZ P))) ->
    obs_output mdt (sMaster s) LatticeObservation fn o' fs -> obs_written P mdt s (o, LatticeObservation, fn) fs.

(* the history of an interaction, with the name given in its node *)
Definition fel_written (f : fel T * string) (fs : list (string * outfile T)) : Prop :=
  (fel_file (fst f) = Ok None /\ fs = []) \/ (exists h, fel_file (fst f) = Ok (Some h) /\ fs = [(snd f, FHdf5 h)]).
(* the files written until the end of the tracking: watch files, log files, interactions *)
Definition tracking_writes (P : Z) (names : list string) (files : list (string * outfile T)) : Prop :=
  exists s wf lf pf ff, state_at steps s /\ Forall2 watch_written watches_due wf /\ Forall2 log_written (inLogs i) lf /\
    probe_written P pf /\ Forall2 fel_written (combine (snd (sLat s)) names) ff /\
    files = wf ++ lf ++ pf ++ concat ff.
Definition program_writes (P : Z) (mdt : string -> res T) (names : list string) (files : list (string * outfile T)) : Prop :=
  exists s tf of, state_at steps s /\ tracking_writes P names tf /\ Forall2 (obs_written P mdt s) (inObs i) of /\
    files = tf ++ concat of.

(* sizes for which the program has no overflow: P processes *)
Definition fitting (P : Z) : Prop :=
  (count (inBeam i) + P <= int_max)%Z /\ (10 * (share (count (inBeam i)) P * P) <= int_max)%Z /\
  (0 <= bmNOTS (inBeam i) < int_max)%Z.
(* a logger with the step 0 is undefined *)
Definition logs_fitting : Prop :=
  Forall (fun l => logger_step (fst l) <> 0%Z) (inLogs i) /\ (piReq (inProbe i) = true -> (piStep (inProbe i)) <> 0%Z).
(* observers whose buffers have a size that can be transferred *)
Definition obs_fitting : Prop := Forall (fun o => shaped (fst (fst o)) /\ (6 * fields (fst (fst o)) <= int_max)%Z) (inObs i).
End Spec.

(* the names of the files of the interactions in the document: one for every node fel1d of the
   tracking section, in their order *)
Inductive fel_named (n : node) : string -> Prop :=
| N_log : forall l, child n "log" = Some l -> fel_named n (attr_text l "file")
| N_none : child n "log" = None -> fel_named n "".
Inductive fels_named : list node -> list string -> Prop :=
| FN_nil : fels_named [] []
| FN_fel : forall n l fn fns, nName n = "fel1d" -> fel_named n fn -> fels_named l fns -> fels_named (n :: l) (fn :: fns)
| FN_other : forall n l fns, nName n <> "fel1d" -> fels_named l fns -> fels_named (n :: l) fns.
Inductive fel_files_named (root : node) : list string -> Prop :=
| FF_none : child root "tracking" = None -> fel_files_named root []
| FF_some : forall t fns, child root "tracking" = Some t -> fels_named (nKids t) fns -> fel_files_named root fns.
