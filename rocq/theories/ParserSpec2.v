(* Specification of the objects which an input file describes (C76): a description of the
   sections of the document, element by element, for given values of the constants. *)
From Coq Require Import ZArith String List Bool.
From Verif Require Import Base Num VecModel ParticleModel TraceModel BunchModel DriverModel LoggerModel
  ElementModel FelModel ObserverModel ParserModel ParserSpec.
Import ListNotations.

Section Described.
Context {T : Type} {NT : Num T} {TT : Trans T} {CT : Calc T} {WT : World T}.

(* the constants after the definitions among a list of elements *)
Definition after (e : cenv T) (l : list node) : cenv T := seq_env e (filter is_def l).
(* attributes: the value of a text, an optional number, an optional integer, a vector *)
Definition text_value (e : cenv T) (t : string) : T := match cEval e t with Some x => x | None => nZ 0 end.
Definition opt_attr (e : cenv T) (n : node) (k : string) : T :=
  match attr n k with Some t => text_value e t | None => nZ 0 end.
Definition int_attr (n : node) (k : string) (dflt : Z) : Z := match attr n k with Some t => cInt t | None => dflt end.
Definition vec_attr (e : cenv T) (n : node) : vec T := V (num_attr e n "x") (num_attr e n "y") (num_attr e n "z").
(* the integer nearest to the value of a text; 0 if there is no value *)
Definition int_text (e : cenv T) (t : string) (z : Z) : Prop :=
  match cEval e t with Some x => nrint x = Some z /\ (int_min <= z <= int_max)%Z | None => z = 0%Z end.
(* the integer part of the value of a text *)
Definition int_part (e : cenv T) (t : string) (z : Z) : Prop :=
  (int_min <= z <= int_max)%Z /\
  let x := text_value e t in
  if nltb x (nZ 0) then nfloor (nopp x) = Some (- z)%Z else nfloor x = Some z.

(* ---- lattice: e are the constants after the definitions in the element ---- *)
Inductive element_described (e : cenv T) (n : node) : element T -> Prop :=
| D_planar : forall p f, nName n = "undulator"%string -> attr_text n "type" = "planar"%string ->
    child n "position" = Some p -> child n "field" = Some f ->
    element_described e n (Localized (nZ 0) (vec_attr e p)
      (LPlanar (PU (num_attr e f "B") (num_attr e f "period") (int_attr f "N" 0))))
| D_tgu : forall p f, nName n = "undulator"%string -> attr_text n "type" = "transverse gradient"%string ->
    child n "position" = Some p -> child n "field" = Some f ->
    element_described e n (Localized (nZ 0) (vec_attr e p)
      (LTgu (TG (num_attr e f "B") (num_attr e f "kx") (opt_attr e f "modulation") (num_attr e f "period") (int_attr f "N" 0))))
| D_wave : forall p f, nName n = "wave"%string -> attr_text n "type" = "gaussian"%string ->
    child n "position" = Some p -> child n "field" = Some f ->
    element_described e n (Localized (nZ 0) (vec_attr e p)
      (LWave (GW (num_attr e f "lambda") (num_attr e f "ReA") (num_attr e f "ImA") (num_attr e f "rayleigh"))))
| D_packet : forall p f, nName n = "wave"%string -> attr_text n "type" = "packet"%string ->
    child n "position" = Some p -> child n "field" = Some f ->
    element_described e n (Localized (num_attr e p "t") (vec_attr e p)
      (LPacket (GW (num_attr e f "lambda") (num_attr e f "ReA") (num_attr e f "ImA") (num_attr e f "rayleigh")) (num_attr e f "tau")))
| D_screen : forall p fn el, nName n = "screen"%string -> attr n "file" = Some fn -> child n "position" = Some p ->
    wScreen fn (vec_attr e p) (num_attr e p "t") = Ok el -> element_described e n el
| D_hard : forall B p1 n1 p2 n2, nName n = "dipole"%string -> attr_text n "type" = "hard edge"%string ->
    child n "B" = Some B -> child n "p1" = Some p1 -> child n "n1" = Some n1 -> child n "p2" = Some p2 -> child n "n2" = Some n2 ->
    element_described e n (Localized (nZ 0) vzero
      (LHard (HD (vec_attr e B) (vec_attr e p1) (vec_attr e n1) (vec_attr e p2) (vec_attr e n2))))
| D_soft : forall B p1 n1 p2 n2 t, nName n = "dipole"%string -> attr_text n "type" = "soft edge"%string ->
    child n "B" = Some B -> child n "p1" = Some p1 -> child n "n1" = Some n1 -> child n "p2" = Some p2 -> child n "n2" = Some n2 ->
    child n "transition" = Some t ->
    element_described e n (Localized (nZ 0) vzero
      (LSoft (SD (vec_attr e B) (vec_attr e p1) (vec_attr e n1) (num_attr e t "l1") (vec_attr e p2) (vec_attr e n2) (num_attr e t "l2"))))
| D_background : forall E B, nName n = "background"%string ->
    E = match child n "E" with Some c => vec_attr e c | None => vzero end ->
    B = match child n "B" with Some c => vec_attr e c | None => vzero end ->
    element_described e n (Homogeneous (EB E B)).

(* the elements of the lattice, in document order *)
Inductive lattice_described : cenv T -> list node -> list (element T) -> Prop :=
| DL_nil : forall e, lattice_described e [] []
| DL_calc : forall e n r els, nName n = "calc"%string ->
    lattice_described (after e [n]) r els -> lattice_described e (n :: r) els
| DL_element : forall e n r el els, nName n <> "calc"%string ->
    element_described (after e (visit_lattice n)) n el ->
    lattice_described (after e (visit_lattice n)) r els -> lattice_described e (n :: r) (el :: els).

(* ---- beam ---- *)
(* a new particle with a trajectory of one point and no acceleration *)
Definition starts (p : particle T) (charge mass t : T) (x m : vec T) : Prop :=
  p = initTrajectory t x m vzero (new_particle charge mass).
(* parameter loggers of bunch number ib *)
Definition freq_attr (e : cenv T) (l : node) : option T :=
  match attr l "bunching-freq" with Some t => Some (text_value e t) | None => None end.
Inductive log_described (e : cenv T) (n : node) (ib : Z) (bunching : bool) : list (logger T * string) -> Prop :=
| DG_none : child n "log" = None -> log_described e n ib bunching []
| DG_some : forall l fn, child n "log" = Some l -> attr l "file" = Some fn ->
    log_described e n ib bunching
      [(LPar ib (plog_new (int_attr l "step" 1) (if bunching then freq_attr e l else None)), fn)].
Inductive traj_described (n : node) (ib : Z) (bu : bunch T) : list (logger T * string) -> Prop :=
| DT_none : child n "trajectories" = None -> traj_described n ib bu []
| DT_some : forall t fn, child n "trajectories" = Some t -> attr t "file" = Some fn ->
    traj_described n ib bu [(LTraj ib (tlog_new bu (int_attr t "step" 1) (int_attr t "particles" 1000000)), fn)].
(* the linear correlations of a beam entry; independent, dependent coordinate, factor *)
Definition correlation_described (e : cenv T) (m : node) (c : Z * Z * T) : Prop :=
  nName m = "linear"%string /\
  exists i d f, attr m "indep" = Some i /\ attr m "dep" = Some d /\ attr m "factor" = Some f /\
    int_part e i (fst (fst c)) /\ int_part e d (snd (fst c)) /\ snd c = text_value e f.
Inductive correlations_described (e : cenv T) (n : node) : list (Z * Z * T) -> Prop :=
| DC_none : child n "correlations" = None -> correlations_described e n []
| DC_some : forall c l, child n "correlations" = Some c -> Forall2 (correlation_described e) (nKids c) l ->
    correlations_described e n l.

(* the deviations of one particle from the reference particle, by coordinate number *)
Definition put_coord (c : Z -> T) (j : Z) (v : T) : Z -> T := fun l => if Z.eqb l j then v else c l.
(* a correlation of two different existing coordinates *)
Definition correlate_coord (c : Z -> T) (r : Z * Z * T) : Z -> T :=
  let '(ind, dep, f) := r in
  if ((0 <=? ind) && (ind <? 6) && (0 <=? dep) && (dep <? 6) && negb (dep =? ind))%Z
  then put_coord c dep (nadd (c dep) (nmul f (c ind))) else c.
(* particle k of the entry number i; the z coordinate is uniformly distributed over zft if
   this is given *)
Definition drawn (i : nat) (bg xr yr zr zft xp yp de : T) (k j : Z) : T :=
  match j with
  | 0%Z => wGauss i 0 xr k
  | 1%Z => wGauss i 1 yr k
  | 2%Z => if neqb zft (nZ 0) then if neqb zr (nZ 0) then nmul (wUniform i (Z.to_nat (k * 6 + 2))) (nZ 0) else wGauss i 2 zr k
           else nmul (wUniform i (Z.to_nat (k * 6 + 2))) zft
  | 3%Z => wGauss i 3 (nmul bg xp) k
  | 4%Z => wGauss i 4 (nmul bg yp) k
  | 5%Z => wGauss i 5 (nmul bg de) k
  | _ => nZ 0
  end.

(* entry number i of the beam section, which makes bunch number ib; e are the constants
   before its definitions *)
Inductive bunch_described (i : nat) (ib : Z) (e : cenv T) (n : node) : bunch T -> list (logger T * string) -> Prop :=
| DB_particle : forall e1 pn mn t0 p logs q, nName n = "particle"%string ->
    e1 = after e (calcs_of n) ->
    child n "position" = Some pn -> child n "momentum" = Some mn ->
    t0 = match child n "time" with Some t => num_attr e1 t "t0" | None => nZ 0 end ->
    q = ndiv (num_attr e n "charge") nqe ->
    let gamma := num_attr e n "gamma" in
    starts p q (ndiv q (num_attr e n "cmr")) t0 (vec_attr e1 pn)
      (vmul (vnormalize (vec_attr e1 mn)) (nsqrt (nsub (nmul gamma gamma) (nZ 1)))) ->
    log_described e1 n ib false logs ->
    bunch_described i ib e n [p] logs
| DB_bunch : forall et ep em pn mn t0 q N cors bu logs trj, nName n = "bunch"%string ->
    (* constants for the time, the position, the momentum and the rest *)
    et = after e (calcs_of n ++ calcs_opt (child n "time")) ->
    child n "position" = Some pn -> ep = after et (calcs_of pn) ->
    child n "momentum" = Some mn -> em = after ep (calcs_of mn) ->
    t0 = match child n "time" with Some t => num_attr et t "t0" | None => nZ 0 end ->
    q = ndiv (num_attr e n "charge") nqe -> N = int_attr n "n" 1 ->
    (0 <= N /\ 6 * N <= int_max)%Z ->
    let gamma := num_attr e n "gamma" in
    let bg := nsqrt (nsub (nmul gamma gamma) (nZ 1)) in
    correlations_described em n cors ->
    (length bu = Z.to_nat N) ->
    (forall k p, nth_error bu k = Some p ->
      exists c, c = fold_left correlate_coord cors
          (drawn i bg (opt_attr ep pn "xrms") (opt_attr ep pn "yrms") (opt_attr ep pn "zrms") (opt_attr ep pn "zft")
             (opt_attr em mn "xrms") (opt_attr em mn "yrms") (opt_attr em mn "delta") (Z.of_nat k)) /\
        starts p (ndiv q (nZ N)) (ndiv (ndiv q (num_attr e n "cmr")) (nZ N)) (nadd t0 (nZ 0))
          (vadd (vec_attr ep pn) (V (c 0%Z) (c 1%Z) (c 2%Z)))
          (vadd (vmul (vnormalize (vec_attr em mn)) bg) (V (c 3%Z) (c 4%Z) (c 5%Z)))) ->
    log_described em n ib true logs -> traj_described n ib bu trj ->
    bunch_described i ib e n bu (logs ++ trj)
| DB_sdds : forall e1 fn dir b0 cors bu logs, nName n = "SDDS"%string ->
    e1 = after e (calcs_opt (child n "dir")) ->
    attr n "file" = Some fn ->
    dir = match child n "dir" with Some d => vnormalize (vec_attr e1 d) | None => V (nZ 0) (nZ 0) (nZ 1) end ->
    wSDDS fn dir = Ok b0 ->
    correlations_described e1 n cors ->
    fold_res (fun b r => bunch_correlate (fst (fst r)) (snd (fst r)) (snd r) b) cors b0 = Ok bu ->
    log_described e1 n ib true logs ->
    bunch_described i ib e n bu logs.

(* the whole section: bunches, loggers and the last request of a probe *)
Inductive beam_described : nat -> Z -> cenv T -> list node -> list (bunch T) -> list (logger T * string) -> option probeinfo -> Prop :=
| DN_nil : forall i ib e, beam_described i ib e [] [] [] None
| DN_calc : forall i ib e n r bs ls pr, nName n = "calc"%string ->
    beam_described (S i) ib (after e [n]) r bs ls pr -> beam_described i ib e (n :: r) bs ls pr
| DN_bunch : forall i ib e n r bu lo bs ls pr,
    bunch_described i ib e n bu lo ->
    beam_described (S i) (ib + 1) (after e (visit_beam n)) r bs ls pr ->
    beam_described i ib e (n :: r) (bu :: bs) (lo ++ ls) pr
| DN_probe : forall i ib e n r fn bs ls pr, nName n = "probe"%string -> attr n "file" = Some fn ->
    beam_described (S i) ib e r bs ls pr ->
    beam_described i ib e (n :: r) bs ls
      (Some match pr with Some x => x | None => PI true fn (int_attr n "step" 1) (int_attr n "number" 1) end).

(* ---- tracking ---- *)
Definition seed_attr (e : cenv T) (n : node) : option (T * T * T * T) :=
  match child n "seed" with
  | Some s => Some (num_attr e s "E0", num_attr e s "lambda", num_attr e s "tau", num_attr e s "tstart")
  | None => None
  end.
(* an interaction; ts is the text of the time step *)
Inductive fel_described (ts : string) (e : cenv T) (n : node) : fel T -> Prop :=
| DF : forall tN N p k pol m log f, nName n = "fel1d"%string ->
    attr n "N" = Some tN -> int_text e tN N ->
    child n "position" = Some p -> child n "prop" = Some k -> child n "pol" = Some pol -> child n "mode" = Some m ->
    match child n "log" with
    | Some l => (exists fn, attr l "file" = Some fn) /\ log = Some (int_attr l "step" 1)
    | None => log = None
    end ->
    fel_new (text_value e ts) N (vec_attr e p) (vec_attr e k) (vec_attr e pol) log
      (num_attr e m "zR") (num_attr e m "w0") (num_attr e m "zwaist") (seed_attr e n) = Ok f ->
    fel_described ts e n f.
Inductive tracking_described (ts : string) : cenv T -> list node -> list (Z * wtarget) -> list (fel T) -> Prop :=
| DK_nil : forall e, tracking_described ts e [] [] []
| DK_calc : forall e n r ws fs, nName n = "calc"%string ->
    tracking_described ts (after e [n]) r ws fs -> tracking_described ts e (n :: r) ws fs
| DK_fel : forall e n r f ws fs, fel_described ts (after e (calcs_of n)) n f ->
    tracking_described ts (after e (calcs_of n)) r ws fs -> tracking_described ts e (n :: r) ws (f :: fs)
| DK_watch : forall e n r st z fn ws fs, nName n = "watch"%string ->
    attr n "step" = Some st -> int_text e st z -> attr n "file" = Some fn ->
    tracking_described ts e r ws fs -> tracking_described ts e (n :: r) ((z, (WHdf5, fn)) :: ws) fs
| DK_sdds : forall e n r st z fn ws fs, nName n = "watch-sdds"%string ->
    attr n "step" = Some st -> int_text e st z -> attr n "file" = Some fn ->
    tracking_described ts e r ws fs -> tracking_described ts e (n :: r) ((z, (WSdds, fn)) :: ws) fs.

(* ---- observers ---- *)
Inductive source_described (n : node) : obsource -> Prop :=
| DS_default : attr n "source" = None -> source_described n BeamObservation
| DS_beam : attr n "source" = Some "beam"%string -> source_described n BeamObservation
| DS_lattice : attr n "source" = Some "lattice"%string -> source_described n LatticeObservation.
Inductive observer_described (e : cenv T) (n : node) : observer T -> Prop :=
| DO_snapshot : forall t p h v nh nv, nName n = "snapshot"%string ->
    child n "time" = Some t -> child n "position" = Some p ->
    child n "hpitch" = Some h -> attr h "n" = Some nh -> child n "vpitch" = Some v -> attr v "n" = Some nv ->
    observer_described e n (OSnap (snap_new (vec_attr e p) (vec_attr e h) (vec_attr e v) (cInt nh) (cInt nv) (num_attr e t "t0")))
| DO_screen : forall t p h v nh nv nt s, nName n = "screen"%string ->
    child n "time" = Some t -> attr t "n" = Some nt -> child n "position" = Some p ->
    child n "hpitch" = Some h -> attr h "n" = Some nh -> child n "vpitch" = Some v -> attr v "n" = Some nv ->
    screen_new (vec_attr e p) (vec_attr e h) (vec_attr e v) (cInt nh) (cInt nv)
      (num_attr e t "t0") (num_attr e t "dt") (opt_attr e h "dt") (opt_attr e v "dt") (cInt nt) = Ok s ->
    observer_described e n (OScreen s)
| DO_mesh : forall fn m x, nName n = "mesh"%string -> attr n "file" = Some fn -> wMesh fn = Ok m -> mesh_init m = Ok x ->
    observer_described e n (OMesh (mesh_zero m))
| DO_point : forall t p nt, nName n = "point"%string ->
    child n "time" = Some t -> attr t "n" = Some nt -> (0 <= cInt nt)%Z -> child n "position" = Some p ->
    observer_described e n (OPoint (PO (vec_attr e p) (tr_new (num_attr e t "t0") (num_attr e t "dt") (Z.to_nat (cInt nt))))).
Inductive observers_described : cenv T -> list node -> list (observer T * obsource * string) -> Prop :=
| DV_nil : forall e, observers_described e [] []
| DV_calc : forall e n r os, nName n = "calc"%string ->
    observers_described (after e [n]) r os -> observers_described e (n :: r) os
| DV_observer : forall e n r o src fn os,
    observer_described (after e (calcs_of n)) n o -> source_described n src -> attr n "file" = Some fn ->
    observers_described (after e (calcs_of n)) r os -> observers_described e (n :: r) ((o, src, fn) :: os).

(* ---- the document ---- *)
Inductive input_described (consts : cenv T) (root : node) : pinput (T:=T) -> Prop :=
| DI_ : forall e0 e1 e2 e3 l b t o els bs ls pr ts tn dt N ws fs os,
    child root "lattice" = Some l -> child root "beam" = Some b -> child root "tracking" = Some t -> child root "observer" = Some o ->
    (* the constants at the beginning of each section *)
    e0 = after consts (calcs_of root) ->
    e1 = after e0 (flat_map visit_lattice (nKids l)) ->
    e2 = after e1 (flat_map visit_beam (nKids b)) ->
    e3 = after e2 (flat_map visit_tracking (nKids t)) ->
    lattice_described e0 (nKids l) els ->
    beam_described 0 0 e1 (nKids b) bs ls pr ->
    attr_text t "method" = "Vay"%string ->
    attr t "delta_t" = Some ts -> dt = text_value e2 ts ->
    attr t "n" = Some tn -> int_text e2 tn N ->
    tracking_described ts e2 (nKids t) ws fs ->
    observers_described e3 (nKids o) os ->
    input_described consts root
      (PIN els (BM bs N dt TRACKING_VAY) ls (match pr with Some x => x | None => PI false "" 0 0 end) ws fs os).
End Described.

(* ---- input read by two processes with different random numbers ---- *)
Definition same_files {T} (W1 W2 : World T) : Prop :=
  (forall fn d, @wSDDS T W1 fn d = @wSDDS T W2 fn d) /\
  (forall fn p t, @wScreen T W1 fn p t = @wScreen T W2 fn p t) /\
  (forall fn, @wMesh T W1 fn = @wMesh T W2 fn).
(* two particles which differ in their coordinates only *)
Definition same_kind {T} (p q : particle T) : Prop :=
  pCharge p = pCharge q /\ pMass p = pMass q /\ pqm p = pqm q /\ pt p = pt q /\ pTimes p = pTimes q /\ pNP p = pNP q /\ pNpre p = pNpre q /\
  pdt p = pdt q /\ pqmt2 p = pqmt2 q /\ pE p = pE q /\ pB p = pB q /\ pVp p = pVp q /\ pVg p = pVg q.
Definition same_but_coordinates {T} (a b : pinput (T:=T)) : Prop :=
  inLattice a = inLattice b /\ inLogs a = inLogs b /\ inProbe a = inProbe b /\ inWatch a = inWatch b /\
  inFel a = inFel b /\ inObs a = inObs b /\
  bmNOTS (inBeam a) = bmNOTS (inBeam b) /\ bmdt (inBeam a) = bmdt (inBeam b) /\ bmTracker (inBeam a) = bmTracker (inBeam b) /\
  Forall2 (Forall2 same_kind) (bmB (inBeam a)) (bmB (inBeam b)).
