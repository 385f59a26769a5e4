(* Model of main() of /repo/src/teufel_hybrid.cpp:74-829 as it is run by one of the processes,
   with its collective operations (CommModel.v).  ProgramModel.v describes the program
   as a whole with all processes in step; here every process works on its own.
   Simplifications:
   - the XML parser (pugixml) is a function from file names to documents; a file written by
     the program is no XML document;
   - not modelled: the printing, the memory statistics, the timing (usleep, MPI_Wtime), the clean-up
     (MemModel.v), the argument vector as changed by MPI_Init;
   - the files are written at once (a watch file, for example, is opened, filled and closed);
   - names of the files of interactions as in ProgramModel.v. *)
From Coq Require Import ZArith String List Bool.
From Verif Require Import Base Num VecModel ParticleModel TraceModel RetardModel BunchModel DriverModel LoggerModel
  ElementModel FelModel ObserverModel SddsModel PropagateModel OutputModel ParserModel ProgramModel CommModel.
Import ListNotations.
Local Open Scope string_scope.
Local Open Scope list_scope.
Local Open Scope res_scope.

Section Hybrid.
Context {T : Type} {NT : Num T} {TT : Trans T} {CT : Calc T}.
Variable absBF : bunch T -> T -> T.
Variable consts : cenv T.
Notation pin := (pinput (T:=T)).
Notation nd := (pnode T (lattice_T T)).
Notation file := (string * outfile T)%type.
Notation pr := (proc (buffer T) file).

(* the sum of buffers, MPI_SUM *)
Definition breduce (l : list (buffer T)) : buffer T :=
  match l with [] => [] | b :: r => fold_left (zip_with opt_add) r b end.

(* MPI_Barrier *)
Definition barrier (p : pr) : pr := Call CBarrier [] (fun _ => p).
(* MPI_Barrier, usleep, print, usleep, MPI_Barrier: lines 153-157, 201-205, 226-230, ... *)
Definition pause (p : pr) : pr := barrier (barrier p).
(* what is done by the process with rank 0 only *)
Definition root_do {A} (rank : Z) (other : A) (m : res A) (k : A -> pr) : pr :=
  if (rank =? 0)%Z then lift m k else k other.
Fixpoint writes (fs : list file) (p : pr) : pr := match fs with [] => p | f :: r => Write f (writes r p) end.
Fixpoint make_files (fs : list (res (list file))) (p : pr) : pr :=
  match fs with [] => p | f :: r => lift f (fun l => writes l (make_files r p)) end.
Definition root_files (rank : Z) (fs : list (res (list file))) (p : pr) : pr := if (rank =? 0)%Z then make_files fs p else p.
Definition one (r : res file) : res (list file) := f <- r;; Ok [f].

(* ---- input ---- *)
(* the files found by a process: those written by the program, and those which were there *)
Definition found {A} (pick : outfile T -> option A) (before : string -> option A) (ws : list file) (fn : string) : option A :=
  match find (fun f => String.eqb (fst f) fn) (rev ws) with Some f => pick (snd f) | None => before fn end.
Variables (fsX : string -> option node) (fsS : string -> option (sdds T)) (fsH : string -> option (h5file T)).
Definition seenX (ws : list file) := found (fun _ => None) fsX ws.
Definition seenS (ws : list file) := found (fun o => match o with FSdds d => Some d | FHdf5 _ => None end) fsS ws.
Definition seenH (ws : list file) := found (fun o => match o with FHdf5 f => Some f | FSdds _ => None end) fsH ws.
(* the random numbers of the process *)
Definition seeds : Type := ((nat -> nat -> T) * (nat -> Z -> T -> Z -> T))%type.
Definition seen (ws : list file) (sd : seeds) : World T := world_of (seenS ws) (seenH ws) (fst sd) (snd sd).

(* a part of the parser *)
Definition parsed {A} (m : pm T A) (s : pst T) : res (A * pst T) := a <- snd (m s);; Ok (a, fst (m s)).
Definition parse {A} (m : pm T A) (s : pst T) (k : A -> pst T -> pr) : pr := lift (parsed m s) (fun r => k (fst r) (snd r)).
(* lines 195-298; k is given the input and the time steps of the mesh files *)
Definition node_parse (sd : seeds) (root : node) (k : pin -> (string -> res T) -> pr) : pr :=
  Read (fun ws : list file =>
  parse (p_new consts root) (PST [] [] []) (fun _ s =>
  parse (@p_lattice T NT CT (seen ws sd) root) s (fun els s =>
  pause (
  Read (fun ws : list file =>
  parse (@p_beam T NT CT (seen ws sd) root) s (fun pb s =>
  pause (
  parse (p_tracking root (pbBeam pb)) s (fun tr s =>
  pause (
  Read (fun ws : list file =>
  parse (@p_observers T NT CT (seen ws sd) root) s (fun obs _ =>
  pause (pause (pause (
  k (PIN els (fst tr) (pbLogs pb) (pbProbe pb) (ptWatch (snd tr)) (ptFel (snd tr)) obs) (mesh_dt (seenH ws)))))))))))))))).

(* ---- set-up and tracking ---- *)
(* lines 330-338: the master beam made from the broadcast buffer *)
Definition node_master (NOTS : Z) (bcast : buffer T) (bm : beam T) : res (beam T) :=
  n <- iadd NOTS 1;;
  bm <- beam_preAllocate n (beam_clearTrajectories bm);;
  bm <- driver_receive bcast bm;;
  Ok (beam_setNOTS 0 bm).
(* lines 376-422 *)
Definition node_tracked (rank tn t NOTS : Z) (lat : lattice_T T) (bm : beam T) : res nd :=
  n <- iadd NOTS 1;;
  ps <- driver_chunk rank tn n (concat (bmB bm)) 0 0;;
  tb <- outcome (beam_setup (full_field lat) (BM [ps] 0 (bmdt bm) (bmTracker bm)));;
  Ok (PN bm tb (buf_new t) lat).
(* lines 527-542: doStep, then (after a barrier) bufferStep *)
Definition node_do (n : nd) : res (beam T) := outcome (beam_step (full_field (nLat n)) (nTracked n)).
Definition node_buffer (n : nd) (tb : beam T) : res nd :=
  b <- buf_write (beam_bufferStep tb) (nTbuf n);; Ok (PN (nMaster n) tb b (nLat n)).
(* lines 532-539 *)
Definition node_gathered (step : Z) (gathered : buffer T) (n : nd) : res nd :=
  bm <- driver_receive gathered (nMaster n);;
  if (bmNOTS bm =? step + 1)%Z then Ok (PN bm (nTracked n) (nTbuf n) (nLat n)) else Throw IOexc.
(* line 581 *)
Definition node_interact (n : nd) : res nd :=
  l <- inter_step (nMaster n) (nLat n);; Ok (PN (nMaster n) (nTracked n) (nTbuf n) l).
(* lines 513-612; t: TRACKING_BUFSIZE; ls: the loggers *)
Fixpoint node_steps (rank t : Z) (ws : list (Z * wtarget)) (todo : nat) (step : Z) (n : nd) (ls : list (logger T)) (k : nd -> list (logger T) -> pr) : pr :=
  match todo with
  | O => k n ls
  | S j =>
      lift (node_do n) (fun tb =>
      barrier (
      lift (node_buffer n tb) (fun n =>
      Call (CAllgather t) (nTbuf n) (fun gathered =>
      lift (node_gathered step gathered n) (fun n =>
      barrier (
      root_do rank ls (map_res (log_one absBF (step + 1) n) ls) (fun ls =>
      root_files rank (map (fun w => one (watch_file w)) (watch_step (step + 1) n ws)) (
      lift (node_interact n) (fun n =>
      node_steps rank t ws j (step + 1) n ls k)))))))))
  end.

(* ---- observers, lines 691-791 ---- *)
(* MPI_Reduce: count is passed as int; the buffer has to be long enough *)
Definition reduce_send (count : Z) (b : buffer T) : res (buffer T) :=
  if (int_max <? count)%Z then Throw STDexc
  else if (Z.to_nat count <=? length b)%nat then Ok (firstn (Z.to_nat count) b) else UB.
Fixpoint node_observe (rank : Z) (mdt : string -> res T) (n : nd) (l : list pobs) (p : pr) : pr :=
  match l with
  | [] => p
  | (o, src, fn) :: r =>
      barrier (
      lift (s <- main_source n src;; obs_integrate s o) (fun o =>
      barrier (
      lift (z <- obs_size o;; b <- obs_getBuffer o;; Ok (u32 z, b)) (fun zb =>
      barrier (
      lift (reduce_send (fst zb) (snd zb)) (fun part =>
      Call (CReduce (fst zb)) part (fun sum =>
      barrier (
      root_files rank [o <- obs_fromBuffer sum (fst zb) o;; obs_file mdt (nMaster n) src fn o] (
      pause (
      node_observe rank mdt n r p))))))))))
  end.

(* ---- lines 304-829 ---- *)
Definition node_end : pr := barrier (Call CFinalize [] (fun _ => Done)).
Definition node_main (P rank : Z) (names : list string) (i : pin) (mdt : string -> res T) : pr :=
  lift (driver_sizes P (inBeam i)) (fun sizes =>
  let '(tn, t, m) := sizes in
  lift (buf_write (beam_bufferStep (inBeam i)) (buf_new m)) (fun mb =>
  Call (CBcast m) mb (fun bcast =>
  lift (node_master (bmNOTS (inBeam i)) bcast (inBeam i)) (fun bm =>
  pause (pause (
  lift (node_tracked rank tn t (bmNOTS (inBeam i)) (main_lattice i) bm) (fun n =>
  root_do rank [] (main_probe (inProbe i) n) (fun pl =>
  pause (
  root_files rank (map (fun w => one (watch_file w)) (watch_step 0 n (inWatch i))) (
  root_do rank [] (map_res (logger_update absBF n) (map fst (inLogs i ++ pl))) (fun ls =>
  lift (node_linit inter_init n) (fun n =>
  node_steps rank t (inWatch i) (Z.to_nat (bmNOTS (inBeam i))) 0 n ls (fun n ls =>
  pause (pause (
  root_files rank (map (fun l => one (log_file (nMaster n) l)) (combine ls (map snd (inLogs i ++ pl))) ++
                   map inter_file (combine (snd (nLat n)) names)) (
  pause (
  node_observe rank mdt n (inObs i) node_end))))))))))))))))).

(* ---- the process ---- *)
(* argv: the command line; lines 101-157 (barriers), 167-186 *)
Definition node_program (argv : list string) (P rank : Z) (sd : seeds) : pr :=
  barrier (pause (
  match argv with
  | _ :: fn :: _ =>
      Read (fun ws : list file =>
      match seenX ws fn with
      | Some doc =>
          match child doc "teufel" with
          | Some root => node_parse sd root (node_main P rank (fel_names root))
          | None => Died (FThrow IOexc)
          end
      | None => Died (FExit 1)
      end)
  | _ => Died (FExit 1)
  end)).
(* all processes; sds: the random numbers of each *)
Definition processes (argv : list string) (sds : list seeds) : list pr :=
  map (fun rs => node_program argv (Z.of_nat (length sds)) (fst rs) (snd rs)) (combine (zseq 0 (length sds)) sds).
End Hybrid.
