(* Model of the whole program, /repo/src/teufel_hybrid.cpp:60-829: from the tree of the input
   file and the files it names to the files written.
   Every process parses the input (lines 150-262, ParserModel.v) with its own random numbers;
   the tracking is that of DriverModel.v and LoggerModel.v, the fields are those of ElementModel.v
   and FelModel.v, the observation is that of ObserverModel.v, the files are those of
   SddsModel.v and OutputModel.v.
   Simplifications:
   - the result is the list of the files in the order in which they are written (a later file
     replaces an earlier one with the same name); if the program ends with an
     exception the files written until then are not described;
   - the watch files are made from the beams kept for them after the loop (a copy of the beam is
     written in line 468 and 553); the program ends with a failure in the same cases;
   - every write to a file succeeds; an exception while an observer is written is
     caught (lines 774-779) and there is no file;
   - all processes proceed in step; HybridModel.v has the processes on their own and the
     command line, C88 relates the two;
   - not modelled: the printing, the timing, the clean-up at the end (MemModel.v). *)
From Coq Require Import ZArith String List Bool.
From Verif Require Import Base Num VecModel ParticleModel TraceModel RetardModel BunchModel DriverModel LoggerModel
  ElementModel FelModel ObserverModel SddsModel PropagateModel OutputModel ParserModel.
Import ListNotations.
Local Open Scope string_scope.
Local Open Scope list_scope.
Local Open Scope res_scope.

Inductive outfile (T : Type) : Type := FSdds (d : sdds T) | FHdf5 (f : h5file T).
Arguments FSdds {T} _. Arguments FHdf5 {T} _.

Section Program.
Context {T : Type} {NT : Num T} {TT : Trans T} {CT : Calc T}.
(* absolute value of Bunch::BunchingFactor *)
Variable absBF : bunch T -> T -> T.
Variable consts : cenv T.
Notation pin := (pinput (T:=T)).
Notation nd := (pnode T (lattice_T T)).
Notation files := (list (string * outfile T)).

(* what the constructors find in the file systems of SDDS and HDF5 files *)
Definition world_of (fsS : string -> option (sdds T)) (fsH : string -> option (h5file T))
    (uni : nat -> nat -> T) (gauss : nat -> Z -> T -> Z -> T) : World T :=
  MkWorld T uni gauss (fun fn d => r <- sdds_read fsS fn d;; Ok (snd r)) (screen_source fsH)
    (fun fn => r <- mesh_open fsH fn;; Ok (fst r)).
(* the member dt of MeshedScreen, set by the constructor *)
Definition mesh_dt (fsH : string -> option (h5file T)) (fn : string) : res T := r <- mesh_open fsH fn;; Ok (snd r).

(* the names of the files of the interactions, fel1d.cpp:101-110, in the order of the nodes *)
Definition fel_names (root : node) : list string :=
  match child root "tracking" with
  | None => []
  | Some t => flat_map (fun n =>
      if String.eqb (nName n) "fel1d" then [match child n "log" with Some l => attr_text l "file" | None => "" end] else []) (nKids t)
  end.

(* ---- set-up, teufel_hybrid.cpp:239,304-498 ---- *)
(* every process has its own beam, number of steps and lattice; the buffer of process 0 is
   broadcast *)
Definition main_lattice (i : pin) : lattice_T T := (inLattice i, inFel i).
Definition main_start (P : Z) (ins : list pin) : res (list nd) :=
  match ins with
  | [] => UB
  | i0 :: _ =>
      sizes <- driver_sizes P (inBeam i0);;
      let '(_, _, m) := sizes in
      bcast <- buf_write (beam_bufferStep (inBeam i0)) (buf_new m);;
      ns <- map_res (fun ri => node_start full_field P (bmNOTS (inBeam (snd ri))) (main_lattice (snd ri)) bcast (fst ri) (inBeam (snd ri)))
              (combine (zseq 0 (length ins)) ins);;
      map_res (node_linit inter_init) ns
  end.
(* the probe logger of process 0, lines 424-434 *)
Definition main_probe (pr : probeinfo) (n0 : nd) : res (list (logger T * string)) :=
  if piReq pr then p <- prlog_new (nTracked n0) (piStep pr) (piNumber pr);; Ok [(LProbe p, piFile pr)] else Ok [].
(* until the end of the tracking, line 615: the processes, the loggers with the names of their
   files, and the beams kept for the watch files *)
Definition main_track (ins : list pin) : res (list nd * list (logger T * string) * list (wtarget * beam T)) :=
  match ins with
  | [] => UB
  | i0 :: _ =>
      ns <- main_start (Z.of_nat (length ins)) ins;;
      n0 <- first_node ns;;
      pl <- main_probe (inProbe i0) n0;;
      let ls := inLogs i0 ++ pl in
      o <- log_init absBF (inWatch i0) (map fst ls) ns;;
      s <- fold_res (logged_step absBF full_field inter_step (inWatch i0)) (zseq 0 (Z.to_nat (bmNOTS (inBeam i0)))) (ns, o);;
      Ok (fst s, combine (fst (snd s)) (map snd ls), snd (snd s))
  end.

(* ---- files written by process 0 ---- *)
(* lines 463-488 and 549-575 *)
Definition watch_file (w : wtarget * beam T) : res (string * outfile T) :=
  let '((k, fn), bm) := w in
  match k with
  | WHdf5 => r <- beam_hdf5 bm;; let '(n, m, l) := fst r in Ok (fn, FHdf5 [("electrons", H5 [n; m] (HDoubles l) [])])
  | WSdds => d <- beam_watch bm;; Ok (fn, FSdds d)
  end.
(* WriteData of the loggers, lines 655-656 *)
Definition log_file (bm : beam T) (l : logger T * string) : res (string * outfile T) :=
  match fst l with
  | LPar ib p => match beam_bunch bm ib with
                 | Some b => d <- plog_file b p;; Ok (snd l, FSdds d)
                 | None => UB
                 end
  | LTraj _ p => f <- tlog_file p;; Ok (snd l, FHdf5 f)
  | LProbe p => f <- prlog_file p;; Ok (snd l, FHdf5 f)
  end.
(* write_output of the interactions, lines 658-659 *)
Definition inter_file (f : fel T * string) : res files :=
  o <- fel_file (fst f);;
  Ok match o with Some h => [(snd f, FHdf5 h)] | None => [] end.

(* ---- observation, lines 672-792 ---- *)
(* the lattice after the interaction fields have been removed from it *)
Definition mixed_field (l : list (element T + fel T)) : field_fn T := fun t X =>
  fold_res (fun tot e => v <- match e with inl a => element_field a t X | inr f => fel_field f t X end;; Ok (eadd tot v)) l ezero.
Definition main_remove (l : lattice_T T) : res (list (element T + fel T)) :=
  let all := map inl (fst l) ++ map inr (snd l) in
  remove_loop (fun e => match e with inl _ => true | inr _ => false end) (length all) 0 all.
Definition main_source (n : nd) (k : obsource) : res (source T) :=
  l <- main_remove (nLat n);;
  Ok match k with BeamObservation => SBeam (nTracked n) | LatticeObservation => SLattice (mixed_field l) end.
(* generateOutput within try *)
Definition caught (fn : string) (r : res (outfile T)) : res files :=
  match r with Ok f => Ok [(fn, f)] | Throw _ => Ok [] | UB => UB | Loop => Loop end.
(* lines 758-780; masterBeam of process 0 for the coordinates of the particles in a snapshot *)
Definition obs_file (mdt : string -> res T) (bm : beam T) (k : obsource) (fn : string) (o : observer T) : res files :=
  match o with
  | OScreen s => caught fn (f <- screen_file s;; Ok (FHdf5 f))
  | OSnap s =>
      st <- match k with
            | BeamObservation => st <- snap_store (snt s) bm;; Ok (Some st)
            | LatticeObservation => Ok None
            end;;
      caught fn (f <- snap_file s st;; Ok (FHdf5 f))
  | OPoint s => caught fn (d <- point_file s;; Ok (FSdds d))
  | OMesh s => dt <- mdt fn;; caught fn (f <- mesh_file s dt;; Ok (FHdf5 f))
  end.
(* observer number k on all processes *)
Definition main_observe (mdt : string -> res T) (ins : list pin) (ns : list nd) (k : Z) : res files :=
  os <- map_res (fun i : pin => zget (inObs i) k) ins;;
  srcs <- map_res (fun no => main_source (fst no) (snd (fst (snd no)))) (combine ns os);;
  o <- driver_observe srcs (map (fun o => fst (fst o)) os);;
  n0 <- first_node ns;;
  match os with
  | [] => UB
  | (_, src, fn) :: _ => obs_file mdt (nMaster n0) src fn o
  end.

(* ---- the program ---- *)
Definition main_files (mdt : string -> res T) (names : list string) (ins : list pin) : res files :=
  match ins with
  | [] => UB
  | i0 :: _ =>
      '(ns, ls, ws) <- main_track ins;;
      n0 <- first_node ns;;
      wf <- map_res watch_file ws;;
      lf <- map_res (log_file (nMaster n0)) ls;;
      ff <- map_res inter_file (combine (snd (nLat n0)) names);;
      of <- map_res (main_observe mdt ins ns) (zseq 0 (length (inObs i0)));;
      Ok (wf ++ lf ++ concat ff ++ concat of)
  end.
(* worlds: one for each process *)
Definition program (worlds : list (World T)) (mdt : string -> res T) (root : node) : res files :=
  ins <- map_res (fun w => snd (@parse_input T NT TT CT w consts root)) worlds;;
  main_files mdt (fel_names root) ins.
End Program.
