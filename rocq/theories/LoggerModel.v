(* Model of the loggers (/repo/src/logger.h, /repo/src/logger.cpp) and of the way they and
   the watch points are called by the main program (/repo/src/teufel_hybrid.cpp:424-577).
   Not modelled: the SDDS and HDF5 library calls other than the values handed to them,
   file names, printing. *)
From Coq Require Import ZArith List Bool.
From Verif Require Import Base Num VecModel ParticleModel BunchModel DriverModel.
Import ListNotations.
Local Open Scope res_scope.

(* log_requested, logger.h:97,214,299: 0 == (step % stepsize).  stepsize is unsigned, so
   step is converted to unsigned; division by zero is undefined *)
Definition log_requested (stepsize step : Z) : res bool :=
  if (stepsize =? 0)%Z then UB else Ok (u32 step mod stepsize =? 0)%Z.

Section Logger.
Context {T : Type} {NT : Num T}.
(* absolute value of Bunch::BunchingFactor at a frequency *)
Variable absBF : bunch T -> T -> T.

(* ---- ParameterLogger, logger.h:72-181 ---- *)
Record plog : Type := PL {
  plNOTS : Z; plStep : Z; plFreq : option T;     (* include_bunching, bunching_freq *)
  plTime : list T; plPos : list (vec T); plBG : list (vec T); plPosRMS : list (vec T);
  plGamma : list T; plBGRMS : list (vec T); plPosBG : list (vec T); plBF : list T; plDelta : list T
}.
(* constructor, logger.cpp:38-48, followed by record_bunching, logger.cpp:50-55, if there is
   a frequency *)
Definition plog_new (step : Z) (freq : option T) : plog := PL 0 (u32 step) freq [] [] [] [] [] [] [] [] [].
(* update, logger.cpp:57-77 *)
Definition plog_update (b : bunch T) (l : plog) : plog :=
  PL (u32 (plNOTS l + 1)) (plStep l) (plFreq l)
     (plTime l ++ [bunch_avgTime b]) (plPos l ++ [bunch_avgPosition b]) (plBG l ++ [bunch_avgMomentum b])
     (plPosRMS l ++ [bunch_rmsPosition b]) (plGamma l ++ [bunch_avgGamma b])
     (plBGRMS l ++ [vzero]) (plPosBG l ++ [vzero])
     (plBF l ++ [match plFreq l with Some f => absBF b f | None => nZ 0 end])
     (plDelta l ++ [bunch_delta b]).
(* the rows of the table written by WriteData, logger.cpp:168-193: t, average position,
   average momentum, gamma, delta, r.m.s. position, bunching factor *)
Definition plog_row (l : plog) (i : Z) : res (list T) :=
  t <- zget (plTime l) i;; x <- zget (plPos l) i;; m <- zget (plBG l) i;;
  g <- zget (plGamma l) i;; d <- zget (plDelta l) i;; r <- zget (plPosRMS l) i;; f <- zget (plBF l) i;;
  Ok ([t] ++ wrv x ++ wrv m ++ [g; d] ++ wrv r ++ [f]).
Definition plog_write (l : plog) : res (list (list T)) :=
  map_res (plog_row l) (zseq 0 (Z.to_nat (plNOTS l))).

(* ---- TrajectoryLogger and ProbeLogger, logger.h:192-360 ---- *)
(* blNOD is the number of values per particle: 6 for trajectories *)
Record blog : Type := BL {
  blNOTS : Z; blStep : Z; blNOP : Z; blNOD : Z; blData : list (buffer T)
}.
(* TrajectoryLogger, logger.cpp:218-227 *)
Definition tlog_new (b : bunch T) (step number : Z) : blog :=
  BL 0 (u32 step) (Z.min (u32 (bunch_NOP b)) (u32 number)) 6 [].
(* ProbeLogger, logger.cpp:336-347, with Beam::getProbeBufferSize, beam.cpp:186-192, and
   getProbeBufferSize, particle.h:182: 16 values per particle *)
Definition probeNOD : Z := 16.
Definition prlog_new (bm : beam T) (step number : Z) : res blog :=
  n <- beam_NOP bm;;
  Ok (BL 0 (u32 step) (Z.min (u32 n) (u32 number)) probeNOD []).
(* update, logger.cpp:237-246 and 357-366: a new buffer is filled with the values *)
Definition blog_push (vals : list T) (l : blog) : res blog :=
  b <- buf_write vals (buf_new (u32 (blNOP l * blNOD l)));;
  Ok (BL (u32 (blNOTS l + 1)) (blStep l) (blNOP l) (blNOD l) (blData l ++ [b])).
Definition tlog_update (b : bunch T) (l : blog) : res blog :=
  blog_push (bunch_bufferCoordinates b (i32 (blNOP l))) l.
Definition prlog_update (bm : beam T) (l : blog) : res blog :=
  v <- beam_bufferProbe bm (blNOP l);; blog_push v l.
(* buffering of the data in WriteData, logger.cpp:267-274 and 387-394: the buffer and the
   loop bound are computed in unsigned arithmetic; each element is read from the stored
   array and stored behind the previous one.  The file gets NOTS x NOP x NOD values from
   this buffer. *)
Definition blog_copy (l : blog) : res (list T) :=
  vals <- map_res (fun i => d <- zget (blData l) i;; buf_read (Z.to_nat (u32 (blNOD l * blNOP l))) d)
                  (zseq 0 (Z.to_nat (blNOTS l)));;
  Ok (concat vals).
Definition blog_write (l : blog) : res (Z * Z * Z * list T) :=
  vals <- blog_copy l;;
  b <- buf_write vals (buf_new (u32 (blNOTS l * blNOP l * blNOD l)));;
  out <- buf_read (Z.to_nat (blNOTS l * blNOP l * blNOD l)) b;;
  Ok (blNOTS l, blNOP l, blNOD l, out).

(* ---- the list of loggers of node 0 ---- *)
(* parameter and trajectory loggers observe a bunch of masterBeam (parser.cpp:352-374,
   480-517), the probe logger observes trackedBeam (teufel_hybrid.cpp:424-434) *)
Inductive logger : Type :=
  | LPar (ib : Z) (l : plog)
  | LTraj (ib : Z) (l : blog)
  | LProbe (l : blog).
Definition logger_step (l : logger) : Z :=
  match l with LPar _ l => plStep l | LTraj _ l => blStep l | LProbe l => blStep l end.
Context {L : Type} (Fof : L -> field_fn T) (linit lstep : beam T -> L -> res L).
(* update as called for the object observed.  There is no other bunch than those of the
   beam. *)
Definition logger_update (n : pnode T L) (l : logger) : res logger :=
  match l with
  | LPar ib p => match beam_bunch (nMaster n) ib with Some b => Ok (LPar ib (plog_update b p)) | None => UB end
  | LTraj ib p => match beam_bunch (nMaster n) ib with
                  | Some b => p <- tlog_update b p;; Ok (LTraj ib p) | None => UB end
  | LProbe p => p <- prlog_update (nTracked n) p;; Ok (LProbe p)
  end.

(* watch_t, parser.h: step, filename and type.  The file (type and name) has an arbitrary
   type W *)
Context {W : Type}.
Definition watch : Type := (Z * W)%type.
(* the files written so far with the beam they were written from *)
Definition wfiles : Type := list (W * beam T).

Definition first_node (ns : list (pnode T L)) : res (pnode T L) :=
  match ns with n :: _ => Ok n | [] => UB end.
(* the watch points of a step, teufel_hybrid.cpp:463-488 and 549-575 *)
Definition watch_step (step : Z) (n : pnode T L) (ws : list watch) : wfiles :=
  map (fun w => (snd w, nMaster n)) (filter (fun w => (fst w =? step)%Z) ws).
(* before the tracking, teufel_hybrid.cpp:463-493.  The state of the beams is not changed by
   the initialization of the interaction fields, which follows in line 496. *)
Definition log_init (ws : list watch) (ls : list logger) (ns : list (pnode T L)) : res (list logger * wfiles) :=
  n <- first_node ns;;
  ls' <- map_res (logger_update n) ls;;
  Ok (ls', watch_step 0 n ws).
(* lines 541-575 in the step; the interaction fields (line 577-) again do not change the
   beams *)
Definition log_one (step : Z) (n : pnode T L) (l : logger) : res logger :=
  r <- log_requested (logger_step l) step;;
  if r then logger_update n l else Ok l.
Definition log_step (ws : list watch) (step : Z) (n : pnode T L) (s : list logger * wfiles) : res (list logger * wfiles) :=
  ls' <- map_res (log_one (step + 1) n) (fst s);;
  Ok (ls', snd s ++ watch_step (step + 1) n ws).

(* the run with loggers and watch points; ls are the loggers as constructed *)
Definition logged_step (ws : list watch) (s : list (pnode T L) * (list logger * wfiles)) (step : Z) :=
  ns <- driver_step Fof lstep (fst s) step;;
  n <- first_node ns;;
  o <- log_step ws step n (snd s);;
  Ok (ns, o).
Definition logged_run (P NOTS : Z) (lat : L) (bms : list (beam T)) (ls : list logger) (ws : list watch) (k : nat) :
    res (list (pnode T L) * (list logger * wfiles)) :=
  ns <- driver_start Fof linit P NOTS lat bms;;
  o <- log_init ws ls ns;;
  fold_res (logged_step ws) (zseq 0 k) (ns, o).
End Logger.
Arguments plog : clear implicits.
Arguments blog : clear implicits.
Arguments logger : clear implicits.
