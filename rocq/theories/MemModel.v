(* The heap objects of the program teufel_hybrid: which objects are made with
   new and new[], which are released with delete and delete[], and in which
   order, from /repo/src/teufel_hybrid.cpp:193 to 820 and the constructors,
   destructors and output functions called from there.

   Only the life of the objects is modelled here, not their content (that is
   done in the other files).  An input is reduced to its shape (record
   [run_shape]): number and type of the lattice elements, bunches, loggers,
   watch points, interactions and observers, number of steps, number of nodes
   and rank of this node.  A pointer is an address; every dereference of a
   pointer is a [muse].

   Simplifications:
   - the memory inside std::vector, std::list, std::string, the XML document
     and the libraries (MPI, HDF5, SDDS) is left out, it belongs to objects
     which release it themselves;
   - operator new does not fail;
   - no exception leaves a function, except that the file of an observer may
     not be possible to create ([false] in the shape of the observer).  The
     functions generateOutput() then throw before anything is allocated. *)
From Coq Require Import List Bool Arith.
From Verif Require Import Base.
Import ListNotations.

(* new X against new X[n] *)
Inductive form := One | Arr.

(* What an object is; not part of the C++ state, it only serves to say which
   objects remain. *)
Inductive kind :=
  KParser | KCalc | KLattice | KElement | KFel | KTrace | KBeam | KBunch
| KParticle | KDist | KLogger | KObserver | KBuffer | KSnap.

Record cell := Cell { c_addr : nat; c_form : form; c_kind : kind }.
(* the live objects and the next address never used so far *)
Record heap := Heap { h_next : nat; h_live : list cell }.

Definition form_eqb (f g : form) : bool :=
  match f, g with One, One => true | Arr, Arr => true | _, _ => false end.

Definition mem (A : Type) := heap -> res (A * heap).
Definition mret {A} (a : A) : mem A := fun h => Ok (a, h).
Definition mbind {A B} (m : mem A) (f : A -> mem B) : mem B :=
  fun h => bind (m h) (fun p => f (fst p) (snd p)).

Declare Scope mem_scope.
Delimit Scope mem_scope with mem.
Notation "x <- m ;; k" := (mbind m (fun x => k))
  (at level 61, m at next level, right associativity) : mem_scope.
Local Open Scope mem_scope.

Fixpoint miter {A} (f : A -> mem unit) (l : list A) : mem unit :=
  match l with
  | [] => mret tt
  | x :: r => _ <- f x;; miter f r
  end.
Fixpoint mmap {A B} (f : A -> mem B) (l : list A) : mem (list B) :=
  match l with
  | [] => mret []
  | x :: r => y <- f x;; ys <- mmap f r;; mret (y :: ys)
  end.
Fixpoint mrep {A} (n : nat) (m : mem A) : mem (list A) :=
  match n with
  | O => mret []
  | S k => y <- m;; ys <- mrep k m;; mret (y :: ys)
  end.

Section Program.
(* With [strict] the form of delete has to be the form of new, as the language
   demands (an object made with new[] released with delete is undefined
   behaviour).  Without [strict] both forms of delete release any object, as
   the allocators in use do for arrays of numbers. *)
Variable strict : bool.

(* new and new[] *)
Definition mnew (f : form) (k : kind) : mem nat :=
  fun h => Ok (h_next h, Heap (S (h_next h)) (Cell (h_next h) f k :: h_live h)).
(* access to an object: undefined behaviour if it does not live *)
Definition muse (a : nat) : mem unit :=
  fun h => if existsb (fun c => c_addr c =? a) (h_live h) then Ok (tt, h) else UB.
(* delete and delete[]: undefined behaviour if the object does not live *)
Definition mdel (f : form) (a : nat) : mem unit :=
  fun h => match find (fun c => c_addr c =? a) (h_live h) with
           | None => UB
           | Some c => if strict && negb (form_eqb f (c_form c)) then UB
                       else Ok (tt, Heap (h_next h) (filter (fun c => negb (c_addr c =? a)) (h_live h)))
           end.
Definition mwhen (b : bool) (m : mem unit) : mem unit := if b then m else mret tt.
(* double *buffer = new double[n]; ... release, with the form given *)
Definition mscratch (f : form) : mem unit := b <- mnew Arr KBuffer;; _ <- muse b;; mdel f b.

(* ----- objects as trees of addresses ----- *)

(* bunch.h: the particles P of a bunch *)
Record m_bunch := MBunch { mb_a : nat; mb_ps : list nat }.
(* beam.h: the bunches B of a beam *)
Record m_beam := MBeam { me_a : nat; me_bs : list m_bunch }.
Inductive log_kind := LParam | LTraj | LProbe.
(* logger.h: object observed (all addresses reached from it), buffers kept
   (data), steps for which log_requested() holds *)
Record m_logger := MLogger {
  ml_a : nat; ml_kind : log_kind; ml_refs : list nat; ml_data : list nat; ml_req : nat -> bool }.
(* lattice elements; source screens own two traces for every cell *)
Inductive m_elem := MElem (a : nat) | MSource (a : nat) (tr : list (nat * nat)) | MFel (a : nat).
Inductive obs_kind := OScreen (ok : bool) | OSnap (ok : bool) | OMesh (ok : bool) | OPoint (ok : bool).
(* observers: type, beam or lattice as the source, field traces owned,
   particleBuffer and particlesStored of a snapshot *)
Record m_obs := MObs {
  mo_a : nat; mo_kind : obs_kind; mo_lattice : bool; mo_traces : list nat;
  mo_buf : option nat; mo_stored : nat }.

Definition bunch_refs (b : m_bunch) : list nat := mb_a b :: mb_ps b.
Definition beam_refs (b : m_beam) : list nat := me_a b :: flat_map bunch_refs (me_bs b).
Definition elem_refs (e : m_elem) : list nat :=
  match e with
  | MElem a => [a]
  | MSource a tr => a :: flat_map (fun p => [fst p; snd p]) tr
  | MFel a => [a]
  end.
Definition muses (l : list nat) : mem unit := miter muse l.
Definition beam_nop (b : m_beam) : nat := length (flat_map mb_ps (me_bs b)).

(* ----- the input ----- *)

Inductive elem_shape := SElem | SSource (nx ny : nat).
Inductive bunch_shape :=
| SParticle (log : option (nat -> bool))
| SBunch (n : nat) (log traj : option (nat -> bool))
| SSdds (n : nat) (log : option (nat -> bool)).
(* the boolean [lat] says lattice instead of beam, [ok] that the file can be
   created; [time] and [field] which datasets the mesh file contains *)
Inductive obs_shape :=
| SScreen (ok lat : bool) (nx ny : nat)
| SSnap (ok lat : bool)
| SMesh (ok lat : bool) (np : nat) (time field : bool)
| SPoint (ok lat : bool).
(* step and true for hdf5 *)
Record watch_shape := SWatch { sw_step : nat; sw_hdf5 : bool }.
Record run_shape := RunShape {
  rs_elems : list elem_shape;
  rs_beam : list bunch_shape;
  rs_probe : option (nat -> bool);
  rs_watches : list watch_shape;
  rs_fels : list bool;             (* createOutput of the interactions *)
  rs_obs : list obs_shape;
  rs_nots : nat;
  rs_nodes : nat;
  rs_rank : nat }.

(* ----- constructors ----- *)

(* SourceScreen::WriteField(), source_screen.cpp:289-484: s_buffer and buffer
   are released with delete *)
Definition write_source_field (a : nat) (tr : list nat) : mem unit :=
  _ <- muse a;;
  _ <- mscratch One;;
  b <- mnew Arr KBuffer;;
  _ <- muses tr;;
  mdel One b.

(* SourceScreen::SourceScreen(), source_screen.cpp:32-222: buf (99,126),
   field_buf (145,195, released with delete), the traces (181), the derivatives
   (208) and the two debug files (219,220) *)
Definition new_source (nx ny : nat) : mem m_elem :=
  a <- mnew One KElement;;
  _ <- mscratch Arr;;
  fb <- mnew Arr KBuffer;;
  tr <- mrep (nx * ny) (t <- mnew One KTrace;; _ <- muse fb;; _ <- muse t;; mret t);;
  _ <- mdel One fb;;
  dtr <- mmap (fun t => _ <- muse t;; d <- mnew One KTrace;; mret (t, d)) tr;;
  _ <- write_source_field a (map fst dtr);;
  _ <- write_source_field a (map snd dtr);;
  mret (MSource a dtr).

(* parser.cpp:166-298 *)
Definition new_elem (s : elem_shape) : mem m_elem :=
  match s with
  | SElem => a <- mnew One KElement;; mret (MElem a)
  | SSource nx ny => new_source nx ny
  end.

(* ParameterLogger<Bunch>, logger.cpp:37-52; TrajectoryLogger<Bunch>, 217-226;
   ProbeLogger<Beam>, 337-347 *)
Definition new_logger (k : log_kind) (refs : list nat) (req : nat -> bool) : mem m_logger :=
  a <- mnew One KLogger;;
  _ <- muses refs;;
  mret (MLogger a k refs [] req).
Definition opt_logger (k : log_kind) (refs : list nat) (o : option (nat -> bool)) : mem (list m_logger) :=
  match o with
  | None => mret []
  | Some req => l <- new_logger k refs req;; mret [l]
  end.

(* parser.cpp:345-364 (particle), 428-517 (bunch; Distribution with its array A,
   bunch.cpp:34-51), 537-596 (SDDS) *)
Definition new_bunch (s : bunch_shape) : mem (m_bunch * list m_logger) :=
  match s with
  | SParticle log =>
      p <- mnew One KParticle;;
      _ <- muse p;;
      b <- mnew One KBunch;;
      lg <- opt_logger LParam [b; p] log;;
      mret (MBunch b [p], lg)
  | SBunch n log traj =>
      d <- mnew One KDist;;
      da <- mnew Arr KBuffer;;
      b <- mnew One KBunch;;
      ps <- mrep n (p <- mnew One KParticle;; _ <- muses [d; da; p];; mret p);;
      lg <- opt_logger LParam (b :: ps) log;;
      tr <- opt_logger LTraj (b :: ps) traj;;
      _ <- mdel Arr da;;
      _ <- mdel One d;;
      mret (MBunch b ps, lg ++ tr)
  | SSdds n log =>
      b <- mnew One KBunch;;
      ps <- mrep n (mnew One KParticle);;
      lg <- opt_logger LParam (b :: ps) log;;
      mret (MBunch b ps, lg)
  end.

(* MeshedScreen::MeshedScreen(), mesh.cpp:27-218: pos (50,64), pos (76,90), buf
   (95,116), t0_buf (152,176), field (190,209), all released with delete, and
   the traces (131,172).
   ScreenObserver, screen.cpp:33-88; SnapshotObserver, snapshot.cpp:36-63;
   PointObserver, point_observer.cpp:28-50. *)
Definition new_obs (s : obs_shape) : mem m_obs :=
  match s with
  | SScreen ok lat nx ny =>
      a <- mnew One KObserver;;
      tr <- mrep (nx * ny) (mnew One KTrace);;
      mret (MObs a (OScreen ok) lat tr None 0)
  | SSnap ok lat =>
      a <- mnew One KObserver;;
      mret (MObs a (OSnap ok) lat [] None 0)
  | SMesh ok lat np time field =>
      a <- mnew One KObserver;;
      _ <- mscratch One;;
      _ <- mscratch One;;
      _ <- mscratch One;;
      tr <- (if time
             then t0 <- mnew Arr KBuffer;;
                  tr <- mrep np (t <- mnew One KTrace;; _ <- muse t0;; mret t);;
                  _ <- mdel One t0;;
                  mret tr
             else mrep np (mnew One KTrace));;
      _ <- mwhen field (f <- mnew Arr KBuffer;; _ <- muses tr;; mdel One f);;
      mret (MObs a (OMesh ok) lat tr None 0)
  | SPoint ok lat =>
      a <- mnew One KObserver;;
      t <- mnew One KTrace;;
      mret (MObs a (OPoint ok) lat [t] None 0)
  end.

(* ----- destructors ----- *)

(* Bunch::~Bunch(), bunch.cpp:351-355 *)
Definition del_bunch (b : m_bunch) : mem unit :=
  _ <- muse (mb_a b);; _ <- miter (mdel One) (mb_ps b);; mdel One (mb_a b).
(* Beam::~Beam(), beam.cpp:39-43 *)
Definition del_beam (b : m_beam) : mem unit :=
  _ <- muse (me_a b);; _ <- miter del_bunch (me_bs b);; mdel One (me_a b).
(* the destructors of logger.h:46, logger.cpp:229-235 and 349-355 *)
Definition del_logger (l : m_logger) : mem unit :=
  _ <- muse (ml_a l);; _ <- miter (mdel Arr) (ml_data l);; mdel One (ml_a l).
(* SourceScreen::~SourceScreen(), source_screen.cpp:228-237, fields.h:164 *)
Definition del_elem (e : m_elem) : mem unit :=
  match e with
  | MElem a => _ <- muse a;; mdel One a
  | MSource a tr =>
      _ <- muse a;;
      _ <- miter (fun p => _ <- mdel One (fst p);; mdel One (snd p)) tr;;
      mdel One a
  | MFel a => _ <- muse a;; mdel One a
  end.
(* Lattice::~Lattice(), fields.cpp:198-206, from the last element on *)
Definition del_lattice (a : nat) (l : list m_elem) : mem unit :=
  _ <- muse a;; _ <- miter del_elem (rev l);; mdel One a.
(* the destructors of the observers: screen.cpp:91-96, mesh.cpp:221-224,
   point_observer.cpp:57-60; SnapshotObserver, snapshot.cpp:66-69, releases
   particleBuffer with delete, and only if particles have been stored *)
Definition del_obs (o : m_obs) : mem unit :=
  _ <- muse (mo_a o);;
  _ <- miter (mdel One) (mo_traces o);;
  _ <- match mo_buf o with
       | Some b => mwhen (0 <? mo_stored o) (mdel One b)
       | None => mret tt
       end;;
  mdel One (mo_a o).

(* ----- what happens during the run ----- *)

(* ParameterLogger::update(), logger.cpp:57-77; TrajectoryLogger::update(),
   238-246; ProbeLogger::update(), 358-366 *)
Definition log_update (l : m_logger) : mem m_logger :=
  _ <- muse (ml_a l);;
  match ml_kind l with
  | LParam => _ <- muses (ml_refs l);; mret l
  | LTraj | LProbe =>
      b <- mnew Arr KBuffer;;
      _ <- muses (ml_refs l);;
      mret (MLogger (ml_a l) (ml_kind l) (ml_refs l) (ml_data l ++ [b]) (ml_req l))
  end.
(* WriteData(), logger.cpp:80-211, 249-327, 369-456 *)
Definition log_write (l : m_logger) : mem unit :=
  _ <- muse (ml_a l);;
  match ml_kind l with
  | LParam => mret tt
  | LTraj | LProbe =>
      b <- mnew Arr KBuffer;; _ <- muses (ml_data l);; mdel Arr b
  end.
(* teufel_hybrid.cpp:465-491 and 551-577; Beam::WriteWatchPointHDF5() makes and
   releases a buffer (beam.cpp:226,314), WriteWatchPointSDDS() does not *)
Definition watch_at (mb : m_beam) (step : nat) (w : watch_shape) : mem unit :=
  mwhen (sw_step w =? step)
    (_ <- mwhen (sw_hdf5 w) (mscratch Arr);; muses (beam_refs mb)).

(* the copies of the particles of this node, teufel_hybrid.cpp:379-409.
   [node] and [cnt] are current_node and current_node_particles. *)
Fixpoint distribute (rank chunk node cnt : nat) (ps : list nat) : mem (list nat) :=
  match ps with
  | [] => mret []
  | p :: r =>
      _ <- muse p;;
      q <- (if rank =? node then a <- mnew One KParticle;; mret [a] else mret []);;
      qs <- (if S cnt =? chunk then distribute rank chunk (S node) 0 r
             else distribute rank chunk node (S cnt) r);;
      mret (q ++ qs)
  end.

(* one pass of the loop of teufel_hybrid.cpp:512-609: doStep uses the particles
   and the lattice, the buffers are exchanged, the loggers and watch points of
   rank 0 and the interactions follow *)
Definition one_step (rank : nat) (lat : nat) (els : list m_elem) (mb tb : m_beam)
  (mbuf tbuf : nat) (fels : list nat) (ws : list watch_shape)
  (step : nat) (logs : list m_logger) : mem (list m_logger) :=
  _ <- muses (beam_refs tb);;
  _ <- muse lat;;
  _ <- muses (flat_map elem_refs els);;
  _ <- muses [tbuf; mbuf];;
  _ <- muses (beam_refs mb);;
  logs' <- (if rank =? 0
            then mmap (fun l => if ml_req l (S step) then log_update l else mret l) logs
            else mret logs);;
  _ <- mwhen (rank =? 0) (miter (watch_at mb (S step)) ws);;
  _ <- miter (fun f => _ <- muse f;; muses (beam_refs mb)) fels;;
  mret logs'.
Fixpoint steps (rank : nat) (lat : nat) (els : list m_elem) (mb tb : m_beam)
  (mbuf tbuf : nat) (fels : list nat) (ws : list watch_shape)
  (n step : nat) (logs : list m_logger) : mem (list m_logger) :=
  match n with
  | O => mret logs
  | S k =>
      logs' <- one_step rank lat els mb tb mbuf tbuf fels ws step logs;;
      steps rank lat els mb tb mbuf tbuf fels ws k (S step) logs'
  end.

(* the removal of the interactions from the lattice, teufel_hybrid.cpp:680-692:
   at() and is_external() use the element, Lattice::remove() (fields.cpp:222-227)
   erases the pointer from the list and does not release the object *)
Fixpoint remove_fels (els : list m_elem) : mem (list m_elem) :=
  match els with
  | [] => mret []
  | e :: r =>
      match e with
      | MFel a => _ <- muse a;; remove_fels r
      | MElem a | MSource a _ =>
          _ <- muse a;; r' <- remove_fels r;; mret (e :: r')
      end
  end.

(* generateOutput(): screen.cpp:298-558 (pbuffer with delete[], s_buffer and
   buffer with delete), snapshot.cpp:226-396 (delete[]), mesh.cpp:428-736 (five
   buffers with delete), point_observer.cpp:120-186 (no buffer) *)
Definition obs_output (o : m_obs) : mem unit :=
  _ <- muse (mo_a o);;
  match mo_kind o with
  | OScreen ok =>
      mwhen ok (_ <- mscratch Arr;; _ <- mscratch One;;
                b <- mnew Arr KBuffer;; _ <- muses (mo_traces o);; mdel One b)
  | OSnap ok =>
      mwhen ok (_ <- mscratch Arr;; _ <- mscratch Arr;;
                match mo_buf o with Some b => mwhen (0 <? mo_stored o) (muse b) | None => mret tt end)
  | OMesh ok =>
      mwhen ok (_ <- mscratch One;; _ <- mscratch One;; _ <- mscratch One;;
                t <- mnew Arr KBuffer;; _ <- muses (mo_traces o);; _ <- mdel One t;;
                b <- mnew Arr KBuffer;; _ <- muses (mo_traces o);; mdel One b)
  | OPoint ok => mwhen ok (muses (mo_traces o))
  end.

(* SnapshotObserver<Beam>::storeParticlePositions(), snapshot.cpp:114-149, with
   the master beam as the source; other observers are left alone
   (teufel_hybrid.cpp:766-772) *)
Definition store_positions (mb : m_beam) (o : m_obs) : mem m_obs :=
  match mo_kind o with
  | OSnap _ =>
      if mo_lattice o then mret o
      else b <- mnew Arr KSnap;;
           _ <- muses (beam_refs mb);;
           mret (MObs (mo_a o) (mo_kind o) (mo_lattice o) (mo_traces o) (Some b) (beam_nop mb))
  | _ => mret o
  end.

(* one observer, teufel_hybrid.cpp:695-790 *)
Definition observe (rank lat : nat) (els : list m_elem) (mb tb : m_beam) (o : m_obs) : mem m_obs :=
  _ <- muse (mo_a o);;
  _ <- muses (mo_traces o);;
  _ <- (if mo_lattice o then _ <- muse lat;; muses (flat_map elem_refs els)
        else muses (beam_refs tb));;
  nb <- mnew Arr KBuffer;;
  rb <- mnew Arr KBuffer;;
  _ <- muses [nb; rb];;
  o' <- (if rank =? 0
         then _ <- muse rb;;
              o' <- store_positions mb o;;
              _ <- obs_output o';;
              mret o'
         else mret o);;
  _ <- mdel Arr rb;;
  _ <- mdel Arr nb;;
  mret o'.

(* ----- the whole program, teufel_hybrid.cpp:193-820 ----- *)
Definition program (r : run_shape) : mem unit :=
  let rank := rs_rank r in
  (* 193: InputParser with its calculator, parser.cpp:39-59 *)
  parse <- mnew One KParser;;
  calc <- mnew One KCalc;;
  (* 197,198 *)
  lat <- mnew One KLattice;;
  els0 <- mmap new_elem (rs_elems r);;
  (* 217-220 *)
  mba <- mnew One KBeam;;
  bl <- mmap new_bunch (rs_beam r);;
  let mb := MBeam mba (map fst bl) in
  let logs0 := flat_map snd bl in
  (* 234-239 *)
  fels <- mmap (fun _ => mnew One KFel) (rs_fels r);;
  let els := els0 ++ map MFel fels in
  (* 249,250 *)
  obs <- mmap new_obs (rs_obs r);;
  (* 274 *)
  _ <- muse parse;;
  _ <- mdel One calc;;
  _ <- mdel One parse;;
  (* 320-338 *)
  mbuf <- mnew Arr KBuffer;;
  tbuf <- mnew Arr KBuffer;;
  _ <- muses (mbuf :: beam_refs mb);;
  (* 379-409 *)
  tbu <- mnew One KBunch;;
  tps <- distribute rank ((beam_nop mb + rs_nodes r - 1) / rs_nodes r) 0 0 (flat_map mb_ps (me_bs mb));;
  (* 416-422 *)
  tba <- mnew One KBeam;;
  let tb := MBeam tba [MBunch tbu tps] in
  _ <- muses (beam_refs tb ++ lat :: flat_map elem_refs els);;
  (* 425-434 *)
  pl <- (if rank =? 0 then opt_logger LProbe (beam_refs tb) (rs_probe r) else mret []);;
  let logs1 := logs0 ++ pl in
  (* 465-499 *)
  _ <- mwhen (rank =? 0) (miter (watch_at mb 0) (rs_watches r));;
  logs2 <- (if rank =? 0 then mmap log_update logs1 else mret logs1);;
  _ <- miter (fun f => _ <- muse f;; muses (beam_refs mb)) fels;;
  (* 512-609 *)
  logs <- steps rank lat els mb tb mbuf tbuf fels (rs_watches r) (rs_nots r) 0 logs2;;
  (* 658-665; FEL_1D::write_output(), fel1d.cpp:359-500 *)
  _ <- mwhen (rank =? 0)
         (_ <- miter log_write logs;;
          miter (fun p => _ <- muse (fst p);; mwhen (snd p) (mscratch Arr)) (combine fels (rs_fels r)));;
  (* 680-692 *)
  els' <- remove_fels els;;
  (* 695-790 *)
  obs' <- mmap (observe rank lat els' mb tb) obs;;
  (* 797-820 *)
  _ <- miter del_obs obs';;
  _ <- miter del_logger logs;;
  _ <- del_lattice lat els';;
  _ <- del_beam mb;;
  _ <- del_beam tb;;
  _ <- mdel Arr mbuf;;
  mdel Arr tbuf.

Definition run (r : run_shape) : res (unit * heap) := program r (Heap 0 []).
End Program.
