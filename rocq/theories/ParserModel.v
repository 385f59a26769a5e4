(* Model of the input parser, /repo/src/parser.h and parser.cpp, of the constructors which
   read their own XML node (undulator.cpp:39-64,140-169, dipole.cpp:47-105,147-214,
   wave.cpp:39-65,118-147, fel1d.cpp:50-136) and of the order in which the program calls
   them (teufel_hybrid.cpp:188-262).

   Simplifications:
   - the XML document is given as a tree; reading the text of the file is the work of the
     pugixml library.  A node which is not an element (text) has the empty name, as in pugixml;
   - the calculator (library muParser) is given by the functions of class Calc: the
     value of an expression for given constants (None: mu::Parser::exception_type is
     thrown) and the names which DefineConst accepts.  A constant which is defined again
     gets the new value, as in muParser;
   - the conversion of attribute texts to int (pugixml, as_int) is a function of the text;
   - the files read by the constructors and the random numbers are given by class World;
   - messages on the console are not modelled except for the values of print statements. *)
From Coq Require Import ZArith String List Bool.
From Verif Require Import Base Num VecModel ParticleModel TraceModel BunchModel DriverModel LoggerModel
  ElementModel FelModel ObserverModel.
Import ListNotations.
Local Open Scope num_scope.

(* ---- the XML tree ---- *)
Inductive node : Type := Node (name : string) (attrs : list (string * string)) (kids : list node).
Definition nName (n : node) : string := match n with Node a _ _ => a end.
Definition nAttrs (n : node) : list (string * string) := match n with Node _ a _ => a end.
Definition nKids (n : node) : list node := match n with Node _ _ k => k end.
(* xml_node::attribute(name): the first one with the name *)
Definition attr (n : node) (k : string) : option string :=
  match find (fun a => String.eqb (fst a) k) (nAttrs n) with Some a => Some (snd a) | None => None end.
(* .value(): the empty text if there is no such attribute *)
Definition attr_text (n : node) (k : string) : string := match attr n k with Some v => v | None => EmptyString end.
(* xml_node::child(name): the first one with the name *)
Definition child (n : node) (k : string) : option node := find (fun m => String.eqb (nName m) k) (nKids n).

Definition cenv (T : Type) : Type := list (string * T).
Class Calc (T : Type) : Type := MkCalc {
  cEval : cenv T -> string -> option T;      (* SetExpr, Eval *)
  cName : string -> bool;                    (* names accepted by DefineConst *)
  cInt : string -> Z                         (* xml_attribute::as_int of an existing attribute *)
}.
(* what the constructors find outside of the XML tree *)
Class World (T : Type) : Type := MkWorld {
  wUniform : nat -> nat -> T;                (* Distribution(dim,nop): values for the i-th beam entry *)
  wGauss : nat -> Z -> T -> Z -> T;          (* generateGaussian(dim,sigma) for the i-th beam entry *)
  wSDDS : string -> vec T -> res (bunch T);  (* Bunch(filename,dir), bunch.cpp:189-349 *)
  wScreen : string -> vec T -> T -> res (element T);  (* SourceScreen(filename,position,t0) *)
  wMesh : string -> res (mesh T)             (* MeshedScreen(filename) *)
}.

(* state of the parser: the constants of the calculator and, as a ghost, the list of the
   variable definitions executed so far with the value defined (None: an error message was
   printed instead), and the values printed *)
Record pst (T : Type) : Type := PST { psEnv : cenv T; psLog : list (node * option T); psOut : list (node * option T) }.
Arguments PST {T} _ _ _. Arguments psEnv {T} _. Arguments psLog {T} _. Arguments psOut {T} _.

(* a piece of the parser; the state is kept when an exception is thrown *)
Definition pm (T A : Type) : Type := pst T -> pst T * res A.
Definition pret {T A} (a : A) : pm T A := fun s => (s, Ok a).
Definition plift {T A} (r : res A) : pm T A := fun s => (s, r).
Definition pthrow {T A} : pm T A := plift (Throw IOexc).
Definition pbind {T A B} (m : pm T A) (f : A -> pm T B) : pm T B := fun s =>
  match m s with
  | (s', Ok a) => f a s'
  | (s', Throw e) => (s', Throw e)
  | (s', UB) => (s', UB)
  | (s', Loop) => (s', Loop)
  end.
Declare Scope pm_scope.
Delimit Scope pm_scope with pm.
Notation "x <- m ;; k" := (pbind m (fun x => k))
  (at level 61, m at next level, right associativity) : pm_scope.
Local Open Scope pm_scope.
Fixpoint pfold {T S} (f : S -> node -> pm T S) (l : list node) (a : S) : pm T S :=
  match l with
  | [] => pret a
  | n :: r => a' <- f a n;; pfold f r a'
  end.
(* a node which has to be there *)
Definition pneed {T A} (o : option A) : pm T A := match o with Some a => pret a | None => pthrow end.
(* something which is evaluated only if there is the node or attribute *)
Definition popt {T A B} (o : option A) (dflt : B) (f : A -> pm T B) : pm T B :=
  match o with Some a => f a | None => pret dflt end.

(* ProbeInfo, parser.h *)
Record probeinfo : Type := PI { piReq : bool; piFile : string; piStep : Z; piNumber : Z }.
(* watch_t, parser.h: kind of file and name *)
Inductive wkind : Type := WHdf5 | WSdds.
Definition wtarget : Type := (wkind * string)%type.
(* enum of the source of an observer, observer.h *)
Inductive obsource : Type := BeamObservation | LatticeObservation.

Section Parser.
Context {T : Type} {NT : Num T} {TT : Trans T} {CT : Calc T} {WT : World T}.

(* DefineConst for an accepted name *)
Definition define (v : string) (x : T) (e : cenv T) : cenv T := (v, x) :: e.

(* parseCalc, parser.cpp:61-101; print statements (values on rank 0) and definitions *)
Definition p_print (n : node) (s : pst T) : pst T :=
  match attr_text n "print" with
  | EmptyString => s
  | _ => PST (psEnv s) (psLog s) (psOut s ++ [(n, cEval (psEnv s) (attr_text n "eq"))])
  end.
Definition p_define (n : node) (s : pst T) : pst T :=
  match attr_text n "var" with
  | EmptyString => s
  | v =>
      match cEval (psEnv s) (attr_text n "eq") with
      | Some x => if cName v then PST (define v x (psEnv s)) (psLog s ++ [(n, Some x)]) (psOut s)
                  else PST (psEnv s) (psLog s ++ [(n, None)]) (psOut s)
      | None => PST (psEnv s) (psLog s ++ [(n, None)]) (psOut s)
      end
  end.
Definition p_calc (n : node) : pm T unit := fun s => (p_define n (p_print n s), Ok tt).
(* parseCalcChildren, parser.cpp:103-111 *)
Definition is_calc (n : node) : bool := String.eqb (nName n) "calc".
Definition p_calcs (n : node) : pm T unit :=
  pfold (fun _ m => if is_calc m then p_calc m else pret tt) (nKids n) tt.

(* parseDouble, parser.cpp:113-128 *)
Definition p_text (t : string) : pm T T := fun s =>
  (s, Ok (match cEval (psEnv s) t with Some x => x | None => nZ 0 end)).
Definition p_double (n : node) (k : string) : pm T T := p_text (attr_text n k).
(* parseInt, parser.cpp:131-147 *)
Definition p_int (t : string) : pm T Z := fun s =>
  (s, match cEval (psEnv s) t with Some x => to_int (nrint x) | None => Ok 0%Z end).
(* int(parseDouble(..)): truncation *)
Definition n_trunc (x : T) : option Z :=
  if x <? nZ 0 then match nfloor (- x) with Some z => Some (- z)%Z | None => None end else nfloor x.
(* attribute(name).as_int(default) *)
Definition a_int (n : node) (k : string) (dflt : Z) : Z := match attr n k with Some t => cInt t | None => dflt end.
(* the attributes x, y, z *)
Definition p_vec (n : node) : pm T (vec T) :=
  x <- p_double n "x";; y <- p_double n "y";; z <- p_double n "z";; pret (V x y z).
(* node.child(k), which must exist, and its vector *)
Definition p_child_vec (n : node) (k : string) : pm T (vec T) := c <- pneed (child n k);; p_vec c.

(* ---- lattice ---- *)
(* PlanarUndulator, undulator.cpp:39-64 *)
Definition p_planar (n : node) : pm T (element T) :=
  _ <- p_calcs n;;
  pos <- p_child_vec n "position";;
  f <- pneed (child n "field");;
  B <- p_double f "B";; period <- p_double f "period";;
  pret (Localized (nZ 0) pos (LPlanar (PU B period (a_int f "N" 0)))).
(* TransverseGradientUndulator, undulator.cpp:140-169 *)
Definition p_tgu (n : node) : pm T (element T) :=
  _ <- p_calcs n;;
  pos <- p_child_vec n "position";;
  f <- pneed (child n "field");;
  B <- p_double f "B";; kx <- p_double f "kx";;
  m <- popt (attr f "modulation") (nZ 0) p_text;;
  period <- p_double f "period";;
  pret (Localized (nZ 0) pos (LTgu (TG B kx m period (a_int f "N" 0)))).
(* HardEdgeDipole, dipole.cpp:47-105 *)
Definition p_hard (n : node) : pm T (element T) :=
  _ <- p_calcs n;;
  B <- p_child_vec n "B";; p1 <- p_child_vec n "p1";; n1 <- p_child_vec n "n1";;
  p2 <- p_child_vec n "p2";; n2 <- p_child_vec n "n2";;
  pret (Localized (nZ 0) vzero (LHard (HD B p1 n1 p2 n2))).
(* SoftEdgeDipole, dipole.cpp:147-214 *)
Definition p_soft (n : node) : pm T (element T) :=
  _ <- p_calcs n;;
  B <- p_child_vec n "B";; p1 <- p_child_vec n "p1";; n1 <- p_child_vec n "n1";;
  p2 <- p_child_vec n "p2";; n2 <- p_child_vec n "n2";;
  t <- pneed (child n "transition");;
  t1 <- p_double t "l1";; t2 <- p_double t "l2";;
  pret (Localized (nZ 0) vzero (LSoft (SD B p1 n1 t1 p2 n2 t2))).
(* GaussianWave, wave.cpp:39-65 *)
Definition p_wave (n : node) : pm T (element T) :=
  pos <- p_child_vec n "position";;
  f <- pneed (child n "field");;
  Ar <- p_double f "ReA";; Ai <- p_double f "ImA";; l <- p_double f "lambda";; r <- p_double f "rayleigh";;
  pret (Localized (nZ 0) pos (LWave (GW l Ar Ai r))).
(* GaussianWavePacket, wave.cpp:118-147 *)
Definition p_packet (n : node) : pm T (element T) :=
  c <- pneed (child n "position");;
  pos <- p_vec c;; t0 <- p_double c "t";;
  f <- pneed (child n "field");;
  Ar <- p_double f "ReA";; Ai <- p_double f "ImA";; l <- p_double f "lambda";; r <- p_double f "rayleigh";;
  tau <- p_double f "tau";;
  pret (Localized t0 pos (LPacket (GW l Ar Ai r) tau)).

(* one child of the lattice node, parser.cpp:160-291; None: no element *)
Definition p_element (n : node) : pm T (option (element T)) :=
  let typ := attr_text n "type" in
  if is_calc n then _ <- p_calc n;; pret None
  else if String.eqb (nName n) "undulator" then
    _ <- p_calcs n;;
    if String.eqb typ "planar" then e <- p_planar n;; pret (Some e)
    else if String.eqb typ "transverse gradient" then e <- p_tgu n;; pret (Some e)
    else pthrow
  else if String.eqb (nName n) "wave" then
    _ <- p_calcs n;;
    if String.eqb typ "gaussian" then e <- p_wave n;; pret (Some e)
    else if String.eqb typ "packet" then e <- p_packet n;; pret (Some e)
    else pthrow
  else if String.eqb (nName n) "screen" then
    _ <- p_calcs n;;
    fn <- pneed (attr n "file");;
    c <- pneed (child n "position");;
    pos <- p_vec c;; t0 <- p_double c "t";;
    e <- plift (wScreen fn pos t0);; pret (Some e)
  else if String.eqb (nName n) "dipole" then
    _ <- p_calcs n;;
    if String.eqb typ "hard edge" then e <- p_hard n;; pret (Some e)
    else if String.eqb typ "soft edge" then e <- p_soft n;; pret (Some e)
    else pthrow
  else if String.eqb (nName n) "background" then
    _ <- p_calcs n;;
    E <- popt (child n "E") vzero p_vec;;
    B <- popt (child n "B") vzero p_vec;;
    pret (Some (Homogeneous (EB E B)))
  else pthrow.
(* parseLattice, parser.cpp:149-293.  The returned count of elements is only printed *)
Definition p_lattice (root : node) : pm T (list (element T)) :=
  l <- pneed (child root "lattice");;
  pfold (fun els n => o <- p_element n;;
                      pret (match o with Some e => lat_add els e | None => els end)) (nKids l) [].

(* ---- beam ---- *)
(* what parseBeam adds to: the beam, the loggers with their file names, the probe request *)
Record pbeam : Type := PB { pbBeam : beam T; pbLogs : list (logger T * string); pbProbe : probeinfo }.

(* the log node of a beam entry, parser.cpp:350-361, 481-500, 574-590; ib is the bunch *)
Definition p_log (n : node) (ib : Z) (bunching : bool) : pm T (list (logger T * string)) :=
  popt (child n "log") [] (fun l =>
    fn <- pneed (attr l "file");;
    let step := a_int l "step" 1 in
    freq <- (if bunching then popt (attr l "bunching-freq") None (fun t => f <- p_text t;; pret (Some f))
             else pret None);;
    pret [(LPar ib (plog_new step freq), fn)]).
(* the correlations node; the children must all be linear, parser.cpp:442-478, 540-575 *)
Definition p_correlations {S} (n : node) (f : Z -> Z -> T -> S -> res S) (a : S) : pm T S :=
  popt (child n "correlations") a (fun c =>
    _ <- p_calcs c;;
    pfold (fun a m =>
      if String.eqb (nName m) "linear" then
        i <- pneed (attr m "indep");; i <- p_text i;; ind <- plift (to_int (n_trunc i));;
        d <- pneed (attr m "dep");; d <- p_text d;; dep <- plift (to_int (n_trunc d));;
        f' <- pneed (attr m "factor");; fac <- p_text f';;
        plift (f ind dep fac a)
      else pthrow) (nKids c) a).

(* sqrt(gamma*gamma-1) *)
Definition betagamma (g : T) : T := nsqrt (g * g - nZ 1).

(* <particle>, parser.cpp:313-365 *)
Definition p_particle (n : node) (b : pbeam) : pm T pbeam :=
  gamma <- p_double n "gamma";;
  q <- p_double n "charge";; cmr <- p_double n "cmr";;
  let charge := q / nqe in
  _ <- p_calcs n;;
  t0 <- popt (child n "time") (nZ 0) (fun t => p_double t "t0");;
  pos <- p_child_vec n "position";;
  dir <- p_child_vec n "momentum";;
  let mom := vmul (vnormalize dir) (betagamma gamma) in
  let p := initTrajectory t0 pos mom vzero (new_particle charge (charge / cmr)) in
  logs <- p_log n (Z.of_nat (length (bmB (pbBeam b)))) false;;
  pret (PB (beam_add (bunch_add p []) (pbBeam b)) (pbLogs b ++ logs) (pbProbe b)).

(* the distribution of a <bunch>, parser.cpp:427-441; i counts the beam entries *)
Definition p_dist (i : nat) (nop : Z) (bg xrms yrms zrms zft xprms yprms delta : T) : res (dist T) :=
  (d <- dist_new 6 nop (wUniform i);;
   d <- d_gaussian 0 (wGauss i 0 xrms) d;;
   d <- d_gaussian 1 (wGauss i 1 yrms) d;;
   d <- (if negb (zft =? nZ 0) then d_scale 2 zft d
         else if negb (zrms =? nZ 0) then d_gaussian 2 (wGauss i 2 zrms) d
         else d_scale 2 (nZ 0) d);;
   d <- d_gaussian 3 (wGauss i 3 (bg * xprms)) d;;
   d <- d_gaussian 4 (wGauss i 4 (bg * yprms)) d;;
   d_gaussian 5 (wGauss i 5 (bg * delta)) d)%res.

(* <bunch>, parser.cpp:366-518 *)
Definition p_bunch (i : nat) (n : node) (b : pbeam) : pm T pbeam :=
  gamma <- p_double n "gamma";;
  let bg := betagamma gamma in
  q <- p_double n "charge";; cmr <- p_double n "cmr";;
  let charge := q / nqe in
  let nop := a_int n "n" 1 in
  _ <- p_calcs n;;
  t0 <- popt (child n "time") (nZ 0) (fun t => _ <- p_calcs t;; p_double t "t0");;
  pn <- pneed (child n "position");;
  _ <- p_calcs pn;;
  pos <- p_vec pn;;
  xrms <- popt (attr pn "xrms") (nZ 0) p_text;;
  yrms <- popt (attr pn "yrms") (nZ 0) p_text;;
  zrms <- popt (attr pn "zrms") (nZ 0) p_text;;
  zft <- popt (attr pn "zft") (nZ 0) p_text;;
  mn <- pneed (child n "momentum");;
  _ <- p_calcs mn;;
  dir <- p_vec mn;;
  let dir := vnormalize dir in
  xprms <- popt (attr mn "xrms") (nZ 0) p_text;;
  yprms <- popt (attr mn "yrms") (nZ 0) p_text;;
  delta <- popt (attr mn "delta") (nZ 0) p_text;;
  d <- plift (p_dist i nop bg xrms yrms zrms zft xprms yprms delta);;
  d <- p_correlations n d_correlate d;;
  bu <- plift (bunch_from_dist d t0 pos (vmul dir bg) (charge / nZ nop) (charge / cmr / nZ nop));;
  let ib := Z.of_nat (length (bmB (pbBeam b))) in
  logs <- p_log n ib true;;
  trj <- popt (child n "trajectories") [] (fun t =>
    fn <- pneed (attr t "file");;
    pret [(LTraj ib (tlog_new bu (a_int t "step" 1) (a_int t "particles" 1000000)), fn)]);;
  pret (PB (beam_add bu (pbBeam b)) (pbLogs b ++ logs ++ trj) (pbProbe b)).

(* <SDDS>, parser.cpp:519-594 *)
Definition p_sdds (n : node) (b : pbeam) : pm T pbeam :=
  fn <- pneed (attr n "file");;
  dir <- popt (child n "dir") (V (nZ 0) (nZ 0) (nZ 1)) (fun d => _ <- p_calcs d;; v <- p_vec d;; pret (vnormalize v));;
  bu <- plift (wSDDS fn dir);;
  bu <- p_correlations n bunch_correlate bu;;
  logs <- p_log n (Z.of_nat (length (bmB (pbBeam b)))) true;;
  pret (PB (beam_add bu (pbBeam b)) (pbLogs b ++ logs) (pbProbe b)).

(* <probe>, parser.cpp:595-607 *)
Definition p_probe (n : node) (b : pbeam) : pm T pbeam :=
  fn <- pneed (attr n "file");;
  pret (PB (pbBeam b) (pbLogs b) (PI true fn (a_int n "step" 1) (a_int n "number" 1))).

(* one child of the beam node, parser.cpp:307-610 *)
Definition p_entry (b : nat * pbeam) (n : node) : pm T (nat * pbeam) :=
  r <- (if is_calc n then _ <- p_calc n;; pret (snd b)
        else if String.eqb (nName n) "particle" then p_particle n (snd b)
        else if String.eqb (nName n) "bunch" then p_bunch (fst b) n (snd b)
        else if String.eqb (nName n) "SDDS" then p_sdds n (snd b)
        else if String.eqb (nName n) "probe" then p_probe n (snd b)
        else pthrow);;
  pret (S (fst b), r).
(* parseBeam, parser.cpp:296-616, called with a new beam and ProbeInfo{false,0,"",0,0} *)
Definition p_beam (root : node) : pm T pbeam :=
  bn <- pneed (child root "beam");;
  r <- pfold p_entry (nKids bn) (O, PB beam_new [] (PI false EmptyString 0 0));;
  pret (snd r).

(* ---- tracking ---- *)
(* FEL_1D, fel1d.cpp:50-136.  A file name attribute is required, step is 1 by default.
   setup is called before the attributes of <seed> are evaluated, which cannot be observed
   unless setup throws; fel_new does both *)
Definition p_fel (dt : T) (n : node) : pm T (fel T) :=
  a <- pneed (attr n "N");; N <- p_int a;;
  pos <- p_child_vec n "position";;
  prop <- p_child_vec n "prop";;
  pol <- p_child_vec n "pol";;
  log <- popt (child n "log") None (fun l => _ <- pneed (attr l "file");; pret (Some (a_int l "step" 1)));;
  m <- pneed (child n "mode");;
  zR <- p_double m "zR";; w0 <- p_double m "w0";; zw <- p_double m "zwaist";;
  sd <- popt (child n "seed") None (fun s =>
    E0 <- p_double s "E0";; l <- p_double s "lambda";; tau <- p_double s "tau";; ts <- p_double s "tstart";;
    pret (Some (E0, l, tau, ts)));;
  plift (fel_new dt N pos prop pol log zR w0 zw sd).
(* <watch> and <watch-sdds>, parser.cpp:662-686 *)
Definition p_watch (k : wkind) (n : node) : pm T (Z * wtarget) :=
  st <- pneed (attr n "step");; i <- p_int st;;
  fn <- pneed (attr n "file");;
  pret (i, (k, fn)).
Record ptrack : Type := PT { ptWatch : list (Z * wtarget); ptFel : list (fel T) }.
(* one child of the tracking node, parser.cpp:648-689; ts is the text of delta_t, which is
   evaluated again for every interaction *)
Definition p_interaction (ts : string) (p : ptrack) (n : node) : pm T ptrack :=
  if is_calc n then _ <- p_calc n;; pret p
  else if String.eqb (nName n) "fel1d" then
    _ <- p_calcs n;;
    dt <- p_text ts;; f <- p_fel dt n;; pret (PT (ptWatch p) (ptFel p ++ [f]))
  else if String.eqb (nName n) "watch" then w <- p_watch WHdf5 n;; pret (PT (ptWatch p ++ [w]) (ptFel p))
  else if String.eqb (nName n) "watch-sdds" then w <- p_watch WSdds n;; pret (PT (ptWatch p ++ [w]) (ptFel p))
  else pthrow.
(* parseTracking, parser.cpp:618-692: the beam with the tracking parameters set *)
Definition p_tracking (root : node) (bm : beam T) : pm T (beam T * ptrack) :=
  t <- pneed (child root "tracking");;
  if String.eqb (attr_text t "method") "Vay" then
    ts <- pneed (attr t "delta_t");;
    dt <- p_text ts;;
    nst <- pneed (attr t "n");;
    nots <- p_int nst;;
    let bm := beam_setNOTS nots (beam_setTimeStep dt (beam_setMethod TRACKING_VAY bm)) in
    p <- pfold (p_interaction ts) (nKids t) (PT [] []);;
    pret (bm, p)
  else pthrow.

(* ---- observers ---- *)
(* the source attribute *)
Definition p_source (n : node) : pm T obsource :=
  popt (attr n "source") BeamObservation (fun s =>
    if String.eqb s "beam" then pret BeamObservation
    else if String.eqb s "lattice" then pret LatticeObservation else pthrow).
(* one child of the observer node, parser.cpp:700-965 *)
Definition pobs : Type := (observer T * obsource * string)%type.
Definition p_observer (l : list pobs) (n : node) : pm T (list pobs) :=
  if is_calc n then _ <- p_calc n;; pret l
  else if String.eqb (nName n) "snapshot" then
    fn <- pneed (attr n "file");;
    _ <- p_calcs n;;
    tn <- pneed (child n "time");; t0 <- p_double tn "t0";;
    pos <- p_child_vec n "position";;
    hn <- pneed (child n "hpitch");; h <- p_vec hn;; _ <- pneed (attr hn "n");;
    vn <- pneed (child n "vpitch");; v <- p_vec vn;; _ <- pneed (attr vn "n");;
    src <- p_source n;;
    pret (l ++ [(OSnap (snap_new pos h v (a_int hn "n" 0) (a_int vn "n" 0) t0), src, fn)])
  else if String.eqb (nName n) "screen" then
    fn <- pneed (attr n "file");;
    _ <- p_calcs n;;
    pos <- p_child_vec n "position";;
    hn <- pneed (child n "hpitch");; h <- p_vec hn;; dtx <- popt (attr hn "dt") (nZ 0) p_text;; _ <- pneed (attr hn "n");;
    vn <- pneed (child n "vpitch");; v <- p_vec vn;; dty <- popt (attr vn "dt") (nZ 0) p_text;; _ <- pneed (attr vn "n");;
    tn <- pneed (child n "time");; t0 <- p_double tn "t0";; dt <- p_double tn "dt";; _ <- pneed (attr tn "n");;
    src <- p_source n;;
    s <- plift (screen_new pos h v (a_int hn "n" 0) (a_int vn "n" 0) t0 dt dtx dty (a_int tn "n" 0));;
    pret (l ++ [(OScreen s, src, fn)])
  else if String.eqb (nName n) "mesh" then
    fn <- pneed (attr n "file");;
    _ <- p_calcs n;;
    src <- p_source n;;
    m <- plift (wMesh fn);; _ <- plift (mesh_init m);;
    pret (l ++ [(OMesh (mesh_zero m), src, fn)])
  else if String.eqb (nName n) "point" then
    fn <- pneed (attr n "file");;
    _ <- p_calcs n;;
    pos <- p_child_vec n "position";;
    tn <- pneed (child n "time");; t0 <- p_double tn "t0";; dt <- p_double tn "dt";; _ <- pneed (attr tn "n");;
    src <- p_source n;;
    (* a negative number becomes a size which std::vector refuses *)
    if (a_int tn "n" 0 <? 0)%Z then plift (Throw STDexc)
    else pret (l ++ [(OPoint (PO pos (tr_new t0 dt (Z.to_nat (a_int tn "n" 0)))), src, fn)])
  else pthrow.
(* parseObservers, parser.cpp:694-968 *)
Definition p_observers (root : node) : pm T (list pobs) :=
  o <- pneed (child root "observer");; pfold p_observer (nKids o) [].

(* ---- the program ---- *)
(* constructor InputParser, parser.cpp:41-55, with the values of the six constants *)
Variable consts : cenv T.
Definition p_new (root : node) : pm T unit := fun _ => p_calcs root (PST consts [] []).
Record pinput : Type := PIN { inLattice : list (element T); inBeam : beam T; inLogs : list (logger T * string);
  inProbe : probeinfo; inWatch : list (Z * wtarget); inFel : list (fel T); inObs : list pobs }.
(* teufel_hybrid.cpp:195-262: the order of the calls *)
Definition p_program (root : node) : pm T pinput :=
  _ <- p_new root;;
  els <- p_lattice root;;
  pb <- p_beam root;;
  tr <- p_tracking root (pbBeam pb);;
  obs <- p_observers root;;
  pret (PIN els (fst tr) (pbLogs pb) (pbProbe pb) (ptWatch (snd tr)) (ptFel (snd tr)) obs).
Definition parse_input (root : node) : pst T * res pinput := p_program root (PST [] [] []).
End Parser.
