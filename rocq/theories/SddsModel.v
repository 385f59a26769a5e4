(* Model of the watch files: Beam::WriteWatchPointSDDS and WriteWatchPointHDF5,
   /repo/src/beam.cpp:221-431, Bunch::WriteWatchPointSDDS, bunch.cpp:633-727, and the reader
   Bunch(filename,dir), bunch.cpp:189-349.
   The SDDS library (only headers and archives in /repo/lib/SDDS) is represented by what the
   code hands to it and gets from it: a file is one page with named numeric parameters, a
   number of rows and named columns of doubles.  All calls of the writers succeed; the reader
   gets a null pointer for a name which is not in the file, and for a column of a page
   without rows.  Not modelled: symbols, units and descriptions, printing, files of several
   pages (the reader reads the first one), memory which is not released. *)
From Coq Require Import ZArith String List Bool.
From Verif Require Import Base Num VecModel ParticleModel TraceModel RetardModel BunchModel.
Import ListNotations.
Local Open Scope string_scope.
Local Open Scope list_scope.
Local Open Scope num_scope.
Local Open Scope res_scope.

(* a parameter is of type SDDS_LONG or SDDS_DOUBLE *)
Inductive sval (T : Type) : Type := SLong (z : Z) | SDouble (x : T).
Arguments SLong {T} _. Arguments SDouble {T} _.
Record sdds (T : Type) : Type := SD { sdPar : list (string * sval T); sdRows : Z; sdCol : list (string * list T) }.
Arguments SD {T} _ _ _. Arguments sdPar {T} _. Arguments sdRows {T} _. Arguments sdCol {T} _.

(* the value found under a name *)
Fixpoint named {A} (l : list (string * A)) (k : string) : option A :=
  match l with
  | [] => None
  | (k', a) :: r => if String.eqb k' k then Some a else named r k
  end.

Section Sdds.
Context {T : Type} {NT : Num T}.
Notation particleT := (particle T).
Notation bunchT := (bunch T).
Notation beamT := (beam T).
Notation sddsT := (sdds T).

(* the columns of one particle, bunch.cpp:691-708 and beam.cpp:388-407 *)
Definition wp_columns : list (string * (particleT -> T)) :=
  [("t", pt); ("x", fun p => vx (pX p)); ("y", fun p => vy (pX p)); ("z", fun p => vz (pX p));
   ("px", fun p => vx (pP p)); ("py", fun p => vy (pP p)); ("pz", fun p => vz (pP p));
   ("p", fun p => vnorm (pP p)); ("xp", fun p => vx (pP p) / vz (pP p)); ("yp", fun p => vy (pP p) / vz (pP p));
   ("gamma", fun p => nsqrt (nZ 1 + vabs2 (pP p)))].
(* row number index of every column is set in turn: the rows in the order of the particles *)
Definition wp_cols (ps : list particleT) : list (string * list T) :=
  map (fun c => (fst c, map (snd c) ps)) wp_columns.

(* Bunch::WriteWatchPointSDDS, bunch.cpp:633-727: the file written *)
Definition bunch_watch (b : bunchT) : sddsT :=
  SD [("NumberOfParticles", SLong (bunch_NOP b))] (bunch_NOP b) (wp_cols b).

(* Beam::WriteWatchPointSDDS, beam.cpp:318-431 *)
Definition beam_watch (bm : beamT) : res sddsT :=
  n <- beam_NOP bm;;
  Ok (SD [("NumberOfParticles", SLong n); ("Charge", SDouble (nqe * beam_charge bm))] n (wp_cols (concat (bmB bm)))).

(* Beam::WriteWatchPointHDF5, beam.cpp:222-315: the data set "electrons" of nop x 6 doubles.
   The buffer is represented by the values written so far; cap is its size.
   Writing behind its end is undefined. *)
Definition hdf5_bunch (nop cap : Z) (s : list T * Z) (b : bunchT) : res (list T * Z) :=
  let vals := bunch_bufferCoordinates b (snd s) in
  let buf := fst s ++ vals in
  if (cap <? Z.of_nat (length buf))%Z then UB
  else r <- iadd nop (- (Z.of_nat (length buf) / 6));; Ok (buf, r).
(* The result: rows, columns, data and the return value.  Entries of the buffer which have not
   been written are indeterminate (read by H5Dwrite): undefined. *)
Definition beam_hdf5 (bm : beamT) : res ((Z * Z * list T) * Z) :=
  nop <- beam_NOP bm;;
  cap <- imul nop 6;;
  s <- fold_res (hdf5_bunch nop cap) (bmB bm) ([], nop);;
  if (Z.of_nat (length (fst s)) =? cap)%Z then Ok ((nop, 6%Z, fst s), nop) else UB.

(* SDDS_GetParameterAsLong and SDDS_GetParameterAsDouble convert the numeric types; a double
   beyond the int range is undefined.  (None: null pointer) *)
Definition sdds_long (d : sddsT) (k : string) : res (option Z) :=
  match named (sdPar d) k with
  | None => Ok None
  | Some (SLong z) => Ok (Some z)
  | Some (SDouble x) => z <- to_int (if nleb (nZ 0) x then nfloor x else option_map Z.opp (nfloor (- x)));; Ok (Some z)
  end.
Definition sdds_double (d : sddsT) (k : string) : option T :=
  match named (sdPar d) k with
  | None => None
  | Some (SLong z) => Some (nZ z)
  | Some (SDouble x) => Some x
  end.
(* SDDS_GetColumnInDoubles *)
Definition sdds_column (d : sddsT) (k : string) : option (list T) :=
  if (0 <? sdRows d)%Z then named (sdCol d) k else None.

(* the coordinate frame of the reader, bunch.cpp:306-319: e_x, e_y, e_s *)
Definition sdds_frame (dir : vec T) : vec T * vec T * vec T :=
  let es := vnormalize dir in
  let ex := if nltb (nZ 4 / nZ 5) (nabs (vdot es (V (nZ 1) (nZ 0) (nZ 0)))) then V (nZ 0) (nZ 0) (nZ 1) else V (nZ 1) (nZ 0) (nZ 0) in
  let ex := vsub ex (vmul es (vdot ex es)) in
  let ex := vnormalize ex in
  (ex, vcross ex es, es).

(* one particle, bunch.cpp:326-346 *)
Definition sdds_particle (ne t0 : T) (frame : vec T * vec T * vec T) (x xp y yp bg t : T) : particleT :=
  let '(ex, ey, es) := frame in
  let beta := nsqrt (bg * bg / (bg * bg + nZ 1)) in
  let direction := vnormalize (vadd (vadd (vmul ex xp) (vmul ey yp)) es) in
  let v := vmul direction beta in
  let X0 := vadd (vadd (vmul ex x) (vmul ey y)) (vmul (vmul v (t0 - t)) nc) in
  initTrajectory (nZ 0) X0 (vmul direction bg) vzero (new_particle (- ne) ne).

(* Bunch(filename,dir), bunch.cpp:189-349: NOP and the particles.  The file system fs gives the
   content of the file which can be opened.  A name of 99 or more characters fills the local
   copy without a terminating zero. *)
Definition sdds_read (fs : string -> option sddsT) (filename : string) (dir : vec T) : res (Z * bunchT) :=
  if (99 <=? Z.of_nat (String.length filename))%Z then UB else
  match fs filename with
  | None => Ok (0%Z, [])
  | Some d =>
    no <- sdds_long d "Particles";;
    match no, sdds_double d "Charge", sdds_column d "x", sdds_column d "xp", sdds_column d "y", sdds_column d "yp",
          sdds_column d "p", sdds_column d "t" with
    | Some n, Some charge, Some xs, Some xps, Some ys, Some yps, Some pps, Some ts =>
      sum <- fold_res (fun s i => t <- zget ts i;; Ok (s + t)) (zseq 0 (Z.to_nat n)) (nZ 0);;
      let t0 := sum / nZ n in
      let ne := charge / nqe / nZ n in
      ps <- map_res (fun i =>
        bg <- zget pps i;; xp <- zget xps i;; yp <- zget yps i;; x <- zget xs i;; y <- zget ys i;; t <- zget ts i;;
        Ok (sdds_particle ne t0 (sdds_frame dir) x xp y yp bg t)) (zseq 0 (Z.to_nat n));;
      Ok (n, ps)
    | _, _, _, _, _, _, _, _ => Ok (0%Z, [])
    end
  end.
End Sdds.
