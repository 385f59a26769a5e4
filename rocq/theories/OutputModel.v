(* Model of the files written by the observers and by the FEL interaction, and of the two
   readers of such files: ScreenObserver::WriteTimeDomainFieldHDF5 (/repo/src/screen.cpp:297-558),
   SnapshotObserver::storeParticlePositions and WriteFieldHDF5 (snapshot.cpp:104-149,225-394),
   PointObserver::WriteTimeDomainFieldSDDS (point_observer.cpp:119-186),
   MeshedScreen::writeFile (mesh.cpp:427-742), FEL_1D::write_output (fel1d.cpp:359-498), the
   constructors SourceScreen (source_screen.cpp:32-236) and MeshedScreen (mesh.cpp:30-218).
   The HDF5 library is represented by what the code hands to it and gets from it: a file is a
   list of named data sets, a data set has dimensions, the values in the order of the memory
   buffer, and named attributes.  H5Dwrite reads as many values from the buffer as the
   dimensions announce, H5Dread writes all values of the data set into the buffer; behind the
   end of the buffer both are undefined.  All library calls of the writers succeed.  Reading
   integers as doubles converts them; reading doubles as integers is not modelled (it counts as
   undefined).  Not modelled: printing, the two debug files of the SourceScreen constructor,
   failing memory allocation other than for impossible sizes, the release of memory
   (arrays are released by delete instead of delete[] in several places), timing. *)
From Coq Require Import ZArith String List Bool.
From Verif Require Import Base Num VecModel ParticleModel TraceModel RetardModel BunchModel ElementModel DriverModel
  ObserverModel PropagateModel SddsModel FelModel LoggerModel.
Import ListNotations.
Local Open Scope string_scope.
Local Open Scope list_scope.
Local Open Scope num_scope.
Local Open Scope res_scope.

Inductive h5vals (T : Type) : Type := HDoubles (l : list T) | HInts (l : list Z).
Arguments HDoubles {T} _. Arguments HInts {T} _.
Record h5set (T : Type) : Type := H5 { hsDims : list Z; hsData : h5vals T; hsAttr : list (string * sval T) }.
Arguments H5 {T} _ _ _. Arguments hsDims {T} _. Arguments hsData {T} _. Arguments hsAttr {T} _.
Definition h5file (T : Type) : Type := list (string * h5set T).

Section Output.
Context {T : Type} {NT : Num T} {TT : Trans T}.
Notation vecT := (vec T).

(* number of values of a data set *)
Definition h5_count (dims : list Z) : Z := fold_right Z.mul 1%Z dims.
(* H5Dwrite of a buffer of doubles, with the attributes attached *)
Definition h5_write (dims : list Z) (b : buffer T) (attr : list (string * sval T)) : res (h5set T) :=
  vals <- buf_read (Z.to_nat (h5_count dims)) b;;
  Ok (H5 dims (HDoubles vals) attr).
(* H5Awrite of an int or unsigned int variable as H5T_NATIVE_INT *)
Definition att_int (k : string) (z : Z) : string * sval T := (k, SLong (i32 z)).
Definition att_double (k : string) (x : T) : string * sval T := (k, SDouble x).

(* H5Dopen2 *)
Definition h5_open (f : h5file T) (k : string) : res (h5set T) :=
  match named f k with Some d => Ok d | None => Throw IOexc end.
(* H5Aopen_name and H5Aread as int and as double *)
Definition h5_int (d : h5set T) (k : string) : res Z :=
  match named (hsAttr d) k with
  | None => Throw IOexc
  | Some (SLong z) => Ok z
  | Some (SDouble _) => UB
  end.
Definition h5_double (d : h5set T) (k : string) : res T :=
  match named (hsAttr d) k with
  | None => Throw IOexc
  | Some (SLong z) => Ok (nZ z)
  | Some (SDouble x) => Ok x
  end.
(* an attribute with a default value, source_screen.cpp:73-96 *)
Definition h5_default (d : h5set T) (k : string) (x0 : T) : T :=
  match named (hsAttr d) k with
  | None => x0
  | Some (SLong z) => nZ z
  | Some (SDouble x) => x
  end.
Definition h5_doubles (d : h5set T) : list T :=
  match hsData d with HDoubles l => l | HInts l => map nZ l end.
Definition h5_ints (d : h5set T) : res (list Z) :=
  match hsData d with HDoubles _ => UB | HInts l => Ok l end.
(* H5Dread into a buffer with some content *)
Definition h5_fill {A} (vals b : list A) : res (list A) :=
  if (length vals <=? length b)%nat then Ok (vals ++ skipn (length vals) b) else UB.

(* ---- the screen, screen.cpp:297-558 ---- *)
(* the list of the positions, screen.cpp:318-328 and snapshot.cpp:244-253: the buffer has the
   size computed in unsigned arithmetic *)
Definition pos_set (nx ny : Z) (pos : Z * Z -> res vecT) : res (h5set T) :=
  ps <- map_res pos (pairs nx ny);;
  b <- buf_write (flat_map wrv ps) (buf_new (u32 (nx * ny * 3)));;
  h5_write [nx; ny; 3%Z] b [att_int "Nx" nx; att_int "Ny" ny].
Definition screen_file (s : screen T) : res (h5file T) :=
  p <- pos_set (scNx s) (scNy s) (fun xy => screen_pos s (fst xy) (snd xy));;
  g <- h5_write [4%Z; 3%Z] (map Some (flat_map wrv [scO s; scNormal s; scdX s; scdY s]))
         [att_int "Nx" (scNx s); att_int "Ny" (scNy s); att_int "NOTS" (scN s);
          att_double "t0" (sct0 s); att_double "dt" (scdt s); att_double "dtx" (scdtx s); att_double "dty" (scdty s)];;
  b <- obs_getBuffer (OScreen s);;
  f <- h5_write [scNx s; scNy s; scN s; 6%Z] b
         [att_double "t0" (sct0 s); att_double "dt" (scdt s); att_int "NOTS" (scN s)];;
  Ok [("ObservationPosition", p); ("Screen", g); ("ElMagField", f)].

(* ---- a screen file used as a source, source_screen.cpp:32-212 ---- *)
(* the values of a buffer of vectors or of fields *)
Fixpoint emfs_of (l : list T) : list (emf T) :=
  match l with
  | ex :: ey :: ez :: bx :: by' :: bz :: r => EB (V ex ey ez) (V bx by' bz) :: emfs_of r
  | _ => []
  end.
Fixpoint vecs_of (l : list T) : list vecT :=
  match l with
  | x :: y :: z :: r => V x y z :: vecs_of r
  | _ => []
  end.
(* the memory of n zero fields or vectors (default constructors) *)
Definition zero_doubles (n : Z) : list T := repeat (nZ 0) (Z.to_nat n).
(* piece number i of length n *)
Definition piece {A} (n i : Z) (l : list A) : list A := firstn (Z.to_nat n) (skipn (Z.to_nat (i * n)) l).
Definition cell_fields (nx ny nots : Z) (fs : list (emf T)) : list (list (list (emf T))) :=
  map (fun ix => map (fun iy => piece nots (ix * ny + iy) fs) (zseq 0 (Z.to_nat ny))) (zseq 0 (Z.to_nat nx)).
Definition dims_eqb (a b : list Z) : bool := if list_eq_dec Z.eq_dec a b then true else false.
(* The origin and t0 of the file are not used.  getBufferSize (source_screen.h:108) gives the
   number of doubles; as many fields are allocated *)
Definition source_read (f : h5file T) : res (sscreen T) :=
  d <- h5_open f "Screen";;
  nx <- h5_int d "Nx";; ny <- h5_int d "Ny";; nots <- h5_int d "NOTS";;
  let nx := u32 nx in let ny := u32 ny in let nots := u32 nots in
  dt <- h5_double d "dt";;
  let dtx := h5_default d "dtx" (nZ 0) in
  let dty := h5_default d "dty" (nZ 0) in
  b <- h5_fill (map Some (h5_doubles d)) (buf_new 12);;
  g <- buf_read 9 (skipn 3 b);;
  match vecs_of g with
  | [n; dX; dY] =>
      let mem := zero_doubles (6 * u32 (nx * ny * nots * 6)) in
      e <- h5_open f "ElMagField";;
      if dims_eqb (hsDims e) [nx; ny; nots; 6%Z] then
        vals <- h5_fill (h5_doubles e) mem;;
        if (Z.of_nat (length (emfs_of vals)) <? nx * ny * nots)%Z then UB else
        ss_new n dX dY nx ny dt dtx dty (cell_fields nx ny nots (emfs_of vals))
      else Throw IOexc
  | _ => UB
  end.
(* SourceScreen(filename,position,t0): file system, H5Fopen *)
Definition screen_source (fs : string -> option (h5file T)) (fn : string) (pos : vecT) (t0 : T) : res (element T) :=
  match fs fn with
  | None => Throw IOexc
  | Some f => s <- source_read f;; Ok (Localized t0 pos (LOther (ss_local s)))
  end.

(* ---- the snapshot ---- *)
(* storeParticlePositions, snapshot.cpp:114-149, of a beam *)
Definition coords6 (t : T) (p : particle T) : res (list T) :=
  xm <- CoordinatesAtTime p t;; Ok (wrv (fst xm) ++ wrv (snd xm)).
Definition snap_store (t : T) (bm : beam T) : res (Z * buffer T) :=
  nop <- beam_NOP bm;;
  n <- imul 6 nop;;
  vals <- map_res (coords6 t) (concat (bmB bm));;
  b <- buf_write (concat vals) (buf_new n);;
  Ok (nop, b).
(* WriteFieldHDF5, snapshot.cpp:225-394.  stored: the particles stored before, if any *)
Definition snap_file (s : snapshot T) (stored : option (Z * buffer T)) : res (h5file T) :=
  p <- pos_set (snNx s) (snNy s) (fun xy => Ok (snap_pos s (fst xy) (snd xy)));;
  b <- obs_getBuffer (OSnap s);;
  f <- h5_write [snNx s; snNy s; 6%Z] b [att_double "t0" (snt s)];;
  c <- match stored with
       | Some (n, pb) =>
           if (0 <? n)%Z then d <- h5_write [n; 6%Z] pb [att_int "N_particles" n];; Ok [("ParticleCoordinates", d)]
           else Ok []
       | None => Ok []
       end;;
  Ok ([("ObservationPosition", p); ("ElMagField", f)] ++ c).

(* ---- the point observer, point_observer.cpp:119-186 ---- *)
Definition point_columns : list (string * (emf T -> T)) :=
  [("Ex", fun f => vx (fE f)); ("Ey", fun f => vy (fE f)); ("Ez", fun f => vz (fE f));
   ("Bx", fun f => vx (fB f)); ("By", fun f => vy (fB f)); ("Bz", fun f => vz (fB f))].
(* unsigned int NOTS = trace->get_N(); the parameter and the number of rows are of type
   int32_t *)
Definition point_file (s : point T) : res (sdds T) :=
  let tr := poTr s in
  let nots := u32 (tr_N tr) in
  fs <- map_res (tr_get tr) (zseq 0 (Z.to_nat nots));;
  Ok (SD [("NumberTimeSteps", SLong (i32 nots)); ("t0", SDouble (tr_t0 tr)); ("dt", SDouble (tr_dt tr))] (i32 nots)
         (("t", map (fun i => tr_t0 tr + nZ i * tr_dt tr) (zseq 0 (Z.to_nat nots))) ::
          map (fun c => (fst c, map (snd c) fs)) point_columns)).

(* ---- the mesh, mesh.cpp:427-742; dt is the member of this name ---- *)
Definition ints_of (t : Z * Z * Z) : list Z := let '(a, b, c) := t in [a; b; c].
Definition mesh_file (s : mesh T) (dt : T) : res (h5file T) :=
  let ncp := Z.of_nat (length (msPts s)) in
  let np := mesh_Np s in
  let nt := msNt s in
  c3 <- imul ncp 3;;
  cb <- buf_write (flat_map wrv (msPts s)) (buf_new c3);;
  c <- h5_write [ncp; 3%Z] cb [att_int "Ncp" ncp];;
  p3 <- imul np 3;;
  pb <- buf_write (flat_map wrv (msX s)) (buf_new p3);;
  p <- h5_write [np; 3%Z] pb [att_int "Np" np];;
  ts <- map_res (zget (msTri s)) (zseq 0 (length (msX s)));;
  let t := H5 [np; 3%Z] (HInts (flat_map ints_of ts)) [att_int "Ntri" np] in
  t0s <- map_res (fun i => tr <- zget (msA s) i;; Ok (tr_t0 tr)) (zseq 0 (length (msX s)));;
  o <- h5_write [np] (map Some t0s) [att_int "Nt" nt; att_double "dt" dt];;
  n <- imul np nt;; n <- imul n 6;;
  fs <- map_res (obs_get (OMesh s)) (obs_keys (OMesh s));;
  fb <- buf_write (flat_map six fs) (buf_new n);;
  f <- h5_write [np; nt; 6%Z] fb [];;
  Ok [("MeshCornerPoints", c); ("ObservationPosition", p); ("MeshTriangles", t); ("ObservationTime", o); ("ElMagField", f)].

(* the constructor, mesh.cpp:30-218: the mesh and the member dt.  new Vector[n] and
   std::vector refuse negative sizes with exceptions of the standard library *)
Fixpoint tris_of (l : list Z) : list (Z * Z * Z) :=
  match l with
  | a :: b :: c :: r => (a, b, c) :: tris_of r
  | _ => []
  end.
(* new Vector[n], H5Dread *)
Definition read_vectors (d : h5set T) (n : Z) : res (list vecT) :=
  if (n <? 0)%Z then Throw STDexc else
  v <- h5_fill (h5_doubles d) (zero_doubles (3 * n));; Ok (vecs_of v).
(* lines 121-175: Nt, dt and the traces without the fields *)
Definition mesh_times (f : h5file T) (np : Z) : res (Z * T * list (ftrace T)) :=
  match named f "ObservationTime" with
  | None => Ok (0%Z, nZ 0, repeat (tr_new (nZ 0) (nZ 0) 0) (Z.to_nat np))
  | Some d =>
      nt <- h5_int d "Nt";; dt <- h5_double d "dt";;
      b <- h5_fill (map Some (h5_doubles d)) (buf_new np);;
      ts <- buf_read (Z.to_nat np) b;;
      trs <- map_res (fun t0 => if (nt <? 0)%Z then Throw STDexc else Ok (tr_new t0 dt (Z.to_nat nt))) ts;;
      Ok (nt, dt, trs)
  end.
(* lines 177-207 *)
Definition mesh_fields (f : h5file T) (np nt : Z) (trs : list (ftrace T)) : res (list (ftrace T)) :=
  match named f "ElMagField" with
  | None => Ok trs
  | Some d =>
      n <- imul np nt;;
      vals <- h5_fill (h5_doubles d) (zero_doubles (6 * n));;
      map_res (fun p => tr_set_buffer (snd p) (skipn (Z.to_nat (fst p * nt)) (emfs_of vals)) nt)
              (combine (zseq 0 (length trs)) trs)
  end.
Definition mesh_read (f : h5file T) : res (mesh T * T) :=
  d <- h5_open f "MeshCornerPoints";; ncp <- h5_int d "Ncp";;
  pts <- read_vectors d ncp;;
  d <- h5_open f "ObservationPosition";; np <- h5_int d "Np";;
  xs <- read_vectors d np;;
  d <- h5_open f "MeshTriangles";;
  n3 <- imul 3 np;;
  is <- h5_ints d;; b <- h5_fill (map Some is) (buf_new n3);; ti <- buf_read (Z.to_nat n3) b;;
  '(nt, dt, trs) <- mesh_times f np;;
  trs <- mesh_fields f np nt trs;;
  Ok (MS pts (tris_of ti) xs nt trs, dt).
(* MeshedScreen(filename): file system, H5Fopen *)
Definition mesh_open (fs : string -> option (h5file T)) (fn : string) : res (mesh T * T) :=
  match fs fn with None => Throw IOexc | Some f => mesh_read f end.

(* ---- the FEL interaction, fel1d.cpp:359-498 ---- *)
Definition fel_attributes (f : fel T) (n every : Z) : list (string * sval T) :=
  [att_int "N_field" (feN f); att_int "N_steps" n; att_int "N_output" every;
   att_double "dt" (feDt f); att_double "w0" (feW0 f); att_double "z_Rayl" (feZR f); att_double "z_waist" (feZw f);
   att_double "origin.x" (vx (feOrig f)); att_double "origin.y" (vy (feOrig f)); att_double "origin.z" (vz (feOrig f));
   att_double "prop.x" (vx (feDz f)); att_double "prop.y" (vy (feDz f)); att_double "prop.z" (vz (feDz f))].
Definition fel_file (f : fel T) : res (option (h5file T)) :=
  o <- fel_output f;;
  match o, feEvery f with
  | None, _ => Ok None
  | Some _, None => UB
  | Some (n, nf, e, j), Some every =>
      Ok (Some [("InteractionField", H5 [n; nf] (HDoubles e) (fel_attributes f n every));
                ("CurrentDensity", H5 [n; nf] (HDoubles j) [])])
  end.

(* ---- the loggers, logger.cpp:79-210,248-331,368-451 ---- *)
(* ParameterLogger::WriteData: the bunch is the one which is observed, in its state when the
   file is written *)
Definition plog_names : list string :=
  ["t"; "x_av"; "y_av"; "z_av"; "bgx_av"; "bgy_av"; "bgz_av"; "gamma"; "delta"; "x_rms"; "y_rms"; "z_rms"; "BF"].
Definition plog_file (b : bunch T) (l : plog T) : res (sdds T) :=
  rows <- plog_write l;;
  Ok (SD ([("NumberTimeSteps", SLong (i32 (plNOTS l))); ("NumberParticles", SLong (bunch_NOP b));
           ("TotalCharge", SDouble (bunch_charge b))] ++
          match plFreq l with Some f => [("BunchingFrequency", SDouble f)] | None => [] end)
         (i32 (plNOTS l))
         (map (fun kn => (snd kn, map (fun r => List.nth (fst kn) r (nZ 0)) rows)) (combine (seq 0 (length plog_names)) plog_names))).
(* TrajectoryLogger::WriteData and ProbeLogger::WriteData *)
Definition tlog_file (l : blog T) : res (h5file T) :=
  '(nots, nop, nod, vals) <- blog_write l;;
  Ok [("Trajectories", H5 [nots; nop; nod] (HDoubles vals) [att_int "NOTS" nots; att_int "NOP" nop])].
Definition prlog_file (l : blog T) : res (h5file T) :=
  '(nots, nop, nod, vals) <- blog_write l;;
  Ok [("Probe", H5 [nots; nop; nod] (HDoubles vals) [att_int "NOTS" nots; att_int "NOP" nop; att_int "NOD" nod])].
End Output.
