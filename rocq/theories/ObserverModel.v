(* Model of the observers: /repo/src/screen.cpp, snapshot.cpp, point_observer.cpp, mesh.cpp
   with their headers, of the frame construction in source_screen.cpp, and of the observation
   part of the MPI program, teufel_hybrid.cpp:691-765.
   Not modelled: the output files, the printing and timing, failing memory allocation
   (but for impossible sizes). *)
From Coq Require Import ZArith List Bool.
From Verif Require Import Base Num VecModel ParticleModel TraceModel RetardModel BunchModel DriverModel.
Import ListNotations.
Local Open Scope num_scope.
Local Open Scope res_scope.

(* ---- two-dimensional arrays, std::vector of std::vector ---- *)
Definition cell_get {A} (m : list (list A)) (ix iy : Z) : res A := r <- zget m ix;; zget r iy.
Definition cell_set {A} (m : list (list A)) (ix iy : Z) (a : A) : res (list (list A)) :=
  r <- zget m ix;; r' <- zset r iy a;; zset m ix r'.
(* the index pairs visited by "for ix<Nx, for iy<Ny" *)
Definition pairs (nx ny : Z) : list (Z * Z) :=
  flat_map (fun ix => map (fun iy => (ix, iy)) (zseq 0 (Z.to_nat ny))) (zseq 0 (Z.to_nat nx)).

Section Observer.
Context {T : Type} {NT : Num T}.
Notation trT := (ftrace T).

(* class ScreenObserver; the members Nx, Ny, NOTS are of type unsigned int *)
Record screen : Type := SC {
  scO : vec T; scdX : vec T; scdY : vec T; scNormal : vec T;
  scNx : Z; scNy : Z; scN : Z;
  sct0 : T; scdt : T; scdtx : T; scdty : T;
  scTr : list (list trT) }.
(* class SnapshotObserver *)
Record snapshot : Type := SN {
  snO : vec T; sndX : vec T; sndY : vec T; snNx : Z; snNy : Z; snt : T; snF : list (list (emf T)) }.
(* class PointObserver *)
Record point : Type := PO { poX : vec T; poTr : trT }.
(* class MeshedScreen: corner points, triangles, observation points, Nt, the traces; Np is the
   number of observation points.  area, normal, xi, eta are set by init *)
Record mesh : Type := MS {
  msPts : list (vec T); msTri : list (Z * Z * Z); msX : list (vec T); msNt : Z; msA : list trT }.

(* ---- screen ---- *)
(* (int)ix-(int)Nx/2, screen.cpp:102,109; the difference must not overflow *)
Definition centred (i n : Z) : res Z := iadd (i32 i) (- Z.quot (i32 n) 2).
(* CellPosition, screen.cpp:98-103 *)
Definition screen_pos (s : screen) (ix iy : Z) : res (vec T) :=
  kx <- centred ix (scNx s);; ky <- centred iy (scNy s);;
  Ok (vadd (vadd (scO s) (vmul (scdX s) (nZ kx))) (vmul (scdY s) (nZ ky))).
(* CellTimeZero, screen.cpp:105-110 *)
Definition time_zero (nx ny : Z) (t0 dtx dty : T) (ix iy : Z) : res T :=
  kx <- centred ix nx;; ky <- centred iy ny;;
  Ok (t0 + dtx * nZ kx + dty * nZ ky).
Definition screen_t0 (s : screen) (ix iy : Z) : res T :=
  time_zero (scNx s) (scNy s) (sct0 s) (scdtx s) (scdty s) ix iy.
(* constructor, screen.cpp:34-88.  The int arguments given by the parser are converted to
   unsigned int *)
Definition screen_new (pos dx dy : vec T) (nx ny : Z) (t0 dt dtx dty : T) (nots : Z) : res screen :=
  let nx := u32 nx in let ny := u32 ny in let nots := u32 nots in
  tr <- map_res (fun ix => map_res (fun iy =>
          t <- time_zero nx ny t0 dtx dty ix iy;; Ok (tr_new t dt (Z.to_nat nots)))
        (zseq 0 (Z.to_nat ny))) (zseq 0 (Z.to_nat nx));;
  Ok (SC pos dx dy (vnormalize (vmul (vcross dx dy) (- nZ 1))) nx ny nots t0 dt dtx dty tr).
(* getField, setField: screen.cpp:220-246; the arguments are unsigned *)
Definition screen_in (s : screen) (ix iy it : Z) : bool :=
  ((0 <=? ix) && (ix <? scNx s) && ((0 <=? iy) && (iy <? scNy s)) && ((0 <=? it) && (it <? scN s)))%Z.
Definition screen_get (s : screen) (ix iy it : Z) : res (emf T) :=
  if screen_in s ix iy it then tr <- cell_get (scTr s) ix iy;; tr_get tr it else Throw IOexc.
Definition screen_with (s : screen) (m : list (list trT)) : screen :=
  SC (scO s) (scdX s) (scdY s) (scNormal s) (scNx s) (scNy s) (scN s) (sct0 s) (scdt s) (scdtx s) (scdty s) m.
Definition screen_set (s : screen) (ix iy it : Z) (f : emf T) : res screen :=
  if screen_in s ix iy it then
    tr <- cell_get (scTr s) ix iy;; tr' <- tr_set tr it f;;
    m <- cell_set (scTr s) ix iy tr';; Ok (screen_with s m)
  else Throw IOexc.
(* getBufferSize, screen.h:153: unsigned int arithmetic *)
Definition screen_size (s : screen) : Z := u32 (scNx s * scNy s * scN s * 6).

(* ---- snapshot ---- *)
(* CellPosition, snapshot.cpp:404-408; the arguments are int *)
Definition snap_pos (s : snapshot) (ix iy : Z) : vec T :=
  let k (i n : Z) := nZ (i32 i) - nhalf * (nZ n - nZ 1) in
  vadd (vadd (snO s) (vmul (sndX s) (k ix (snNx s)))) (vmul (sndY s) (k iy (snNy s))).
(* constructor, snapshot.cpp:34-63 *)
Definition snap_new (pos dx dy : vec T) (nx ny : Z) (t : T) : snapshot :=
  let nx := u32 nx in let ny := u32 ny in
  SN pos dx dy nx ny t (repeat (repeat ezero (Z.to_nat ny)) (Z.to_nat nx)).
(* getField, setField: snapshot.cpp:151-175 *)
Definition snap_in (s : snapshot) (ix iy : Z) : bool :=
  ((0 <=? ix) && (ix <? snNx s) && ((0 <=? iy) && (iy <? snNy s)))%Z.
Definition snap_get (s : snapshot) (ix iy : Z) : res (emf T) :=
  if snap_in s ix iy then cell_get (snF s) ix iy else Throw IOexc.
Definition snap_with (s : snapshot) (m : list (list (emf T))) : snapshot :=
  SN (snO s) (sndX s) (sndY s) (snNx s) (snNy s) (snt s) m.
Definition snap_set (s : snapshot) (ix iy : Z) (f : emf T) : res snapshot :=
  if snap_in s ix iy then m <- cell_set (snF s) ix iy f;; Ok (snap_with s m) else Throw IOexc.
(* getBufferSize, snapshot.h:134 *)
Definition snap_size (s : snapshot) : Z := u32 (snNx s * snNy s * 6).

(* ---- mesh ---- *)
(* access to one sample of one trace as in mesh.cpp:386-388,414-420 *)
Definition mesh_get (s : mesh) (i it : Z) : res (emf T) := tr <- zget (msA s) i;; tr_get tr it.
Definition mesh_with (s : mesh) (a : list trT) : mesh := MS (msPts s) (msTri s) (msX s) (msNt s) a.
Definition mesh_set (s : mesh) (i it : Z) (f : emf T) : res mesh :=
  tr <- zget (msA s) i;; tr' <- tr_set tr it f;; a <- zset (msA s) i tr';; Ok (mesh_with s a).
Definition mesh_Np (s : mesh) : Z := Z.of_nat (length (msX s)).
(* getBufferSize, mesh.h:165: int arithmetic, then converted to std::size_t *)
Definition mesh_size (s : mesh) : res Z :=
  n <- imul (mesh_Np s) (msNt s);; n <- imul n 6;; Ok (u64 n).
(* zero, mesh.cpp:281-286 *)
Definition mesh_zero (s : mesh) : mesh := mesh_with s (map tr_zero (msA s)).

(* ---- all kinds of observers ---- *)
Inductive observer : Type :=
| OScreen (s : screen) | OSnap (s : snapshot) | OPoint (s : point) | OMesh (s : mesh).

(* The places where field values are kept, in the order in which getBuffer and fromBuffer
   visit them: (ix,iy,it) for the screen (screen.cpp:256-258), (ix,iy,0) for the snapshot
   (snapshot.cpp:185-186), (0,0,it) for the point (get_buffer of the trace), (i,0,it) for
   the mesh (mesh.cpp:383-386) *)
Definition key : Type := (Z * Z * Z)%type.
Definition obs_keys (o : observer) : list key :=
  match o with
  | OScreen s => flat_map (fun xy => map (fun it => (xy, it)) (zseq 0 (Z.to_nat (scN s)))) (pairs (scNx s) (scNy s))
  | OSnap s => map (fun xy => (xy, 0%Z)) (pairs (snNx s) (snNy s))
  | OPoint s => map (fun it => (0%Z, 0%Z, it)) (zseq 0 (length (tr_f (poTr s))))
  | OMesh s => flat_map (fun itr => map (fun it => (fst itr, 0%Z, it)) (zseq 0 (length (tr_f (snd itr)))))
                 (combine (zseq 0 (length (msX s))) (msA s))
  end.
Definition obs_get (o : observer) (k : key) : res (emf T) :=
  let '(a, b, c) := k in
  match o with
  | OScreen s => screen_get s a b c
  | OSnap s => snap_get s a b
  | OPoint s => tr_get (poTr s) c
  | OMesh s => mesh_get s a c
  end.
Definition obs_set (o : observer) (k : key) (f : emf T) : res observer :=
  let '(a, b, c) := k in
  match o with
  | OScreen s => s' <- screen_set s a b c f;; Ok (OScreen s')
  | OSnap s => s' <- snap_set s a b f;; Ok (OSnap s')
  | OPoint s => tr <- tr_set (poTr s) c f;; Ok (OPoint (PO (poX s) tr))
  | OMesh s => s' <- mesh_set s a c f;; Ok (OMesh s')
  end.
(* getBufferSize, as std::size_t *)
Definition obs_size (o : observer) : res Z :=
  match o with
  | OScreen s => Ok (screen_size s)
  | OSnap s => Ok (snap_size s)
  | OPoint s => Ok (u64 (6 * tr_N (poTr s)))      (* point_observer.h:103 *)
  | OMesh s => mesh_size s
  end.

(* the six doubles of a field *)
Definition six (f : emf T) : list T := [vx (fE f); vy (fE f); vz (fE f); vx (fB f); vy (fB f); vz (fB f)].
(* new double[n] *)
Definition new_doubles (n : Z) : res (buffer T) := if (2 ^ 60 <=? n)%Z then Throw STDexc else Ok (buf_new n).
(* getBuffer: screen.cpp:248-271, snapshot.cpp:177-199, point_observer.cpp:81-92,
   mesh.cpp:375-399.  Writing behind the end of the buffer is undefined. *)
Definition obs_getBuffer (o : observer) : res (buffer T) :=
  n <- obs_size o;; b <- new_doubles n;;
  fs <- map_res (obs_get o) (obs_keys o);;
  buf_write (flat_map six fs) b.
(* fromBuffer: screen.cpp:273-295, snapshot.cpp:201-223, point_observer.cpp:94-117,
   mesh.cpp:401-425.  The screen and the snapshot compute the expected size again, with the
   same unsigned int arithmetic.  Reading behind the end of the buffer is undefined. *)
Fixpoint obs_fill (ks : list key) (b : buffer T) (o : observer) : res observer :=
  match ks with
  | [] => Ok o
  | k :: r =>
      vals <- buf_read 6 b;;
      match vals with
      | [ex; ey; ez; bx; by'; bz] =>
          o' <- obs_set o k (EB (V ex ey ez) (V bx by' bz));; obs_fill r (skipn 6 b) o'
      | _ => UB
      end
  end.
Definition obs_fromBuffer (b : buffer T) (size : Z) (o : observer) : res observer :=
  n <- obs_size o;;
  if (size =? n)%Z then obs_fill (obs_keys o) b o else Throw IOexc.

(* ---- integrate ---- *)
(* the source: a beam (or bunch) or the lattice *)
Inductive source : Type := SBeam (bm : beam T) | SLattice (F : field_fn T).

(* adding the lattice field to a trace: loop over it of screen.cpp:199-203 (times computed
   from the cell), point_observer.cpp:77-78 and mesh.cpp:358-362 (times taken from the trace) *)
Definition lattice_trace (F : field_fn T) (time : Z -> res T) (n : nat) (pos : vec T) (tr : trT) : res trT :=
  fold_res (fun tr it => t <- time it;; f <- F t pos;; tr_acc tr it f) (zseq 0 n) tr.

(* work done for one cell of the screen, screen.cpp:125-131,195-203 *)
Definition screen_cell (src : source) (s : screen) (ix iy : Z) (tr : trT) : res trT :=
  pos <- screen_pos s ix iy;;
  match src with
  | SBeam bm => beam_integrate bm pos tr
  | SLattice F => lattice_trace F (fun it => t <- screen_t0 s ix iy;; Ok (t + nZ it * scdt s)) (Z.to_nat (scN s)) pos tr
  end.
(* integrate, screen.cpp:112-218, cells in sequential order *)
Definition screen_integrate (src : source) (s : screen) : res screen :=
  m <- fold_res (fun m xy => let '(ix, iy) := xy in
         tr <- cell_get m ix iy;; tr' <- screen_cell src s ix iy tr;; cell_set m ix iy tr')
       (pairs (scNx s) (scNy s)) (scTr s);;
  Ok (screen_with s m).
(* snapshot.cpp:71-102 *)
Definition snap_cell (src : source) (s : snapshot) (ix iy : Z) : res (emf T) :=
  match src with
  | SBeam bm => beam_RetardedField bm (snt s) (snap_pos s ix iy)
  | SLattice F => F (snt s) (snap_pos s ix iy)
  end.
Definition snap_integrate (src : source) (s : snapshot) : res snapshot :=
  m <- fold_res (fun m xy => let '(ix, iy) := xy in
         f <- snap_cell src s ix iy;; cell_set m ix iy f)
       (pairs (snNx s) (snNy s)) (snF s);;
  Ok (snap_with s m).
(* point_observer.cpp:62-79 *)
Definition point_integrate (src : source) (s : point) : res point :=
  tr <- match src with
        | SBeam bm => beam_integrate bm (poX s) (poTr s)
        | SLattice F => lattice_trace F (tr_time (poTr s)) (length (tr_f (poTr s))) (poX s) (poTr s)
        end;;
  Ok (PO (poX s) tr).
(* mesh.cpp:288-373 *)
Definition mesh_cell (src : source) (s : mesh) (i : Z) (tr : trT) : res trT :=
  pos <- zget (msX s) i;;
  match src with
  | SBeam bm => beam_integrate bm pos tr
  | SLattice F => lattice_trace F (tr_time tr) (Z.to_nat (msNt s)) pos tr
  end.
Definition mesh_integrate (src : source) (s : mesh) : res mesh :=
  a <- fold_res (fun a i => tr <- zget a i;; tr' <- mesh_cell src s i tr;; zset a i tr')
       (zseq 0 (length (msX s))) (msA s);;
  Ok (mesh_with s a).
Definition obs_integrate (src : source) (o : observer) : res observer :=
  match o with
  | OScreen s => s' <- screen_integrate src s;; Ok (OScreen s')
  | OSnap s => s' <- snap_integrate src s;; Ok (OSnap s')
  | OPoint s => s' <- point_integrate src s;; Ok (OPoint s')
  | OMesh s => s' <- mesh_integrate src s;; Ok (OMesh s')
  end.

(* ---- the MPI program, teufel_hybrid.cpp:691-754 ---- *)
(* MPI_Reduce with MPI_SUM: the first count elements of the buffers of all nodes are added
   (here in the order of the nodes; MPI leaves the order open).  count is passed as int; with
   a negative number MPI aborts the program. *)
Definition opt_add (a b : option T) : option T :=
  match a, b with Some x, Some y => Some (x + y) | _, _ => None end.
Definition mpi_reduce (count : Z) (bufs : list (buffer T)) : res (buffer T) :=
  if (int_max <? count)%Z then Throw STDexc else
  let n := Z.to_nat count in
  parts <- map_res (fun b : buffer T => if (n <=? length b)%nat then Ok (firstn n b) else UB) bufs;;
  match parts with
  | [] => UB
  | b :: r => Ok (fold_left (zip_with opt_add) r b)
  end.
(* observation by all nodes: every node has its own observer object (created from the same
   input) and its own source; the root node takes the sum *)
Definition driver_observe (srcs : list source) (obs : list observer) : res observer :=
  os <- map_res (fun so => obs_integrate (fst so) (snd so)) (combine srcs obs);;
  match os with
  | [] => UB
  | root :: _ =>
      n <- obs_size root;;
      let count := u32 n in
      bufs <- map_res obs_getBuffer os;;
      sum <- mpi_reduce count bufs;;
      obs_fromBuffer sum count root
  end.

(* ---- cell geometry of the mesh ---- *)
(* init, mesh.cpp:226-279, for one cell: normal and area *)
Definition tri_cross (p1 p2 p3 : vec T) : vec T := vcross (vsub p3 p1) (vsub p2 p1).
Definition tri_area (p1 p2 p3 : vec T) : T := vnorm (tri_cross p1 p2 p3) * nhalf.
Definition tri_normal (p1 p2 p3 : vec T) : vec T := vnormalize (tri_cross p1 p2 p3).
(* the two ways to set up the local frame, mesh.cpp:255-278; result (xi,eta) *)
Definition frame_xz (n : vec T) : vec T * vec T :=
  let xi := vnormalize (vcross (V (nZ 0) (nZ 1) (nZ 0)) n) in
  (xi, vnormalize (vcross n xi)).
Definition frame_yz (n : vec T) : vec T * vec T :=
  let eta := vnormalize (vcross n (V (nZ 1) (nZ 0) (nZ 0))) in
  (vnormalize (vcross eta n), eta).
Definition tri_points (s : mesh) (t : Z * Z * Z) : res (vec T * vec T * vec T) :=
  let '(i1, i2, i3) := t in
  p1 <- zget (msPts s) i1;; p2 <- zget (msPts s) i2;; p3 <- zget (msPts s) i3;; Ok (p1, p2, p3).
(* area, normal and frame of all cells; the sums of the areas and of the normals *)
Record cellgeo : Type := CG { cgArea : T; cgNormal : vec T; cgXi : vec T; cgEta : vec T }.
Definition mesh_init (s : mesh) : res (T * list cellgeo) :=
  ps <- map_res (fun i => t <- zget (msTri s) i;; tri_points s t) (zseq 0 (length (msX s)));;
  let an := map (fun p => let '(p1, p2, p3) := p in (tri_area p1 p2 p3, tri_normal p1 p2 p3)) ps in
  let total := fold_left (fun a c => a + fst c) an (nZ 0) in
  let avg := vnormalize (fold_left (fun a c => vadd a (snd c)) an vzero) in
  let frame := if vy avg <? nZ 7 / nZ 10 then frame_xz else frame_yz in
  Ok (total, map (fun c => CG (fst c) (snd c) (fst (frame (snd c))) (snd (frame (snd c)))) an).
(* totalEnergy, mesh.cpp:745-754 *)
Definition mesh_energy (s : mesh) (g : list cellgeo) : res T :=
  fold_res (fun total i =>
    tr <- zget (msA s) i;; c <- zget g i;;
    Ok (total - cgArea c * vdot (tr_poynting tr) (cgNormal c))) (zseq 0 (length (msX s))) (nZ 0).
(* get_Neighbourhood, mesh.cpp:757-781: the indices written to the buffer of the caller *)
Definition tri_common (a b : Z * Z * Z) : bool :=
  let '(i1, i2, i3) := a in let '(t1, t2, t3) := b in
  ((t1 =? i1) || (t1 =? i2) || (t1 =? i3) || (t2 =? i1) || (t2 =? i2) || (t2 =? i3) ||
   (t3 =? i1) || (t3 =? i2) || (t3 =? i3))%Z.
Definition mesh_neighbours (s : mesh) (index : Z) : res (list Z) :=
  a <- zget (msTri s) index;;
  fold_res (fun out i => b <- zget (msTri s) i;; Ok (if tri_common a b then out ++ [i] else out))
           (zseq 0 (length (msX s))) [].

(* ---- the frame of a screen used as source, source_screen.cpp:112-125 ---- *)
(* result: normal, ex, ey, dX, dY *)
Definition source_frame (n dX dY : vec T) : vec T * vec T * vec T * vec T * vec T :=
  let n := vnormalize n in
  let dx := vnorm dX in
  let dX := vsub dX (vmul n (vdot dX n)) in
  let ex := vnormalize dX in
  let dX := vmul ex dx in
  let dy := vnorm dY in
  let dY := vsub dY (vmul n (vdot dY n)) in
  let dY := vsub dY (vmul dX (vdot dY dX)) in
  let ey := vnormalize dY in
  (n, ex, ey, dX, vmul ey dy).
End Observer.
Arguments screen T : clear implicits.
Arguments snapshot T : clear implicits.
Arguments point T : clear implicits.
Arguments mesh T : clear implicits.
Arguments observer T : clear implicits.
Arguments source T : clear implicits.
