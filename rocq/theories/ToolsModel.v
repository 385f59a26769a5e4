(* Model of the programs propagate and reflection as a whole, /repo/src/propagate.cpp:54-468 and
   /repo/src/reflection.cpp:55-587: from the command line and the files to the file written and
   the numbers reported.  The work on one cell is that of PropagateModel.v, the files are those
   of OutputModel.v.
   Simplifications:
   - the file system gives the content of the HDF5 files by name; writing replaces the file and
     succeeds;
   - the threads of a parallel loop work on the cells in some order, given by a parameter; each
     turn of the loop is done as a whole.  (Every turn writes to its own cell only; the counters
     for the progress report are not modelled);
   - an exception is not caught by the programs (except those of PropagateModel.prop_term): the
     outcome is Throw;
   - not modelled: the texts, units and formats of the output, the average vectors and the
     extrema of the start times which are printed, timing, the clean-up at the end. *)
From Coq Require Import ZArith String List Bool.
From Verif Require Import Base Num VecModel ParticleModel TraceModel BunchModel ObserverModel SddsModel PropagateModel OutputModel.
Import ListNotations.
Local Open Scope num_scope.
Local Open Scope res_scope.

Section Tools.
Context {T : Type} {NT : Num T}.
Notation meshT := (mesh T).
Notation geo := (cellgeo (T:=T)).
Notation fsys := (string -> option (h5file T)).

(* ---- the numbers reported ---- *)
(* MeshedScreen::writeReport, mesh.cpp:783-818: the cell with the highest energy density, with the
   length of its Poynting vector and this vector *)
Definition mesh_peak (s : meshT) : res (Z * T * vec T) :=
  fold_res (fun best ip =>
    tr <- zget (msA s) ip;;
    let p := tr_poynting tr in
    Ok (if snd (fst best) <? vnorm p then (ip, vnorm p, p) else best))
    (zseq 0 (length (msX s))) ((-1)%Z, nZ 0, vzero).
(* area, energy and (if there is one) index, position, energy density, Poynting vector and start
   time of the cell with the peak *)
Record report : Type := RP { rpArea : T; rpEnergy : T; rpPeak : option (Z * vec T * T * vec T * T) }.
Definition mesh_report (s : meshT) (init : T * list geo) : res report :=
  e <- mesh_energy s (snd init);;
  '(ip, peak, sp) <- mesh_peak s;;
  if (0 <=? ip)%Z then
    p <- zget (msX s) ip;; tr <- zget (msA s) ip;;
    Ok (RP (fst init) e (Some (ip, p, peak, sp, tr_t0 tr)))
  else Ok (RP (fst init) e None).

(* MeshedScreen::get_dt returns int, mesh.h:127 *)
Definition mesh_get_dt (dt : T) : res Z :=
  to_int (if nleb (nZ 0) dt then nfloor dt else option_map Z.opp (nfloor (- dt))).
(* the bounding box, reflection.cpp:96-127 and 395-423: intervals of x, y, z and t *)
Definition big : T := nZ 1000000000000000 * nZ 1000000000000000.
Definition widen (b : T * T) (lo hi : T) : T * T :=
  ((if lo <? fst b then lo else fst b), (if snd b <? hi then hi else snd b)).
Notation box := (T * T * (T * T) * (T * T) * (T * T))%type.
Definition mesh_box (s : meshT) (dt : T) : res box :=
  let b0 := (big, - big) in
  fold_res (fun b ip =>
    let '(bx, by_, bz, bt) := b in
    p <- zget (msX s) ip;;
    tr <- zget (msA s) ip;;
    d <- mesh_get_dt dt;;
    n <- imul (msNt s) d;;
    let tmax := tr_t0 tr + nZ n in
    Ok (widen bx (vx p) (vx p), widen by_ (vy p) (vy p), widen bz (vz p) (vz p), widen bt (tr_t0 tr) tmax))
    (zseq 0 (length (msX s))) (b0, b0, b0, b0).

(* ---- parallel loops ---- *)
(* sched n: the order in which the cells 0..n-1 are worked on *)
Variable sched : nat -> list Z.
(* every turn replaces the element of its own index *)
Definition par_loop {A} (n : nat) (turn : Z -> A -> res A) (l : list A) : res (list A) :=
  fold_res (fun l i => x <- zget l i;; y <- turn i x;; zset l i y) (sched n) l.

Section Solve.
Variable solve : list (list T) -> list T -> list T.
(* ---- the source, propagate.cpp:108-275 and reflection.cpp:186-356 ---- *)
(* time derivatives, normal derivatives (copies of the traces which are overwritten), and
   the list of the source cells *)
Definition source_cells (s : meshT) (g : list geo) : res (list (srccell T)) :=
  dts <- map_res (fun ip => tr <- zget (msA s) ip;; tr_derivative tr) (zseq 0 (length (msX s)));;
  dns <- par_loop (length (msX s)) (fun i _ => d <- zget dts i;; cell_dn solve s g d i) (msA s);;
  map_res (fun i =>
    p <- zget (msX s) i;; c <- zget g i;; a <- zget (msA s) i;; at_ <- zget dts i;; an <- zget dns i;;
    Ok (SRC p (cgArea c) (cgNormal c) a at_ an)) (zseq 0 (length (msX s))).
(* ---- the target, propagate.cpp:353-452 and reflection.cpp:465-571 ---- *)
Definition target_fields (srcs : list (srccell T)) (s : meshT) : res meshT :=
  A <- par_loop (length (msX s)) (fun i tr => pos <- zget (msX s) i;; out <- prop_cell srcs pos tr;; tr_assign tr out) (msA s);;
  Ok (mesh_with s A).

(* the file system with one file replaced *)
Definition put (fs : fsys) (fn : string) (f : h5file T) : fsys :=
  fun n => if String.eqb n fn then Some f else fs n.
(* what both programs do with the target: reports before and after, bounding box (reflection
   only), file.  propagate.cpp:300-459 and reflection.cpp:382-578 *)
Definition to_target (boxed : bool) (fs : fsys) (srcs : list (srccell T)) (infile outfile : string)
  : res (list report * list box * fsys) :=
  '(tgt, dt) <- mesh_open fs infile;;
  init <- mesh_init tgt;;
  let tgt := mesh_zero tgt in
  r1 <- mesh_report tgt init;;
  bs <- (if boxed then b <- mesh_box tgt dt;; Ok [b] else Ok []);;
  tgt' <- target_fields srcs tgt;;
  r2 <- mesh_report tgt' init;;
  f <- mesh_file tgt' dt;;
  Ok ([r1; r2], bs, put fs outfile f).

(* argv[k] as std::string.  argv[argc] is a null pointer, from which a string must not be
   constructed; elements behind it do not exist *)
Definition arg (argv : list string) (k : Z) : res string := zget argv k.

(* exit code, files afterwards, reports and boxes *)
Definition result : Type := (Z * fsys * list report * list box)%type.
(* main, propagate.cpp:54-468 *)
Definition propagate_main (fs : fsys) (argv : list string) : res result :=
  if (Z.of_nat (length argv) <? 3)%Z then Ok (1%Z, fs, [], []) else
  sourcefile <- arg argv 1;; infile <- arg argv 2;; outfile <- arg argv 3;;
  '(src, _) <- mesh_open fs sourcefile;;
  init <- mesh_init src;;
  r0 <- mesh_report src init;;
  srcs <- source_cells src (snd init);;
  '(rs, _, fs') <- to_target false fs srcs infile outfile;;
  Ok (0%Z, fs', r0 :: rs, []).
(* main, reflection.cpp:55-587 *)
Definition reflection_main (fs : fsys) (argv : list string) : res result :=
  if (Z.of_nat (length argv) <? 4)%Z then Ok (1%Z, fs, [], []) else
  sourcefile <- arg argv 1;; infile <- arg argv 2;; outfile <- arg argv 3;;
  '(src, dt) <- mesh_open fs sourcefile;;
  init <- mesh_init src;;
  r0 <- mesh_report src init;;
  b0 <- mesh_box src dt;;
  src' <- reflect_mesh src (snd init);;
  srcs <- source_cells src' (snd init);;
  '(rs, bs, fs') <- to_target true fs srcs infile outfile;;
  Ok (0%Z, fs', r0 :: rs, b0 :: bs).
End Solve.
End Tools.
