(* Model of the programs /repo/src/reflection.cpp and propagate.cpp, and of the field of a
   recorded screen, /repo/src/source_screen.cpp.
   The whole programs, with their files and the order in which the threads work on the cells,
   are in ToolsModel.v. Not modelled: printing and timing; the singular value
   decomposition of the Eigen library, which is a parameter "solve" of the model. *)
From Coq Require Import ZArith List Bool.
From Verif Require Import Base Num VecModel ParticleModel TraceModel BunchModel ObserverModel.
Import ListNotations.
Local Open Scope num_scope.
Local Open Scope res_scope.

Section Propagate.
Context {T : Type} {NT : Num T}.
Notation trT := (ftrace T).
Notation vecT := (vec T).

(* ---- reflection at a metal surface, reflection.cpp:149-169 ---- *)
(* one field, with the normalized normal *)
Definition reflect_field (n : vecT) (f : emf T) : emf T :=
  let E := fE f in
  let En := vmul n (vdot E n) in
  let Et := vsub E En in
  let B := fB f in
  let Bn := vmul n (vdot B n) in
  let Bt := vsub B Bn in
  EB (vsub En Et) (vsub Bt Bn).
(* one trace; get_field and set_field have indices below the number of samples *)
Definition reflect_trace (normal : vecT) (tr : trT) : trT :=
  let n := vnormalize normal in
  FT (tr_t0 tr) (tr_dt tr) (map (reflect_field n) (tr_f tr)).
(* all cells *)
Definition reflect_mesh (s : mesh T) (g : list (cellgeo (T:=T))) : res (mesh T) :=
  l <- map_res (fun i => tr <- zget (msA s) i;; c <- zget g i;; Ok (reflect_trace (cgNormal c) tr))
               (zseq 0 (length (msX s)));;
  Ok (MS (msPts s) (msTri s) (msX s) (msNt s) l).

(* ---- the normal derivatives, propagate.cpp:159-268 and reflection.cpp:239-349 ---- *)
(* Maxwell's equations in the local frame, propagate.cpp:254-259: derivatives of the local
   components along xi, along eta and by time *)
Definition normal_derivative (gx gy gt : emf T) : emf T :=
  let cSquared := nc * nc in
  let dz_Ex := vz (fE gx) - vy (fB gt) in
  let dz_Ey := vz (fE gy) + vx (fB gt) in
  let dz_Ez := - vx (fE gx) - vy (fE gy) in
  let dz_Bx := vz (fB gx) + vy (fE gt) / cSquared in
  let dz_By := vz (fB gy) - vx (fE gt) / cSquared in
  let dz_Bz := - vx (fB gx) - vy (fB gy) in
  EB (V dz_Ex dz_Ey dz_Ez) (V dz_Bx dz_By dz_Bz).
(* back to global coordinates, propagate.cpp:263-265 *)
Definition from_local (xi eta n : vecT) (f : emf T) : emf T :=
  let b v := vadd (vadd (vmul xi (vx v)) (vmul eta (vy v))) (vmul n (vz v)) in
  EB (b (fE f)) (b (fB f)).

Section Fit.
(* A.bdcSvd(...).solve(b): the least-squares solution of A x = b *)
Variable solve : list (list T) -> list T -> list T.
(* one row of the matrix A, propagate.cpp:171-190 *)
Definition fit_row (c : vecT) : list T :=
  [nZ 1; vx c; vy c; vx c * vx c; vy c * vy c; vx c * vy c].
(* fit(1) and fit(2) of one component *)
Definition fit1 (A : list (list T)) (b : list T) (k : Z) : res T := zget (solve A b) k.
(* derivatives of all components along xi (k=1) and eta (k=2) from the fields of the
   neighbours; not all of them are used by the code *)
Definition fit_fields (A : list (list T)) (fs : list (emf T)) (k : Z) : res (emf T) :=
  ex <- fit1 A (map (fun f => vx (fE f)) fs) k;;
  ey <- fit1 A (map (fun f => vy (fE f)) fs) k;;
  ez <- fit1 A (map (fun f => vz (fE f)) fs) k;;
  bx <- fit1 A (map (fun f => vx (fB f)) fs) k;;
  by_ <- fit1 A (map (fun f => vy (fB f)) fs) k;;
  bz <- fit1 A (map (fun f => vz (fB f)) fs) k;;
  Ok (EB (V ex ey ez) (V bx by_ bz)).
(* the trace of normal derivatives of one cell, propagate.cpp:159-268; dA_dt is the trace of
   time derivatives of the cell.  The buffers for the neighbours have 24 places *)
Definition cell_dn (s : mesh T) (g : list (cellgeo (T:=T))) (dA_dt : trT) (index : Z) : res trT :=
  nbh <- mesh_neighbours s index;;
  if (24 <? Z.of_nat (length nbh))%Z then UB else
  ref <- zget (msX s) index;;
  c <- zget g index;;
  let loc v := vtransform v (cgXi c) (cgEta c) (cgNormal c) in
  A <- map_res (fun i => p <- zget (msX s) i;; Ok (fit_row (loc (vsub p ref)))) nbh;;
  tr <- zget (msA s) index;;
  trs <- map_res (fun i => t <- zget (msA s) i;; Ok (tr_transform t (cgXi c) (cgEta c) (cgNormal c))) nbh;;
  let ldt := tr_transform dA_dt (cgXi c) (cgEta c) (cgNormal c) in
  fold_res (fun out it =>
    t <- tr_time tr it;;
    fs <- map_res (fun nt => tr_at nt t) trs;;
    gx <- fit_fields A fs 1;; gy <- fit_fields A fs 2;;
    gt <- tr_get ldt it;;
    tr_set out it (from_local (cgXi c) (cgEta c) (cgNormal c) (normal_derivative gx gy gt)))
    (zseq 0 (Z.to_nat (msNt s))) tr.
End Fit.

(* ---- propagation to a target cell, propagate.cpp:369-421 and reflection.cpp:482-539 ---- *)
(* one source cell: position, area, normal and the traces of the fields, their time and
   their normal derivatives *)
Record srccell : Type := SRC {
  srcX : vecT; srcArea : T; srcN : vecT; srcA : trT; srcAt : trT; srcAn : trT }.
(* one of the three terms: an IOexception is caught and the term is left out.  retard
   overwrites all samples of "component", which has the sampling of the target *)
Definition prop_term (target : trT) (tr : trT) (delay w dA : T) (acc : trT) : res trT :=
  match tr_retard tr delay target with
  | Ok comp => match tr_add acc (tr_mul (tr_mul comp w) dA) with
               | Throw IOexc => Ok acc
               | r => r
               end
  | Throw IOexc => Ok acc
  | r => r
  end.
Definition prop_source (target : trT) (pos : vecT) (acc : trT) (c : srccell) : res trT :=
  let dA := srcArea c / (nZ 4 * nPi) in
  let RVec := vsub pos (srcX c) in
  let R := vnorm RVec in
  let R2 := R * R in
  let R3 := R2 * R in
  let delay := R / nc in
  a <- prop_term target (srcA c) delay (- vdot RVec (srcN c) / R3) dA acc;;
  a <- prop_term target (srcAt c) delay (- vdot RVec (srcN c) / (R2 * nc)) dA a;;
  prop_term target (srcAn c) delay (nZ 1 / R) dA a.
Definition prop_cell (srcs : list srccell) (pos : vecT) (target : trT) : res trT :=
  let zero := tr_zero target in
  fold_res (prop_source zero pos) srcs zero.

(* ---- the field of a recorded screen, source_screen.cpp ---- *)
Record sscreen : Type := SS {
  ssNx : Z; ssNy : Z; ssdX : vecT; ssdY : vecT; ssdx : T; ssdy : T; ssN : vecT;
  ssTr : list (list trT); ssDt : list (list trT) }.
(* CellPosition, source_screen.cpp:238-243 *)
Definition ss_pos (s : sscreen) (ix iy : Z) : res vecT :=
  kx <- centred ix (ssNx s);; ky <- centred iy (ssNy s);;
  Ok (vadd (vmul (ssdX s) (nZ kx)) (vmul (ssdY s) (nZ ky))).
(* the part of the constructor working on the data of one cell, source_screen.cpp:178-190
   and 209: the trace of the file, its start time replaced by the local one *)
Definition ss_cell (ex ey n : vecT) (t0 dt : T) (fs : list (emf T)) : trT :=
  tr_cancel (tr_transform (FT t0 dt fs) ex ey n) (V (nZ 0) (nZ 0) (nZ 1)).
(* the constructor from the contents of the file, source_screen.cpp:107-212 *)
Definition ss_new (n dX dY : vecT) (nx ny : Z) (dt dtx dty : T) (fs : list (list (list (emf T))))
  : res sscreen :=
  let '(n', ex, ey, dX', dY') := source_frame n dX dY in
  trs <- map_res (fun ix => map_res (fun iy =>
           kx <- centred ix nx;; ky <- centred iy ny;;
           f <- cell_get fs ix iy;;
           Ok (ss_cell ex ey n' (dtx * nZ kx + dty * nZ ky) dt f))
         (zseq 0 (Z.to_nat ny))) (zseq 0 (Z.to_nat nx));;
  dts <- map_res (map_res tr_derivative) trs;;
  Ok (SS nx ny dX' dY' (vnorm dX) (vnorm dY) n' trs dts).
(* the contribution of one cell, source_screen.cpp:259-273 *)
Definition ss_term (X pos n : vecT) (t : T) (tr dtr : trT) : res (option (emf T)) :=
  let RVec := vsub X pos in
  let R := vnorm RVec in
  let st := t - R / nc in
  last <- tr_last_time tr;;
  if (tr_t0 tr <=? st) && (st <=? last) then
    let R2 := R * R in
    let R3 := R2 * R in
    f <- tr_at tr st;;
    d <- tr_at dtr st;;
    Ok (Some (eadd (emul f (- vdot RVec n / R3))
                   (ediv (emul d (nZ 1 - vdot RVec n / R)) (R * nc))))
  else Ok None.
(* LocalField, source_screen.cpp:252-276 *)
Definition ss_local (s : sscreen) (t : T) (X : vecT) : res (emf T) :=
  tot <- fold_res (fun tot p =>
           pos <- ss_pos s (fst p) (snd p);;
           tr <- cell_get (ssTr s) (fst p) (snd p);;
           dtr <- cell_get (ssDt s) (fst p) (snd p);;
           o <- ss_term X pos (ssN s) t tr dtr;;
           Ok (match o with Some f => eadd tot f | None => tot end))
         (pairs (ssNx s) (ssNy s)) ezero;;
  Ok (ediv (emul (emul tot (ssdx s)) (ssdy s)) (nZ 4 * nPi)).
(* totalEnergy, source_screen.cpp:278-288 *)
Definition ss_energy (s : sscreen) : res T :=
  fold_res (fun total p =>
    tr <- cell_get (ssTr s) (fst p) (snd p);;
    Ok (total - vdot (tr_poynting tr) (ssN s) * vnorm (ssdX s) * vnorm (ssdY s)))
    (pairs (ssNx s) (ssNy s)) (nZ 0).
End Propagate.
Arguments srccell : clear implicits.
Arguments sscreen : clear implicits.
