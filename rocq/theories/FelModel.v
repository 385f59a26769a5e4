(* Model of the one-dimensional FEL interaction, /repo/src/fel1d.h and /repo/src/fel1d.cpp.
   Not modelled: printing (the message on a late beam, line 233, also asks for the first bunch,
   which has to exist), the HDF5 calls other than the data handed to them, the reading
   of the values from the XML node (missing nodes are refused with exceptions before
   anything is computed), failing memory allocation other than for a negative size.
   pow(x,2) is modelled as x*x. *)
From Coq Require Import ZArith List Bool.
From Verif Require Import Base Num VecModel ParticleModel BunchModel ElementModel DriverModel.
Import ListNotations.
Local Open Scope res_scope.
Local Open Scope num_scope.

Section Fel.
Context {T : Type} {NT : Num T} {TT : Trans T}.

(* the members, fel1d.h:149-218.  feEvery is step_Output, None as long as it is
   indeterminate *)
Record fel : Type := FEL {
  feN : Z; feDt : T; feTime : T; feNst : Z; feDz : vec T; feHead : vec T; feOrig : vec T; feProp : vec T; feDs : T;
  feEx : vec T; feEy : vec T; feZR : T; feW0 : T; feZw : T;
  feE : list T; fePrev : list T; feSt : list (list T); feJst : list (list T); feOut : bool; feEvery : option Z
}.

(* std::vector<double>(n, 0.0); a negative int becomes a size which is refused by
   std::length_error *)
Definition zeros (n : Z) : res (list T) := if (n <? 0)%Z then Throw STDexc else Ok (repeat (nZ 0) (Z.to_nat n)).

(* setup, fel1d.cpp:138-169 *)
Definition fel_setup (f : fel) (zR w0 zw : T) : res fel :=
  z <- zeros (feN f);;
  Ok (FEL (feN f) (feDt f) (nZ 0) 0 (vmul (feProp f) (- (feDt f) * nc)) (feHead f) (feOrig f) (feProp f) (feDs f)
          (feEx f) (feEy f) zR w0 zw z z [z] [z] (feOut f) (feEvery f)).

(* seed, fel1d.cpp:171-194 *)
Definition seed_value (f : fel) (E0 lambda tau tstart : T) (i : Z) : T :=
  let omega := nZ 2 * nPi * nc / lambda in
  let t := nZ i * feDt f - tstart in
  let u := t / tau in
  E0 * ncos (omega * t) * nexp (- nhalf * (u * u)).
Definition fel_seed (f : fel) (E0 lambda tau tstart : T) : res fel :=
  E <- fold_res (fun E i => zset E i (seed_value f E0 lambda tau tstart i)) (zseq 0 (Z.to_nat (feN f))) (feE f);;
  z <- zeros (feN f);;
  Ok (FEL (feN f) (feDt f) (feTime f) 0 (feDz f) (feHead f) (feOrig f) (feProp f) (feDs f)
          (feEx f) (feEy f) (feZR f) (feW0 f) (feZw f) E E [E] [z] (feOut f) (feEvery f)).

(* the default constructor, fel1d.cpp:29-48.  e_x is assigned twice, e_y keeps the value zero
   of the default constructed vector (vector.cpp:26-31) *)
Definition fel_default (dt : T) (N : Z) : res fel :=
  fel_setup (FEL N dt (nZ 0) 0 vzero vzero vzero (V (nZ 0) (nZ 0) (nZ 1)) (dt * nc)
                 (V (nZ 0) (nZ 1) (nZ 0)) vzero (nZ 0) (nZ 0) (nZ 0) [] [] [] [] false (Some 1%Z))
            (nZ 1) (nZ 1 / nZ 1000) (nZ 1).
(* the constructor from an XML node, fel1d.cpp:50-136, with the values found there.
   log: the step attribute of the <log> element, if there is one (default 1) *)
Definition fel_new (dt : T) (N : Z) (pos prop pol : vec T) (log : option Z) (zR w0 zw : T)
    (sd : option (T * T * T * T)) : res fel :=
  let prop := vnormalize prop in
  let ex := vnormalize (vsub pol (vmul prop (vdot pol prop))) in
  let ey := vcross prop ex in
  let out := match log with Some _ => true | None => false end in
  f <- fel_setup (FEL N dt (nZ 0) 0 vzero pos pos prop (dt * nc) ex ey (nZ 0) (nZ 0) (nZ 0) [] [] [] [] out log) zR w0 zw;;
  match sd with
  | Some (E0, lambda, tau, tstart) => fel_seed f E0 lambda tau tstart
  | None => Ok f
  end.

(* the new field, fel1d.cpp:202-214 and 290-302.  J: the term dt*dt*J_x[i], absent in init *)
Definition next_field (f : fel) (J : option (list T)) : res (list T) :=
  next <- zeros (feN f);;
  e0 <- zget (feE f) 0;;
  next <- zset next 1 e0;;
  fold_res (fun next i =>
    a <- zget (feE f) (i - 1);; b <- zget (feE f) (i + 1);; p <- zget (fePrev f) (i - 1);;
    match J with
    | None => zset next (i + 1) (a + b - p)
    | Some J => j <- zget J i;; zset next (i + 1) (a + b - p + feDt f * feDt f * j)
    end) (zseq 1 (Z.to_nat (feN f - 2))) next.

(* init, fel1d.cpp:196-221 *)
Definition fel_init (bm : beam T) (f : fel) : res fel :=
  if nZ 1 / nZ 1000000000 <? nabs (bmdt bm - feDt f) / feDt f then Throw IOexc else
  next <- next_field f None;;
  n <- iadd (feNst f) 1;;
  Ok (FEL (feN f) (feDt f) (feTime f + feDt f) n (feDz f) (vadd (feHead f) (vmul (feProp f) (feDs f))) (feOrig f) (feProp f) (feDs f)
          (feEx f) (feEy f) (feZR f) (feW0 f) (feZw f) next (feE f) (feSt f) (feJst f) (feOut f) (feEvery f)).

(* the time checks, fel1d.cpp:227,258 and 331 *)
Definition quarter : T := nZ 1 / nZ 4.
Definition beam_late (f : fel) (nots : Z) : bool := quarter * feDt f <? nabs (nZ nots * feDt f - feTime f).
Definition time_off (f : fel) (t : T) : bool := quarter * feDt f <? nabs (t - feTime f).

(* area of the optical mode, fel1d.cpp:238-240 *)
Definition mode_area (f : fel) : T :=
  let u := (nZ (feNst f) * feDs f - feZw f) / feZR f in
  let w := feW0 f * nsqrt (nZ 1 + u * u) in
  nhalf * nPi * w * w.

(* the contribution of a particle to the current, fel1d.cpp:251-287, the time having been
   checked *)
Definition deposit_at (f : fel) (J : list T) (p : particle T) : res (list T) :=
  let dz := vdot (vsub (feHead f) (pX p)) (feProp f) in
  if (dz <? nZ 0) || (nZ (feN f) * feDs f <? dz) then Throw IOexc else
  let gamma := nsqrt (vabs2 (pP p) + nZ 1) in
  let bp := vdiv (pA p) gamma in
  let jx := vdot bp (feEx f) * getCharge p / mode_area f / feDt f * nmu0 * nc * nc in
  center <- to_int (nrint (dz / feDs f));;
  start <- iadd center (-10);;
  let start := if (start <? 0)%Z then 0%Z else start in
  stop <- iadd center 11;;
  let stop := if (feN f <? stop)%Z then feN f else stop in
  let s2 := nZ 2 * feDs f in
  let two_sigma := nZ 2 * (s2 * s2) in
  let norm := nZ 2 * nsqrt (nZ 2 * nPi) in
  fold_res (fun J i =>
    v <- zget J i;;
    let d := dz - nZ i * feDs f in
    zset J i (v + jx * nexp (- (d * d) / two_sigma) / norm))
    (zseq start (Z.to_nat (stop - start))) J.
Definition deposit (f : fel) (J : list T) (p : particle T) : res (list T) :=
  if time_off f (pt p) then Throw IOexc else deposit_at f J p.

(* the correction of the current field, fel1d.cpp:305-306 *)
Definition corrected (f : fel) (J : list T) : res (list T) :=
  fold_res (fun E i => v <- zget E i;; j <- zget J i;; zset E i (v + feDt f * feDt f * j))
    (zseq 1 (Z.to_nat (feN f - 2))) (feE f).
(* 0 == N_steps % step_Output, fel1d.cpp:321 *)
Definition record_due (n : Z) (every : option Z) : res bool :=
  match every with
  | None => UB
  | Some s => if (s =? 0)%Z then UB else Ok (Z.rem n s =? 0)%Z
  end.
(* the part of step after the current has been computed, fel1d.cpp:289-326 *)
Definition fel_advance (J : list T) (f : fel) : res fel :=
  next <- next_field f (Some J);;
  E' <- corrected f J;;
  n <- iadd (feNst f) 1;;
  due <- record_due n (feEvery f);;
  Ok (FEL (feN f) (feDt f) (feTime f + feDt f) n (feDz f) (vadd (feHead f) (vmul (feProp f) (feDs f))) (feOrig f) (feProp f) (feDs f)
          (feEx f) (feEy f) (feZR f) (feW0 f) (feZw f) next E'
          (if due then feSt f ++ [next] else feSt f) (if due then feJst f ++ [J] else feJst f) (feOut f) (feEvery f)).
(* step, fel1d.cpp:223-327 *)
Definition fel_step (bm : beam T) (f : fel) : res fel :=
  if beam_late f (bmNOTS bm) then Throw IOexc else
  z <- zeros (feN f);;
  J <- fold_res (deposit f) (concat (bmB bm)) z;;
  fel_advance J f.

(* Field, fel1d.cpp:329-357 *)
Definition fel_field_at (f : fel) (X : vec T) : res (emf T) :=
  let dz := vdot (vsub (feHead f) X) (feProp f) in
  index <- to_int (nrint (dz / feDs f));;
  if ((index <? 0) || (feN f <=? index))%Z then Throw IOexc else
  e <- zget (feE f) index;;
  Ok (EB (vmul (feEx f) e) (vdiv (vmul (feEy f) e) nc)).
Definition fel_field (f : fel) (t : T) (X : vec T) : res (emf T) :=
  if time_off f t then Throw IOexc else fel_field_at f X.

(* write_output, fel1d.cpp:359-498: the number of stored fields, the number of cells, and
   the two tables of values; int N_steps = field_storage.size(), the buffer has
   N_field*N_steps elements (int) *)
Definition fel_table (f : fel) (n size : Z) (st : list (list T)) : res (list T) :=
  vals <- map_res (fun ix => l <- zget st ix;; map_res (zget l) (zseq 0 (Z.to_nat (feN f)))) (zseq 0 (Z.to_nat n));;
  b <- buf_write (concat vals) (buf_new size);;
  buf_read (Z.to_nat (n * feN f)) b.
Definition fel_output (f : fel) : res (option (Z * Z * list T * list T)) :=
  if feOut f then
    let n := i32 (Z.of_nat (length (feSt f))) in
    size <- imul (feN f) n;;
    e <- fel_table f n size (feSt f);;
    j <- fel_table f n size (feJst f);;
    Ok (Some (n, feN f, e, j))
  else Ok None.

(* ---- the lattice with the interactions ---- *)
(* the external elements are followed by the interactions, teufel_hybrid.cpp:239; they are
   initialized and advanced one after the other, lines 498 and 581 *)
Definition lattice_T : Type := (list (element T) * list fel)%type.
Definition full_field (l : lattice_T) : field_fn T := fun t X =>
  ext <- lat_field (fst l) t X;;
  fold_res (fun tot f => e <- fel_field f t X;; Ok (eadd tot e)) (snd l) ext.
Definition inter_init (bm : beam T) (l : lattice_T) : res lattice_T :=
  fs <- map_res (fel_init bm) (snd l);; Ok (fst l, fs).
Definition inter_step (bm : beam T) (l : lattice_T) : res lattice_T :=
  fs <- map_res (fel_step bm) (snd l);; Ok (fst l, fs).
End Fel.
Arguments fel : clear implicits.
Arguments lattice_T : clear implicits.
