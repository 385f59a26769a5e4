(* Model of classes Distribution and Bunch, /repo/src/bunch.h and bunch.cpp, and
   of class Beam, /repo/src/beam.h and beam.cpp.

   Simplifications:
   - the containers own their elements (bunch.h, beam.h), therefore a bunch is a list of
     particles and a beam a list of bunches; sharing of one object between two
     containers is not modelled; NOP and NOB are the lengths of the lists (every
     constructor and Add keep them equal);
   - file input and output is not modelled here. *)
From Coq Require Import ZArith List Bool.
From Verif Require Import Base Num VecModel ParticleModel TraceModel RetardModel.
Import ListNotations.
Local Open Scope num_scope.
Local Open Scope res_scope.

(* class Distribution: DIM, NOP and the array A of DIM*NOP numbers *)
Record dist (T : Type) : Type := DI { dDIM : Z; dNOP : Z; dA : list T }.
Arguments DI {T} _ _ _. Arguments dDIM {T} _. Arguments dNOP {T} _. Arguments dA {T} _.

Section Distribution.
Context {T : Type} {NT : Num T}.
Notation distT := (dist T).

(* product of two ints; overflow is undefined *)
Definition imul (a b : Z) : res Z := to_int (Some (a * b)%Z).
Definition iadd (a b : Z) : res Z := to_int (Some (a + b)%Z).

(* constructor, bunch.cpp:34-46; rnd is the stream of random numbers.
   new double[n] with negative n throws std::bad_array_new_length. *)
Definition dist_new (dim nop : Z) (rnd : nat -> T) : res distT :=
  n <- imul dim nop;;
  if (n <? 0)%Z then Throw STDexc
  else Ok (DI dim nop (map rnd (seq 0 (Z.to_nat n)))).

(* the condition dim>=0 && dim<DIM *)
Definition d_dim_ok (d : distT) (dim : Z) : bool := ((0 <=? dim) && (dim <? dDIM d))%Z.
Definition d_idx_ok (d : distT) (i : Z) : bool := ((0 <=? i) && (i <? dNOP d))%Z.

(* the expression A[i*DIM+dim], read and write *)
Definition d_get (d : distT) (i dim : Z) : res T :=
  o <- imul i (dDIM d);; k <- iadd o dim;; zget (dA d) k.
Definition d_put (d : distT) (i dim : Z) (v : T) : res distT :=
  o <- imul i (dDIM d);; k <- iadd o dim;;
  a <- zset (dA d) k v;; Ok (DI (dDIM d) (dNOP d) a).

(* scale, bunch.cpp:63-70 *)
Definition d_scale (dim : Z) (factor : T) (d : distT) : res distT :=
  if d_dim_ok d dim then
    fold_res (fun d i => v <- d_get d i dim;; d_put d i dim (v * factor))
             (zseq 0 (Z.to_nat (dNOP d))) d
  else Ok d.

(* generateGaussian, bunch.cpp:72-84; rnd is the stream of normally distributed numbers *)
Definition d_gaussian (dim : Z) (rnd : Z -> T) (d : distT) : res distT :=
  if d_dim_ok d dim then
    fold_res (fun d i => d_put d i dim (rnd i)) (zseq 0 (Z.to_nat (dNOP d))) d
  else Ok d.

(* addCorrelation, bunch.cpp:86-94 *)
Definition d_correlate (ind dep : Z) (factor : T) (d : distT) : res distT :=
  if d_dim_ok d ind && d_dim_ok d dep && negb (dep =? ind)%Z then
    fold_res (fun d i => v <- d_get d i dep;; u <- d_get d i ind;;
                         d_put d i dep (v + factor * u))
             (zseq 0 (Z.to_nat (dNOP d))) d
  else Ok d.

(* getCoordinate, bunch.cpp:96-102 *)
Definition d_coordinate (d : distT) (index dim : Z) : res T :=
  if d_dim_ok d dim && d_idx_ok d index then d_get d index dim else Ok (nZ 0).

(* setCoordinate, bunch.cpp:104-108 *)
Definition d_setCoordinate (index dim : Z) (v : T) (d : distT) : res distT :=
  if d_dim_ok d dim && d_idx_ok d index then d_put d index dim v else Ok d.

(* bufferData, bunch.cpp:110-120: the values written *)
Definition d_bufferData (d : distT) (bufsize : Z) : res (list T) :=
  n <- imul (dDIM d) (dNOP d);;
  if (bufsize =? n)%Z then Ok (firstn (Z.to_nat bufsize) (dA d)) else Throw IOexc.

(* fromBuffer, bunch.cpp:122-132; a buffer shorter than announced is undefined *)
Definition d_fromBuffer (buf : list T) (bufsize : Z) (d : distT) : res distT :=
  n <- imul (dDIM d) (dNOP d);;
  if (bufsize =? n)%Z then
    if (Z.of_nat (length buf) <? bufsize)%Z then UB
    else Ok (DI (dDIM d) (dNOP d)
               (firstn (Z.to_nat bufsize) buf ++ skipn (Z.to_nat bufsize) (dA d)))
  else Throw IOexc.

(* subDist, bunch.cpp:134-143 *)
Definition d_subDist (d : distT) (index number : Z) (rnd : nat -> T) : res distT :=
  sub <- dist_new (dDIM d) number rnd;;
  fold_res (fun sub i =>
      fold_res (fun sub k =>
          j <- iadd index i;; v <- d_coordinate d j k;; d_setCoordinate i k v sub)
        (zseq 0 (Z.to_nat (dDIM d))) sub)
    (zseq 0 (Z.to_nat number)) sub.
End Distribution.

Definition bunch (T : Type) : Type := list (particle T).

Section Bunch.
Context {T : Type} {NT : Num T}.
Notation bunchT := (bunch T).
Notation particleT := (particle T).

(* Bunch(N,charge,mass), bunch.cpp:150-157 *)
Definition bunch_new (N : Z) (charge mass : T) : bunchT := repeat (new_particle charge mass) (Z.to_nat N).

(* copy constructor, bunch.cpp:159-166 *)
Definition bunch_copy (b : bunchT) : res bunchT := map_res copy_particle b.

(* Bunch(dist,...), bunch.cpp:168-187 *)
Definition bunch_from_dist (d : dist T) (reftime : T) (refpos refmom : vec T) (charge mass : T)
  : res bunchT :=
  map_res (fun i =>
    dt <- d_coordinate d i 6;;
    x <- d_coordinate d i 0;; y <- d_coordinate d i 1;; z <- d_coordinate d i 2;;
    px <- d_coordinate d i 3;; py <- d_coordinate d i 4;; pz <- d_coordinate d i 5;;
    Ok (initTrajectory (reftime + dt) (vadd refpos (V x y z)) (vadd refmom (V px py pz))
          (V (nZ 0) (nZ 0) (nZ 0)) (new_particle charge mass)))
    (zseq 0 (Z.to_nat (dNOP d))).

(* Add, bunch.cpp:357-361 *)
Definition bunch_add (p : particleT) (b : bunchT) : bunchT := b ++ [p].

(* the selection of one of the six coordinates in addCorrelation, bunch.cpp:375-383 *)
Definition coord6 (k : Z) (x p : vec T) : T :=
  match k with
  | 0%Z => vx x | 1%Z => vy x | 2%Z => vz x
  | 3%Z => vx p | 4%Z => vy p | 5%Z => vz p
  | _ => nZ 0
  end.
(* ... and its modification, bunch.cpp:412-420 *)
Definition put6 (k : Z) (v : T) (x p : vec T) : vec T * vec T :=
  match k with
  | 0%Z => (V v (vy x) (vz x), p) | 1%Z => (V (vx x) v (vz x), p) | 2%Z => (V (vx x) (vy x) v, p)
  | 3%Z => (x, V v (vy p) (vz p)) | 4%Z => (x, V (vx p) v (vz p)) | 5%Z => (x, V (vx p) (vy p) v)
  | _ => (x, p)
  end.

(* addCorrelation, bunch.cpp:363-426 *)
Definition bunch_correlate (ind dep : Z) (factor : T) (b : bunchT) : res bunchT :=
  if ((0 <=? ind) && (ind <? 6) && (0 <=? dep) && (dep <? 6) && negb (dep =? ind))%Z then
    sum <- fold_res (fun s p => x <- TrajPoint p 0;; m <- TrajMomentum p 0;;
                                Ok (s + coord6 ind x m)) b (nZ 0);;
    let mean := sum / nZ (Z.of_nat (length b)) in
    map_res (fun p =>
      t <- TrajTime p 0;; x <- TrajPoint p 0;; m <- TrajMomentum p 0;; a <- TrajAccel p 0;;
      let '(x', m') := put6 dep (coord6 dep x m + factor * (coord6 ind x m - mean)) x m in
      Ok (initTrajectory t x' m' a p)) b
  else Ok b.

(* clearTrajectories, bunch.cpp:428-432; preAllocate, bunch.cpp:434-438 *)
Definition bunch_clear (b : bunchT) : bunchT := map clearTrajectory b.
Definition bunch_preAllocate (n : Z) (b : bunchT) : res bunchT := map_res (preAllocate n) b.

(* getNOP, bunch.cpp:440-443 *)
Definition bunch_NOP (b : bunchT) : Z := Z.of_nat (length b).
(* particle.h:119 *)
Definition getCharge (p : particleT) : T := pCharge p * nqe.
(* getTotalCharge, bunch.cpp:445-453 *)
Definition bunch_charge (b : bunchT) : T := fold_left (fun s p => s + getCharge p) b (nZ 0).
(* getParticle, bunch.cpp:455-460; None is the null pointer *)
Definition bunch_particle (b : bunchT) (i : Z) : option particleT :=
  if ((0 <=? i) && (i <? bunch_NOP b))%Z then nth_error b (Z.to_nat i) else None.
(* replaceParticle, bunch.cpp:462-469 *)
Definition bunch_replace (i : Z) (p : particleT) (b : bunchT) : bunchT :=
  if ((0 <=? i) && (i <? bunch_NOP b))%Z then lset b (Z.to_nat i) p else b.

(* A loop which modifies every element in turn, with the state which is left behind
   when an element cannot be processed: the elements before it are modified, the
   element itself and the following ones are not.  (For InitVay this is exact:
   particle.cpp checks before it modifies.  A field which throws in StepVay leaves
   the particle half updated; this is not represented.) *)
Fixpoint each {A} (f : A -> res A) (l : list A) : list A * res unit :=
  match l with
  | [] => ([], Ok tt)
  | a :: r =>
      match f a with
      | Ok a' => let '(r', o) := each f r in (a' :: r', o)
      | Throw e => (l, Throw e)
      | UB => (l, UB)
      | Loop => (l, Loop)
      end
  end.
(* ... for a function which also leaves a state behind *)
Fixpoint each_st {A} (f : A -> A * res unit) (l : list A) : list A * res unit :=
  match l with
  | [] => ([], Ok tt)
  | a :: r =>
      match f a with
      | (a', Ok tt) => let '(r', o) := each_st f r in (a' :: r', o)
      | (a', Throw e) => (a' :: r, Throw e)
      | (a', UB) => (a' :: r, UB)
      | (a', Loop) => (a' :: r, Loop)
      end
  end.

(* InitVay, bunch.cpp:471-478; StepVay, bunch.cpp:480-486 *)
Definition bunch_InitVay (tstep : T) (F : field_fn T) (b : bunchT) : bunchT * res unit :=
  each (InitVay tstep F) b.
Definition bunch_StepVay (F : field_fn T) (b : bunchT) : bunchT * res unit :=
  each (StepVay F) b.

(* bufferStep, bunch.cpp:488-510: the values written *)
Definition particle_step (p : particleT) : list T := [pt p] ++ wrv (pX p) ++ wrv (pP p) ++ wrv (pA p).
Definition bunch_bufferStep (b : bunchT) : list T := flat_map particle_step b.

(* setStepFromBuffer, bunch.cpp:512-536: new bunch and rest of the buffer *)
Fixpoint bunch_setStep (b : bunchT) (buf : list T) : res (bunchT * list T) :=
  match b with
  | [] => Ok ([], buf)
  | p :: r =>
      '(t, buf) <- rd buf;; '(x, buf) <- rdv buf;; '(m, buf) <- rdv buf;; '(a, buf) <- rdv buf;;
      let p' := storeTrajectoryPoint t x m a (setCurrentPoint t x m a p) in
      '(r', buf) <- bunch_setStep r buf;;
      Ok (p' :: r', buf)
  end.

(* number of particles as a double *)
Definition nNOP (b : bunchT) : T := nZ (bunch_NOP b).

(* avgTime, bunch.cpp:538-543 *)
Definition bunch_avgTime (b : bunchT) : T := fold_left (fun s p => s + pt p) b (nZ 0) / nNOP b.
(* avgPosition, bunch.cpp:545-550 *)
Definition bunch_avgPosition (b : bunchT) : vec T :=
  vmul (fold_left (fun s p => vadd s (pX p)) b vzero) (nZ 1 / nNOP b).
(* rmsPosition, bunch.cpp:552-563 *)
Definition bunch_rmsPosition (b : bunchT) : vec T :=
  let mean := bunch_avgPosition b in
  vroot (vdiv (fold_left (fun s p => vadd s (vsquare (vsub (pX p) mean))) b vzero) (nNOP b)).
(* avgMomentum, bunch.cpp:565-571 *)
Definition bunch_avgMomentum (b : bunchT) : vec T :=
  vmul (fold_left (fun s p => vadd s (pP p)) b vzero) (nZ 1 / nNOP b).
(* avgGamma, bunch.cpp:573-584 *)
Definition bunch_avgGamma (b : bunchT) : T :=
  fold_left (fun s p => let bg := vnorm (pP p) in s + nsqrt (bg * bg + nZ 1)) b (nZ 0) / nNOP b.
(* delta, bunch.cpp:586-599 *)
Definition bunch_delta (b : bunchT) : T :=
  let avg := fold_left (fun s p => s + vnorm (pP p)) b (nZ 0) / nNOP b in
  let sum := fold_left (fun s p => let diff := vnorm (pP p) - avg in s + diff * diff) b (nZ 0) in
  nsqrt (sum / nNOP b) / avg.

(* bufferCoordinates, bunch.cpp:614-631: the values written for at most size particles *)
Definition bunch_bufferCoordinates (b : bunchT) (size : Z) : list T :=
  flat_map (fun p => wrv (pX p) ++ wrv (pP p)) (firstn (Z.to_nat (Z.min (bunch_NOP b) size)) b).

(* RetardedField, bunch.cpp:729-737 *)
Definition bunch_RetardedField (b : bunchT) (time : T) (obs : vec T) : res (emf T) :=
  fold_res (fun s p => f <- RetardedField_time p time obs;; Ok (eadd s f)) b ezero.
(* integrateFieldTrace, bunch.cpp:739-745 *)
Definition bunch_integrate (b : bunchT) (obs : vec T) (tr : ftrace T) : res (ftrace T) :=
  fold_res (fun tr p => integrateFieldTrace p obs tr) b tr.
End Bunch.

(* enum TrackingMethod, beam.h:34 *)
Inductive method : Type := TRACKING_NONE | TRACKING_EULER | TRACKING_VAY.

Record beam (T : Type) : Type := BM { bmB : list (bunch T); bmNOTS : Z; bmdt : T; bmTracker : method }.
Arguments BM {T} _ _ _ _.
Arguments bmB {T} _. Arguments bmNOTS {T} _. Arguments bmdt {T} _. Arguments bmTracker {T} _.

Section Beam.
Context {T : Type} {NT : Num T}.
Notation bunchT := (bunch T).
Notation beamT := (beam T).

(* beam.cpp:31-37 *)
Definition beam_new : beamT := BM [] 0 (nZ 0) TRACKING_NONE.
(* Add, beam.cpp:45-49 *)
Definition beam_add (b : bunchT) (bm : beamT) : beamT :=
  BM (bmB bm ++ [b]) (bmNOTS bm) (bmdt bm) (bmTracker bm).
(* clear, beam.cpp:51-59 *)
Definition beam_clear (bm : beamT) : beamT := BM [] 0 (bmdt bm) (bmTracker bm).
(* clearTrajectories, beam.cpp:61-66 *)
Definition beam_clearTrajectories (bm : beamT) : beamT :=
  BM (map bunch_clear (bmB bm)) 0 (bmdt bm) (bmTracker bm).
(* preAllocate, beam.cpp:68-72 *)
Definition beam_preAllocate (n : Z) (bm : beamT) : res beamT :=
  bs <- map_res (bunch_preAllocate n) (bmB bm);; Ok (BM bs (bmNOTS bm) (bmdt bm) (bmTracker bm)).
(* getBunch, beam.cpp:74-79 *)
Definition beam_bunch (bm : beamT) (i : Z) : option bunchT :=
  if ((0 <=? i) && (i <? Z.of_nat (length (bmB bm))))%Z then nth_error (bmB bm) (Z.to_nat i) else None.
(* getNOP, beam.cpp:86-94; int addition *)
Definition beam_NOP (bm : beamT) : res Z :=
  fold_res (fun s b => iadd s (bunch_NOP b)) (bmB bm) 0%Z.
(* getTotalCharge, beam.cpp:96-104 *)
Definition beam_charge (bm : beamT) : T := fold_left (fun s b => s + bunch_charge b) (bmB bm) (nZ 0).
(* setTrackingMethod, beam.h:106; setTimeStep, setNOTS, beam.h *)
Definition beam_setMethod (m : method) (bm : beamT) : beamT := BM (bmB bm) (bmNOTS bm) (bmdt bm) m.
Definition beam_setTimeStep (dt : T) (bm : beamT) : beamT := BM (bmB bm) (bmNOTS bm) dt (bmTracker bm).
Definition beam_setNOTS (n : Z) (bm : beamT) : beamT := BM (bmB bm) n (bmdt bm) (bmTracker bm).

(* The following two operations return the beam as it is left behind together with
   the outcome. *)
(* setupTracking and InitVay, beam.cpp:106-122,143-150 *)
Definition beam_setup (F : field_fn T) (bm : beamT) : beamT * res unit :=
  match bmTracker bm with
  | TRACKING_NONE | TRACKING_EULER => (bm, Throw IOexc)
  | TRACKING_VAY =>
      let '(bs, o) := each_st (bunch_InitVay (bmdt bm) F) (bmB bm) in
      (BM bs 0 (bmdt bm) (bmTracker bm), o)
  end.
(* doStep and StepVay, beam.cpp:124-141,152-158; the counter is an int *)
Definition beam_step (F : field_fn T) (bm : beamT) : beamT * res unit :=
  match iadd (bmNOTS bm) 1 with
  | Ok n =>
    match bmTracker bm with
    | TRACKING_NONE | TRACKING_EULER => (BM (bmB bm) n (bmdt bm) (bmTracker bm), Throw IOexc)
    | TRACKING_VAY =>
        let '(bs, o) := each_st (bunch_StepVay F) (bmB bm) in
        (BM bs n (bmdt bm) (bmTracker bm), o)
    end
  | _ => (bm, UB)
  end.

(* getStepBufferSize, beam.cpp:160-163 *)
Definition beam_stepBufferSize (bm : beamT) : res Z := n <- beam_NOP bm;; imul n 10.
(* bufferStep, beam.cpp:165-173 *)
Definition beam_bufferStep (bm : beamT) : list T := flat_map bunch_bufferStep (bmB bm).
(* setStepFromBuffer, beam.cpp:175-184 *)
Fixpoint beam_setBunches (bs : list bunchT) (buf : list T) : res (list bunchT * list T) :=
  match bs with
  | [] => Ok ([], buf)
  | b :: r => '(b', buf) <- bunch_setStep b buf;; '(r', buf) <- beam_setBunches r buf;;
              Ok (b' :: r', buf)
  end.
Definition beam_setStep (buf : list T) (bm : beamT) : res (beamT * list T) :=
  '(bs, rest) <- beam_setBunches (bmB bm) buf;;
  n <- iadd (bmNOTS bm) 1;;
  Ok (BM bs n (bmdt bm) (bmTracker bm), rest).

(* bufferProbe, beam.cpp:194-219.  The loop runs until enough particles are found; it
   is followed for a number of rounds.  number is unsigned, N counts the particles
   found. *)
Fixpoint probe_loop (fuel : nat) (bs : list bunchT) (number N ib ii : Z) : res (list T) :=
  if (N <? number)%Z then
    match fuel with
    | O => Loop
    | S fuel =>
        b <- zget bs ib;;
        let ib' := (ib + 1)%Z in
        let next := if (ib' =? Z.of_nat (length bs))%Z then (0%Z, (ii + 1)%Z) else (ib', ii) in
        if (ii <? bunch_NOP b)%Z then
          p <- zget b ii;;
          rest <- probe_loop fuel bs number (N + 1) (fst next) (snd next);;
          Ok (bufferProbe p ++ rest)
        else probe_loop fuel bs number N (fst next) (snd next)
    end
  else Ok [].
(* enough rounds to visit every particle *)
Definition probe_fuel (bs : list bunchT) : nat :=
  (length bs * S (fold_right (fun b m => Nat.max (length b) m) 0 bs))%nat.
Definition beam_bufferProbe (bm : beamT) (number : Z) : res (list T) :=
  probe_loop (probe_fuel (bmB bm)) (bmB bm) number 0 0 0.

(* RetardedField, beam.cpp:433-441; integrateFieldTrace, beam.cpp:443-450 *)
Definition beam_RetardedField (bm : beamT) (time : T) (obs : vec T) : res (emf T) :=
  fold_res (fun s b => f <- bunch_RetardedField b time obs;; Ok (eadd s f)) (bmB bm) ezero.
Definition beam_integrate (bm : beamT) (obs : vec T) (tr : ftrace T) : res (ftrace T) :=
  fold_res (fun tr b => bunch_integrate b obs tr) (bmB bm) tr.
End Beam.
