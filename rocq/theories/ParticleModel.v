(* Model of class ChargedParticle, /repo/src/particle.h and particle.cpp:28-558.
   (retarded fields and trace integration are in RetardModel.v) *)
From Coq Require Import ZArith List Bool.
From Verif Require Import Base Num VecModel.
Import ListNotations.
Local Open Scope num_scope.
Local Open Scope res_scope.

(* A field is queried at (time, position); the query may raise an exception
   (GeneralField::Field, fields.h; FEL_1D::Field throws). *)
Definition field_fn (T : Type) : Type := T -> vec T -> res (emf T).

(* The member variables of ChargedParticle.
   Npre: [None] is an indeterminate value (never initialised). *)
Record particle (T : Type) : Type := mkP {
  pCharge : T;
  pMass : T;
  pqm : T;
  pdt : T;
  pqmt2 : T;
  pNP : Z;
  pNpre : option Z;
  pt : T;               (* t_current *)
  pX : vec T;           (* X_current *)
  pP : vec T;           (* P_current *)
  pA : vec T;           (* A_current *)
  pE : vec T;           (* E_current *)
  pB : vec T;           (* B_current *)
  pTimes : list T;      (* Time *)
  pXs : list (vec T);   (* X *)
  pPs : list (vec T);   (* P *)
  pAs : list (vec T);   (* A *)
  pVp : vec T;          (* VY_p_i1 *)
  pVg : T               (* VY_gamma_i1 *)
}.
Arguments mkP {T} _ _ _ _ _ _ _ _ _ _ _ _ _ _ _ _ _ _ _.
Arguments pCharge {T} _. Arguments pMass {T} _. Arguments pqm {T} _. Arguments pdt {T} _.
Arguments pqmt2 {T} _. Arguments pNP {T} _. Arguments pNpre {T} _. Arguments pt {T} _.
Arguments pX {T} _. Arguments pP {T} _. Arguments pA {T} _. Arguments pE {T} _.
Arguments pB {T} _. Arguments pTimes {T} _. Arguments pXs {T} _. Arguments pPs {T} _.
Arguments pAs {T} _. Arguments pVp {T} _. Arguments pVg {T} _.

(* one point of a trajectory *)
Record tpoint (T : Type) : Type := TP { tpt : T; tpx : vec T; tpp : vec T; tpa : vec T }.
Arguments TP {T} _ _ _ _.
Arguments tpt {T} _. Arguments tpx {T} _. Arguments tpp {T} _. Arguments tpa {T} _.

Section Particle.
Context {T : Type} {NT : Num T}.
Notation particleT := (particle T).

(* half: the literal 0.5 *)
Definition nhalf : T := nZ 1 / nZ 2.

(* ---- constructors ---- *)

(* ChargedParticle(charge,mass), particle.cpp:46-62
   (and the default constructor 28-44 with charge -1 and mass 1).
   Vector members without initialiser are zero (Vector::Vector). *)
Definition new_particle (charge mass : T) : particleT :=
  mkP charge mass (charge / mass * nirm) (nZ 0) (nZ 0) 0 (Some 0%Z)
      (nZ 0) vzero vzero vzero vzero vzero [] [] [] [] vzero (nZ 1).

(* preAllocate, particle.cpp:184-192: reserve() with a negative (hence huge
   unsigned) argument throws std::length_error; capacity itself is not modelled. *)
Definition preAllocate (n : Z) (p : particleT) : res particleT :=
  if (n <? 0)%Z then Throw STDexc
  else Ok (mkP (pCharge p) (pMass p) (pqm p) (pdt p) (pqmt2 p) (pNP p) (Some n)
               (pt p) (pX p) (pP p) (pA p) (pE p) (pB p)
               (pTimes p) (pXs p) (pPs p) (pAs p) (pVp p) (pVg p)).

(* ChargedParticle(charge,mass,nTraj), particle.cpp:64-81 *)
Definition new_particle_alloc (charge mass : T) (nTraj : Z) : res particleT :=
  preAllocate nTraj (new_particle charge mass).

(* copy constructor, particle.cpp:83-107.  E_current/B_current are not copied
   (they get the default zero); the trajectory is only copied if NP>0. *)
Definition copy_particle (o : particleT) : res particleT :=
  let has := (0 <? pNP o)%Z in
  let q := mkP (pCharge o) (pMass o) (pqm o) (pdt o) (pqmt2 o) (pNP o) (pNpre o)
               (pt o) (pX o) (pP o) (pA o) vzero vzero
               (if has then pTimes o else []) (if has then pXs o else [])
               (if has then pPs o else []) (if has then pAs o else [])
               (pVp o) (pVg o) in
  match pNpre o with
  | None => UB
  | Some n => if (pNP o <? n)%Z then preAllocate n q else Ok q
  end.

(* clearTrajectory, particle.cpp:173-182 *)
Definition clearTrajectory (p : particleT) : particleT :=
  mkP (pCharge p) (pMass p) (pqm p) (pdt p) (pqmt2 p) 0 (pNpre p)
      (pt p) (pX p) (pP p) (pA p) (pE p) (pB p) [] [] [] [] (pVp p) (pVg p).

(* initTrajectory, particle.cpp:326-341 *)
Definition initTrajectory (t : T) (x m a : vec T) (p : particleT) : particleT :=
  mkP (pCharge p) (pMass p) (pqm p) (pdt p) (pqmt2 p) 1 (pNpre p)
      t x m a (pE p) (pB p) [t] [x] [m] [a] (pVp p) (pVg p).

(* setCurrentPoint, particle.cpp:444-450 *)
Definition setCurrentPoint (t : T) (x m a : vec T) (p : particleT) : particleT :=
  mkP (pCharge p) (pMass p) (pqm p) (pdt p) (pqmt2 p) (pNP p) (pNpre p)
      t x m a (pE p) (pB p) (pTimes p) (pXs p) (pPs p) (pAs p) (pVp p) (pVg p).

(* storeTrajectoryPoint, particle.cpp:452-460 *)
Definition storeTrajectoryPoint (t : T) (x m a : vec T) (p : particleT) : particleT :=
  mkP (pCharge p) (pMass p) (pqm p) (pdt p) (pqmt2 p) (pNP p + 1) (pNpre p)
      (pt p) (pX p) (pP p) (pA p) (pE p) (pB p)
      (pTimes p ++ [t]) (pXs p ++ [x]) (pPs p ++ [m]) (pAs p ++ [a]) (pVp p) (pVg p).

(* ---- serialization ---- *)

(* reading *b++ from a buffer; reading behind its end is undefined *)
Definition rd (b : list T) : res (T * list T) :=
  match b with x :: r => Ok (x, r) | [] => UB end.
Definition rdv (b : list T) : res (vec T * list T) :=
  match b with x :: y :: z :: r => Ok (V x y z, r) | _ => UB end.
Definition wrv (v : vec T) : list T := [vx v; vy v; vz v].

(* serialize, particle.cpp:194-226: the values written, in order *)
Definition serialize (p : particleT) : res (list T) :=
  if (0 <? pNP p)%Z then
    t <- lback (pTimes p);; x <- lback (pXs p);; m <- lback (pPs p);; a <- lback (pAs p);;
    Ok ([pCharge p; pMass p; t] ++ wrv x ++ wrv m ++ wrv a)
  else Ok ([pCharge p; pMass p] ++ repeat (nZ 0) 10).

(* ChargedParticle(double buffer), particle.cpp:109-127 *)
Definition deserialize (b : list T) : res particleT :=
  '(ch, b) <- rd b;; '(ma, b) <- rd b;; '(t, b) <- rd b;;
  '(x, b) <- rdv b;; '(m, b) <- rdv b;; '(a, b) <- rdv b;;
  Ok (initTrajectory t x m a (new_particle ch ma)).

(* TrajBufSize, particle.cpp:228-231 *)
Definition TrajBufSize (p : particleT) : Z := (9 + 10 * pNP p)%Z.

(* the loop of serializeTraj, particle.cpp:246-261, for n=i..i+k-1 *)
Fixpoint ser_points (p : particleT) (i : Z) (k : nat) : res (list T) :=
  match k with
  | O => Ok []
  | S k' =>
      t <- zget (pTimes p) i;; x <- zget (pXs p) i;;
      m <- zget (pPs p) i;; a <- zget (pAs p) i;;
      r <- ser_points p (i + 1) k';;
      Ok ([t] ++ wrv x ++ wrv m ++ wrv a ++ r)
  end.

(* serializeTraj, particle.cpp:233-262 *)
Definition serializeTraj (p : particleT) : res (list T) :=
  pts <- ser_points p 0 (Z.to_nat (pNP p));;
  Ok ([pCharge p; pMass p; pdt p; pqm p; pqmt2 p] ++ wrv (pVp p) ++ [pVg p] ++ pts).

(* the loop of the constructor, particle.cpp:145-162 *)
Fixpoint deser_points (k : nat) (b : list T) (p : particleT) : res particleT :=
  match k with
  | O => Ok p
  | S k' =>
      '(t, b) <- rd b;; '(x, b) <- rdv b;; '(m, b) <- rdv b;; '(a, b) <- rdv b;;
      deser_points k' b (storeTrajectoryPoint t x m a p)
  end.

(* ChargedParticle(double buffer,int,int), particle.cpp:129-167.
   Npre stays indeterminate unless nPre>0. *)
Definition deserializeTraj (b : list T) (nTraj nPre : Z) : res particleT :=
  '(ch, b) <- rd b;; '(ma, b) <- rd b;; '(d, b) <- rd b;; '(qm, b) <- rd b;; '(qmt2, b) <- rd b;;
  '(vp, b) <- rdv b;; '(vg, b) <- rd b;;
  let p0 := mkP ch ma qm d qmt2 0 None (nZ 0) vzero vzero vzero vzero vzero [] [] [] [] vp vg in
  p1 <- (if (0 <? nPre)%Z then preAllocate nPre p0 else Ok p0);;
  p2 <- deser_points (Z.to_nat nTraj) b p1;;
  t <- lback (pTimes p2);; x <- lback (pXs p2);; m <- lback (pPs p2);; a <- lback (pAs p2);;
  Ok (setCurrentPoint t x m a p2).

(* bufferProbe, particle.cpp:264-284 *)
Definition bufferProbe (p : particleT) : list T :=
  [pt p] ++ wrv (pX p) ++ wrv (pP p) ++ wrv (pA p) ++ wrv (pE p) ++ wrv (pB p).

(* ---- trajectory access, particle.cpp:286-324 ---- *)
Definition TrajTime (p : particleT) (step : Z) : res T :=
  if ((0 <=? step) && (step <? pNP p))%Z then zget (pTimes p) step else Throw IOexc.
Definition TrajPoint (p : particleT) (step : Z) : res (vec T) :=
  if ((0 <=? step) && (step <? pNP p))%Z then zget (pXs p) step else Throw IOexc.
Definition TrajMomentum (p : particleT) (step : Z) : res (vec T) :=
  if ((0 <=? step) && (step <? pNP p))%Z then zget (pPs p) step else Throw IOexc.
Definition TrajAccel (p : particleT) (step : Z) : res (vec T) :=
  if ((0 <=? step) && (step <? pNP p))%Z then zget (pAs p) step else Throw IOexc.

(* ---- Shift and Mirror, particle.cpp:343-387 ---- *)

(* v[i] = f(v[i]) for i = 0 .. k-1 *)
Fixpoint upd_first {A} (f : A -> A) (k : nat) (l : list A) : res (list A) :=
  match k, l with
  | O, _ => Ok l
  | S _, [] => UB
  | S k', x :: r => r' <- upd_first f k' r;; Ok (f x :: r')
  end.

Definition Shift (delta : vec T) (f : T) (p : particleT) : res particleT :=
  xs <- upd_first (fun x => vadd x delta) (Z.to_nat (pNP p - 1)) (pXs p);;
  Ok (mkP (pCharge p * f) (pMass p) (pqm p * f) (pdt p) (pqmt2 p * f) (pNP p) (pNpre p)
          (pt p) (vadd (pX p) delta) (pP p) (pA p) (pE p) (pB p)
          (pTimes p) xs (pPs p) (pAs p) (pVp p) (pVg p)).

(* position at the mirror side of the plane, particle.cpp:361-362,373-374 *)
Definition mirror_pos (o n x : vec T) : vec T :=
  vadd x (vmul (vmul n (vdot (vsub o x) n)) (nZ 2)).
(* reversed normal component, particle.cpp:364-365 etc. *)
Definition mirror_dir (n v : vec T) : vec T :=
  vsub v (vmul (vmul n (vdot v n)) (nZ 2)).

Definition Mirror (origin normal : vec T) (f : T) (p : particleT) : res particleT :=
  let n := vnormalize normal in
  let k := Z.to_nat (pNP p - 1) in
  xs <- upd_first (mirror_pos origin n) k (pXs p);;
  ps <- upd_first (mirror_dir n) k (pPs p);;
  acs <- upd_first (mirror_dir n) k (pAs p);;
  Ok (mkP (pCharge p * f) (pMass p) (pqm p * f) (pdt p) (pqmt2 p * f) (pNP p) (pNpre p)
          (pt p) (mirror_pos origin n (pX p)) (mirror_dir n (pP p)) (mirror_dir n (pA p))
          (pE p) (pB p) (pTimes p) xs ps acs (pVp p) (pVg p)).

(* ---- tracking ---- *)

(* Second half of a step, particle.cpp:427-437 and 499-509: from the momentum at
   the centre of the step and the fields there to gamma and momentum at its end. *)
Definition vay_half (qmt2 : T) (ph e b : vec T) : vec T * T :=
  let p_prime := vadd ph (vmul (vdiv e nc) qmt2) in
  let gamma2_prime := vabs2 p_prime + nZ 1 in
  let tau := vmul b qmt2 in
  let u_star := vdot p_prime tau in
  let tau2 := vabs2 tau in
  let sigma := gamma2_prime - tau2 in
  let g := nsqrt (nhalf * (sigma + nsqrt (sigma * sigma + nZ 4 * (tau2 + u_star * u_star)))) in
  let t := vdiv tau g in
  let p1 := vdiv (vadd (vadd p_prime (vmul t (vdot p_prime t))) (vcross p_prime t))
                 (nZ 1 + vabs2 t) in
  (p1, g).

(* acceleration, particle.cpp:438-440 and 494-496 *)
Definition vay_accel (qm : T) (ph e b : vec T) : vec T :=
  let gamma_h := nsqrt (vabs2 ph + nZ 1) in
  let beta_h := vdiv ph gamma_h in
  vmul (vadd (vcross beta_h b) (vdiv e nc)) qm.

(* v.back() = a *)
Fixpoint set_back {A} (l : list A) (a : A) : res (list A) :=
  match l with
  | [] => UB
  | [_] => Ok [a]
  | x :: r => r' <- set_back r a;; Ok (x :: r')
  end.

(* InitVay, particle.cpp:407-442 *)
Definition InitVay (tstep : T) (F : field_fn T) (p : particleT) : res particleT :=
  if (pNP p <? 1)%Z then Throw RANGEexc else
  let qm := pCharge p / pMass p * nirm in
  let qmt2 := qm * nhalf * tstep in
  t <- lback (pTimes p);; x <- lback (pXs p);; m <- lback (pPs p);;
  eb <- F t x;;
  let '(p1, g) := vay_half qmt2 m (fE eb) (fB eb) in
  let a := vay_accel qm m (fE eb) (fB eb) in
  acs <- set_back (pAs p) a;;
  Ok (mkP (pCharge p) (pMass p) qm tstep qmt2 (pNP p) (pNpre p)
          t x m a (fE eb) (fB eb) (pTimes p) (pXs p) (pPs p) acs p1 g).

(* StepVay, particle.cpp:479-512 *)
Definition StepVay (F : field_fn T) (p : particleT) : res particleT :=
  let beta_i := vdiv (pVp p) (pVg p) in
  let t := pt p + pdt p in
  let x := vadd (pX p) (vmul (vmul beta_i nc) (pdt p)) in
  eb <- F t x;;
  let ph := vadd (pVp p) (vmul (vadd (vdiv (fE eb) nc) (vcross beta_i (fB eb))) (pqmt2 p)) in
  let a := vay_accel (pqm p) ph (fE eb) (fB eb) in
  let '(p1, g) := vay_half (pqmt2 p) ph (fE eb) (fB eb) in
  Ok (storeTrajectoryPoint t x ph a
        (mkP (pCharge p) (pMass p) (pqm p) (pdt p) (pqmt2 p) (pNP p) (pNpre p)
             t x ph a (fE eb) (fB eb) (pTimes p) (pXs p) (pPs p) (pAs p) p1 g)).

(* n tracking steps *)
Definition StepsVay (F : field_fn T) (n : nat) (p : particleT) : res particleT :=
  iter_res (StepVay F) n p.

(* ---- CoordinatesAtTime, particle.cpp:514-558 ---- *)

(* the bisection loop 530-542; the fuel bounds the number of iterations, running
   out of it is reported as Loop *)
Fixpoint bisect_time (fuel : nat) (Time : list T) (time : T)
         (i1 i2 : Z) (t1 t2 : T) : res (Z * Z * T * T) :=
  if (1 <? i2 - i1)%Z then
    match fuel with
    | O => Loop
    | S f =>
        let i := ((i2 + i1) / 2)%Z in
        t <- zget Time i;;
        if t <? time then bisect_time f Time time i i2 t t2
        else bisect_time f Time time i1 i t1 t
    end
  else Ok (i1, i2, t1, t2).

Definition CoordinatesAtTime (p : particleT) (time : T) : res (vec T * vec T) :=
  if (pNP p <? 1)%Z then Ok (vzero, vzero) else
  let i1 := 0%Z in
  let i2 := (pNP p - 1)%Z in
  t1 <- zget (pTimes p) i1;;
  t2 <- zget (pTimes p) i2;;
  if (t1 <=? time) && (time <=? t2) then
    '(i1, i2, t1, t2) <- bisect_time (Z.to_nat (pNP p)) (pTimes p) time i1 i2 t1 t2;;
    if (i2 =? i1)%Z then
      x <- zget (pXs p) i1;; m <- zget (pPs p) i1;; Ok (x, m)
    else
      let frac := (time - t1) / (t2 - t1) in
      x1 <- zget (pXs p) i1;; x2 <- zget (pXs p) i2;;
      m1 <- zget (pPs p) i1;; m2 <- zget (pPs p) i2;;
      Ok (vadd (vmul x1 (nZ 1 - frac)) (vmul x2 frac),
          vadd (vmul m1 (nZ 1 - frac)) (vmul m2 frac))
  else Ok (vzero, vzero).

End Particle.
