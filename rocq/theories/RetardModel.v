(* Model of the field computation of ChargedParticle, /repo/src/particle.cpp:560-867. *)
From Coq Require Import ZArith List Bool.
From Verif Require Import Base Num VecModel ParticleModel TraceModel.
Import ListNotations.
Local Open Scope num_scope.
Local Open Scope res_scope.

Section Retard.
Context {T : Type} {NT : Num T}.
Notation particleT := (particle T).

(* RetardedTime, particle.cpp:560-568 *)
Definition RetardedTime (p : particleT) (index : Z) (obs : vec T) : res T :=
  t <- TrajTime p index;;
  x <- TrajPoint p index;;
  Ok (t + vnorm (vsub obs x) / nc).

(* The field formula, particle.cpp:584-594 and 750-765: source at position x with
   velocity beta (in units of c), betaprime = time derivative of (beta*gamma)
   divided by gamma, gamma2 = gamma^2.
   pow(y,3.0) is written as the product y*y*y. *)
Definition radiated (charge : T) (x beta betaprime : vec T) (gamma2 : T) (obs : vec T) : emf T :=
  let rvec := vsub obs x in
  let r := vnorm rvec in
  let n := vnormalize rvec in
  let scale := charge * nqe / (nZ 4 * nPi * neps0) in
  let bn := nZ 1 - vdot beta n in
  let bn3rd := bn * bn * bn in
  let e := vdiv (vsub n beta) (r * r * bn3rd * gamma2) in
  let e := vadd e (vdiv (vcross n (vcross (vsub n beta) betaprime)) (r * bn3rd * nc)) in
  let e := vmul e scale in
  EB e (vdiv (vcross n e) nc).

(* RetardedField(int,Vector), particle.cpp:570-596 *)
Definition RetardedField_index (p : particleT) (index : Z) (obs : vec T) : res (emf T) :=
  x <- TrajPoint p index;;
  m <- TrajMomentum p index;;
  a <- TrajAccel p index;;
  let gamma2 := vabs2 m + nZ 1 in
  let gamma := nsqrt gamma2 in
  Ok (radiated (pCharge p) x (vdiv m gamma) (vdiv a gamma) gamma2 obs).

(* observation time minus arrival time of the signal from point i,
   particle.cpp:618-625,668-670 (direct access to the vectors) *)
Definition seen (p : particleT) (obs_time : T) (obs : vec T) (i : Z) : res T :=
  x <- zget (pXs p) i;;
  t <- zget (pTimes p) i;;
  Ok (obs_time - (t + vnorm (vsub obs x) / nc)).

(* the bisection, particle.cpp:665-682 *)
Fixpoint bisect_seen (fuel : nat) (p : particleT) (obs_time : T) (obs : vec T)
         (i1 i2 : Z) (t1 t2 : T) : res (Z * Z * T * T) :=
  if (1 <? i2 - i1)%Z then
    match fuel with
    | O => Loop
    | S f =>
        let iMid := ((i2 + i1) / 2)%Z in
        tMid <- seen p obs_time obs iMid;;
        if nZ 0 <? tMid then bisect_seen f p obs_time obs iMid i2 tMid t2
        else bisect_seen f p obs_time obs i1 iMid t1 tMid
    end
  else Ok (i1, i2, t1, t2).

(* time error of the interpolated point, particle.cpp:694-699 *)
Definition off_time (obs_time : T) (obs : vec T) (t1 t2 : T) (x1 x2 : vec T) (frac : T) : T :=
  let st := t1 * (nZ 1 - frac) + t2 * frac in
  let sx := vadd (vmul x1 (nZ 1 - frac)) (vmul x2 frac) in
  st + vnorm (vsub obs sx) / nc - obs_time.

(* the refinement loop, particle.cpp:707-724; [k] counts the remaining rounds
   (number_ref runs from 1 to 10) *)
Fixpoint refine (k : nat) (obs_time : T) (obs : vec T) (t1 t2 : T) (x1 x2 : vec T)
         (frac dt dfrac : T) : T * T :=
  match k with
  | O => (frac, dfrac)
  | S k' =>
      if nZ 1 / nZ 100000 <? nabs dfrac then
        let lastdt := dt in
        let frac := frac - dfrac in
        let dt := off_time obs_time obs t1 t2 x1 x2 frac in
        let dtdfrac := - (dt - lastdt) / dfrac in
        let dfrac := dt / dtdfrac in
        refine k' obs_time obs t1 t2 x1 x2 frac dt dfrac
      else (frac, dfrac)
  end.

(* RetardedField(double,Vector), particle.cpp:612-769; the diagnostic output
   740-748 is not modelled *)
Definition RetardedField_time (p : particleT) (obs_time : T) (obs : vec T) : res (emf T) :=
  if (pNP p <? 1)%Z then Throw RANGEexc else
  t1 <- seen p obs_time obs 0;;
  t2 <- seen p obs_time obs (pNP p - 1);;
  if t2 <=? nZ 0 then
    if t1 <=? nZ 0 then
      (* extrapolation to times before the start of the trajectory, 638-659 *)
      x0 <- zget (pXs p) 0;;
      m0 <- zget (pPs p) 0;;
      let rc := vdiv (vsub obs x0) nc in
      let gamma2 := vabs2 m0 + nZ 1 in
      let beta := vdiv m0 (nsqrt gamma2) in
      let t0 := obs_time in
      let bR := vdot beta rc in
      let bb := vdot beta beta in
      let rr := vdot rc rc in
      let sourceT := (t0 - bR - nsqrt ((t0 - bR) * (t0 - bR) - (nZ 1 - bb) * (t0 * t0 - rr)))
                     / (nZ 1 - bb) in
      let sourceX := vadd x0 (vmul (vmul beta nc) sourceT) in
      Ok (radiated (pCharge p) sourceX beta vzero gamma2 obs)
    else
      (* interpolation, 661-748 *)
      '(i1, i2, s1, s2) <- bisect_seen (Z.to_nat (pNP p)) p obs_time obs 0 (pNP p - 1) t1 t2;;
      let frac := s1 / (s1 - s2) in
      t1 <- zget (pTimes p) i1;; t2 <- zget (pTimes p) i2;;
      x1 <- zget (pXs p) i1;; x2 <- zget (pXs p) i2;;
      let dt := off_time obs_time obs t1 t2 x1 x2 frac in
      let r1 := vnorm (vsub obs x1) in
      let r2 := vnorm (vsub obs x2) in
      let dtdfrac := (t2 - t1) + (r2 - r1) / nc in
      let dfrac := dt / dtdfrac in
      let '(frac, dfrac) := refine 9 obs_time obs t1 t2 x1 x2 frac dt dfrac in
      let frac := frac - dfrac in
      m1 <- zget (pPs p) i1;; m2 <- zget (pPs p) i2;;
      a1 <- zget (pAs p) i1;; a2 <- zget (pAs p) i2;;
      let sourceX := vadd (vmul x1 (nZ 1 - frac)) (vmul x2 frac) in
      let m := vadd (vmul m1 (nZ 1 - frac)) (vmul m2 frac) in
      let gamma2 := vabs2 m + nZ 1 in
      let gamma := nsqrt gamma2 in
      let a := vadd (vmul a1 (nZ 1 - frac)) (vmul a2 frac) in
      Ok (radiated (pCharge p) sourceX (vdiv m gamma) (vdiv a gamma) gamma2 obs)
  else Ok ezero.

(* ---- integrateFieldTrace, particle.cpp:771-867 ---- *)

(* value at time t of the linear interpolation between (ts1,f1) and (ts2,f2),
   e.g. particle.cpp:811 *)
Definition lin_field (ts1 ts2 : T) (f1 f2 : emf T) (t : T) : emf T :=
  let dts := ts2 - ts1 in
  eadd (emul f1 ((ts2 - t) / dts)) (emul f2 ((t - ts1) / dts)).

(* fully covered buckets a .. a+k-1, particle.cpp:807-813,845-850 *)
Definition add_full (t0 dt ts1 ts2 : T) (f1 f2 : emf T) (a : Z) (k : nat) (tr : ftrace T)
  : res (ftrace T) :=
  fold_res (fun tr idx => tr_acc tr idx (lin_field ts1 ts2 f1 f2 (t0 + nZ idx * dt)))
           (zseq a k) tr.

(* last, partially covered bucket, particle.cpp:814-822,852-858 *)
Definition add_last (t0 dt ts1 ts2 : T) (f1 f2 : emf T) (idx2 nots : Z) (tr : ftrace T)
  : res (ftrace T) :=
  if (idx2 <? nots)%Z then
    let t_start := t0 + (nZ idx2 - nhalf) * dt in
    let f_start := lin_field ts1 ts2 f1 f2 t_start in
    tr_acc tr idx2 (emul (emul (eadd f_start f2) nhalf) ((ts2 - t_start) / dt))
  else Ok tr.

(* one trajectory step overlapping the trace, particle.cpp:800-862 *)
Definition integrate_step (t0 dt : T) (nots : Z) (ts1 ts2 : T) (f1 f2 : emf T) (tr : ftrace T)
  : res (ftrace T) :=
  let tmin := t0 - dt * nhalf in
  let dts := ts2 - ts1 in
  if ts1 <=? tmin then
    idx2 <- to_int (nround ((ts2 - t0) / dt));;
    let idx2 := if (nots <? idx2)%Z then nots else idx2 in
    tr <- add_full t0 dt ts1 ts2 f1 f2 0 (Z.to_nat idx2) tr;;
    add_last t0 dt ts1 ts2 f1 f2 idx2 nots tr
  else
    idx1 <- to_int (nround ((ts1 - t0) / dt));;
    idx2 <- to_int (nround ((ts2 - t0) / dt));;
    let idx2 := if (nots <? idx2)%Z then nots else idx2 in
    if (idx1 =? idx2)%Z then
      tr_acc tr idx1 (emul (emul (eadd f1 f2) nhalf) (dts / dt))
    else
      let t_end := t0 + (nZ idx1 + nhalf) * dt in
      let f_end := lin_field ts1 ts2 f1 f2 t_end in
      tr <- tr_acc tr idx1 (emul (emul (eadd f1 f_end) nhalf) ((t_end - ts1) / dt));;
      tr <- add_full t0 dt ts1 ts2 f1 f2 (idx1 + 1) (Z.to_nat (idx2 - (idx1 + 1))) tr;;
      add_last t0 dt ts1 ts2 f1 f2 idx2 nots tr.

(* the body of the loop over the trajectory steps, particle.cpp:785-864 *)
Definition integrate_one (p : particleT) (obs : vec T) (t0 dt : T) (nots : Z)
           (tr : ftrace T) (step : Z) : res (ftrace T) :=
  let tmin := t0 - dt * nhalf in
  let tmax := t0 + dt * (nZ nots - nhalf) in
  ts1 <- RetardedTime p step obs;;
  ts2 <- RetardedTime p (step + 1) obs;;
  if (tmin <? ts2) && (ts1 <? tmax) then
    f1 <- RetardedField_index p step obs;;
    f2 <- RetardedField_index p (step + 1) obs;;
    integrate_step t0 dt nots ts1 ts2 f1 f2 tr
  else Ok tr.

(* the whole method *)
Definition integrateFieldTrace (p : particleT) (obs : vec T) (tr : ftrace T) : res (ftrace T) :=
  let t0 := tr_t0 tr in
  let dt := tr_dt tr in
  let nots := i32 (tr_N tr) in
  if (nots <? 2)%Z then Ok tr
  else if (pNP p <? 2)%Z then Ok tr
  else fold_res (integrate_one p obs t0 dt nots) (zseq 0 (Z.to_nat (pNP p - 1))) tr.
End Retard.
