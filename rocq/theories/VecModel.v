(* Model of /repo/src/vector.cpp (class Vector) and of class ElMagField,
   /repo/src/fields.cpp:25-108. *)
From Coq Require Import ZArith List.
From Verif Require Import Base Num.
Local Open Scope num_scope.

(* class Vector: three public doubles x,y,z (vector.h) *)
Record vec (T : Type) : Type := V { vx : T; vy : T; vz : T }.
Arguments V {T} _ _ _.
Arguments vx {T} _.
Arguments vy {T} _.
Arguments vz {T} _.

Section Vec.
Context {T : Type} {NT : Num T}.
Notation vecT := (vec T).

(* VectorZero, vector.cpp:26-31 *)
Definition vzero : vecT := V (nZ 0) (nZ 0) (nZ 0).
(* vector.cpp:40-43 *)
Definition vsquare (a : vecT) : vecT := V (vx a * vx a) (vy a * vy a) (vz a * vz a).
(* vector.cpp:45-48 *)
Definition vroot (a : vecT) : vecT := V (nsqrt (vx a)) (nsqrt (vy a)) (nsqrt (vz a)).
(* vector.cpp:50-65 (operator+ and +=) *)
Definition vadd (a b : vecT) : vecT := V (vx a + vx b) (vy a + vy b) (vz a + vz b).
(* vector.cpp:67-82 (operator- and -=) *)
Definition vsub (a b : vecT) : vecT := V (vx a - vx b) (vy a - vy b) (vz a - vz b).
(* vector.cpp:84-91 (unary minus) *)
Definition vopp (a : vecT) : vecT := V (- vx a) (- vy a) (- vz a).
(* vector.cpp:93-108 (operator* and *=) *)
Definition vmul (a : vecT) (f : T) : vecT := V (vx a * f) (vy a * f) (vz a * f).
(* vector.cpp:110-125 (operator/ and /=) *)
Definition vdiv (a : vecT) (f : T) : vecT := V (vx a / f) (vy a / f) (vz a / f).
(* vector.cpp:132-135 *)
Definition vabs2 (a : vecT) : T := vx a * vx a + vy a * vy a + vz a * vz a.
(* vector.cpp:127-130 *)
Definition vnorm (a : vecT) : T := nsqrt (vx a * vx a + vy a * vy a + vz a * vz a).
(* vector.cpp:137-143; no check for zero length *)
Definition vnormalize (a : vecT) : vecT :=
  let abs := vnorm a in V (vx a / abs) (vy a / abs) (vz a / abs).
(* vector.cpp:153-160 *)
Definition vdot (a b : vecT) : T := vx a * vx b + vy a * vy b + vz a * vz b.
(* vector.cpp:145-151 *)
Definition vtransform (a ex ey ez : vecT) : vecT := V (vdot a ex) (vdot a ey) (vdot a ez).
(* vector.cpp:162-169 *)
Definition vcross (a b : vecT) : vecT :=
  V (vy a * vz b - vz a * vy b) (vz a * vx b - vx a * vz b) (vx a * vy b - vy a * vx b).
End Vec.

(* class ElMagField, fields.h / fields.cpp:25-36 *)
Record emf (T : Type) : Type := EB { fE : vec T; fB : vec T }.
Arguments EB {T} _ _.
Arguments fE {T} _.
Arguments fB {T} _.

Section Emf.
Context {T : Type} {NT : Num T}.
(* fields.cpp:27-30,38-42 *)
Definition ezero : emf T := EB vzero vzero.
(* fields.cpp:50-63 *)
Definition eadd (a b : emf T) : emf T := EB (vadd (fE a) (fE b)) (vadd (fB a) (fB b)).
(* fields.cpp:65-78 *)
Definition esub (a b : emf T) : emf T := EB (vsub (fE a) (fE b)) (vsub (fB a) (fB b)).
(* fields.cpp:80-86,96-101 *)
Definition emul (a : emf T) (f : T) : emf T := EB (vmul (fE a) f) (vmul (fB a) f).
(* fields.cpp:88-94,103-108 *)
Definition ediv (a : emf T) (f : T) : emf T := EB (vdiv (fE a) f) (vdiv (fB a) f).
(* fields.cpp:48 *)
Definition epoynting (a : emf T) : vec T := vdiv (vcross (fE a) (fB a)) nmu0.
End Emf.
