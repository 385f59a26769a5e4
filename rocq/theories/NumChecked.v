(* "Checked reals": a third instance of the number interface over option R in
   which a division by zero and the square root of a negative number have no
   value (None) and every operation with an operand without value has none.
   Running the model with these numbers shows whether an invalid operation is
   evaluated. *)
From Coq Require Import ZArith Reals List Bool.
From Flocq Require Import Core.
From Verif Require Import Base Num VecModel ParticleModel.
Import ListNotations.
Local Open Scope R_scope.

Definition ck1 (f : R -> R) (a : option R) : option R :=
  match a with Some x => Some (f x) | None => None end.
Definition ck2 (f : R -> R -> R) (a b : option R) : option R :=
  match a, b with Some x, Some y => Some (f x y) | _, _ => None end.
Definition ckdiv (a b : option R) : option R :=
  match a, b with
  | Some x, Some y => if Reqb' y 0 then None else Some (x / y)
  | _, _ => None
  end.
Definition cksqrt (a : option R) : option R :=
  match a with Some x => if Rltb x 0 then None else Some (sqrt x) | None => None end.
Definition ckb (f : R -> R -> bool) (a b : option R) : bool :=
  match a, b with Some x, Some y => f x y | _, _ => false end.
Definition ckz (f : R -> option Z) (a : option R) : option Z :=
  match a with Some x => f x | None => None end.

Definition NumChk : Num (option R) := {|
  nZ := fun z => Some (nZ z);
  nadd := ck2 Rplus; nsub := ck2 Rminus; nmul := ck2 Rmult; ndiv := ckdiv;
  nopp := ck1 Ropp; nsqrt := cksqrt; nabs := ck1 Rabs;
  nltb := ckb Rltb; nleb := ckb Rleb; neqb := ckb Reqb';
  nfloor := ckz nfloor; nround := ckz nround; nrint := ckz nrint;
  nPi := Some nPi; nc := Some nc; nqe := Some nqe; neps0 := Some neps0;
  nmu0 := Some nmu0; nirm := Some nirm
|}.

(* embedding of real data into checked data *)
Definition lv (v : vec R) : vec (option R) := V (Some (vx v)) (Some (vy v)) (Some (vz v)).
Definition le (e : emf R) : emf (option R) := EB (lv (fE e)) (lv (fB e)).
Definition lp (p : particle R) : particle (option R) :=
  mkP (Some (pCharge p)) (Some (pMass p)) (Some (pqm p)) (Some (pdt p)) (Some (pqmt2 p))
      (pNP p) (pNpre p) (Some (pt p)) (lv (pX p)) (lv (pP p)) (lv (pA p)) (lv (pE p)) (lv (pB p))
      (map Some (pTimes p)) (map lv (pXs p)) (map lv (pPs p)) (map lv (pAs p))
      (lv (pVp p)) (Some (pVg p)).
Definition lres {A B} (f : A -> B) (r : res A) : res B :=
  match r with Ok a => Ok (f a) | Throw e => Throw e | UB => UB | Loop => Loop end.
(* a field function on checked data: querying it with an invalid argument is
   reported as undefined behaviour *)
Definition lfield (F : field_fn R) : field_fn (option R) := fun t x =>
  match t, vx x, vy x, vz x with
  | Some t, Some a, Some b, Some c => lres le (F t (V a b c))
  | _, _, _, _ => UB
  end.
