(* The arithmetic used by the code, abstracted over the number type.
   In the code every value is an IEEE double.  The models are written once over
   this interface and instantiated with
     - the real numbers R (this file): idealised arithmetic without rounding;
     - IEEE binary64 primitive floats (NumFloat.v): the arithmetic of the code,
       executable inside Coq. *)
From Coq Require Import ZArith Reals Lra Bool.
From Flocq Require Import Core.Raux Core.Round_NE Core.Generic_fmt.
From Verif Require Import Base.

Class Num (T : Type) : Type := MkNum {
  nZ    : Z -> T;                (* conversion int -> double, integral literals *)
  nadd  : T -> T -> T;
  nsub  : T -> T -> T;
  nmul  : T -> T -> T;
  ndiv  : T -> T -> T;
  nopp  : T -> T;
  nsqrt : T -> T;                (* sqrt() *)
  nabs  : T -> T;                (* fabs() *)
  nltb  : T -> T -> bool;        (* a < b  (and b > a) *)
  nleb  : T -> T -> bool;        (* a <= b (and b >= a) *)
  neqb  : T -> T -> bool;        (* a == b *)
  nfloor : T -> option Z;        (* floor(): None for NaN and infinities *)
  nround : T -> option Z;        (* round(): halves away from zero *)
  nrint  : T -> option Z;        (* rint(): halves to even *)
  (* natural constants, /repo/src/global.h:37-44 *)
  nPi    : T;
  nc     : T;                    (* SpeedOfLight *)
  nqe    : T;                    (* ElementaryCharge *)
  neps0  : T;                    (* EpsNull *)
  nmu0   : T;                    (* MuNull *)
  nirm   : T                     (* InvRestMass *)
}.

Declare Scope num_scope.
Delimit Scope num_scope with num.
Infix "+" := nadd : num_scope.
Infix "-" := nsub : num_scope.
Infix "*" := nmul : num_scope.
Infix "/" := ndiv : num_scope.
Notation "- x" := (nopp x) : num_scope.
Infix "<?" := nltb : num_scope.
Infix "<=?" := nleb : num_scope.
Infix "=?" := neqb : num_scope.

(* ------------------------------------------------------------------ *)
(* Real numbers                                                        *)

Definition Rltb (x y : R) : bool := if Rlt_dec x y then true else false.
Definition Rleb (x y : R) : bool := if Rle_dec x y then true else false.
Definition Reqb' (x y : R) : bool := if Req_EM_T x y then true else false.

(* round to nearest integer, halves away from zero *)
Definition Zround_away (x : R) : Z :=
  (if Rle_dec 0 x then Zfloor (x + / 2) else Zceil (x - / 2))%R.

(* The literal Pi of global.h is idealised to the real number PI. *)
#[global] Instance NumR : Num R := {|
  nZ := IZR;
  nadd := Rplus; nsub := Rminus; nmul := Rmult; ndiv := Rdiv;
  nopp := Ropp; nsqrt := sqrt; nabs := Rabs;
  nltb := Rltb; nleb := Rleb; neqb := Reqb';
  nfloor := fun x => Some (Zfloor x);
  nround := fun x => Some (Zround_away x);
  nrint := fun x => Some (ZnearestE x);
  nPi := PI;
  nc := IZR 299792458;
  nqe := (IZR 16021766208 / IZR (10 ^ 29))%R;
  neps0 := (IZR 8854187817 / IZR (10 ^ 21))%R;
  nmu0 := (4 * PI / IZR (10 ^ 7))%R;
  nirm := IZR 175882002500
|}.

Ltac unnum_in H :=
  cbv [nZ nadd nsub nmul ndiv nopp nsqrt nabs nltb nleb neqb nfloor nround nrint NumR] in H.
Ltac unnum :=
  cbv [nZ nadd nsub nmul ndiv nopp nsqrt nabs nltb nleb neqb nfloor nround nrint NumR].
Ltac unnum_all :=
  cbv [nZ nadd nsub nmul ndiv nopp nsqrt nabs nltb nleb neqb nfloor nround nrint NumR] in *.

Lemma Rltb_spec (x y : R) : reflect (x < y)%R (Rltb x y).
Proof. unfold Rltb; destruct (Rlt_dec x y); constructor; assumption. Qed.
Lemma Rleb_spec (x y : R) : reflect (x <= y)%R (Rleb x y).
Proof. unfold Rleb; destruct (Rle_dec x y); constructor; assumption. Qed.
Lemma Reqb_spec (x y : R) : reflect (x = y)%R (Reqb' x y).
Proof. unfold Reqb'; destruct (Req_EM_T x y); constructor; assumption. Qed.

Lemma nc_pos : (0 < nc)%R.
Proof. cbn. lra. Qed.
