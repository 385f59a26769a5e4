(* Outcomes of C++ functions, exceptions, undefined behaviour, int arithmetic. *)
From Coq Require Import ZArith List Bool.
Import ListNotations.
Local Open Scope Z_scope.

(* The exception classes of /repo/src/global.h:78-96 plus the two standard
   library exceptions which can escape from std::vector::reserve/at.
   The message texts are not modelled. *)
Inductive exn : Type := IOexc | RANGEexc | STDexc.

(* Result of running a piece of C++ code:
   [Ok a]   - normal return with value/state a
   [Throw e]- an exception leaves the function
   [UB]     - undefined behaviour (out-of-range access, division by zero,
              read of an indeterminate value, null dereference ...)
   [Loop]   - the code never returns *)
Inductive res (A : Type) : Type :=
| Ok (a : A)
| Throw (e : exn)
| UB
| Loop.
Arguments Ok {A} _.
Arguments Throw {A} _.
Arguments UB {A}.
Arguments Loop {A}.

Definition bind {A B} (m : res A) (f : A -> res B) : res B :=
  match m with Ok a => f a | Throw e => Throw e | UB => UB | Loop => Loop end.

Declare Scope res_scope.
Delimit Scope res_scope with res.
Notation "x <- m ;; k" := (bind m (fun x => k))
  (at level 61, m at next level, right associativity) : res_scope.
Notation "' p <- m ;; k" := (bind m (fun x => match x with p => k end))
  (at level 61, p pattern, m at next level, k at level 61) : res_scope.

(* v[i] for a std::vector v: out of range is undefined behaviour. *)
Definition zget {A} (l : list A) (i : Z) : res A :=
  if (i <? 0) then UB
  else match nth_error l (Z.to_nat i) with Some a => Ok a | None => UB end.

(* v.back(): undefined on an empty vector. *)
Fixpoint lback {A} (l : list A) : res A :=
  match l with
  | [] => UB
  | [a] => Ok a
  | _ :: r => lback r
  end.

(* v[i] = a on a std::vector v. *)
Fixpoint lset {A} (l : list A) (n : nat) (a : A) : list A :=
  match l, n with
  | [], _ => []
  | _ :: r, O => a :: r
  | x :: r, S m => x :: lset r m a
  end.
Definition zset {A} (l : list A) (i : Z) (a : A) : res (list A) :=
  if (i <? 0) || (Z.of_nat (length l) <=? i) then UB
  else Ok (lset l (Z.to_nat i) a).

(* n-fold iteration of a function which may fail. *)
Fixpoint iter_res {A} (f : A -> res A) (n : nat) (a : A) : res A :=
  match n with
  | O => Ok a
  | S m => bind (f a) (iter_res f m)
  end.

(* map with a function which may fail, left to right. *)
Fixpoint map_res {A B} (f : A -> res B) (l : list A) : res (list B) :=
  match l with
  | [] => Ok []
  | x :: r => bind (f x) (fun y => bind (map_res f r) (fun ys => Ok (y :: ys)))
  end.

(* fold with a function which may fail, left to right. *)
Fixpoint fold_res {A S} (f : S -> A -> res S) (l : list A) (s : S) : res S :=
  match l with
  | [] => Ok s
  | x :: r => bind (f s x) (fun s' => fold_res f r s')
  end.

(* The value range of the C++ type int (32 bit). *)
Definition int_min : Z := - 2 ^ 31.
Definition int_max : Z := 2 ^ 31 - 1.
Definition in_int (z : Z) : bool := (int_min <=? z) && (z <=? int_max).

(* Conversion double -> int of an integral value: undefined outside int. *)
Definition to_int (o : option Z) : res Z :=
  match o with
  | Some z => if in_int z then Ok z else UB
  | None => UB
  end.

(* unsigned int arithmetic wraps modulo 2^32, std::size_t modulo 2^64. *)
Definition u32 (z : Z) : Z := z mod 2 ^ 32.
Definition u64 (z : Z) : Z := z mod 2 ^ 64.

(* conversion std::size_t -> int (implementation defined, wraps in gcc) *)
Definition i32 (z : Z) : Z := (z + 2 ^ 31) mod 2 ^ 32 - 2 ^ 31.

(* the loop range a, a+1, ..., a+n-1 *)
Fixpoint zseq (a : Z) (n : nat) : list Z :=
  match n with O => [] | S m => a :: zseq (a + 1) m end.
