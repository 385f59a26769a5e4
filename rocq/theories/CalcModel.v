(* A calculator for the expressions of the input files.  The program uses the library
   muParser (/repo/src/parser.cpp:41-55,61-147), which is not part of the repository.  This is the
   part of its language which the files in /repo/examples and /repo/tests use:
   numbers, names, + - * / ^, the sign -, parentheses and sqrt().  Everything else of the
   library is left out: such texts have no value here.
   The six constants of the constructor InputParser are given with the values of
   /repo/src/global.h:36-45. *)
From Coq Require Import ZArith String Ascii List Bool.
From Verif Require Import Base Num ParserModel.
Import ListNotations.

(* ---- expressions ---- *)
Inductive cexpr : Type :=
| ENum (m e : Z)                       (* m * 10^e *)
| EVar (v : string)
| ENeg (a : cexpr)
| EAdd (a b : cexpr) | ESub (a b : cexpr) | EMul (a b : cexpr) | EDiv (a b : cexpr)
| EPow (a b : cexpr)
| ESqrt (a : cexpr).

(* characters *)
Definition code (c : ascii) : Z := Z.of_N (N_of_ascii c).
Definition is_digit (c : ascii) : bool := ((48 <=? code c) && (code c <=? 57))%Z.
Definition is_alpha (c : ascii) : bool :=
  (((65 <=? code c) && (code c <=? 90)) || ((97 <=? code c) && (code c <=? 122)) || (code c =? 95))%Z.
Definition is_char (k : Z) (c : ascii) : bool := Z.eqb (code c) k.
Fixpoint skip (s : string) : string :=
  match s with String c r => if is_char 32 c then skip r else s | EmptyString => s end.
(* digits: the number read so far, how many, the rest *)
Fixpoint digits (acc : Z) (k : Z) (s : string) : Z * Z * string :=
  match s with
  | String c r => if is_digit c then digits (acc * 10 + (code c - 48))%Z (k + 1)%Z r else (acc, k, s)
  | EmptyString => (acc, k, s)
  end.
Fixpoint name_of (s : string) : string * string :=
  match s with
  | String c r => if is_alpha c || is_digit c then let '(a, b) := name_of r in (String c a, b) else (EmptyString, s)
  | EmptyString => (EmptyString, s)
  end.
(* the exponent of a number, if there is one *)
Definition exponent (s : string) : Z * string :=
  match s with
  | String c r =>
      if is_char 101 c || is_char 69 c then
        let '(sg, r1) := match r with
          | String d r1 => if is_char 45 d then ((-1)%Z, r1) else if is_char 43 d then (1%Z, r1) else (1%Z, r)
          | EmptyString => (1%Z, r) end in
        let '(x, k, r2) := digits 0 0 r1 in
        if Z.eqb k 0 then (0%Z, s) else ((sg * x)%Z, r2)
      else (0%Z, s)
  | EmptyString => (0%Z, s)
  end.
Definition number (s : string) : cexpr * string :=
  let '(m, _, r) := digits 0 0 s in
  let '(m, d, r) := match r with
    | String c r1 => if is_char 46 c then digits m 0 r1 else (m, 0%Z, r)
    | EmptyString => (m, 0%Z, r) end in
  let '(x, r) := exponent r in
  (ENum m (x - d), r).

(* an operator of a list, if the text begins with it *)
Definition op_of {A} (ops : list (Z * A)) (s : string) : option (A * string) :=
  match skip s with
  | String c r => match find (fun o => is_char (fst o) c) ops with Some o => Some (snd o, r) | None => None end
  | EmptyString => None
  end.
(* a sum, a product, a factor with a sign, a power, a primary; fuel bounds the depth and the
   number of operators.  Left-associative operators collect their left operand *)
Inductive level : Type := LSum | LSumRest (a : cexpr) | LProd | LProdRest (a : cexpr) | LSign | LPow | LPrim.
Fixpoint p_expr (fuel : nat) (l : level) (s : string) : option (cexpr * string) :=
  match fuel with
  | O => None
  | S f =>
      match l with
      | LSum => match p_expr f LProd s with Some (a, r) => p_expr f (LSumRest a) r | None => None end
      | LSumRest a =>
          match op_of [(43%Z, EAdd); (45%Z, ESub)] s with
          | Some (o, r) => match p_expr f LProd r with Some (b, r) => p_expr f (LSumRest (o a b)) r | None => None end
          | None => Some (a, s)
          end
      | LProd => match p_expr f LSign s with Some (a, r) => p_expr f (LProdRest a) r | None => None end
      | LProdRest a =>
          match op_of [(42%Z, EMul); (47%Z, EDiv)] s with
          | Some (o, r) => match p_expr f LSign r with Some (b, r) => p_expr f (LProdRest (o a b)) r | None => None end
          | None => Some (a, s)
          end
      | LSign =>
          match op_of [(45%Z, ENeg)] s with
          | Some (o, r) => match p_expr f LSign r with Some (a, r) => Some (o a, r) | None => None end
          | None => p_expr f LPow s
          end
      | LPow =>
          match p_expr f LPrim s with
          | Some (a, r) =>
              match op_of [(94%Z, EPow)] r with
              | Some (o, r) => match p_expr f LSign r with Some (b, r) => Some (o a b, r) | None => None end
              | None => Some (a, r)
              end
          | None => None
          end
      | LPrim =>
          match skip s with
          | EmptyString => None
          | String c r =>
              if is_char 40 c then
                match p_expr f LSum r with
                | Some (a, r) => match op_of [(41%Z, tt)] r with Some (_, r) => Some (a, r) | None => None end
                | None => None
                end
              else if is_digit c || is_char 46 c then Some (number (String c r))
              else if is_alpha c then
                let '(v, r) := name_of (String c r) in
                match op_of [(40%Z, tt)] r with
                | Some (_, r) =>
                    if String.eqb v "sqrt" then
                      match p_expr f LSum r with
                      | Some (a, r) => match op_of [(41%Z, tt)] r with Some (_, r) => Some (ESqrt a, r) | None => None end
                      | None => None
                      end
                    else None
                | None => Some (EVar v, r)
                end
              else None
          end
      end
  end.
(* a complete text; 4 levels per character and operator are enough *)
Definition expression (t : string) : option cexpr :=
  match p_expr (8 * (String.length t + 1)) LSum t with
  | Some (a, r) => match skip r with EmptyString => Some a | _ => None end
  | None => None
  end.

(* names accepted by DefineConst: letters, digits and _, beginning with a letter or _ *)
Definition good_name (v : string) : bool :=
  match v with
  | String c _ => is_alpha c && match name_of v with (_, EmptyString) => true | _ => false end
  | EmptyString => false
  end.
(* xml_attribute::as_int of a decimal number with an optional sign *)
Definition as_int (t : string) : Z :=
  match skip t with
  | String c r => if is_char 45 c then let '(x, _, _) := digits 0 0 r in (- x)%Z
                  else let '(x, _, _) := digits 0 0 (String c r) in x
  | EmptyString => 0%Z
  end.

Section Eval.
Context {T : Type} {NT : Num T}.
Local Open Scope num_scope.
(* x^n for the small integral powers which muParser replaces by products *)
Definition small_pow (x y : T) : option T :=
  if y =? nZ 2 then Some (x * x)
  else if y =? nZ 3 then Some (x * x * x)
  else if y =? nZ 4 then Some (x * x * x * x) else None.
Definition opt2 {A B C} (f : A -> B -> option C) (a : option A) (b : option B) : option C :=
  match a, b with Some a, Some b => f a b | _, _ => None end.
Fixpoint expr_value (e : cenv T) (x : cexpr) : option T :=
  match x with
  | ENum m k => Some (if (k <? 0)%Z then nZ m / nZ (10 ^ (- k)) else nZ (m * 10 ^ k))
  | EVar v => match find (fun b => String.eqb (fst b) v) e with Some b => Some (snd b) | None => None end
  | ENeg a => match expr_value e a with Some a => Some (- a) | None => None end
  | EAdd a b => opt2 (fun a b => Some (a + b)) (expr_value e a) (expr_value e b)
  | ESub a b => opt2 (fun a b => Some (a - b)) (expr_value e a) (expr_value e b)
  | EMul a b => opt2 (fun a b => Some (a * b)) (expr_value e a) (expr_value e b)
  | EDiv a b => opt2 (fun a b => Some (a / b)) (expr_value e a) (expr_value e b)
  | EPow a b => opt2 small_pow (expr_value e a) (expr_value e b)
  | ESqrt a => match expr_value e a with Some a => Some (nsqrt a) | None => None end
  end.
Definition calculator : Calc T :=
  MkCalc T (fun e t => match expression t with Some x => expr_value e x | None => None end) good_name as_int.
(* the constants defined by the constructor InputParser, parser.cpp:46-52, global.h:36-45 *)
Definition program_consts : cenv T :=
  [("_pi"%string, nPi); ("_eps0"%string, neps0); ("_mec2"%string, nZ 5109989461 / nZ (10 ^ 4));
   ("_h"%string, nZ 662607015 / nZ (10 ^ 22) / nZ (10 ^ 20)); ("_e"%string, nqe); ("_c"%string, nc)].
End Eval.
