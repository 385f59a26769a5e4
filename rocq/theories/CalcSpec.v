(* Specification: the texts of the expressions of the input files, and their values. *)
From Coq Require Import ZArith String Ascii List Bool Reals.
From Verif Require Import Base Num ParserModel CalcModel.
Import ListNotations.
Local Open Scope string_scope.

(* decimal digits, their text and their value *)
Definition digit_char (d : Z) : ascii := ascii_of_nat (48 + Z.to_nat d).
Fixpoint dec_text (ds : list Z) : string :=
  match ds with [] => "" | d :: r => String (digit_char d) (dec_text r) end.
Fixpoint dec_value (ds : list Z) : Z :=
  match ds with [] => 0 | d :: r => d * 10 ^ Z.of_nat (length r) + dec_value r end%Z.
Definition decimal (ds : list Z) : Prop := Forall (fun d => 0 <= d <= 9)%Z ds.
(* n spaces *)
Fixpoint spaces (n : nat) : string := match n with O => "" | S n => String " " (spaces n) end.

(* a number m 10^e: digits, digits after a point, exponent *)
Inductive fraction : list Z -> string -> Prop :=
| f_none : fraction [] ""
| f_some b : decimal b -> fraction b ("." ++ dec_text b).
Inductive scale : Z -> string -> Prop :=
| s_none : scale 0 ""
| s_plain k c : In k ["e"; "E"; "e+"; "E+"] -> decimal c -> c <> [] -> scale (dec_value c) (k ++ dec_text c)
| s_minus k c : In k ["e-"; "E-"] -> decimal c -> c <> [] -> scale (- dec_value c) (k ++ dec_text c).
Inductive literal : Z -> Z -> string -> Prop :=
| lit a b f x e : decimal a -> fraction b f -> scale x e -> dec_text a ++ f <> "" ->
    literal (dec_value (a ++ b)) (x - Z.of_nat (length b)) (dec_text a ++ f ++ e).
(* a name *)
Fixpoint word (s : string) : Prop :=
  match s with "" => True | String c r => (is_alpha c = true \/ is_digit c = true) /\ word r end.
Definition name (v : string) : Prop := match v with "" => False | String c _ => is_alpha c = true end /\ word v.

(* the texts: + and - bind weaker than * and /, these weaker than the sign, this weaker than
   powers; sums and products are grouped from the left *)
Inductive rank : Type := Sum | Product | Signed | Power | Primary.
Inductive text_of : rank -> cexpr -> string -> Prop :=
| t_add a b s n t : text_of Sum a s -> text_of Product b t -> text_of Sum (EAdd a b) (s ++ spaces n ++ "+" ++ t)
| t_sub a b s n t : text_of Sum a s -> text_of Product b t -> text_of Sum (ESub a b) (s ++ spaces n ++ "-" ++ t)
| t_sum a s : text_of Product a s -> text_of Sum a s
| t_mul a b s n t : text_of Product a s -> text_of Signed b t -> text_of Product (EMul a b) (s ++ spaces n ++ "*" ++ t)
| t_div a b s n t : text_of Product a s -> text_of Signed b t -> text_of Product (EDiv a b) (s ++ spaces n ++ "/" ++ t)
| t_product a s : text_of Signed a s -> text_of Product a s
| t_neg a n s : text_of Signed a s -> text_of Signed (ENeg a) (spaces n ++ "-" ++ s)
| t_signed a s : text_of Power a s -> text_of Signed a s
| t_pow a b s n t : text_of Primary a s -> text_of Signed b t -> text_of Power (EPow a b) (s ++ spaces n ++ "^" ++ t)
| t_power a s : text_of Primary a s -> text_of Power a s
| t_paren a n s m : text_of Sum a s -> text_of Primary a (spaces n ++ "(" ++ s ++ spaces m ++ ")")
| t_sqrt a n k s m : text_of Sum a s -> text_of Primary (ESqrt a) (spaces n ++ "sqrt" ++ spaces k ++ "(" ++ s ++ spaces m ++ ")")
| t_var v n : name v -> text_of Primary (EVar v) (spaces n ++ v)
| t_num m e n s : literal m e s -> text_of Primary (ENum m e) (spaces n ++ s).

(* the value of an expression in real arithmetic *)
Local Open Scope R_scope.
Inductive means (env : cenv R) : cexpr -> R -> Prop :=
| m_num m e : means env (ENum m e) (IZR m * powerRZ 10 e)
| m_var v x : (exists l r, env = (l ++ (v, x) :: r)%list /\ ~ In v (map fst l)) -> means env (EVar v) x
| m_neg a x : means env a x -> means env (ENeg a) (- x)
| m_add a b x y : means env a x -> means env b y -> means env (EAdd a b) (x + y)
| m_sub a b x y : means env a x -> means env b y -> means env (ESub a b) (x - y)
| m_mul a b x y : means env a x -> means env b y -> means env (EMul a b) (x * y)
| m_div a b x y : means env a x -> means env b y -> means env (EDiv a b) (x / y)
| m_pow a b x n : means env a x -> means env b (INR n) -> (2 <= n <= 4)%nat -> means env (EPow a b) (x ^ n)
| m_sqrt a x : means env a x -> means env (ESqrt a) (sqrt x).
