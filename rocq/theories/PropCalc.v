(* C93: what the expressions and integers of the input files mean. *)
From Coq Require Import ZArith String List Bool Reals Lra Lia.
From Verif Require Import Base Num ParserModel CalcModel CalcSpec CalcProofs CalcProofs2 CalcProofs3.
Import ListNotations.
Local Open Scope string_scope.

(* The calculator used for the shipped input files reads exactly the texts of the grammar in
   CalcSpec.v, with the usual precedence of operators; *)
Theorem C93_grammar : forall t a,
  expression t = Some a <-> exists s n, t = s ++ spaces n /\ text_of Sum a s.
Proof.
  intros t a. split; [apply grammar_sound|]. intros (s & n & -> & T). now apply grammar_complete.
Qed.
Print Assumptions C93_grammar.
(* a text has only one reading *)
Theorem C93_one_reading : forall a b s, text_of Sum a s -> text_of Sum b s -> a = b.
Proof.
  intros a b s A B. apply (grammar_complete a s 0) in A. apply (grammar_complete b s 0) in B. congruence.
Qed.
Print Assumptions C93_one_reading.
(* in real arithmetic a text has the value of the expression *)
Theorem C93_calculated : forall (env : cenv R) t v,
  @cEval R (@calculator R NumR) env t = Some v <-> exists a s n, t = s ++ spaces n /\ text_of Sum a s /\ means env a v.
Proof.
  intros env t v. cbn [cEval calculator]. split.
  - intros H. destruct (expression t) as [a|] eqn:E; [|discriminate]. apply value_means in H.
    apply C93_grammar in E. destruct E as (s & n & E & T). exists a, s, n. auto.
  - intros (a & s & n & E & T & M). assert (X : expression t = Some a) by (apply C93_grammar; eauto).
    rewrite X. apply value_means. exact M.
Qed.
Print Assumptions C93_calculated.
(* the value of an integer attribute *)
Theorem C93_integers : forall (T : Type) (NT : Num T) n ds r, decimal ds -> ds <> [] ->
  match r with "" => True | String c _ => is_digit c = false end ->
  @cInt T (@calculator T NT) (spaces n ++ dec_text ds ++ r) = dec_value ds /\
  @cInt T (@calculator T NT) (spaces n ++ "-" ++ dec_text ds ++ r) = (- dec_value ds)%Z.
Proof. intros T NT. exact as_int_dec. Qed.
Print Assumptions C93_integers.
Example C93_calculated_ex : text_of Sum (ESub (ENum 15 2) (EMul (ENum 2 0) (EPow (EVar "dz") (ENum 2 0)))) "1.5e3 - 2*dz^2" /\
  decimal [1; 2]%Z /\ dec_text [1; 2]%Z = "12" /\ dec_value [1; 2]%Z = 12%Z.
Proof.
  split; [|split; [repeat constructor; lia|split; reflexivity]].
  assert (L : forall m d, (0 <= d <= 9)%Z -> m = d -> literal m 0 (dec_text [d])).
  { intros m d Hd ->. pose proof (lit [d] [] "" 0 "") as L. cbn in L. rewrite Z.mul_1_r, Z.add_0_r in L. apply L; [repeat constructor; lia|constructor|constructor|discriminate]. }
  change "1.5e3 - 2*dz^2" with ("1.5e3" ++ spaces 1 ++ "-" ++ (" 2" ++ spaces 0 ++ "*" ++ ("dz" ++ spaces 0 ++ "^" ++ "2"))).
  apply t_sub.
  - apply t_sum, t_product, t_signed, t_power. change "1.5e3" with (spaces 0 ++ "1.5e3"). apply t_num.
    pose proof (lit [1%Z] [5%Z] ".5" 3 "e3") as Q. cbn in Q. apply Q; [repeat constructor; lia| |  |discriminate].
    + apply (f_some [5%Z]). repeat constructor; lia.
    + apply (s_plain "e" [3%Z]); [left; reflexivity|repeat constructor; lia|discriminate].
  - apply t_mul.
    + apply t_product, t_signed, t_power. apply (t_num 2 0 1 "2"). apply (L 2%Z 2%Z); [lia|reflexivity].
    + apply t_signed, t_pow.
      * apply (t_var "dz" 0). split; [reflexivity|]. cbn. tauto.
      * apply t_signed, t_power. apply (t_num 2 0 0 "2"). apply (L 2%Z 2%Z); [lia|reflexivity].
Qed.
