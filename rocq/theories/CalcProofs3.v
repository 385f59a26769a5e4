(* The values of expressions and integers *)
From Coq Require Import ZArith String Ascii List Bool Lia Arith Reals Lra.
From Verif Require Import Base Num ParserModel CalcModel CalcSpec CalcProofs.
Import ListNotations.
Local Open Scope R_scope.

Lemma num_value m e : (if (e <? 0)%Z then ndiv (nZ m) (nZ (10 ^ (- e))) else nZ (m * 10 ^ e)) = IZR m * powerRZ 10 e.
Proof.
  unnum. destruct (e <? 0)%Z eqn:E.
  - apply Z.ltb_lt in E. destruct e as [|p|p]; try lia. cbn [Z.opp powerRZ]. unfold Rdiv. f_equal. f_equal.
    rewrite <- (positive_nat_Z p), <- pow_IZR. reflexivity.
  - apply Z.ltb_ge in E. rewrite mult_IZR. f_equal. destruct e as [|p|p]; [reflexivity| |lia]. cbn [powerRZ].
    rewrite <- (positive_nat_Z p), <- pow_IZR. reflexivity.
Qed.
Lemma find_first (env : cenv R) v x : (exists l r, env = (l ++ (v, x) :: r)%list /\ ~ In v (map fst l)) <->
  match find (fun b => String.eqb (fst b) v) env with Some b => Some (snd b) | None => None end = Some x.
Proof.
  induction env as [|[w y] env IH].
  - cbn. split; [intros ([|? ?] & r & E & _); discriminate|discriminate].
  - cbn [find fst]. destruct (String.eqb_spec w v) as [->|N].
    + cbn [snd]. split.
      * intros ([|[w z] l] & r & E & I); injection E as E1 E2; [congruence|]. exfalso. apply I. left. cbn. congruence.
      * intros E. injection E as ->. exists [], env. split; [reflexivity|intros []].
    + rewrite <- IH. split.
      * intros ([|[w' z] l] & r & E & I); injection E as E1 E2; [congruence|]; exists l, r. split; [congruence|]. intros Q. apply I. right. exact Q.
      * intros (l & r & -> & I). exists ((w, y) :: l), r. split; [reflexivity|]. intros [Q|Q]; [apply N; exact Q|apply I; exact Q].
Qed.
Lemma small_pow_value (x y z : R) : small_pow x y = Some z <-> exists n, (2 <= n <= 4)%nat /\ y = INR n /\ z = x ^ n.
Proof.
  unfold small_pow. unnum. unfold Reqb'. split.
  - destruct (Req_EM_T y 2); [intros H; injection H as <-; exists 2%nat; split; [lia|]; split; [cbn; lra|ring]|].
    destruct (Req_EM_T y 3); [intros H; injection H as <-; exists 3%nat; split; [lia|]; split; [cbn; lra|ring]|].
    destruct (Req_EM_T y 4); [intros H; injection H as <-; exists 4%nat; split; [lia|]; split; [cbn; lra|ring]|discriminate].
  - intros (n & Hn & -> & ->). assert (D : n = 2%nat \/ n = 3%nat \/ n = 4%nat) by lia. destruct D as [-> |[-> | ->]].
    + replace (INR 2) with 2 by (cbn; lra). destruct (Req_EM_T 2 2); [f_equal; ring|contradiction].
    + replace (INR 3) with 3 by (cbn; lra). destruct (Req_EM_T 3 2); [lra|]. destruct (Req_EM_T 3 3); [f_equal; ring|contradiction].
    + replace (INR 4) with 4 by (cbn; lra). destruct (Req_EM_T 4 2); [lra|]. destruct (Req_EM_T 4 3); [lra|].
      destruct (Req_EM_T 4 4); [f_equal; ring|contradiction].
Qed.
Lemma value_means (env : cenv R) e : forall v, expr_value env e = Some v <-> means env e v.
Proof.
  induction e as [m k|w|a IH|a IHa b IHb|a IHa b IHb|a IHa b IHb|a IHa b IHb|a IHa b IHb|a IH]; intros v; cbn [expr_value]; unfold opt2.
  - rewrite num_value. split; [intros H; injection H as <-; constructor|intros H; inversion H; reflexivity].
  - rewrite <- find_first. split; [intros H; now constructor|intros H; now inversion H].
  - destruct (expr_value env a) as [x|].
    + split; [intros H; injection H as <-; apply (m_neg env a x); now apply IH|].
      intros H; inversion H as [| |a' x' Hx| | | | | |]; subst. apply IH in Hx. injection Hx as ->. reflexivity.
    + split; [discriminate|]. intros H; inversion H as [| |a' x' Hx| | | | | |]; subst. apply IH in Hx. discriminate.
  - destruct (expr_value env a) as [x|] eqn:A, (expr_value env b) as [y|] eqn:B;
      (split; [first [discriminate | intros H; injection H as <-; apply (m_add env a b x y); [now apply IHa|now apply IHb]]|
       intros H; inversion H as [| | |a' b' x' y' Hx Hy| | | | |]; subst; apply IHa in Hx; apply IHb in Hy; first [discriminate | injection Hx as ->; injection Hy as ->; reflexivity]]).
  - destruct (expr_value env a) as [x|] eqn:A, (expr_value env b) as [y|] eqn:B;
      (split; [first [discriminate | intros H; injection H as <-; apply (m_sub env a b x y); [now apply IHa|now apply IHb]]|
       intros H; inversion H as [| | | |a' b' x' y' Hx Hy| | | |]; subst; apply IHa in Hx; apply IHb in Hy; first [discriminate | injection Hx as ->; injection Hy as ->; reflexivity]]).
  - destruct (expr_value env a) as [x|] eqn:A, (expr_value env b) as [y|] eqn:B;
      (split; [first [discriminate | intros H; injection H as <-; apply (m_mul env a b x y); [now apply IHa|now apply IHb]]|
       intros H; inversion H as [| | | | |a' b' x' y' Hx Hy| | |]; subst; apply IHa in Hx; apply IHb in Hy; first [discriminate | injection Hx as ->; injection Hy as ->; reflexivity]]).
  - destruct (expr_value env a) as [x|] eqn:A, (expr_value env b) as [y|] eqn:B;
      (split; [first [discriminate | intros H; injection H as <-; apply (m_div env a b x y); [now apply IHa|now apply IHb]]|
       intros H; inversion H as [| | | | | |a' b' x' y' Hx Hy| |]; subst; apply IHa in Hx; apply IHb in Hy; first [discriminate | injection Hx as ->; injection Hy as ->; reflexivity]]).
  - destruct (expr_value env a) as [x|] eqn:A, (expr_value env b) as [y|] eqn:B.
    + rewrite small_pow_value. split.
      * intros (n & Hn & -> & ->). apply m_pow; [now apply IHa|now apply IHb|exact Hn].
      * intros H; inversion H as [| | | | | | |a' b' x' n Hx Hy Hn|]; subst. apply IHa in Hx. apply IHb in Hy. exists n. split; [exact Hn|]. split; congruence.
    + split; [discriminate|]. intros H; inversion H as [| | | | | | |a' b' x' n Hx Hy Hn|]; subst. apply IHb in Hy. discriminate.
    + split; [discriminate|]. intros H; inversion H as [| | | | | | |a' b' x' n Hx Hy Hn|]; subst. apply IHa in Hx. discriminate.
    + split; [discriminate|]. intros H; inversion H as [| | | | | | |a' b' x' n Hx Hy Hn|]; subst. apply IHa in Hx. discriminate.
  - destruct (expr_value env a) as [x|].
    + split; [intros H; injection H as <-; apply (m_sqrt env a x); now apply IH|].
      intros H; inversion H as [| | | | | | | |a' x' Hx]; subst. apply IH in Hx. injection Hx as ->. reflexivity.
    + split; [discriminate|]. intros H; inversion H as [| | | | | | | |a' x' Hx]; subst. apply IH in Hx. discriminate.
Qed.

(* integers *)
Local Open Scope string_scope.
Lemma as_int_dec n ds r : decimal ds -> ds <> [] -> no_digit r ->
  as_int (spaces n ++ dec_text ds ++ r) = dec_value ds /\ as_int (spaces n ++ "-" ++ dec_text ds ++ r) = (- dec_value ds)%Z.
Proof.
  intros H N R. unfold as_int. rewrite !skip_spaces. split.
  - destruct ds as [|d ds]; [contradiction|]. pose proof (Forall_inv H) as Hd. cbv beta in Hd.
    assert (D : forall k, (k < 48)%Z -> is_char k (digit_char d) = false).
    { intros k Hk. unfold is_char. rewrite digit_char_code by exact Hd. apply Z.eqb_neq. lia. }
    cbn [dec_text append skip]. rewrite !D by lia.
    change (String (digit_char d) (dec_text ds ++ r)) with (dec_text (d :: ds) ++ r). rewrite (digits_dec _ H 0 0 r R). cbn [Z.mul]. reflexivity.
  - cbn [append skip]. change (is_char 32 "-") with false. change (is_char 45 "-") with true. cbv iota. rewrite (digits_dec _ H 0 0 r R). reflexivity.
Qed.
