(* The grammar is complete and sound *)
From Coq Require Import ZArith String Ascii List Bool Lia Arith.
From Verif Require Import Base Num ParserModel CalcModel CalcSpec CalcProofs.
Import ListNotations.
Local Open Scope string_scope.

Definition depth (l : level) : nat :=
  match l with LSum => 5 | LProd => 4 | LSign => 3 | LPow => 2 | LPrim => 1 | LSumRest _ => 1 | LProdRest _ => 1 end.
(* enough fuel *)
Definition fuel (l : level) (s : string) : nat := 8 * String.length s + depth l.
Definition reads (l : level) (s : string) (x : cexpr * string) : Prop := p_expr (fuel l s) l s = Some x.

Lemma reads_at f l s x : reads l s x -> fuel l s <= f -> p_expr f l s = Some x.
Proof. intros H Hf. eapply p_expr_mono; [exact H|exact Hf]. Qed.
Lemma fuel_S l s : exists k, fuel l s = S k /\ k = 8 * String.length s + (depth l - 1).
Proof. exists (8 * String.length s + (depth l - 1)). split; [|reflexivity]. unfold fuel. destruct l; cbn [depth]; lia. Qed.

Ltac open_reads := unfold reads; match goal with |- p_expr (fuel ?l ?s) _ _ = _ =>
  let k := fresh "k" in let K := fresh "K" in let K2 := fresh "K2" in destruct (fuel_S l s) as (k & K & K2); rewrite K; cbn [depth] in K2; cbn [p_expr] end.
Ltac fuelly := unfold fuel; cbn [depth]; rewrite ?len_app in *; cbn [String.length] in *; lia.

Lemma r_sum s a r x : reads LProd s (a, r) -> String.length r <= String.length s -> reads (LSumRest a) r x -> reads LSum s x.
Proof. intros A L B. open_reads. rewrite (reads_at _ _ _ _ A) by fuelly. apply (reads_at _ _ _ _ B). fuelly. Qed.
Lemma r_prod s a r x : reads LSign s (a, r) -> String.length r <= String.length s -> reads (LProdRest a) r x -> reads LProd s x.
Proof. intros A L B. open_reads. rewrite (reads_at _ _ _ _ A) by fuelly. apply (reads_at _ _ _ _ B). fuelly. Qed.
Lemma r_sum_end a s : follow [41]%Z s -> reads (LSumRest a) s (a, s).
Proof. intros F. open_reads. rewrite (op_of_none _ _ _ F); [reflexivity|]. intros k' [<-|[]] [H|[H|[]]]; discriminate. Qed.
Lemma r_prod_end a s : follow [43; 45; 41]%Z s -> reads (LProdRest a) s (a, s).
Proof.
  intros F. open_reads. rewrite (op_of_none _ _ _ F); [reflexivity|].
  intros k' I [H|[H|[]]]; subst k'; cbn in I; repeat destruct I as [I|I]; try discriminate; destruct I.
Qed.
Lemma r_sum_more a n c o r b r1 x : In (code c, o) [(43%Z, EAdd); (45%Z, ESub)] ->
  reads LProd r (b, r1) -> String.length r1 <= String.length r -> reads (LSumRest (o a b)) r1 x ->
  reads (LSumRest a) (spaces n ++ String c r) x.
Proof.
  intros I A L B. open_reads.
  assert (E : op_of [(43%Z, EAdd); (45%Z, ESub)] (spaces n ++ String c r) = Some (o, r)).
  { rewrite op_of_at.
    - destruct I as [I|[I|[]]]; injection I as I <-; cbn [find fst snd]; unfold is_char; rewrite <- I; reflexivity.
    - destruct I as [I|[I|[]]]; injection I as I <-; unfold is_char; rewrite <- I; reflexivity. }
  rewrite E. rewrite (reads_at _ _ _ _ A) by fuelly. apply (reads_at _ _ _ _ B). fuelly.
Qed.
Lemma r_prod_more a n c o r b r1 x : In (code c, o) [(42%Z, EMul); (47%Z, EDiv)] ->
  reads LSign r (b, r1) -> String.length r1 <= String.length r -> reads (LProdRest (o a b)) r1 x ->
  reads (LProdRest a) (spaces n ++ String c r) x.
Proof.
  intros I A L B. open_reads.
  assert (E : op_of [(42%Z, EMul); (47%Z, EDiv)] (spaces n ++ String c r) = Some (o, r)).
  { rewrite op_of_at.
    - destruct I as [I|[I|[]]]; injection I as I <-; cbn [find fst snd]; unfold is_char; rewrite <- I; reflexivity.
    - destruct I as [I|[I|[]]]; injection I as I <-; unfold is_char; rewrite <- I; reflexivity. }
  rewrite E. rewrite (reads_at _ _ _ _ A) by fuelly. apply (reads_at _ _ _ _ B). fuelly.
Qed.
Lemma r_neg n r a r1 : reads LSign r (a, r1) -> reads LSign (spaces n ++ "-" ++ r) (ENeg a, r1).
Proof.
  intros A. open_reads. cbn [append]. rewrite op_of_at by reflexivity. cbn [find fst]. change (is_char 45 "-") with true. cbn [snd].
  rewrite (reads_at _ _ _ _ A) by fuelly. reflexivity.
Qed.
Lemma r_pow s a r n r1 b r2 : reads LPrim s (a, r) -> r = spaces n ++ "^" ++ r1 -> reads LSign r1 (b, r2) -> String.length r <= String.length s ->
  reads LPow s (EPow a b, r2).
Proof.
  intros A -> B L. open_reads. rewrite (reads_at _ _ _ _ A) by fuelly. cbn [append] in L |- *. rewrite op_of_at by reflexivity. cbn [find fst].
  change (is_char 94 "^") with true. cbn [snd]. rewrite (reads_at _ _ _ _ B) by fuelly. reflexivity.
Qed.
Lemma r_pow_end s a r : reads LPrim s (a, r) -> follow [43; 45; 42; 47; 41]%Z r -> reads LPow s (a, r).
Proof.
  intros A F. open_reads. rewrite (reads_at _ _ _ _ A) by fuelly. rewrite (op_of_none _ _ _ F); [reflexivity|].
  intros k' I [H|[]]; subst k'; cbn in I; repeat destruct I as [I|I]; try discriminate; destruct I.
Qed.
Lemma r_paren n r a r1 m r2 : reads LSum r (a, r1) -> r1 = spaces m ++ ")" ++ r2 -> reads LPrim (spaces n ++ "(" ++ r) (a, r2).
Proof.
  intros A ->. open_reads. rewrite skip_spaces. cbn [append skip]. change (is_char 32 "(") with false. cbv iota. change (is_char 40 "(") with true. cbv iota.
  rewrite (reads_at _ _ _ _ A) by fuelly. cbn [append]. rewrite op_of_at by reflexivity. cbn [find fst]. change (is_char 41 ")") with true. reflexivity.
Qed.
Lemma name_sqrt k r : name_of ("sqrt" ++ spaces k ++ "(" ++ r) = ("sqrt", spaces k ++ "(" ++ r).
Proof. assert (E : name_of (spaces k ++ "(" ++ r) = ("", spaces k ++ "(" ++ r)) by (destruct k; reflexivity). cbn. cbn in E. rewrite E. reflexivity. Qed.
Lemma r_sqrt n k r a r1 m r2 : reads LSum r (a, r1) -> r1 = spaces m ++ ")" ++ r2 ->
  reads LPrim (spaces n ++ "sqrt" ++ spaces k ++ "(" ++ r) (ESqrt a, r2).
Proof.
  intros A ->. open_reads. rewrite skip_spaces. pose proof (name_sqrt k r) as N.
  change ("sqrt" ++ spaces k ++ "(" ++ r) with (String "s" ("qrt" ++ spaces k ++ "(" ++ r)) in N |- *.
  cbn [skip]. change (is_char 32 "s") with false. cbv iota. change (is_char 40 "s") with false. change (is_digit "s" || is_char 46 "s") with false.
  change (is_alpha "s") with true. cbv iota. rewrite N. change ("(" ++ r) with (String "(" r). rewrite op_of_at by reflexivity. cbn [find fst]. change (is_char 40 "(") with true. cbv iota.
  cbn [String.eqb Ascii.eqb Bool.eqb]. rewrite (reads_at _ _ _ _ A) by fuelly. cbn [append]. rewrite op_of_at by reflexivity. cbn [find fst]. change (is_char 41 ")") with true. reflexivity.
Qed.
Lemma alpha_not c : is_alpha c = true -> is_char 32 c = false /\ is_char 40 c = false /\ is_digit c || is_char 46 c = false /\ is_char 45 c = false.
Proof.
  unfold is_alpha, is_char, is_digit. intros H.
  assert (R : (65 <= code c)%Z).
  { rewrite !orb_true_iff, !andb_true_iff, !Z.leb_le, Z.eqb_eq in H. lia. }
  repeat split; try (apply Z.eqb_neq; lia). apply orb_false_iff. split; [|apply Z.eqb_neq; lia]. apply andb_false_iff. right. apply Z.leb_gt. lia.
Qed.
Lemma r_var n v r : name v -> follow follow_all r -> reads LPrim (spaces n ++ v ++ r) (EVar v, r).
Proof.
  intros [Nm W] F. open_reads. rewrite skip_spaces. pose proof (name_of_word v r W F) as N. destruct v as [|c v]; [destruct Nm|].
  cbn [append] in N |- *. cbn [skip]. destruct (alpha_not c Nm) as (-> & -> & -> & _). rewrite Nm, N.
  rewrite (op_of_none _ _ _ F); [reflexivity|]. intros k' I [H|[]]. subst k'. cbn in I. repeat destruct I as [I|I]; try discriminate; destruct I.
Qed.
Lemma literal_head m e s : literal m e s -> exists c t, s = String c t /\ (is_digit c = true \/ is_char 46 c = true).
Proof.
  intros L. destruct L as [a b f x e Ha Hf Hx Ne]. destruct a as [|d a].
  - destruct Hf as [|b Hb]; [contradiction|]. exists "."%char, (dec_text b ++ e). split; [reflexivity|]. right. reflexivity.
  - exists (digit_char d), (dec_text a ++ f ++ e). split; [reflexivity|]. left. apply digit_char_is. apply Forall_inv in Ha. exact Ha.
Qed.
Lemma r_num n m e s r : literal m e s -> follow follow_all r -> reads LPrim (spaces n ++ s ++ r) (ENum m e, r).
Proof.
  intros L F. open_reads. rewrite skip_spaces. pose proof (number_literal m e s r L F) as N.
  destruct (literal_head m e s L) as (c & t & -> & H). cbn [append] in N |- *. cbn [skip].
  assert (Q : is_char 32 c = false /\ is_char 40 c = false).
  { unfold is_digit, is_char in *. rewrite andb_true_iff, !Z.leb_le, Z.eqb_eq in H. split; apply Z.eqb_neq; lia. }
  destruct Q as [-> ->]. assert (Z0 : is_digit c || is_char 46 c = true) by (apply orb_true_iff; exact H). rewrite Z0, N. reflexivity.
Qed.
Lemma r_sign s x : op_of [(45%Z, ENeg)] s = None -> reads LPow s x -> reads LSign s x.
Proof. intros E A. open_reads. rewrite E. apply (reads_at _ _ _ _ A). fuelly. Qed.

(* no primary begins with a sign *)
Lemma primary_head a s r : text_of Primary a s -> op_of [(45%Z, ENeg)] (s ++ r) = None.
Proof.
  intros H. remember Primary as k eqn:E. destruct H; try discriminate; rewrite !app_assoc_s.
  - cbn [append]. now rewrite op_of_at.
  - cbn [append]. now rewrite op_of_at.
  - destruct H as [Nm W]. destruct v as [|c v]; [destruct Nm|]. cbn [append]. destruct (alpha_not c Nm) as (A & _ & _ & B).
    rewrite op_of_at by exact A. cbn [find fst]. rewrite B. reflexivity.
  - destruct (literal_head m e s H) as (c & t & -> & Hc). cbn [append].
    unfold is_digit, is_char in Hc. rewrite andb_true_iff, !Z.leb_le, Z.eqb_eq in Hc.
    rewrite op_of_at by (unfold is_char; apply Z.eqb_neq; lia). cbn [find fst].
    assert (B : is_char 45 c = false) by (unfold is_char; apply Z.eqb_neq; lia). rewrite B. reflexivity.
Qed.
Lemma power_head a s r : text_of Power a s -> op_of [(45%Z, ENeg)] (s ++ r) = None.
Proof.
  intros H. remember Power as k eqn:E. destruct H; try discriminate.
  - rewrite app_assoc_s. eapply primary_head; eassumption.
  - eapply primary_head; eassumption.
Qed.

Lemma follow_at l n c r : is_char 32 c = false -> In (code c) l -> follow l (spaces n ++ String c r).
Proof. intros H I. unfold follow. rewrite skip_spaces. cbn [skip]. rewrite H. exact I. Qed.
Ltac fol := cbn [append]; apply follow_at; [reflexivity|cbn; tauto].
Ltac inc := eapply follow_incl; [|eassumption]; intros ?; unfold follow_all; cbn; tauto.

(* the statement for the levels *)
Definition parsed (k : rank) (a : cexpr) (s : string) : Prop :=
  match k with
  | Sum => forall r x, follow [43; 45; 41]%Z r -> reads (LSumRest a) r x -> reads LSum (s ++ r) x
  | Product => forall r x, follow [43; 45; 42; 47; 41]%Z r -> reads (LProdRest a) r x -> reads LProd (s ++ r) x
  | Signed => forall r, follow [43; 45; 42; 47; 41]%Z r -> reads LSign (s ++ r) (a, r)
  | Power => forall r, follow [43; 45; 42; 47; 41]%Z r -> reads LPow (s ++ r) (a, r)
  | Primary => forall r, follow follow_all r -> reads LPrim (s ++ r) (a, r)
  end.
Lemma all_parsed k a s : text_of k a s -> parsed k a s.
Proof.
  intros H. induction H; cbn [parsed] in *; intros.
  - rewrite !app_assoc_s. apply IHtext_of1; [fol|]. cbn [append].
    apply (r_sum_more a n "+"%char EAdd (t ++ r) b r x); [left; reflexivity|apply IHtext_of2; [inc|now apply r_prod_end]|fuelly|assumption].
  - rewrite !app_assoc_s. apply IHtext_of1; [fol|]. cbn [append].
    apply (r_sum_more a n "-"%char ESub (t ++ r) b r x); [right; left; reflexivity|apply IHtext_of2; [inc|now apply r_prod_end]|fuelly|assumption].
  - apply (r_sum (s ++ r) a r x); [apply IHtext_of; [inc|now apply r_prod_end]|fuelly|assumption].
  - rewrite !app_assoc_s. apply IHtext_of1; [fol|]. cbn [append].
    apply (r_prod_more a n "*"%char EMul (t ++ r) b r x); [left; reflexivity|now apply IHtext_of2|fuelly|assumption].
  - rewrite !app_assoc_s. apply IHtext_of1; [fol|]. cbn [append].
    apply (r_prod_more a n "/"%char EDiv (t ++ r) b r x); [right; left; reflexivity|now apply IHtext_of2|fuelly|assumption].
  - apply (r_prod (s ++ r) a r x); [now apply IHtext_of|fuelly|assumption].
  - rewrite !app_assoc_s. apply r_neg. now apply IHtext_of.
  - apply r_sign; [eapply power_head; eassumption|now apply IHtext_of].
  - rewrite !app_assoc_s. eapply r_pow; [apply IHtext_of1; fol|reflexivity|now apply IHtext_of2|fuelly].
  - apply r_pow_end; [apply IHtext_of; inc|assumption].
  - rewrite !app_assoc_s. eapply r_paren; [|reflexivity]. apply IHtext_of; [fol|apply r_sum_end; fol].
  - rewrite !app_assoc_s. eapply r_sqrt; [|reflexivity]. apply IHtext_of; [fol|apply r_sum_end; fol].
  - rewrite app_assoc_s. now apply r_var.
  - rewrite app_assoc_s. now apply r_num.
Qed.
Lemma skip_only n : skip (spaces n) = "".
Proof. rewrite <- (app_nil_s (spaces n)), skip_spaces. reflexivity. Qed.
Lemma grammar_complete a s n : text_of Sum a s -> expression (s ++ spaces n) = Some a.
Proof.
  intros H. apply all_parsed in H. cbn [parsed] in H. unfold expression.
  assert (F : forall l, follow l (spaces n)) by (intros l; unfold follow; rewrite skip_only; exact I).
  specialize (H (spaces n) (a, spaces n) (F _) (r_sum_end a _ (F _))).
  rewrite (reads_at _ _ _ _ H) by fuelly. rewrite skip_only. reflexivity.
Qed.

(* ---- soundness ---- *)
Lemma number_sound c r e r1 : is_digit c || is_char 46 c = true -> number (String c r) = (e, r1) ->
  exists m k s, e = ENum m k /\ literal m k s /\ String c r = s ++ r1.
Proof.
  intros Hc H. unfold number in H. destruct (digits_split (String c r)) as (a & t & Ha & E & Nt).
  rewrite E in H. rewrite (digits_dec a Ha 0 0 t Nt) in H. cbn [Z.add Z.mul] in H.
  assert (EX : forall u x v, exponent u = (x, v) -> exists ex, scale x ex /\ u = ex ++ v).
  { intros u x v X. destruct u as [|d u]; [injection X as <- <-; exists ""; split; [constructor|reflexivity]|].
    unfold exponent in X. destruct (is_char 101 d || is_char 69 d) eqn:D.
    2:{ injection X as <- <-. exists "". split; [constructor|reflexivity]. }
    assert (Hd : d = "e"%char \/ d = "E"%char).
    { apply orb_true_iff in D. rewrite !is_char_eq in D. destruct D as [D|D]; [left|right]; apply code_inj; rewrite D; reflexivity. }
    assert (GO : forall w, exists cc v2, decimal cc /\ w = dec_text cc ++ v2 /\ digits 0 0 w = (dec_value cc, Z.of_nat (length cc), v2)).
    { intros w. destruct (digits_split w) as (cc & v2 & C1 & C2 & C3). exists cc, v2. split; [exact C1|]. split; [exact C2|].
      rewrite C2, (digits_dec cc C1 0 0 v2 C3). f_equal; f_equal; lia. }
    assert (NZ : forall cc : list Z, Z.eqb (Z.of_nat (length cc)) 0 = false -> cc <> []) by (intros [|? ?] Q; [discriminate|discriminate]).
    assert (SAME : forall sg w pre, (sg = 1 /\ In (String d pre) ["e"; "E"; "e+"; "E+"] \/ sg = -1 /\ In (String d pre) ["e-"; "E-"])%Z -> u = pre ++ w ->
      (let '(x, k, r2) := digits 0 0 w in if Z.eqb k 0 then (0%Z, String d u) else ((sg * x)%Z, r2)) = (x, v) ->
      exists ex, scale x ex /\ String d u = ex ++ v).
    { intros sg w pre HS HU G. destruct (GO w) as (cc & v2 & C1 & C2 & C3). rewrite C3 in G.
      destruct (Z.eqb (Z.of_nat (length cc)) 0) eqn:Q.
      - injection G as <- <-. exists "". split; [constructor|reflexivity].
      - apply NZ in Q. injection G as <- <-. exists (String d pre ++ dec_text cc). split.
        + destruct HS as [[-> HS]|[-> HS]]; [rewrite Z.mul_1_l|replace (-1 * dec_value cc)%Z with (- dec_value cc)%Z by ring]; constructor; assumption.
        + rewrite HU, C2. cbn [append]. rewrite ?app_assoc_s. reflexivity. }
    destruct u as [|d2 u].
    - apply (SAME 1%Z "" ""); [left; split; [reflexivity|destruct Hd as [-> | ->]; cbn; tauto]|reflexivity|exact X].
    - destruct (is_char 45 d2) eqn:D2.
      + apply is_char_eq in D2. assert (d2 = "-"%char) by (apply code_inj; rewrite D2; reflexivity). subst d2.
        apply (SAME (-1)%Z u "-"); [right; split; [reflexivity|destruct Hd as [-> | ->]; cbn; tauto]|reflexivity|exact X].
      + destruct (is_char 43 d2) eqn:D3.
        * apply is_char_eq in D3. assert (d2 = "+"%char) by (apply code_inj; rewrite D3; reflexivity). subst d2.
          apply (SAME 1%Z u "+"); [left; split; [reflexivity|destruct Hd as [-> | ->]; cbn; tauto]|reflexivity|exact X].
        * apply (SAME 1%Z (String d2 u) ""); [left; split; [reflexivity|destruct Hd as [-> | ->]; cbn; tauto]|reflexivity|exact X]. }
  assert (NOFRAC : forall x v, exponent t = (x, v) -> (ENum (dec_value a) (x - 0), v) = (e, r1) -> dec_text a <> "" ->
     exists m k s, e = ENum m k /\ literal m k s /\ String c r = s ++ r1).
  { intros x v X G NE. injection G as <- <-. destruct (EX t x v X) as (ex & S & ->).
    exists (dec_value a), (x - 0)%Z, (dec_text a ++ "" ++ ex). split; [reflexivity|]. split.
    - rewrite <- (app_nil_r a) at 1. apply (lit a [] "" x ex); [exact Ha|constructor|exact S|now rewrite app_nil_s].
    - rewrite E. cbn [append]. now rewrite app_assoc_s. }
  assert (NE : (forall d u, t = String d u -> is_char 46 d = false) -> dec_text a <> "").
  { intros Q Z0. rewrite Z0 in E. cbn [append] in E. subst t. specialize (Q c r eq_refl). cbn in Nt. rewrite Nt, Q in Hc. discriminate. }
  destruct t as [|d u].
  - destruct (exponent "") as [x v] eqn:X. apply (NOFRAC x v eq_refl); [exact H|]. apply NE. discriminate.
  - destruct (is_char 46 d) eqn:D.
    + destruct (digits_split u) as (b & w & Hb & E2 & Nw). rewrite E2, (digits_dec b Hb _ _ w Nw) in H.
      destruct (exponent w) as [x v] eqn:X. injection H as <- <-. destruct (EX w x v X) as (ex & S & ->).
      apply is_char_eq in D. assert (d = "."%char) by (apply code_inj; rewrite D; reflexivity). subst d.
      eexists _, _, (dec_text a ++ ("." ++ dec_text b) ++ ex). split; [reflexivity|]. split.
      * replace (dec_value a * 10 ^ Z.of_nat (length b) + dec_value b)%Z with (dec_value (a ++ b)) by apply dec_value_app.
        apply lit; [exact Ha|constructor; exact Hb|exact S|destruct a; discriminate].
      * rewrite E, E2. rewrite !app_assoc_s. reflexivity.
    + destruct (exponent (String d u)) as [x v] eqn:X. apply (NOFRAC x v eq_refl); [exact H|]. apply NE. intros ? ? Q. injection Q as <- <-. exact D.
Qed.

Definition split_at (l : level) (e : cexpr) (s r : string) : Prop :=
  match l with
  | LSum => exists t, s = t ++ r /\ text_of Sum e t
  | LSumRest a => forall t0, text_of Sum a t0 -> exists t, s = t ++ r /\ text_of Sum e (t0 ++ t)
  | LProd => exists t, s = t ++ r /\ text_of Product e t
  | LProdRest a => forall t0, text_of Product a t0 -> exists t, s = t ++ r /\ text_of Product e (t0 ++ t)
  | LSign => exists t, s = t ++ r /\ text_of Signed e t
  | LPow => exists t, s = t ++ r /\ text_of Power e t
  | LPrim => exists t, s = t ++ r /\ text_of Primary e t
  end.
Lemma code_char c k : code c = Z.of_nat k -> c = ascii_of_nat k.
Proof. intros H. unfold code in H. rewrite <- (ascii_N_embedding c). replace (N_of_ascii c) with (N.of_nat k) by lia. reflexivity. Qed.
Lemma p_expr_sound f : forall l s e r, p_expr f l s = Some (e, r) -> split_at l e s r.
Proof.
  induction f as [|f IH]; intros l s e r H; [discriminate|]. destruct l; cbn [p_expr] in H; cbn [split_at].
  - destruct (p_expr f LProd s) as [[b r1]|] eqn:E; [|discriminate]. apply IH in E, H. cbn [split_at] in E, H. destruct E as (t & -> & T).
    destruct (H t (t_sum _ _ T)) as (t2 & -> & T2). exists (t ++ t2). split; [now rewrite app_assoc_s|exact T2].
  - intros t0 T0. destruct (op_of _ s) as [[o r1]|] eqn:O.
    2:{ injection H as <- <-. exists "". split; [reflexivity|]. now rewrite app_nil_s. }
    destruct (p_expr f LProd r1) as [[b r2]|] eqn:E; [|discriminate]. apply IH in E, H. cbn [split_at] in E, H. destruct E as (t & -> & T).
    apply op_of_some in O. destruct O as (n & c & -> & I).
    assert (T1 : text_of Sum (o a b) (t0 ++ spaces n ++ String c t)).
    { destruct I as [I|[I|[]]]; injection I as I <-.
      - assert (c = "+"%char) by (apply (code_char c 43); rewrite <- I; reflexivity). subst c. apply t_add; assumption.
      - assert (c = "-"%char) by (apply (code_char c 45); rewrite <- I; reflexivity). subst c. apply t_sub; assumption. }
    destruct (H _ T1) as (t2 & -> & T2). exists (spaces n ++ String c (t ++ t2)). split; [rewrite !app_assoc_s; cbn [append]; rewrite ?app_assoc_s; reflexivity|].
    rewrite !app_assoc_s in T2. cbn [append] in T2. exact T2.
  - destruct (p_expr f LSign s) as [[b r1]|] eqn:E; [|discriminate]. apply IH in E, H. cbn [split_at] in E, H. destruct E as (t & -> & T).
    destruct (H t (t_product _ _ T)) as (t2 & -> & T2). exists (t ++ t2). split; [now rewrite app_assoc_s|exact T2].
  - intros t0 T0. destruct (op_of _ s) as [[o r1]|] eqn:O.
    2:{ injection H as <- <-. exists "". split; [reflexivity|]. now rewrite app_nil_s. }
    destruct (p_expr f LSign r1) as [[b r2]|] eqn:E; [|discriminate]. apply IH in E, H. cbn [split_at] in E, H. destruct E as (t & -> & T).
    apply op_of_some in O. destruct O as (n & c & -> & I).
    assert (T1 : text_of Product (o a b) (t0 ++ spaces n ++ String c t)).
    { destruct I as [I|[I|[]]]; injection I as I <-.
      - assert (c = "*"%char) by (apply (code_char c 42); rewrite <- I; reflexivity). subst c. apply t_mul; assumption.
      - assert (c = "/"%char) by (apply (code_char c 47); rewrite <- I; reflexivity). subst c. apply t_div; assumption. }
    destruct (H _ T1) as (t2 & -> & T2). exists (spaces n ++ String c (t ++ t2)). split; [rewrite !app_assoc_s; cbn [append]; rewrite ?app_assoc_s; reflexivity|].
    rewrite !app_assoc_s in T2. cbn [append] in T2. exact T2.
  - destruct (op_of _ s) as [[o r1]|] eqn:O.
    + destruct (p_expr f LSign r1) as [[b r2]|] eqn:E; [|discriminate]. injection H as <- <-. apply IH in E. cbn [split_at] in E. destruct E as (t & -> & T).
      apply op_of_some in O. destruct O as (n & c & -> & I). destruct I as [I|[]]. injection I as I <-.
      assert (c = "-"%char) by (apply (code_char c 45); rewrite <- I; reflexivity). subst c.
      exists (spaces n ++ "-" ++ t). split; [now rewrite !app_assoc_s|]. apply t_neg. exact T.
    + apply IH in H. cbn [split_at] in H. destruct H as (t & -> & T). exists t. split; [reflexivity|]. apply t_signed. exact T.
  - destruct (p_expr f LPrim s) as [[a r1]|] eqn:E; [|discriminate]. apply IH in E. cbn [split_at] in E. destruct E as (t & -> & T).
    destruct (op_of _ r1) as [[o r2]|] eqn:O.
    + destruct (p_expr f LSign r2) as [[b r3]|] eqn:E; [|discriminate]. injection H as <- <-. apply IH in E. cbn [split_at] in E. destruct E as (t2 & -> & T2).
      apply op_of_some in O. destruct O as (n & c & -> & I). destruct I as [I|[]]. injection I as I <-.
      assert (c = "^"%char) by (apply (code_char c 94); rewrite <- I; reflexivity). subst c.
      exists (t ++ spaces n ++ "^" ++ t2). split; [now rewrite !app_assoc_s|]. apply t_pow; assumption.
    + injection H as <- <-. exists t. split; [reflexivity|]. apply t_power. exact T.
  - destruct (skip_split s) as [n S]. destruct (skip s) as [|c r1]; [discriminate|]. destruct (is_char 40 c) eqn:C.
    { apply is_char_eq in C. assert (c = "("%char) by (apply (code_char c 40); rewrite C; reflexivity). subst c.
      destruct (p_expr f LSum r1) as [[a r2]|] eqn:E; [|discriminate]. apply IH in E. cbn [split_at] in E. destruct E as (t & -> & T).
      destruct (op_of _ r2) as [[u r3]|] eqn:O; [|discriminate]. injection H as <- <-.
      apply op_of_some in O. destruct O as (m & c & -> & I). destruct I as [I|[]]. injection I as I <-.
      assert (c = ")"%char) by (apply (code_char c 41); rewrite <- I; reflexivity). subst c.
      exists (spaces n ++ "(" ++ t ++ spaces m ++ ")"). split; [rewrite S, !app_assoc_s; cbn [append]; rewrite ?app_assoc_s; reflexivity|]. apply t_paren. exact T. }
    destruct (is_digit c || is_char 46 c) eqn:D.
    { injection H as H. destruct (number_sound c r1 e r D H) as (m & k & t & -> & L & E). exists (spaces n ++ t).
      split; [rewrite S, E; now rewrite app_assoc_s|]. apply t_num. exact L. }
    destruct (is_alpha c) eqn:A; [|discriminate]. destruct (name_of (String c r1)) as [v r2] eqn:N.
    destruct (name_of_split _ _ _ N) as [W E]. 
    assert (Nv : name v).
    { split; [|exact W]. destruct v as [|c' v]; [|cbn [append] in E; injection E as -> _; exact A].
      exfalso. cbn [name_of] in N. rewrite A in N. cbn [orb] in N. destruct (name_of r1) as [a' b']. discriminate. }
    destruct (op_of _ r2) as [[u r3]|] eqn:O.
    + destruct (String.eqb v "sqrt") eqn:Q; [|discriminate]. apply String.eqb_eq in Q. subst v.
      destruct (p_expr f LSum r3) as [[a r4]|] eqn:P; [|discriminate]. apply IH in P. cbn [split_at] in P. destruct P as (t & -> & T).
      destruct (op_of [(41%Z, tt)] r4) as [[u2 r5]|] eqn:O2; [|discriminate]. injection H as <- <-.
      apply op_of_some in O, O2. destruct O as (k & c1 & -> & I). destruct I as [I|[]]. injection I as I <-.
      assert (c1 = "("%char) by (apply (code_char c1 40); rewrite <- I; reflexivity). subst c1.
      destruct O2 as (m & c2 & -> & I2). destruct I2 as [I2|[]]. injection I2 as I2 <-.
      assert (c2 = ")"%char) by (apply (code_char c2 41); rewrite <- I2; reflexivity). subst c2.
      exists (spaces n ++ "sqrt" ++ spaces k ++ "(" ++ t ++ spaces m ++ ")"). split.
      * rewrite S, E, !app_assoc_s. cbn [append]. rewrite ?app_assoc_s. reflexivity.
      * apply t_sqrt. exact T.
    + injection H as <- <-. exists (spaces n ++ v). split; [rewrite S, E; now rewrite app_assoc_s|]. apply t_var. exact Nv.
Qed.
Lemma grammar_sound t a : expression t = Some a -> exists s n, t = s ++ spaces n /\ text_of Sum a s.
Proof.
  unfold expression. intros H. destruct (p_expr _ LSum t) as [[b r]|] eqn:E; [|discriminate].
  apply p_expr_sound in E. cbn [split_at] in E. destruct E as (s & -> & T). destruct (skip_split r) as [n R].
  destruct (skip r) eqn:K; [|discriminate]. injection H as <-. exists s, n. split; [rewrite R; now rewrite app_nil_s|exact T].
Qed.
