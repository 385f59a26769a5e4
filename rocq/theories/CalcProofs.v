(* The calculator reads exactly the texts of CalcSpec.v *)
From Coq Require Import ZArith String Ascii List Bool Lia Arith.
From Verif Require Import Base Num ParserModel CalcModel CalcSpec.
Import ListNotations.
Local Open Scope string_scope.

(* ---- strings ---- *)
Lemma app_assoc_s (a b c : string) : (a ++ b) ++ c = a ++ (b ++ c).
Proof. induction a as [|x a IH]; cbn; [reflexivity|now rewrite IH]. Qed.
Lemma app_nil_s (a : string) : a ++ "" = a.
Proof. induction a as [|x a IH]; cbn; [reflexivity|now rewrite IH]. Qed.
Lemma len_app (a b : string) : String.length (a ++ b) = String.length a + String.length b.
Proof. induction a as [|x a IH]; cbn; [reflexivity|now rewrite IH]. Qed.

Lemma code_range c : (0 <= code c < 256)%Z.
Proof. unfold code. pose proof (N_ascii_bounded c). lia. Qed.
Lemma code_inj c d : code c = code d -> c = d.
Proof.
  unfold code. intros H. apply N2Z.inj in H. rewrite <- (ascii_N_embedding c), <- (ascii_N_embedding d). now rewrite H.
Qed.
Lemma is_char_eq k c : is_char k c = true <-> code c = k.
Proof. unfold is_char. apply Z.eqb_eq. Qed.

Lemma skip_spaces n s : skip (spaces n ++ s) = skip s.
Proof. induction n as [|n IH]; [reflexivity|]. cbn [spaces append skip]. change (is_char 32 " ") with true. cbv iota. exact IH. Qed.
Lemma skip_split s : exists n, s = spaces n ++ skip s.
Proof.
  induction s as [|c s IH]; [exists 0; reflexivity|]. cbn [skip]. destruct (is_char 32 c) eqn:E.
  - destruct IH as [n IH]. exists (S n). cbn [spaces append]. apply is_char_eq in E. 
    assert (c = " "%char) by (apply code_inj; rewrite E; reflexivity). subst c. now rewrite <- IH.
  - exists 0. reflexivity.
Qed.
Lemma spaces_app a b s : spaces a ++ spaces b ++ s = spaces (a + b) ++ s.
Proof. induction a as [|a IH]; cbn; [reflexivity|now rewrite IH]. Qed.

(* ---- digits ---- *)
Lemma digit_char_code d : (0 <= d <= 9)%Z -> code (digit_char d) = (48 + d)%Z.
Proof.
  intros H. assert (E : (d = 0 \/ d = 1 \/ d = 2 \/ d = 3 \/ d = 4 \/ d = 5 \/ d = 6 \/ d = 7 \/ d = 8 \/ d = 9)%Z) by lia.
  repeat (destruct E as [->|E]; [reflexivity|]). subst d. reflexivity.
Qed.
Lemma digit_char_is d : (0 <= d <= 9)%Z -> is_digit (digit_char d) = true.
Proof. intros H. unfold is_digit. rewrite digit_char_code by exact H. apply andb_true_iff. split; apply Z.leb_le; lia. Qed.
Lemma is_digit_char c : is_digit c = true -> exists d, (0 <= d <= 9)%Z /\ c = digit_char d /\ (code c - 48 = d)%Z.
Proof.
  intros H. unfold is_digit in H. apply andb_true_iff in H. destruct H as [A B]. apply Z.leb_le in A, B.
  exists (code c - 48)%Z. split; [lia|]. split; [|reflexivity]. apply code_inj. rewrite digit_char_code by lia. lia.
Qed.
Definition no_digit (s : string) : Prop := match s with "" => True | String c _ => is_digit c = false end.
Lemma dec_value_app a b : dec_value (a ++ b) = (dec_value a * 10 ^ Z.of_nat (length b) + dec_value b)%Z.
Proof.
  induction a as [|d a IH]; [reflexivity|]. cbn [app dec_value]. rewrite IH, app_length, Nat2Z.inj_add, Z.pow_add_r by lia. ring.
Qed.
Lemma digits_dec ds : decimal ds -> forall acc k r, no_digit r ->
  digits acc k (dec_text ds ++ r) = ((acc * 10 ^ Z.of_nat (length ds) + dec_value ds)%Z, (k + Z.of_nat (length ds))%Z, r).
Proof.
  intros H. induction H as [|d ds Hd H IH]; intros acc k r Hr.
  - cbn [dec_text append length dec_value]. rewrite Z.mul_1_r, !Z.add_0_r.
    destruct r as [|c r]; cbn [digits]; [reflexivity|]. cbn in Hr. rewrite Hr. reflexivity.
  - cbn [dec_text append digits]. rewrite (digit_char_is d Hd), (digit_char_code d Hd), (IH _ _ _ Hr).
    f_equal. f_equal.
    + cbn [length dec_value]. rewrite Nat2Z.inj_succ, Z.pow_succ_r by lia. ring.
    + cbn [length]. lia.
Qed.
Lemma digits_split s : exists ds r, decimal ds /\ s = dec_text ds ++ r /\ no_digit r.
Proof.
  induction s as [|c s IH].
  - exists [], "". repeat split. constructor.
  - destruct (is_digit c) eqn:E.
    + destruct IH as (ds & r & A & B & C). destruct (is_digit_char c E) as (d & Hd & -> & _).
      exists (d :: ds), r. split; [constructor; assumption|]. split; [cbn; now rewrite <- B|exact C].
    + exists [], (String c s). split; [constructor|]. split; [reflexivity|exact E].
Qed.

(* ---- what follows an expression ---- *)
Definition follow (l : list Z) (s : string) : Prop :=
  match skip s with "" => True | String c _ => In (code c) l end.
Definition follow_all : list Z := [43; 45; 42; 47; 94; 41]%Z.
Lemma follow_incl l m s : incl l m -> follow l s -> follow m s.
Proof. unfold follow. intros I. destruct (skip s); auto. Qed.
Lemma follow_head s : follow follow_all s ->
  match s with "" => True | String c _ => In (code c) (32 :: follow_all)%Z end.
Proof.
  unfold follow. destruct s as [|c s]; [trivial|]. cbn [skip]. destruct (is_char 32 c) eqn:E.
  - intros _. left. apply is_char_eq in E. symmetry. exact E.
  - intros H. right. exact H.
Qed.
Lemma follow_plain s : follow follow_all s ->
  match s with "" => True | String c _ => is_digit c = false /\ is_alpha c = false /\ is_char 46 c = false end.
Proof.
  intros H. apply follow_head in H. destruct s as [|c s]; [trivial|]. 
  unfold is_digit, is_alpha, is_char. cbn [In follow_all] in H.
  repeat (destruct H as [<-|H]; [repeat split; reflexivity|]). destruct H.
Qed.

(* ---- numbers ---- *)
Lemma alpha_e c : is_alpha c = false -> is_char 101 c = false /\ is_char 69 c = false.
Proof.
  unfold is_alpha, is_char. intros H. split; apply Z.eqb_neq; intros E; rewrite E in H; discriminate.
Qed.
Lemma exponent_scale x e r : scale x e -> follow follow_all r -> exponent (e ++ r) = (x, r).
Proof.
  intros S F. pose proof (follow_plain r F) as P.
  assert (ND : no_digit r) by (destruct r as [|c r]; [exact I|apply P]).
  assert (K : forall c, decimal c -> c <> [] -> digits 0 0 (dec_text c ++ r) = (dec_value c, Z.of_nat (length c), r) /\ Z.eqb (Z.of_nat (length c)) 0 = false).
  { intros c Hc Nc. rewrite (digits_dec c Hc) by exact ND. split; [f_equal; f_equal; lia|]. destruct c; [contradiction|reflexivity]. }
  destruct S as [|k c Hk Hc Nc|k c Hk Hc Nc].
  - cbn [append]. destruct r as [|c r]; [reflexivity|]. unfold exponent. destruct P as (_ & P & _). apply alpha_e in P. destruct P as [-> ->]. reflexivity.
  - destruct (K c Hc Nc) as [K1 K2]. rewrite app_assoc_s.
    assert (D0 : exists d ds, c = d :: ds /\ (0 <= d <= 9)%Z).
    { destruct c as [|d ds]; [contradiction|]. exists d, ds. split; [reflexivity|]. apply Forall_inv in Hc. exact Hc. }
    destruct D0 as (d & ds & -> & Hd).
    assert (N1 : is_char 45 (digit_char d) = false) by (unfold is_char; rewrite digit_char_code by exact Hd; apply Z.eqb_neq; lia).
    assert (N2 : is_char 43 (digit_char d) = false) by (unfold is_char; rewrite digit_char_code by exact Hd; apply Z.eqb_neq; lia).
    cbn [In] in Hk.
    destruct Hk as [<-|[<-|[<-|[<-|[]]]]].
    + change ("e" ++ dec_text (d :: ds) ++ r) with (String "e" (String (digit_char d) (dec_text ds ++ r))). unfold exponent.
      change (is_char 101 "e" || is_char 69 "e") with true. cbv iota. rewrite N1, N2.
      change (String (digit_char d) (dec_text ds ++ r)) with (dec_text (d :: ds) ++ r). rewrite K1, K2. f_equal; try ring.
    + change ("E" ++ dec_text (d :: ds) ++ r) with (String "E" (String (digit_char d) (dec_text ds ++ r))). unfold exponent.
      change (is_char 101 "E" || is_char 69 "E") with true. cbv iota. rewrite N1, N2.
      change (String (digit_char d) (dec_text ds ++ r)) with (dec_text (d :: ds) ++ r). rewrite K1, K2. f_equal; try ring.
    + change ("e+" ++ dec_text (d :: ds) ++ r) with (String "e" (String "+" (dec_text (d :: ds) ++ r))). unfold exponent.
      change (is_char 101 "e" || is_char 69 "e") with true. change (is_char 45 "+") with false. change (is_char 43 "+") with true. cbv iota.
      rewrite K1, K2. f_equal; try ring.
    + change ("E+" ++ dec_text (d :: ds) ++ r) with (String "E" (String "+" (dec_text (d :: ds) ++ r))). unfold exponent.
      change (is_char 101 "E" || is_char 69 "E") with true. change (is_char 45 "+") with false. change (is_char 43 "+") with true. cbv iota.
      rewrite K1, K2. f_equal; try ring.
  - destruct (K c Hc Nc) as [K1 K2]. rewrite app_assoc_s. cbn [In] in Hk. destruct Hk as [<-|[<-|[]]].
    + change ("e-" ++ dec_text c ++ r) with (String "e" (String "-" (dec_text c ++ r))). unfold exponent.
      change (is_char 101 "e" || is_char 69 "e") with true. change (is_char 45 "-") with true. cbv iota. rewrite K1, K2. f_equal; try ring.
    + change ("E-" ++ dec_text c ++ r) with (String "E" (String "-" (dec_text c ++ r))). unfold exponent.
      change (is_char 101 "E" || is_char 69 "E") with true. change (is_char 45 "-") with true. cbv iota. rewrite K1, K2. f_equal; try ring.
Qed.
(* exponents begin with e *)
Lemma scale_head x e r : scale x e -> follow follow_all r ->
  match (e ++ r) with "" => True | String c _ => is_digit c = false /\ is_char 46 c = false end.
Proof.
  intros S F. destruct S as [|k c Hk Hc Nc|k c Hk Hc Nc].
  - cbn [append]. pose proof (follow_plain r F). destruct r; [trivial|]. destruct H as (? & ? & ?). auto.
  - cbn [In] in Hk. destruct Hk as [<-|[<-|[<-|[<-|[]]]]]; split; reflexivity.
  - cbn [In] in Hk. destruct Hk as [<-|[<-|[]]]; split; reflexivity.
Qed.
Lemma scale_nil x : scale x "" -> x = 0%Z.
Proof.
  intros H. remember "" as e eqn:E. destruct H as [|k c Hk Hc Nc|k c Hk Hc Nc]; [reflexivity| |]; cbn [In] in Hk.
  - destruct Hk as [<-|[<-|[<-|[<-|[]]]]]; discriminate.
  - destruct Hk as [<-|[<-|[]]]; discriminate.
Qed.
Lemma number_literal m e s r : literal m e s -> follow follow_all r -> number (s ++ r) = (ENum m e, r).
Proof.
  intros L F. destruct L as [a b f x e Ha Hf Hx Ne]. rewrite !app_assoc_s. unfold number.
  pose proof (scale_head x e r Hx F) as H0.
  destruct Hf as [|b Hb].
  - cbn [append]. rewrite (digits_dec a Ha) by (destruct (e ++ r); [exact I|apply H0]).
    destruct (e ++ r) as [|c t] eqn:E.
    + assert (e = "" /\ r = "") as [-> ->] by (destruct e, r; try discriminate; auto).
      apply scale_nil in Hx. subst x. cbn [exponent]. rewrite app_nil_r. cbn [length]. do 2 f_equal; lia.
    + destruct H0 as [_ H0]. rewrite H0. cbv beta iota. rewrite <- E, (exponent_scale x e r Hx F). rewrite app_nil_r. cbn [length]. do 2 f_equal; lia.
  - rewrite (digits_dec a Ha).
    2:{ reflexivity. }
    rewrite app_assoc_s. change ("." ++ dec_text b ++ e ++ r) with (String "." (dec_text b ++ e ++ r)).
    change (is_char 46 ".") with true. cbv iota. rewrite (digits_dec b Hb) by (destruct (e ++ r); [exact I|apply H0]).
    change (is_char 46 ".") with true. cbv beta iota. rewrite (exponent_scale x e r Hx F). rewrite dec_value_app. do 2 f_equal; lia.
Qed.

(* ---- names ---- *)
Lemma name_of_word v r : word v -> follow follow_all r -> name_of (v ++ r) = (v, r).
Proof.
  intros W F. pose proof (follow_plain r F) as P. induction v as [|c v IH].
  - cbn [append]. destruct r as [|c r]; [reflexivity|]. cbn [name_of]. destruct P as (-> & -> & _). reflexivity.
  - destruct W as [H W]. cbn [append name_of].
    assert (E : is_alpha c || is_digit c = true) by (apply orb_true_iff; exact H).
    rewrite E, (IH W). reflexivity.
Qed.
Lemma name_of_split s v r : name_of s = (v, r) -> word v /\ s = v ++ r.
Proof.
  revert v r. induction s as [|c s IH]; intros v r H; cbn [name_of] in H; [inversion H; split; [exact I|reflexivity]|].
  destruct (is_alpha c || is_digit c) eqn:E.
  - destruct (name_of s) as [a b] eqn:N. inversion H. subst v r. destruct (IH a b eq_refl) as [W ->].
    split; [split; [apply orb_true_iff in E; exact E|exact W]|reflexivity].
  - inversion H. split; [exact I|reflexivity].
Qed.

(* ---- operators ---- *)
Lemma op_of_at {A} (ops : list (Z * A)) n c r : is_char 32 c = false ->
  op_of ops (spaces n ++ String c r) = match find (fun o => is_char (fst o) c) ops with Some o => Some (snd o, r) | None => None end.
Proof. intros H. unfold op_of. rewrite skip_spaces. cbn [skip]. rewrite H. reflexivity. Qed.
Lemma op_of_none {A} (ops : list (Z * A)) l s : follow l s -> (forall k, In k l -> ~ In k (map fst ops)) -> op_of ops s = None.
Proof.
  unfold op_of, follow. intros F D. destruct (skip s) as [|c r]; [reflexivity|].
  destruct (find _ ops) as [o|] eqn:E; [|reflexivity]. apply find_some in E. destruct E as [I E].
  apply is_char_eq in E. exfalso. apply (D _ F). rewrite E. apply in_map. exact I.
Qed.
Lemma op_of_some {A} (ops : list (Z * A)) s o r : op_of ops s = Some (o, r) ->
  exists n c, s = spaces n ++ String c r /\ In (code c, o) ops.
Proof.
  unfold op_of. intros H. destruct (skip_split s) as [n E]. destruct (skip s) as [|c t]; [discriminate|].
  destruct (find _ ops) as [p|] eqn:F; [|discriminate]. injection H as <- <-. apply find_some in F. destruct F as [I F].
  apply is_char_eq in F. exists n, c. split; [exact E|]. rewrite F. destruct p. exact I.
Qed.

(* ---- fuel ---- *)
Lemma p_expr_mono f : forall g l s x, p_expr f l s = Some x -> f <= g -> p_expr g l s = Some x.
Proof.
  induction f as [|f IH]; intros g l s x H Hg; [discriminate|]. destruct g as [|g]; [lia|].
  assert (Hf : f <= g) by lia. cbn [p_expr] in H |- *.
  assert (M : forall l s x, p_expr f l s = Some x -> p_expr g l s = Some x) by (intros; eapply IH; eauto).
  clear IH Hg Hf.
  destruct l; cbn [p_expr] in *.
  - destruct (p_expr f LProd s) as [[a r]|] eqn:E; [|discriminate]. rewrite (M _ _ _ E). apply M. exact H.
  - destruct (op_of _ s) as [[o r]|]; [|exact H]. destruct (p_expr f LProd r) as [[b r1]|] eqn:E; [|discriminate].
    rewrite (M _ _ _ E). apply M. exact H.
  - destruct (p_expr f LSign s) as [[a r]|] eqn:E; [|discriminate]. rewrite (M _ _ _ E). apply M. exact H.
  - destruct (op_of _ s) as [[o r]|]; [|exact H]. destruct (p_expr f LSign r) as [[b r1]|] eqn:E; [|discriminate].
    rewrite (M _ _ _ E). apply M. exact H.
  - destruct (op_of _ s) as [[o r]|]; [|apply M; exact H]. destruct (p_expr f LSign r) as [[b r1]|] eqn:E; [|discriminate].
    rewrite (M _ _ _ E). exact H.
  - destruct (p_expr f LPrim s) as [[a r]|] eqn:E; [|discriminate]. rewrite (M _ _ _ E).
    destruct (op_of _ r) as [[o r1]|]; [|exact H]. destruct (p_expr f LSign r1) as [[b r2]|] eqn:E2; [|discriminate].
    rewrite (M _ _ _ E2). exact H.
  - destruct (skip s) as [|c r]; [discriminate|]. destruct (is_char 40 c).
    + destruct (p_expr f LSum r) as [[a r1]|] eqn:E; [|discriminate]. rewrite (M _ _ _ E). exact H.
    + destruct (is_digit c || is_char 46 c); [exact H|]. destruct (is_alpha c); [|discriminate].
      destruct (name_of (String c r)) as [v r1]. destruct (op_of _ r1) as [[u r2]|]; [|exact H].
      destruct (String.eqb v "sqrt"); [|discriminate].
      destruct (p_expr f LSum r2) as [[a r3]|] eqn:E; [|discriminate]. rewrite (M _ _ _ E). exact H.
Qed.
