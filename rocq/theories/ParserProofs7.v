(* The ways in which an input document is not accepted. *)
From Coq Require Import ZArith String List Bool Lia.
From Verif Require Import Base BaseFacts Num VecModel ParticleModel TraceModel BunchModel DriverModel LoggerModel
  ElementModel FelModel ObserverModel DistSpec DistProofs ParserModel ParserSpec ParserSpec2 ParserSpec3 ParserProofs ParserProofs2 ParserProofs3
  FelProofs2 ObserverProofs6 ShippedProofs.
Import ListNotations.
Local Open Scope string_scope.

Section Refused.
Context {T : Type} {NT : Num T} {TT : Trans T} {CT : Calc T} {WT : World T}.
Variable C : res unit -> Prop.
Hypothesis CP : C (Throw IOexc).

(* a piece which either gives a value with Q or ends as in C *)
Definition ends {A} (m : pm T A) (Q : A -> Prop) : Prop :=
  forall s, match snd (m s) with Ok a => Q a | r => C (ending r) end.
Definition any {A} : A -> Prop := fun _ => True.

Lemma en_ret A (a : A) (Q : A -> Prop) : Q a -> ends (pret a) Q.
Proof. intros H s. exact H. Qed.
Lemma en_bind A B (m : pm T A) (f : A -> pm T B) P Q : ends m P -> (forall a, P a -> ends (f a) Q) -> ends (pbind m f) Q.
Proof.
  intros H K s. unfold pbind. specialize (H s). destruct (m s) as [s1 r]. cbn [snd] in H. destruct r; try exact H. apply K, H.
Qed.
Lemma en_throw A (Q : A -> Prop) : ends pthrow Q.
Proof. intros s. exact CP. Qed.
Lemma en_need A (o : option A) (Q : A -> Prop) : (forall a, o = Some a -> Q a) -> ends (pneed o) Q.
Proof. intros H. destruct o as [a|]; [apply en_ret, H; reflexivity|apply en_throw]. Qed.
Lemma en_text t (Q : T -> Prop) : (forall e, Q (text_value e t)) -> ends (p_text t) Q.
Proof. intros H s. exact (H _). Qed.
Lemma en_any_text t : ends (p_text t) any.
Proof. apply en_text. intros; exact I. Qed.
Lemma en_double n k : ends (p_double n k) any.
Proof. apply en_any_text. Qed.
Lemma en_calcs n : ends (p_calcs n) any.
Proof. intros s. rewrite calcs_run. exact I. Qed.
Lemma en_calc n : ends (p_calc n) any.
Proof. intros s. exact I. Qed.
Lemma en_vec n : ends (p_vec n) any.
Proof. intros s. exact I. Qed.
Lemma en_child_vec n k : ends (p_child_vec n k) any.
Proof. eapply en_bind; [apply en_need; intros a _; exact (I : any a)|intros c _; apply en_vec]. Qed.
Lemma en_opt A B (o : option A) (d : B) f (Q : B -> Prop) : Q d -> (forall a, o = Some a -> ends (f a) Q) -> ends (popt o d f) Q.
Proof. intros H K. destruct o as [a|]; cbn [popt]; [apply K; reflexivity|apply en_ret, H]. Qed.
Lemma en_lift A (r : res A) (Q : A -> Prop) : (forall a, r = Ok a -> Q a) -> ((forall a, r <> Ok a) -> C (ending r)) -> ends (plift r) Q.
Proof. intros H K s. cbn [plift snd]. destruct r; [apply H; reflexivity| | |]; apply K; discriminate. Qed.
Lemma en_fold S (f : S -> node -> pm T S) (Q : S -> Prop) l : forall a, Q a -> (forall a n, In n l -> Q a -> ends (f a n) Q) -> ends (pfold f l a) Q.
Proof.
  induction l as [|n r IH]; intros a H K; cbn [pfold]; [apply en_ret, H|].
  eapply en_bind; [apply K; [left; reflexivity|exact H]|]. intros b B. apply IH; [exact B|]. intros; apply K; [right|]; assumption.
Qed.
Lemma en_weaken A (m : pm T A) (P Q : A -> Prop) : ends m P -> (forall a, P a -> Q a) -> ends m Q.
Proof. intros H K s. specialize (H s). destruct (snd (m s)); auto. Qed.
Lemma en_int a (Q : Z -> Prop) : (forall e z, int_text e a z -> Q z) ->
  (forall e x, cEval e a = Some x -> (forall z, nrint x = Some z -> ~ (int_min <= z <= int_max)%Z) -> C UB) -> ends (p_int a) Q.
Proof.
  intros H K s. unfold p_int. cbn [snd]. specialize (H (psEnv s)). specialize (K (psEnv s)). unfold int_text in H.
  destruct (cEval (psEnv s) a) as [x|]; [|apply H; reflexivity].
  destruct (nrint x) as [z|] eqn:HZ.
  - cbn [to_int]. destruct (in_int z) eqn:HI.
    + apply H. split; [reflexivity|]. unfold in_int in HI. apply andb_prop in HI. destruct HI as [I1 I2]. apply Z.leb_le in I1, I2. lia.
    + apply (K x eq_refl). intros z' E. replace z' with z by congruence. intros [I1 I2]. unfold in_int in HI.
      apply Z.leb_le in I1, I2. rewrite I1, I2 in HI. discriminate.
  - cbn [to_int]. apply (K x eq_refl). intros z E. congruence.
Qed.
Lemma en_trunc e a (Q : Z -> Prop) : (forall z, Q z) -> ((forall z, ~ int_part e a z) -> C UB) -> ends (plift (to_int (n_trunc (text_value e a)))) Q.
Proof.
  intros H K. apply en_lift; [intros; apply H|]. intros N.
  assert (E : to_int (n_trunc (text_value e a)) = UB).
  { destruct (n_trunc (text_value e a)) as [z|]; [|reflexivity]. specialize (N z). cbn [to_int] in *. destruct (in_int z); [destruct (N eq_refl)|reflexivity]. }
  rewrite E in *. apply K. intros z Hz. apply trunc_iff in Hz. congruence.
Qed.
End Refused.

Lemma correlate_total {T} {NT : Num T} u k f (d : dist T) : wf_dist d ->
  exists d', d_correlate u k f d = Ok d' /\ wf_dist d' /\ dDIM d' = dDIM d.
Proof.
  intros W. destruct (d_dim_ok d u && d_dim_ok d k && negb (k =? u)%Z) eqn:E.
  - apply andb_prop in E. destruct E as [E1 E3]. apply andb_prop in E1. destruct E1 as [E1 E2].
    apply dim_ok_true in E1, E2. apply negb_true_iff, Z.eqb_neq in E3.
    destruct (correlate_ok d u k f W E1 E2 E3) as (d' & E & W' & [S1 S2] & _). exists d'. auto.
  - exists d. unfold d_correlate. rewrite E. auto.
Qed.

Lemma dist_underflow {T} {NT : Num T} {WT : World T} : forall i nop bg a b c d e f g, (6 * nop < int_min)%Z ->
  p_dist i nop bg a b c d e f g = (UB : res (dist T)).
Proof.
  intros i nop bg a b c d e f g H; unfold p_dist, dist_new, imul, to_int, in_int.
  destruct (Z.leb_spec int_min (6 * nop)); [lia|reflexivity].
Qed.

Ltac en :=
  repeat first
  [ apply en_ret; exact I
  | apply en_throw; assumption
  | match goal with |- ends _ (pbind (p_double _ _) _) _ => eapply en_bind; [apply en_double|intros ? _]
     | |- ends _ (pbind (p_text _) _) _ => eapply en_bind; [apply en_any_text|intros ? _]
     | |- ends _ (pbind (p_calcs _) _) _ => eapply en_bind; [apply en_calcs|intros ? _]
     | |- ends _ (pbind (p_calc _) _) _ => eapply en_bind; [apply en_calc|intros ? _]
     | |- ends _ (pbind (p_vec _) _) _ => eapply en_bind; [apply en_vec|intros ? _]
     | |- ends _ (pbind (p_child_vec _ _) _) _ => eapply en_bind; [apply en_child_vec; assumption|intros ? _]
     | |- ends _ (pbind (pneed ?o) _) _ => eapply (en_bind _ _ _ _ _ (fun a => o = Some a)); [apply en_need; [assumption|let K := fresh in intros ? K; exact K]|intros ? ?]
     | |- ends _ (pbind (popt _ _ p_text) _) _ => eapply (en_bind _ _ _ _ _ any); [apply en_opt; [exact I|intros ? _; apply en_any_text]|intros ? _]
     | |- ends _ (pbind (popt _ _ p_vec) _) _ => eapply (en_bind _ _ _ _ _ any); [apply en_opt; [exact I|intros ? _; apply en_vec]|intros ? _]
     | |- ends _ (pbind (popt _ _ (fun t => p_double t _)) _) _ => eapply (en_bind _ _ _ _ _ any); [apply en_opt; [exact I|intros ? _; apply en_double]|intros ? _]
    end ].

Section Document.
Context {T : Type} {NT : Num T} {TT : Trans T} {CT : Calc T} {WT : World T}.
Variable root : node.
Notation C := (refusal root).
Local Notation ends := (ends C).
Let CP : C (Throw IOexc) := R_parser root.

(* ---- lattice ---- *)
Lemma en_element n : entry root "lattice" n -> ends (p_element n) any.
Proof.
  pose proof CP as CP'. intros HE. unfold p_element. destruct (is_calc n); [en|].
  destruct (String.eqb (nName n) "undulator").
  { en. destruct (String.eqb _ _); [|destruct (String.eqb _ _)]; [| |en].
    - eapply (en_bind _ _ _ _ _ any); [unfold p_planar; en|intros ? _; en].
    - eapply (en_bind _ _ _ _ _ any); [unfold p_tgu; en|intros ? _; en]. }
  destruct (String.eqb (nName n) "wave").
  { en. destruct (String.eqb _ _); [|destruct (String.eqb _ _)]; [| |en].
    - eapply (en_bind _ _ _ _ _ any); [unfold p_wave; en|intros ? _; en].
    - eapply (en_bind _ _ _ _ _ any); [unfold p_packet; en|intros ? _; en]. }
  destruct (String.eqb (nName n) "screen") eqn:HN.
  { apply String.eqb_eq in HN. en. eapply (en_bind _ _ _ _ _ any); [|intros ? _; en].
    apply en_lift; [intros; exact I|]. intros _. eapply R_lattice_file; eassumption. }
  clear HN. destruct (String.eqb (nName n) "dipole").
  { en. destruct (String.eqb _ _); [|destruct (String.eqb _ _)]; [| |en].
    - eapply (en_bind _ _ _ _ _ any); [unfold p_hard; en|intros ? _; en].
    - eapply (en_bind _ _ _ _ _ any); [unfold p_soft; en|intros ? _; en]. }
  destruct (String.eqb (nName n) "background"); en.
Qed.
Lemma en_lattice : ends (p_lattice root) any.
Proof.
  pose proof CP as CP'. unfold p_lattice. en. apply en_fold; [exact I|]. intros a' n Hn _.
  eapply (en_bind _ _ _ _ _ any); [apply en_element; eexists; split; eassumption|intros ? _; en].
Qed.

(* ---- beam ---- *)
Hypothesis ST : forall fn dir bu, wSDDS fn dir = Ok bu -> Forall started bu.

Lemma en_log n ib b : ends (p_log n ib b) any.
Proof.
  pose proof CP as CP'. unfold p_log. apply en_opt; [exact I|]. intros l _. en.
  eapply (en_bind _ _ _ _ _ any); [|intros ? _; en].
  destruct b; [|en]. apply en_opt; [exact I|]. intros t _. en.
Qed.
Lemma en_correlations {S} n (f : Z -> Z -> T -> S -> res S) (Q : S -> Prop) a : entry root "beam" n ->
  nName n = "bunch" \/ nName n = "SDDS" -> Q a -> (forall i d k x, Q x -> exists y, f i d k x = Ok y /\ Q y) -> ends (p_correlations n f a) Q.
Proof.
  pose proof CP as CP'. intros HE HN Ha Hf. unfold p_correlations. apply en_opt; [exact Ha|]. intros c Hc. en.
  apply en_fold; [exact Ha|]. intros x m Hm Hx. destruct (String.eqb (nName m) "linear") eqn:HL; [|en].
  apply String.eqb_eq in HL.
  eapply en_bind; [apply en_need; [assumption|intros z Hz; exact Hz]|]. cbv beta. intros ti Hi.
  eapply (en_bind _ _ _ _ _ (fun v => exists e, v = text_value e ti)); [apply en_text; eauto|]. intros v [e ->].
  eapply (en_bind _ _ _ _ _ any); [apply en_trunc; [intros; exact I|]|].
  { intros K. eapply (R_index root ti e); [|exact K]. exists n, c, m. auto 10. }
  intros i _.
  eapply en_bind; [apply en_need; [assumption|intros z Hz; exact Hz]|]. cbv beta. intros td Hd.
  eapply (en_bind _ _ _ _ _ (fun v => exists e, v = text_value e td)); [apply en_text; eauto|]. intros v [e' ->].
  eapply (en_bind _ _ _ _ _ any); [apply en_trunc; [intros; exact I|]|].
  { intros K. eapply (R_index root td e'); [|exact K]. exists n, c, m. auto 10. }
  intros d _. en. match goal with |- context[plift (f i d ?k x)] => destruct (Hf i d k x Hx) as (y & E & Hy) end.
  apply en_lift; [intros y' Hy'; replace y' with y by congruence; exact Hy|]. intros K. destruct (K y E).
Qed.
Lemma en_particle n b : ends (p_particle n b) any.
Proof.
  pose proof CP as CP'. unfold p_particle. en. cbv zeta. en.
  eapply (en_bind _ _ _ _ _ any); [apply en_log|intros ? _; en].
Qed.
Lemma en_bunch i n b : entry root "beam" n -> nName n = "bunch" -> ends (p_bunch i n b) any.
Proof.
  pose proof CP as CP'. intros HE HN. unfold p_bunch. cbv zeta. en.
  eapply (en_bind _ _ _ _ _ any); [apply en_opt; [exact I|intros; en; apply en_double]|intros ? _]. en.
  eapply (en_bind _ _ _ _ _ (fun d => wf_dist d /\ dDIM d = 6%Z)).
  { change (a_int n "n" 1) with (n_attr n).
    destruct (Z_lt_le_dec (n_attr n) 0) as [L|L]; [destruct (Z_lt_le_dec (n_attr n) (-357913941)) as [L'|L']|destruct (Z_lt_le_dec 357913941 (n_attr n)) as [L'|L']].
    - rewrite dist_underflow by (unfold int_min; lia). apply en_lift; [discriminate|]. intros _. eapply R_many; eauto.
    - rewrite dist_refused by (unfold int_min; lia). apply en_lift; [discriminate|]. intros _. eapply R_negative; eassumption.
    - rewrite dist_overflow by (unfold int_max; lia). apply en_lift; [discriminate|]. intros _. eapply R_many; eauto.
    - match goal with |- context[(plift (p_dist ?i ?N ?a ?b ?c ?d ?e ?f ?g ?h))] =>
        destruct (dist_made i N a b c d e f g h) as (di & E & W & _ & D); [lia|unfold int_max; lia|rewrite E] end.
      apply en_ret. auto. }
  intros d [Hd D6].
  eapply (en_bind _ _ _ _ _ (fun d => wf_dist d /\ dDIM d = 6%Z)).
  { apply en_correlations; auto. intros u k f x [W D].
    destruct (correlate_total u k f x W) as (y & E & W' & D'). exists y. rewrite D'. auto. }
  intros d' [Hd' _].
  eapply (en_bind _ _ _ _ _ any).
  { match goal with |- context[(plift (bunch_from_dist ?d ?t ?x ?m ?q ?w))] => destruct (from_dist_made d t x m q w Hd') as (bu & ->) end. apply en_ret; exact I. }
  intros bu _.
  eapply (en_bind _ _ _ _ _ any); [apply en_log|intros ? _].
  eapply (en_bind _ _ _ _ _ any); [apply en_opt; [exact I|intros; en]|intros ? _; en].
Qed.
Lemma en_sdds n b : entry root "beam" n -> nName n = "SDDS" -> ends (p_sdds n b) any.
Proof.
  pose proof CP as CP'. intros HE HN. unfold p_sdds. en.
  eapply (en_bind _ _ _ _ _ any); [apply en_opt; [exact I|intros; en]|intros dir _].
  eapply (en_bind _ _ _ _ _ (Forall started)).
  { apply en_lift; [intros bu E; exact (ST _ _ _ E)|]. intros _. eapply R_bunch_file; eassumption. }
  intros bu Hb. eapply (en_bind _ _ _ _ _ (Forall started)).
  { apply en_correlations; auto. intros; apply correlate_accept; assumption. }
  intros bu' _. eapply (en_bind _ _ _ _ _ any); [apply en_log|intros ? _; en].
Qed.
Lemma en_entry b n : entry root "beam" n -> ends (p_entry b n) any.
Proof.
  pose proof CP as CP'. intros HE. unfold p_entry. eapply (en_bind _ _ _ _ _ any); [|intros ? _; en].
  destruct (is_calc n); [en|].
  destruct (String.eqb (nName n) "particle"); [apply en_particle|].
  destruct (String.eqb_spec (nName n) "bunch") as [H|_]; [apply en_bunch; assumption|].
  destruct (String.eqb_spec (nName n) "SDDS") as [H|_]; [apply en_sdds; assumption|].
  destruct (String.eqb (nName n) "probe"); [unfold p_probe; en|en].
Qed.
Lemma en_beam : ends (p_beam root) any.
Proof.
  pose proof CP as CP'. unfold p_beam. en. eapply (en_bind _ _ _ _ _ any); [|intros ? _; en].
  apply en_fold; [exact I|]. intros b n Hn _. apply en_entry. eexists; split; eassumption.
Qed.

(* ---- tracking ---- *)
Lemma en_integer a : integer_of root a -> ends (p_int a) (fun z => exists e, int_text e a z).
Proof.
  intros H. apply en_int; [eauto|]. intros e x E K. eapply R_integer; eassumption.
Qed.
Lemma en_fel dt n : entry root "tracking" n -> nName n = "fel1d" -> ends (p_fel dt n) any.
Proof.
  pose proof CP as CP'. intros HE HN. unfold p_fel. 
  eapply en_bind; [apply en_need; [assumption|intros z Hz; exact Hz]|]. cbv beta. intros a Ha.
  eapply en_bind; [apply en_integer; right; left; eauto|]. cbv beta. intros N [e He]. en.
  eapply (en_bind _ _ _ _ _ any); [apply en_opt; [exact I|intros; en]|intros ? _]. en.
  eapply (en_bind _ _ _ _ _ any); [apply en_opt; [exact I|intros; en]|intros ? _].
  apply en_lift; [intros; exact I|]. intros K. destruct (Z_lt_le_dec N 0) as [L|L].
  - rewrite new_neg by exact L. eapply R_fel; eassumption.
  - exfalso. assert (N <= int_max)%Z by (unfold int_text in He; destruct (cEval e a); [lia|subst; unfold int_max; lia]).
    match type of K with forall f, fel_new ?x1 ?x2 ?x3 ?x4 ?x5 ?x6 ?x7 ?x8 ?x9 ?x10 <> _ => destruct (new_exists x1 x2 x3 x4 x5 x6 x7 x8 x9 x10) as [fl F]; [lia|exact (K fl F)] end.
Qed.
Lemma en_watch k n : entry root "tracking" n -> nName n = "watch" \/ nName n = "watch-sdds" -> ends (p_watch k n) any.
Proof.
  pose proof CP as CP'. intros HE HN. unfold p_watch.
  eapply en_bind; [apply en_need; [assumption|intros z Hz; exact Hz]|]. cbv beta. intros a Ha.
  eapply en_bind; [apply en_integer; right; right; eauto|]. cbv beta. intros N _. en.
Qed.
Lemma en_tracking bm : ends (p_tracking root bm) any.
Proof.
  pose proof CP as CP'. unfold p_tracking. en. rename a into t. destruct (String.eqb _ _); [|en]. en.
  eapply en_bind; [apply en_integer; left; eauto|]. cbv beta. intros nots _. cbv zeta.
  eapply (en_bind _ _ _ _ _ any); [|intros ? _; en].
  apply en_fold; [exact I|]. intros p n Hn _. assert (HE : entry root "tracking" n) by (eexists; split; eassumption).
  unfold p_interaction. destruct (is_calc n); [en|].
  destruct (String.eqb_spec (nName n) "fel1d") as [K|_].
  { en. eapply (en_bind _ _ _ _ _ any); [apply en_fel; assumption|intros ? _; en]. }
  destruct (String.eqb_spec (nName n) "watch") as [K|_].
  { eapply (en_bind _ _ _ _ _ any); [apply en_watch; auto|intros ? _; en]. }
  destruct (String.eqb_spec (nName n) "watch-sdds") as [K|_]; [|en].
  eapply (en_bind _ _ _ _ _ any); [apply en_watch; auto|intros ? _; en].
Qed.

(* ---- observers ---- *)
Lemma en_source n : ends (p_source (T:=T) n) any.
Proof.
  pose proof CP as CP'. unfold p_source. apply en_opt; [exact I|]. intros s _. destruct (String.eqb s "beam"); [en|]. destruct (String.eqb s "lattice"); en.
Qed.
Lemma en_observer l n : entry root "observer" n -> ends (p_observer l n) any.
Proof.
  pose proof CP as CP'. intros HE. unfold p_observer. destruct (is_calc n); [en|].
  destruct (String.eqb (nName n) "snapshot").
  { en. eapply (en_bind _ _ _ _ _ any); [apply en_source|intros ? _; en]. }
  destruct (String.eqb_spec (nName n) "screen") as [HN|_].
  { en. eapply (en_bind _ _ _ _ _ any); [apply en_source|intros ? _]. eapply (en_bind _ _ _ _ _ any); [|intros ? _; en].
    apply en_lift; [intros; exact I|]. intros K. eapply R_screen; try eassumption. intros (N1 & N2 & N3).
    match type of K with forall f, screen_new ?x1 ?x2 ?x3 ?x4 ?x5 ?x6 ?x7 ?x8 ?x9 ?x10 <> _ => destruct (screen_new_ok x1 x2 x3 x4 x5 x6 x7 x8 x9 x10 N1 N2 N3) as (sn & HS & _); exact (K sn HS) end. }
  destruct (String.eqb_spec (nName n) "mesh") as [HN|_].
  { en. eapply (en_bind _ _ _ _ _ any); [apply en_source|intros ? _].
    eapply en_bind; [apply en_lift; [intros m Hm; exact Hm|intros _; eapply R_mesh_file; eassumption]|]. cbv beta. intros m Hm.
    eapply (en_bind _ _ _ _ _ any); [|intros ? _; en].
    apply en_lift; [intros; exact I|intros _; eapply R_mesh; eassumption]. }
  destruct (String.eqb_spec (nName n) "point") as [HN|_]; [|en].
  en. eapply (en_bind _ _ _ _ _ any); [apply en_source|intros ? _].
  match goal with |- context[(?x <? 0)%Z] => destruct (Z.ltb_spec x 0) as [L|L]; [|en] end.
  apply en_lift; [discriminate|]. intros _. eapply R_point; eassumption.
Qed.
Lemma en_observers : ends (p_observers root) any.
Proof.
  pose proof CP as CP'. unfold p_observers. en. apply en_fold; [exact I|]. intros b n Hn _. apply en_observer. eexists; split; eassumption.
Qed.
Lemma en_input consts : match snd (parse_input consts root) with Ok _ => True | r => C (ending r) end.
Proof.
  pose proof CP as CP'. unfold parse_input.
  assert (H : ends (p_program consts root) any); [|specialize (H (PST [] [] [])); destruct (snd _); auto].
  unfold p_program. eapply (en_bind _ _ _ _ _ any); [intros s; apply (en_calcs (refusal root) root)|intros ? _].
  eapply (en_bind _ _ _ _ _ any); [apply en_lattice|intros ? _].
  eapply (en_bind _ _ _ _ _ any); [apply en_beam|intros ? _].
  eapply (en_bind _ _ _ _ _ any); [apply en_tracking|intros ? _].
  eapply (en_bind _ _ _ _ _ any); [apply en_observers|intros ? _; en].
Qed.
End Document.
