(* The objects which an input file describes: lattice, tracking and observers. *)
From Coq Require Import ZArith String List Bool Lia.
From Verif Require Import Base BaseFacts Num VecModel ParticleModel TraceModel BunchModel DriverModel LoggerModel
  ElementModel FelModel ObserverModel ParserModel ParserSpec ParserSpec2 ParserProofs ParserProofs2.
Import ListNotations.

Section Described.
Context {T : Type} {NT : Num T} {TT : Trans T} {CT : Calc T} {WT : World T}.

Lemma after_app : forall e a b, after e (a ++ b) = after (after e a) b.
Proof. intros e a b; unfold after; rewrite filter_app; apply env_app. Qed.
Lemma after_nil : forall e, after e [] = e.
Proof. reflexivity. Qed.
Lemma exec_env : forall l s, Forall (fun n => is_calc n = true) l -> psEnv (exec l s) = after (psEnv s) l.
Proof. intros l s H; apply (exec_seq l s H). Qed.
Lemma calcs_run : forall n s, p_calcs n s = (exec (calcs_of n) s, Ok tt).
Proof.
  intros n s; destruct (su_calcs n s) as (s' & [] & E); destruct (ex_calcs n s) as (l1 & l2 & A & B & C).
  rewrite E in *; cbn [fst snd] in *. rewrite (C tt eq_refl), app_nil_r in A; subst; reflexivity.
Qed.
Lemma calcs_env : forall n s, psEnv (exec (calcs_of n) s) = after (psEnv s) (calcs_of n).
Proof. intros; apply exec_env, calcs_calc. Qed.
(* the state after an accepted piece *)
Lemma ex_state : forall A (m : pm T A) l s s' a, execs m l -> m s = (s', Ok a) -> s' = exec l s.
Proof.
  intros A m l s s' a H E; destruct (H s) as (l1 & l2 & F & G & I); rewrite E in *; cbn [fst snd] in *.
  rewrite (I a eq_refl), app_nil_r in F; subst; auto.
Qed.
Lemma calc_name : forall n, is_calc n = true <-> nName n = "calc"%string.
Proof. intros n; unfold is_calc; apply String.eqb_eq. Qed.

(* acceptance *)
Definition accepts {A} (m : pm T A) (s : pst T) (a : A) : Prop := exists s', m s = (s', Ok a).
Lemma acc_bind : forall A B (m : pm T A) (f : A -> pm T B) s b,
  accepts (pbind m f) s b <-> exists a s1, m s = (s1, Ok a) /\ accepts (f a) s1 b.
Proof.
  intros A B m f s b; unfold accepts; split.
  - intros [s' H]; apply pbind_ok in H; destruct H as (a & s1 & H1 & H); eauto.
  - intros (a & s1 & H1 & s' & H); exists s'; unfold pbind; now rewrite H1.
Qed.
Lemma acc_ret : forall A (a b : A) s, accepts (pret a) s b <-> b = a.
Proof. intros A a b s; unfold accepts, pret; split; [intros [s' H]; congruence|intros ->; eauto]. Qed.
Lemma acc_lift : forall A (r : res A) b s, accepts (plift r) s b <-> r = Ok b.
Proof. intros A a b s; unfold accepts, plift; split; [intros [s' H]; congruence|intros ->; eauto]. Qed.
Lemma acc_throw : forall A (b : A) s, accepts pthrow s b <-> False.
Proof. intros A b s; unfold pthrow; rewrite acc_lift; split; [discriminate|tauto]. Qed.
Lemma acc_text : forall B t (f : T -> pm T B) s b, accepts (pbind (p_text t) f) s b <-> accepts (f (text_value (psEnv s) t)) s b.
Proof. intros; unfold accepts, pbind, p_text; reflexivity. Qed.
Lemma acc_double : forall B n k (f : T -> pm T B) s b, accepts (pbind (p_double n k) f) s b <-> accepts (f (num_attr (psEnv s) n k)) s b.
Proof. intros; unfold accepts, pbind, p_double, p_text; reflexivity. Qed.
Lemma acc_vec : forall B n (f : vec T -> pm T B) s b, accepts (pbind (p_vec n) f) s b <-> accepts (f (vec_attr (psEnv s) n)) s b.
Proof. intros; unfold accepts, pbind, p_vec, p_double, p_text, pret, pbind; reflexivity. Qed.
Lemma acc_need : forall A B (o : option A) (f : A -> pm T B) s b,
  accepts (pbind (pneed o) f) s b <-> exists a, o = Some a /\ accepts (f a) s b.
Proof.
  intros A B [a|] f s b; unfold accepts, pbind, pneed, pret, pthrow, plift; split.
  - intros H; exists a; auto.
  - intros (x & E & H). replace a with x by congruence. exact H.
  - intros (s' & H); discriminate.
  - intros (x & H & _); discriminate.
Qed.
Lemma acc_child_vec : forall B n k (f : vec T -> pm T B) s b,
  accepts (pbind (p_child_vec n k) f) s b <-> exists c, child n k = Some c /\ accepts (f (vec_attr (psEnv s) c)) s b.
Proof.
  intros B n k f s b; unfold p_child_vec. destruct (child n k) as [c|].
  - transitivity (accepts (pbind (p_vec c) f) s b); [reflexivity|]. rewrite acc_vec. split.
    + intros H; exists c; auto.
    + intros (x & E & H). replace c with x by congruence. exact H.
  - split; [intros (s' & H); discriminate|intros (x & H & _); discriminate].
Qed.
Lemma acc_calcs : forall B n (f : unit -> pm T B) s b, accepts (pbind (p_calcs n) f) s b <-> accepts (f tt) (exec (calcs_of n) s) b.
Proof. intros; unfold accepts, pbind; rewrite calcs_run; reflexivity. Qed.
Lemma acc_opt_attr : forall B n k (f : T -> pm T B) s b,
  accepts (pbind (popt (attr n k) (nZ 0) p_text) f) s b <-> accepts (f (opt_attr (psEnv s) n k)) s b.
Proof. intros B n k f s b; unfold opt_attr; destruct (attr n k) as [t|]; cbn [popt]; reflexivity. Qed.
Lemma acc_opt_vec : forall B n k (f : vec T -> pm T B) s b,
  accepts (pbind (popt (child n k) vzero p_vec) f) s b <->
  accepts (f (match child n k with Some c => vec_attr (psEnv s) c | None => vzero end)) s b.
Proof. intros B n k f s b; destruct (child n k) as [t|]; cbn [popt]; [apply acc_vec|reflexivity]. Qed.
Lemma to_int_iff : forall o z, to_int o = Ok z <-> o = Some z /\ (int_min <= z <= int_max)%Z.
Proof.
  intros [x|] z; unfold to_int, in_int; [|split; [discriminate|intros [H _]; discriminate]].
  destruct (Z.leb_spec int_min x), (Z.leb_spec x int_max); cbn [andb]; split.
  - intros H1; apply Ok_inj in H1; subst; auto.
  - intros [H1 _]; congruence.
  - discriminate.
  - intros [H1 H2]; assert (x = z) by congruence; lia.
  - discriminate.
  - intros [H1 H2]; assert (x = z) by congruence; lia.
  - discriminate.
  - intros [H1 H2]; assert (x = z) by congruence; lia.
Qed.
Lemma acc_int : forall B t (f : Z -> pm T B) s b,
  accepts (pbind (p_int t) f) s b <-> exists z, int_text (psEnv s) t z /\ accepts (f z) s b.
Proof.
  intros B t f s b; rewrite acc_bind; unfold p_int, int_text. destruct (cEval (psEnv s) t) as [x|]; split.
  - intros (z & s1 & E & H). assert (E1 : s1 = s) by congruence; subst s1. exists z; split; [|exact H]. apply to_int_iff; congruence.
  - intros (z & E & H). exists z, s; split; [|exact H]. now rewrite (proj2 (to_int_iff _ _) E).
  - intros (z & s1 & E & H). assert (E1 : s1 = s) by congruence; subst s1. exists z; split; [congruence|exact H].
  - intros (z & -> & H). exists 0%Z, s; auto.
Qed.
Lemma trunc_iff : forall e t z, to_int (n_trunc (text_value e t)) = Ok z <-> int_part e t z.
Proof.
  intros e t z; rewrite to_int_iff; unfold int_part, n_trunc; cbv zeta. destruct (nltb _ _).
  - destruct (nfloor _) as [y|]; split; intros [A B]; split; try exact B; try exact A; try discriminate.
    + assert (- y = z)%Z by congruence. f_equal; lia.
    + assert (y = - z)%Z by congruence. f_equal; lia.
  - tauto.
Qed.

(* decompose a statement of acceptance *)
Ltac acc H :=
  repeat (first
    [ rewrite acc_double in H | rewrite acc_text in H | rewrite acc_calcs in H | rewrite acc_vec in H
    | rewrite acc_opt_attr in H | rewrite acc_opt_vec in H
    | rewrite acc_child_vec in H; let c := fresh "c" in let E := fresh "E" in destruct H as (c & E & H)
    | rewrite acc_need in H; let c := fresh "a" in let E := fresh "E" in destruct H as (c & E & H)
    | rewrite acc_int in H; let c := fresh "z" in let E := fresh "E" in destruct H as (c & E & H) ]).
Ltac accg :=
  repeat (first
    [ rewrite acc_double | rewrite acc_text | rewrite acc_calcs | rewrite acc_vec
    | rewrite acc_opt_attr | rewrite acc_opt_vec
    | rewrite acc_child_vec; eexists; split; [eassumption|]
    | rewrite acc_need; eexists; split; [eassumption|]
    | rewrite acc_int; eexists; split; [eassumption|] ]).

Lemma acc_some : forall (m : pm T (element T)) s o, accepts (pbind m (fun e => pret (Some e))) s o <->
  exists el, accepts m s el /\ o = Some el.
Proof.
  intros m s o; rewrite acc_bind; split.
  - intros (a & s1 & H1 & H); apply acc_ret in H; subst. exists a; split; [exists s1; exact H1|reflexivity].
  - intros (el & [s1 H] & ->). exists el, s1; split; [exact H|now apply acc_ret].
Qed.
Lemma calcs_twice : forall n s, psEnv (exec (calcs_of n) (exec (calcs_of n) s)) = after (psEnv s) (calcs_of n ++ calcs_of n).
Proof. intros; now rewrite after_app, !calcs_env. Qed.

Lemma element_iff : forall n s el, nName n <> "calc"%string ->
  (accepts (p_element n) s (Some el) <-> element_described (after (psEnv s) (visit_lattice n)) n el).
Proof.
  intros n s el Hn.
  assert (C : is_calc n = false) by (destruct (is_calc n) eqn:E; [apply calc_name in E; contradiction|reflexivity]).
  unfold p_element, visit_lattice; cbv zeta; rewrite C. split.
  - intros H.
    destruct (String.eqb_spec (nName n) "undulator") as [U|U].
    { rewrite acc_calcs in H. destruct (String.eqb_spec (attr_text n "type") "planar") as [P|P].
      - rewrite acc_some in H; destruct H as (e & H & E); assert (e = el) by congruence; subst e; clear E.
        unfold p_planar in H; acc H. apply acc_ret in H; subst el. rewrite calcs_twice. apply D_planar; auto.
      - destruct (String.eqb_spec (attr_text n "type") "transverse gradient") as [Q|Q]; [|exact (False_ind _ (proj1 (acc_throw _ _ _) H))].
        rewrite acc_some in H; destruct H as (e & H & E); assert (e = el) by congruence; subst e; clear E.
        unfold p_tgu in H; acc H. apply acc_ret in H; subst el. rewrite calcs_twice. apply D_tgu; auto. }
    destruct (String.eqb_spec (nName n) "wave") as [W|W].
    { rewrite acc_calcs in H. rewrite W. cbn [String.eqb Ascii.eqb Bool.eqb].
      destruct (String.eqb_spec (attr_text n "type") "gaussian") as [P|P].
      - rewrite acc_some in H; destruct H as (e & H & E); assert (e = el) by congruence; subst e; clear E.
        unfold p_wave in H; acc H. apply acc_ret in H; subst el. rewrite calcs_env. apply D_wave; auto.
      - destruct (String.eqb_spec (attr_text n "type") "packet") as [Q|Q]; [|exact (False_ind _ (proj1 (acc_throw _ _ _) H))].
        rewrite acc_some in H; destruct H as (e & H & E); assert (e = el) by congruence; subst e; clear E.
        unfold p_packet in H; acc H. apply acc_ret in H; subst el. rewrite calcs_env. apply D_packet; auto. }
    destruct (String.eqb_spec (nName n) "screen") as [S|S].
    { rewrite S; cbn [String.eqb Ascii.eqb Bool.eqb]. acc H. rewrite acc_bind in H; destruct H as (e & s1 & A & H).
      apply acc_ret in H. assert (e = el) by congruence; subst e. rewrite calcs_env in A.
      unfold plift in A. eapply D_screen; eauto. congruence. }
    destruct (String.eqb_spec (nName n) "dipole") as [D|D].
    { rewrite acc_calcs in H. destruct (String.eqb_spec (attr_text n "type") "hard edge") as [P|P].
      - rewrite acc_some in H; destruct H as (e & H & E); assert (e = el) by congruence; subst e; clear E.
        unfold p_hard in H; acc H. apply acc_ret in H; subst el. rewrite calcs_twice. apply D_hard; auto.
      - destruct (String.eqb_spec (attr_text n "type") "soft edge") as [Q|Q]; [|exact (False_ind _ (proj1 (acc_throw _ _ _) H))].
        rewrite acc_some in H; destruct H as (e & H & E); assert (e = el) by congruence; subst e; clear E.
        unfold p_soft in H; acc H. apply acc_ret in H; subst el. rewrite calcs_twice. apply D_soft; auto. }
    destruct (String.eqb_spec (nName n) "background") as [B|B]; [|exact (False_ind _ (proj1 (acc_throw _ _ _) H))].
    acc H. apply acc_ret in H.
    match type of H with Some ?a = Some ?b => assert (X : a = b) by congruence end. subst el. rewrite calcs_env. apply D_background; auto.
  - intros H; inversion H; subst; match goal with N : nName n = _ |- _ => rewrite N in * end;
      cbn [String.eqb Ascii.eqb Bool.eqb] in *; rewrite acc_calcs;
      try match goal with K : attr_text n "type" = _ |- _ => rewrite K in * end; cbn [String.eqb Ascii.eqb Bool.eqb].
    + apply acc_some; eexists; split; [|reflexivity]. rewrite <- calcs_twice. unfold p_planar; accg. now apply acc_ret.
    + apply acc_some; eexists; split; [|reflexivity]. rewrite <- calcs_twice. unfold p_tgu; accg. now apply acc_ret.
    + apply acc_some; eexists; split; [|reflexivity]. rewrite <- calcs_env. unfold p_wave; accg. now apply acc_ret.
    + apply acc_some; eexists; split; [|reflexivity]. rewrite <- calcs_env. unfold p_packet; accg. now apply acc_ret.
    + accg. rewrite acc_bind. exists el, (exec (calcs_of n) s). split; [|now apply acc_ret]. unfold plift; rewrite calcs_env. congruence.
    + apply acc_some; eexists; split; [|reflexivity]. rewrite <- calcs_twice. unfold p_hard; accg. now apply acc_ret.
    + apply acc_some; eexists; split; [|reflexivity]. rewrite <- calcs_twice. unfold p_soft; accg. now apply acc_ret.
    + accg. apply acc_ret. now rewrite calcs_env.
Qed.

Lemma visit_lattice_calc : forall n, Forall (fun n => is_calc n = true) (visit_lattice n).
Proof.
  intros n; unfold visit_lattice; destruct (is_calc n) eqn:E; [repeat constructor; exact E|].
  destruct (String.eqb _ _); [rewrite Forall_app; split; apply calcs_calc|].
  destruct (String.eqb _ _); [rewrite Forall_app; split; apply calcs_calc|apply calcs_calc].
Qed.
Lemma element_state : forall n s s' o, p_element n s = (s', Ok o) -> psEnv s' = after (psEnv s) (visit_lattice n).
Proof. intros n s s' o H; rewrite (ex_state _ _ _ _ _ _ (ex_element n) H). apply exec_env, visit_lattice_calc. Qed.
Lemma element_none : forall n s s', p_element n s = (s', Ok None) -> nName n = "calc"%string.
Proof.
  intros n s s' H. unfold p_element in H; cbv zeta in H. destruct (is_calc n) eqn:C; [now apply calc_name|]. exfalso.
  assert (G : accepts (p_element n) s None) by (exists s'; unfold p_element; cbv zeta; rewrite C; exact H).
  clear H; unfold p_element in G; cbv zeta in G; rewrite C in G.
  repeat match type of G with context [String.eqb ?a ?b] => destruct (String.eqb a b) end; acc G;
    try (rewrite acc_some in G; destruct G as (el & _ & G); discriminate);
    try (exact (proj1 (acc_throw _ _ _) G)).
  apply acc_ret in G; discriminate.
Qed.
Lemma lattice_fold : forall l s acc0 els,
  accepts (pfold (fun els n => pbind (p_element n) (fun o => pret (match o with Some e => lat_add els e | None => els end))) l acc0) s els <->
  exists more, els = acc0 ++ more /\ lattice_described (psEnv s) l more.
Proof.
  induction l as [|n r IH]; intros s acc0 els; cbn [pfold].
  - rewrite acc_ret; split; [intros ->; exists []; rewrite app_nil_r; split; [reflexivity|constructor]|].
    intros (more & -> & H); inversion H; now rewrite app_nil_r.
  - rewrite acc_bind; split.
    + intros (a & s1 & H1 & H). pget H1 o s2 H2. unfold pret in H1.
      assert (s1 = s2) by congruence; subst s2. pose proof (element_state _ _ _ _ H2) as Hs.
      apply IH in H; destruct H as (more & E & D). rewrite Hs in D. destruct o as [el|].
      * exists (el :: more). assert (A : a = lat_add acc0 el) by congruence. unfold lat_add in A.
        split; [rewrite E, A, <- app_assoc; reflexivity|].
        destruct (String.eqb_spec (nName n) "calc") as [C|C].
        { exfalso. unfold p_element in H2; cbv zeta in H2. rewrite (proj2 (calc_name n) C) in H2. cbv [pbind p_calc pret] in H2. congruence. }
        apply DL_element; [exact C| |exact D]. apply element_iff; [exact C|]. exists s1; exact H2.
      * exists more. assert (A : a = acc0) by congruence. split; [now rewrite E, A|].
        pose proof (element_none _ _ _ H2) as C. apply DL_calc; [exact C|].
        unfold visit_lattice in D; rewrite (proj2 (calc_name n) C) in D. exact D.
    + intros (more & -> & H); inversion H; subst.
      * match goal with K1 : nName n = _, K2 : lattice_described _ r _ |- _ => rename K1 into N1, K2 into N2 end.
        exists acc0, (exec [n] s). split.
        { assert (X : p_element n s = (exec [n] s, Ok None)) by (unfold p_element; cbv zeta; rewrite (proj2 (calc_name n) N1); reflexivity).
          unfold pbind at 1; rewrite X; reflexivity. }
        apply IH. exists more; split; [reflexivity|]. rewrite exec_env; [exact N2|]. repeat constructor. now apply calc_name.
      * match goal with K1 : nName n <> _, K2 : element_described _ n _, K3 : lattice_described _ r _ |- _ => rename K1 into N1, K2 into N2, K3 into N3 end.
        apply element_iff in N2; [|exact N1]. destruct N2 as [s1 E]. exists (lat_add acc0 el), s1. split.
        { unfold pbind; rewrite E; reflexivity. }
        apply IH. eexists; split; [unfold lat_add; now rewrite <- app_assoc|]. now rewrite (element_state _ _ _ _ E).
Qed.
Lemma lattice_iff : forall root s els, accepts (p_lattice root) s els <->
  exists l, child root "lattice" = Some l /\ lattice_described (psEnv s) (nKids l) els.
Proof.
  intros root s els; unfold p_lattice; rewrite acc_need; split.
  - intros (l & E & H); exists l; split; [exact E|]. apply lattice_fold in H; destruct H as (m & -> & H); exact H.
  - intros (l & E & H); exists l; split; [exact E|]. apply lattice_fold; exists els; split; [reflexivity|exact H].
Qed.

(* ---- tracking ---- *)
Lemma fel_iff : forall ts n s f, nName n = "fel1d"%string ->
  (accepts (pbind (p_text ts) (fun dt => p_fel dt n)) s f <-> fel_described ts (psEnv s) n f).
Proof.
  intros ts n s f Hn; rewrite acc_text; unfold p_fel; split.
  - intros H; acc H. rewrite acc_bind in H; destruct H as (log & s1 & HL & H).
    assert (L : s1 = s /\ match child n "log" with
       | Some l => (exists fn, attr l "file" = Some fn) /\ log = Some (int_attr l "step" 1) | None => log = None end).
    { destruct (child n "log") as [l|]; cbn [popt] in HL; [|unfold pret in HL; split; congruence].
      pget HL fn s2 H2. unfold pneed in H2. destruct (attr l "file") as [x|]; [|discriminate].
      unfold pret in H2, HL. split; [congruence|]. split; [eauto|]. unfold int_attr, a_int in *; congruence. }
    destruct L as [-> L]. acc H. rewrite acc_bind in H; destruct H as (sd & s1 & HS & H). apply acc_lift in H.
    assert (S : sd = seed_attr (psEnv s) n).
    { unfold seed_attr; destruct (child n "seed") as [cs|]; cbn [popt] in HS; [|unfold pret in HS; congruence].
      cbv [pbind p_double p_text pret] in HS. unfold num_attr; congruence. }
    subst sd. econstructor; eauto.
  - intros H; destruct H as [tN N p k pol m log f _ A1 A2 A3 A4 A5 A6 A7 A8]. accg. rewrite acc_bind. exists log, s. split.
    { destruct (child n "log") as [l|]; cbn [popt].
      - destruct A7 as [[fn E] ->]. rewrite E. reflexivity.
      - subst log; reflexivity. }
    accg. rewrite acc_bind. exists (seed_attr (psEnv s) n), s. split.
    { unfold seed_attr; destruct (child n "seed") as [c|]; reflexivity. }
    now apply acc_lift.
Qed.
Lemma watch_iff : forall k n s w, accepts (p_watch k n) s w <->
  exists st z fn, attr n "step" = Some st /\ int_text (psEnv s) st z /\ attr n "file" = Some fn /\ w = (z, (k, fn)).
Proof.
  intros k n s w; unfold p_watch; split.
  - intros H; acc H. apply acc_ret in H; eauto 10.
  - intros (st & z & fn & A & B & C & ->). accg. now apply acc_ret.
Qed.
Lemma watch_state : forall k n s s' w, p_watch k n s = (s', Ok w) -> s' = s.
Proof. intros k n s s' w H; exact (ex_state _ _ _ _ _ _ (ex_watch k n) H). Qed.
Lemma visit_tracking_calc : forall n, Forall (fun n => is_calc n = true) (visit_tracking n).
Proof.
  intros n; unfold visit_tracking; destruct (is_calc n) eqn:E; [repeat constructor; exact E|].
  destruct (String.eqb _ _); [apply calcs_calc|constructor].
Qed.
Lemma interaction_state : forall ts p n s s' p', p_interaction ts p n s = (s', Ok p') -> psEnv s' = after (psEnv s) (visit_tracking n).
Proof. intros ts p n s s' p' H; rewrite (ex_state _ _ _ _ _ _ (ex_interaction ts p n) H). apply exec_env, visit_tracking_calc. Qed.
Lemma not_calc : forall n k, nName n = k -> String.eqb k "calc" = false -> is_calc n = false.
Proof. intros n k H1 H2; unfold is_calc; now rewrite H1. Qed.
Lemma tracking_fold : forall ts l s p p',
  accepts (pfold (p_interaction ts) l p) s p' <->
  exists ws fs, p' = PT (ptWatch p ++ ws) (ptFel p ++ fs) /\ tracking_described ts (psEnv s) l ws fs.
Proof.
  induction l as [|n r IH]; intros s p p'; cbn [pfold].
  - rewrite acc_ret; split.
    + intros ->; exists [], []; rewrite !app_nil_r; split; [destruct p; reflexivity|constructor].
    + intros (ws & fs & -> & H); inversion H; rewrite !app_nil_r; destruct p; reflexivity.
  - rewrite acc_bind; split.
    + intros (a & s1 & H1 & H). pose proof (interaction_state _ _ _ _ _ _ H1) as Hs.
      apply IH in H; destruct H as (ws & fs & -> & D). rewrite Hs in D.
      unfold p_interaction in H1. unfold visit_tracking in D. destruct (is_calc n) eqn:C.
      { exists ws, fs. cbv [pbind p_calc pret] in H1. assert (a = p) by congruence; subst a.
        split; [reflexivity|]. apply DK_calc; [now apply calc_name|exact D]. }
      destruct (String.eqb_spec (nName n) "fel1d") as [F|F].
      { assert (G : accepts (pbind (p_calcs n) (fun _ => pbind (pbind (p_text ts) (fun dt => p_fel dt n)) (fun f => pret (PT (ptWatch p) (ptFel p ++ [f]))))) s a).
        { exists s1. rewrite <- H1. unfold pbind; rewrite calcs_run. unfold p_text; reflexivity. }
        rewrite acc_calcs, acc_bind in G; destruct G as (f & s2 & G1 & G). apply acc_ret in G; subst a.
        exists ws, (f :: fs). split; [cbn [ptWatch ptFel]; now rewrite <- app_assoc|].
        apply DK_fel; [|exact D]. rewrite <- calcs_env. apply fel_iff; [exact F|]. exists s2; exact G1. }
      destruct (String.eqb_spec (nName n) "watch") as [W|W].
      { pget H1 w s2 H2. unfold pret in H1. assert (A : accepts (p_watch WHdf5 n) s w) by (exists s2; exact H2).
        apply watch_iff in A; destruct A as (st & z & fn & A1 & A2 & A3 & ->).
        apply (f_equal snd) in H1; cbn [snd] in H1; apply Ok_inj in H1; subst a.
        exists ((z, (WHdf5, fn)) :: ws), fs. split; [cbn [ptWatch ptFel]; now rewrite <- app_assoc|].
        eapply DK_watch; eauto. }
      destruct (String.eqb_spec (nName n) "watch-sdds") as [V|V]; [|discriminate].
      { pget H1 w s2 H2. unfold pret in H1. assert (A : accepts (p_watch WSdds n) s w) by (exists s2; exact H2).
        apply watch_iff in A; destruct A as (st & z & fn & A1 & A2 & A3 & ->).
        apply (f_equal snd) in H1; cbn [snd] in H1; apply Ok_inj in H1; subst a.
        exists ((z, (WSdds, fn)) :: ws), fs. split; [cbn [ptWatch ptFel]; now rewrite <- app_assoc|].
        eapply DK_sdds; eauto. }
    + intros (ws & fs & -> & H). remember (psEnv s) as e eqn:Ee. remember (n :: r) as l eqn:El. destruct H as [e|e m r' ws fs N D|e m r' f ws fs F D|e m r' st z fn ws fs N S I G D|e m r' st z fn ws fs N S I G D];
        [discriminate| | | |]; injection El as -> ->; subst e.
      * exists p, (exec [n] s). split; [unfold p_interaction; rewrite (proj2 (calc_name n) N); reflexivity|].
        apply IH. exists ws, fs; split; [reflexivity|]. rewrite exec_env; [exact D|]. repeat constructor. now apply calc_name.
      * assert (N : nName n = "fel1d"%string) by (inversion F; auto).
        rewrite <- calcs_env in F. apply fel_iff in F; [|exact N]. destruct F as [s1 E].
        assert (X : p_interaction ts p n s = (s1, Ok (PT (ptWatch p) (ptFel p ++ [f])))).
        { unfold p_interaction. rewrite (not_calc n _ N eq_refl), N. cbn [String.eqb Ascii.eqb Bool.eqb].
          unfold pbind at 1; rewrite calcs_run. unfold pbind, p_text in E |- *. rewrite E; reflexivity. }
        eexists; exists s1; split; [exact X|]. apply IH. exists ws, fs. split; [cbn [ptWatch ptFel]; now rewrite <- app_assoc|].
        rewrite (interaction_state _ _ _ _ _ _ X). unfold visit_tracking. rewrite (not_calc n _ N eq_refl), N. exact D.
      * assert (A : accepts (p_watch WHdf5 n) s (z, (WHdf5, fn))) by (apply watch_iff; eauto 10). destruct A as [s1 E].
        assert (X : p_interaction ts p n s = (s1, Ok (PT (ptWatch p ++ [(z, (WHdf5, fn))]) (ptFel p)))).
        { unfold p_interaction. rewrite (not_calc n _ N eq_refl), N. cbn [String.eqb Ascii.eqb Bool.eqb].
          unfold pbind; rewrite E; reflexivity. }
        eexists; exists s1; split; [exact X|]. apply IH. exists ws, fs. split; [cbn [ptWatch ptFel]; now rewrite <- app_assoc|].
        rewrite (watch_state _ _ _ _ _ E). assumption.
      * assert (A : accepts (p_watch WSdds n) s (z, (WSdds, fn))) by (apply watch_iff; eauto 10). destruct A as [s1 E].
        assert (X : p_interaction ts p n s = (s1, Ok (PT (ptWatch p ++ [(z, (WSdds, fn))]) (ptFel p)))).
        { unfold p_interaction. rewrite (not_calc n _ N eq_refl), N. cbn [String.eqb Ascii.eqb Bool.eqb].
          unfold pbind; rewrite E; reflexivity. }
        eexists; exists s1; split; [exact X|]. apply IH. exists ws, fs. split; [cbn [ptWatch ptFel]; now rewrite <- app_assoc|].
        rewrite (watch_state _ _ _ _ _ E). assumption.
Qed.
Lemma tracking_iff : forall root bm s r, accepts (p_tracking root bm) s r <->
  exists t ts tn N ws fs, child root "tracking" = Some t /\ attr_text t "method" = "Vay"%string /\
    attr t "delta_t" = Some ts /\ attr t "n" = Some tn /\ int_text (psEnv s) tn N /\
    tracking_described ts (psEnv s) (nKids t) ws fs /\
    r = (BM (bmB bm) N (text_value (psEnv s) ts) TRACKING_VAY, PT ws fs).
Proof.
  intros root bm s r; unfold p_tracking; rewrite acc_need; split.
  - intros (t & E & H). destruct (String.eqb_spec (attr_text t "method") "Vay") as [M|M]; [|exact (False_ind _ (proj1 (acc_throw _ _ _) H))].
    cbv zeta in H. acc H. rewrite acc_bind in H; destruct H as (p & s1 & H1 & H). apply acc_ret in H; subst r.
    assert (A : accepts (pfold (p_interaction a) (nKids t) (PT [] [])) s p) by (exists s1; exact H1).
    apply tracking_fold in A; destruct A as (ws & fs & -> & D). exists t, a, a0, z, ws, fs.
    repeat (split; [assumption|]). reflexivity.
  - intros (t & ts & tn & N & ws & fs & A1 & A2 & A3 & A4 & A5 & A6 & ->). exists t; split; [exact A1|].
    rewrite A2; cbn [String.eqb Ascii.eqb Bool.eqb]. cbv zeta. accg.
    assert (A : accepts (pfold (p_interaction ts) (nKids t) (PT [] [])) s (PT ws fs)) by (apply tracking_fold; exists ws, fs; auto).
    destruct A as [s1 A]. rewrite acc_bind. exists (PT ws fs), s1. split; [exact A|]. now apply acc_ret.
Qed.

(* ---- observers ---- *)
Lemma source_iff : forall n (s : pst T) src, accepts (p_source n) s src <-> source_described n src.
Proof.
  intros n s src; unfold p_source; split.
  - destruct (attr n "source") as [t|] eqn:E; cbn [popt].
    + destruct (String.eqb_spec t "beam") as [->|B]; [rewrite acc_ret; intros ->; now apply DS_beam|].
      destruct (String.eqb_spec t "lattice") as [->|L]; [rewrite acc_ret; intros ->; now apply DS_lattice|].
      intros H; exact (False_ind _ (proj1 (acc_throw _ _ _) H)).
    + rewrite acc_ret; intros ->; now apply DS_default.
  - intros H; destruct H as [E|E|E]; rewrite E; cbn; now apply acc_ret.
Qed.
Lemma source_state : forall n (s s' : pst T) src, p_source n s = (s', Ok src) -> s' = s.
Proof. intros n s s' w H; exact (ex_state _ _ _ _ _ _ (ex_source n) H). Qed.
Lemma acc_source : forall B n (f : obsource -> pm T B) s b,
  accepts (pbind (p_source n) f) s b <-> exists src, source_described n src /\ accepts (f src) s b.
Proof.
  intros B n f s b; rewrite acc_bind; split.
  - intros (src & s1 & H1 & H). assert (s1 = s) by (eapply source_state; eauto); subst. exists src; split; [|exact H].
    apply (source_iff n s). exists s; exact H1.
  - intros (src & D & H). apply (source_iff n s) in D; destruct D as [s1 D]. exists src, s1.
    assert (s1 = s) by (eapply source_state; eauto); subst. auto.
Qed.
Lemma acc_liftb : forall A B (r : res A) (f : A -> pm T B) s b,
  accepts (pbind (plift r) f) s b <-> exists a, r = Ok a /\ accepts (f a) s b.
Proof.
  intros A B r f s b; rewrite acc_bind; unfold plift; split.
  - intros (a & s1 & E & H). assert (s1 = s) by congruence; subst. exists a; split; [congruence|exact H].
  - intros (a & -> & H). exists a, s; auto.
Qed.
Lemma a_int_some : forall n k d t, attr n k = Some t -> a_int (T:=T) n k d = cInt t.
Proof. intros n k d t H; unfold a_int; now rewrite H. Qed.
Lemma observer_iff : forall l n s l', nName n <> "calc"%string ->
  (accepts (p_observer l n) s l' <->
   exists o src fn, observer_described (after (psEnv s) (calcs_of n)) n o /\ source_described n src /\
     attr n "file" = Some fn /\ l' = l ++ [(o, src, fn)]).
Proof.
  intros l n s l' Hn.
  assert (C : is_calc n = false) by (destruct (is_calc n) eqn:E; [apply calc_name in E; contradiction|reflexivity]).
  unfold p_observer; rewrite C; split.
  - intros H. rewrite <- calcs_env.
    destruct (String.eqb_spec (nName n) "snapshot") as [S|S].
    { acc H. rewrite acc_source in H; destruct H as (src & D & H). apply acc_ret in H; subst l'.
      rewrite (a_int_some _ _ _ _ E3), (a_int_some _ _ _ _ E5). do 3 eexists; (split; [eapply DO_snapshot; eauto|split; [exact D|split; [eassumption|reflexivity]]]). }
    destruct (String.eqb_spec (nName n) "screen") as [Sc|Sc].
    { acc H. rewrite acc_source in H; destruct H as (src & D & H). rewrite acc_liftb in H; destruct H as (sc & Es & H).
      apply acc_ret in H; subst l'.
      rewrite (a_int_some _ _ _ _ E2), (a_int_some _ _ _ _ E4), (a_int_some _ _ _ _ E6) in Es.
      do 3 eexists; (split; [eapply DO_screen; eauto|split; [exact D|split; [eassumption|reflexivity]]]). }
    destruct (String.eqb_spec (nName n) "mesh") as [M|M].
    { acc H. rewrite acc_source in H; destruct H as (src & D & H). rewrite acc_liftb in H; destruct H as (m & Em & H).
      rewrite acc_liftb in H; destruct H as (x & Ex & H).
      apply acc_ret in H; subst l'. do 3 eexists; (split; [eapply DO_mesh; eauto|split; [exact D|split; [eassumption|reflexivity]]]). }
    destruct (String.eqb_spec (nName n) "point") as [P|P]; [|exact (False_ind _ (proj1 (acc_throw _ _ _) H))].
    acc H. rewrite acc_source in H; destruct H as (src & D & H).
    match goal with K : attr _ "n" = Some _ |- _ => rewrite (a_int_some _ _ _ _ K) in H end.
    destruct (Z.ltb_spec (cInt a1) 0); [apply acc_lift in H; discriminate|].
    apply acc_ret in H; subst l'. do 3 eexists; (split; [eapply DO_point; eauto|split; [exact D|split; [eassumption|reflexivity]]]).
  - rewrite <- calcs_env. intros (o & src & fn & D & S & F & ->). inversion D; subst;
      match goal with N : nName n = _ |- _ => rewrite N end; cbn [String.eqb Ascii.eqb Bool.eqb]; accg;
      rewrite acc_source; (exists src; split; [exact S|]).
    + apply acc_ret. now rewrite (a_int_some _ _ _ _ H3), (a_int_some _ _ _ _ H5).
    + rewrite (a_int_some _ _ _ _ H1), (a_int_some _ _ _ _ H4), (a_int_some _ _ _ _ H6).
      rewrite acc_liftb; exists s0; split; [assumption|]. now apply acc_ret.
    + assert (fn0 = fn) by congruence; subst. rewrite acc_liftb; exists m; split; [assumption|]. rewrite acc_liftb; exists x; split; [assumption|]. now apply acc_ret.
    + rewrite (a_int_some _ _ _ _ H1). destruct (Z.ltb_spec (cInt nt) 0); [lia|]. now apply acc_ret.
Qed.
Lemma visit_observer_calc : forall n, Forall (fun n => is_calc n = true) (visit_observer n).
Proof. intros n; unfold visit_observer; destruct (is_calc n) eqn:E; [repeat constructor; exact E|apply calcs_calc]. Qed.
Lemma observer_state : forall l n s s' l', p_observer l n s = (s', Ok l') -> psEnv s' = after (psEnv s) (visit_observer n).
Proof. intros l n s s' l' H; rewrite (ex_state _ _ _ _ _ _ (ex_observer l n) H). apply exec_env, visit_observer_calc. Qed.
Lemma described_name : forall e n o, observer_described e n o -> nName n <> "calc"%string.
Proof. intros e n o H; inversion H; congruence. Qed.
Lemma observers_fold : forall l s os os', accepts (pfold p_observer l os) s os' <->
  exists more, os' = os ++ more /\ observers_described (psEnv s) l more.
Proof.
  induction l as [|n r IH]; intros s os os'; cbn [pfold].
  - rewrite acc_ret; split.
    + intros ->; exists []; rewrite app_nil_r; split; [reflexivity|constructor].
    + intros (more & -> & H); inversion H; now rewrite app_nil_r.
  - rewrite acc_bind; split.
    + intros (a & s1 & H1 & H). pose proof (observer_state _ _ _ _ _ H1) as Hs.
      apply IH in H; destruct H as (more & -> & D). rewrite Hs in D. unfold visit_observer in D.
      destruct (String.eqb_spec (nName n) "calc") as [C|C].
      { rewrite (proj2 (calc_name n) C) in D. unfold p_observer in H1; rewrite (proj2 (calc_name n) C) in H1.
        cbv [pbind p_calc pret] in H1. assert (a = os) by congruence; subst a. exists more; split; [reflexivity|]. now apply DV_calc. }
      assert (X : is_calc n = false) by (destruct (is_calc n) eqn:E; [apply calc_name in E; contradiction|reflexivity]).
      rewrite X in D. assert (G : accepts (p_observer os n) s a) by (exists s1; exact H1).
      apply observer_iff in G; [|exact C]. destruct G as (o & src & fn & G1 & G2 & G3 & ->).
      exists ((o, src, fn) :: more). split; [now rewrite <- app_assoc|]. now apply DV_observer.
    + intros (more & -> & H). remember (psEnv s) as e eqn:Ee. remember (n :: r) as l eqn:El. destruct H as [e|e m r' os1 N D|e m r' o src fn os1 O S F D];
        [discriminate| |]; injection El as -> ->; subst e.
      * exists os, (exec [n] s). split; [unfold p_observer; rewrite (proj2 (calc_name n) N); reflexivity|].
        apply IH. exists os1; split; [reflexivity|]. rewrite exec_env; [exact D|]. repeat constructor. now apply calc_name.
      * pose proof (described_name _ _ _ O) as C.
        assert (G : accepts (p_observer os n) s (os ++ [(o, src, fn)])) by (apply observer_iff; [exact C|]; eauto 10).
        destruct G as [s1 E]. eexists; exists s1; split; [exact E|]. apply IH. exists os1; split; [now rewrite <- app_assoc|].
        rewrite (observer_state _ _ _ _ _ E). unfold visit_observer.
        assert (X : is_calc n = false) by (destruct (is_calc n) eqn:Y; [apply calc_name in Y; contradiction|reflexivity]).
        now rewrite X.
Qed.
Lemma observers_iff : forall root s os, accepts (p_observers root) s os <->
  exists o, child root "observer" = Some o /\ observers_described (psEnv s) (nKids o) os.
Proof.
  intros root s os; unfold p_observers; rewrite acc_need; split.
  - intros (l & E & H); exists l; split; [exact E|]. apply observers_fold in H; destruct H as (m & -> & H); exact H.
  - intros (l & E & H); exists l; split; [exact E|]. apply observers_fold; exists os; split; [reflexivity|exact H].
Qed.
End Described.
