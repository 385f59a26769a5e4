(* The objects which an input file describes: the beam and the whole document. *)
From Coq Require Import ZArith String List Bool Lia.
From Verif Require Import Base BaseFacts Num VecModel ParticleModel TraceModel BunchModel DriverModel LoggerModel
  ElementModel FelModel ObserverModel ParserModel ParserSpec ParserSpec2 ParserProofs ParserProofs2 ParserProofs3
  TraceProofs2 DistSpec DistProofs.
Import ListNotations.
Local Open Scope Z_scope.

Ltac acc H :=
  repeat (first
    [ rewrite acc_double in H | rewrite acc_text in H | rewrite acc_calcs in H | rewrite acc_vec in H
    | rewrite acc_opt_attr in H | rewrite acc_opt_vec in H
    | rewrite acc_child_vec in H; let c := fresh "c" in let E := fresh "E" in destruct H as (c & E & H)
    | rewrite acc_need in H; let c := fresh "a" in let E := fresh "E" in destruct H as (c & E & H)
    | rewrite acc_int in H; let c := fresh "z" in let E := fresh "E" in destruct H as (c & E & H)
    | rewrite acc_liftb in H; let c := fresh "r" in let E := fresh "E" in destruct H as (c & E & H) ]).
Ltac accg :=
  repeat (first
    [ rewrite acc_double | rewrite acc_text | rewrite acc_calcs | rewrite acc_vec
    | rewrite acc_opt_attr | rewrite acc_opt_vec
    | rewrite acc_child_vec; eexists; split; [eassumption|]
    | rewrite acc_need; eexists; split; [eassumption|]
    | rewrite acc_int; eexists; split; [eassumption|] ]).

Section Beam.
Context {T : Type} {NT : Num T} {TT : Trans T} {CT : Calc T} {WT : World T}.

(* ---- loggers ---- *)
Lemma log_iff : forall n ib b (s : pst T) logs, accepts (p_log n ib b) s logs <-> log_described (psEnv s) n ib b logs.
Proof.
  intros n ib b s logs; unfold p_log; split.
  - destruct (child n "log") as [l|] eqn:E; cbn [popt].
    + rewrite acc_need; intros (fn & F & H). cbv zeta in H. destruct b.
      * rewrite acc_bind in H; destruct H as (fr & s1 & H1 & H). apply acc_ret in H; subst logs.
        assert (X : fr = freq_attr (psEnv s) l).
        { unfold freq_attr; destruct (attr l "bunching-freq") as [t|]; cbn [popt] in H1; cbv [pret pbind p_text] in H1; unfold text_value; congruence. }
        subst fr. exact (DG_some (psEnv s) n ib true l fn E F).
      * change (accepts (pret [(LPar ib (plog_new (a_int l "step" 1) None), fn)]) s logs) in H. apply acc_ret in H; subst logs.
        exact (DG_some (psEnv s) n ib false l fn E F).
    + rewrite acc_ret; intros ->; now apply DG_none.
  - intros [E|l fn E F]; rewrite E; cbn [popt]; [now apply acc_ret|].
    rewrite acc_need; exists fn; split; [exact F|]. cbv zeta. rewrite acc_bind.
    exists (if b then freq_attr (psEnv s) l else None), s. split; [|now apply acc_ret].
    destruct b; [|reflexivity]. unfold freq_attr; destruct (attr l "bunching-freq"); reflexivity.
Qed.
Lemma log_state : forall n ib b (s s' : pst T) logs, p_log n ib b s = (s', Ok logs) -> s' = s.
Proof. intros n ib b s s' l H; exact (ex_state _ _ _ _ _ _ (ex_log n ib b) H). Qed.
Lemma acc_log : forall B n ib b (f : list (logger T * string) -> pm T B) s y,
  accepts (pbind (p_log n ib b) f) s y <-> exists logs, log_described (psEnv s) n ib b logs /\ accepts (f logs) s y.
Proof.
  intros B n ib b f s y; rewrite acc_bind; split.
  - intros (l & s1 & H1 & H). assert (s1 = s) by (eapply log_state; eauto); subst. exists l; split; [|exact H].
    apply log_iff. exists s; exact H1.
  - intros (l & D & H). apply log_iff in D; destruct D as [s1 D]. exists l, s1.
    assert (s1 = s) by (eapply log_state; eauto); subst. auto.
Qed.
Lemma acc_traj : forall B n ib bu (f : list (logger T * string) -> pm T B) s y,
  accepts (pbind (popt (child n "trajectories") [] (fun t =>
     pbind (pneed (attr t "file")) (fun fn => pret [(LTraj ib (tlog_new bu (a_int t "step" 1) (a_int t "particles" 1000000)), fn)]))) f) s y <->
  exists trj, traj_described n ib bu trj /\ accepts (f trj) s y.
Proof.
  intros B n ib bu f s y; split.
  - destruct (child n "trajectories") as [t|] eqn:E; cbn [popt].
    + intros H. assert (G : accepts (pbind (pneed (attr t "file")) (fun fn => f [(LTraj ib (tlog_new bu (a_int t "step" 1) (a_int t "particles" 1000000)), fn)])) s y).
      { destruct H as [s' H]; exists s'; rewrite <- H. unfold pbind, pneed. destruct (attr t "file"); reflexivity. }
      rewrite acc_need in G; destruct G as (fn & F & G). eexists; split; [exact (DT_some n ib bu t fn E F)|exact G].
    + intros H. exists []; split; [now apply DT_none|exact H].
  - intros (trj & D & H). destruct D as [E|t fn E F]; rewrite E; cbn [popt]; [exact H|].
    destruct H as [s' H]; exists s'; rewrite <- H. rewrite F. reflexivity.
Qed.

(* ---- correlations ---- *)
Section Corr.
Context {S : Type}.
Variable f : Z -> Z -> T -> S -> res S.
Definition corr_step : S -> Z * Z * T -> res S := fun a r => f (fst (fst r)) (snd (fst r)) (snd r) a.
Lemma corr_fold : forall l a b s s',
  pfold (fun a m =>
      if String.eqb (nName m) "linear" then
        pbind (pneed (attr m "indep")) (fun i => pbind (p_text i) (fun i => pbind (plift (to_int (n_trunc i))) (fun ind =>
        pbind (pneed (attr m "dep")) (fun d => pbind (p_text d) (fun d => pbind (plift (to_int (n_trunc d))) (fun dep =>
        pbind (pneed (attr m "factor")) (fun f' => pbind (p_text f') (fun fac => plift (f ind dep fac a)))))))))
      else pthrow) l a s = (s', Ok b) <->
  s' = s /\ exists cors, Forall2 (correlation_described (psEnv s)) l cors /\ fold_res corr_step cors a = Ok b.
Proof.
  induction l as [|m r IH]; intros a b s s'; cbn [pfold].
  - unfold pret; split.
    + intros H; split; [congruence|]. exists []; split; [constructor|cbn; congruence].
    + intros [-> (cors & H & E)]. inversion H; subst; cbn in E. congruence.
  - split.
    + intros H; pget H x s1 H1. apply IH in H; destruct H as [-> (cors & F & G)].
      destruct (String.eqb_spec (nName m) "linear") as [N|N]; [|discriminate].
      assert (A : accepts (pbind (pneed (attr m "indep")) (fun i => pbind (p_text i) (fun i => pbind (plift (to_int (n_trunc i))) (fun ind =>
        pbind (pneed (attr m "dep")) (fun d => pbind (p_text d) (fun d => pbind (plift (to_int (n_trunc d))) (fun dep =>
        pbind (pneed (attr m "factor")) (fun f' => pbind (p_text f') (fun fac => plift (f ind dep fac a)))))))))) s x) by (exists s1; exact H1).
      assert (S1 : s1 = s).
      { pget H1 i1 u1 K1; pget H1 i2 u2 K2; pget H1 i3 u3 K3; pget H1 i4 u4 K4; pget H1 i5 u5 K5; pget H1 i6 u6 K6; pget H1 i7 u7 K7; pget H1 i8 u8 K8.
        unfold p_text, plift in *. unfold pneed in K1, K4, K7.
        destruct (attr m "indep"); [|discriminate]. destruct (attr m "dep"); [|discriminate]. destruct (attr m "factor"); [|discriminate].
        unfold pret in *. congruence. }
      subst s1. acc A. apply acc_lift in A.
      split; [reflexivity|]. exists ((r0, r1, text_value (psEnv s) a2) :: cors). split.
      * constructor; [|exact F]. split; [exact N|]. exists a0, a1, a2. apply trunc_iff in E0, E2. cbn [fst snd]. auto 10.
      * cbn [fold_res]. unfold corr_step at 1; cbn [fst snd]. rewrite A; exact G.
    + intros [-> (cors & F & G)]. inversion F as [|m' c r' cs D F']; subst. destruct c as [[ind dep] fac].
      destruct D as [N (i & d & t & A1 & A2 & A3 & A4 & A5 & A6)]; cbn [fst snd] in *. subst fac.
      cbn [fold_res] in G. unfold corr_step at 1 in G; cbn [fst snd] in G.
      destruct (f ind dep (text_value (psEnv s) t) a) as [x|e| |] eqn:X; try discriminate; cbn [bind] in G.
      apply trunc_iff in A4, A5. rewrite N; cbn [String.eqb Ascii.eqb Bool.eqb].
      unfold pbind at 1. rewrite A1, A2, A3. cbv [pneed pret pbind p_text plift].
      change (match cEval (psEnv s) i with Some x => x | None => nZ 0 end) with (text_value (psEnv s) i).
      change (match cEval (psEnv s) d with Some x => x | None => nZ 0 end) with (text_value (psEnv s) d).
      change (match cEval (psEnv s) t with Some x => x | None => nZ 0 end) with (text_value (psEnv s) t).
      rewrite A4, A5, X. apply IH. split; [reflexivity|]. exists cs; auto.
Qed.
Lemma linear_no_calcs : forall e c l, Forall2 (correlation_described e) (nKids c) l -> calcs_of c = [].
Proof.
  intros e c l; unfold calcs_of; generalize (nKids c); intros k H; induction H as [|m x r y [N _] _ IH]; [reflexivity|].
  cbn [filter]. rewrite (not_calc m _ N eq_refl). exact IH.
Qed.
Lemma fold_linear : forall l a b s s' (g : S -> node -> pm T S),
  (forall a m s s' b, g a m s = (s', Ok b) -> nName m = "linear"%string) ->
  pfold g l a s = (s', Ok b) -> Forall (fun m => nName m = "linear"%string) l.
Proof.
  induction l as [|m r IH]; intros a b s s' g Hg H; [constructor|]. cbn [pfold] in H. pget H x s1 H1.
  constructor; [eapply Hg; eauto|eapply IH; eauto].
Qed.
Lemma corr_iff : forall n a b s s', p_correlations n f a s = (s', Ok b) <->
  s' = s /\ exists cors, correlations_described (psEnv s) n cors /\ fold_res corr_step cors a = Ok b.
Proof.
  intros n a b s s'; unfold p_correlations; destruct (child n "correlations") as [c|] eqn:E; cbn [popt]; split.
  - intros H; pget H u s1 H1. rewrite calcs_run in H1.
    assert (C : calcs_of c = []).
    { assert (L : Forall (fun m => nName m = "linear"%string) (nKids c)).
      { eapply fold_linear; [|exact H]. intros x m t t' y K; cbv beta in K.
        destruct (String.eqb_spec (nName m) "linear"); [assumption|discriminate]. }
      clear H; unfold calcs_of; induction L as [|m r N _ IH]; [reflexivity|]. cbn [filter]. rewrite (not_calc m _ N eq_refl). exact IH. }
    rewrite C in H1. cbn in H1. assert (s1 = s) by congruence; subst s1. apply corr_fold in H. destruct H as [-> (cors & F & G)].
    split; [reflexivity|]. exists cors; split; [exact (DC_some _ n c cors E F)|exact G].
  - intros [-> (cors & D & G)]. destruct D as [D|c' l D F]; [congruence|]. assert (c' = c) by congruence; subst c'.
    unfold pbind at 1; rewrite calcs_run, (linear_no_calcs _ _ _ F). cbn [exec fold_left]. apply corr_fold. split; [reflexivity|]. eauto.
  - unfold pret; intros H. split; [congruence|]. exists []; split; [now apply DC_none|cbn; congruence].
  - intros [-> (cors & D & G)]. destruct D as [D|c' l D F]; [|congruence]. cbn in G. unfold pret; congruence.
Qed.
Lemma acc_corr : forall B n a (g : S -> pm T B) s y,
  accepts (pbind (p_correlations n f a) g) s y <->
  exists cors b, correlations_described (psEnv s) n cors /\ fold_res corr_step cors a = Ok b /\ accepts (g b) s y.
Proof.
  intros B n a g s y; rewrite acc_bind; split.
  - intros (b & s1 & H1 & H). apply corr_iff in H1; destruct H1 as [-> (cors & D & G)]. eauto 10.
  - intros (cors & b & D & G & H). exists b, s. split; [|exact H]. apply corr_iff; eauto.
Qed.
End Corr.

(* ---- the coordinates of a bunch ---- *)
Definition holds (d : dist T) (N : Z) (c : Z -> Z -> T) : Prop :=
  wf_dist d /\ dDIM d = 6 /\ dNOP d = N /\ forall k j, 0 <= k < N -> 0 <= j < 6 -> coordinate d k j = Some (c k j).
Lemma new_holds : forall N rnd, 0 <= N -> 6 * N <= int_max ->
  exists d, dist_new 6 N rnd = Ok d /\ holds d N (fun k j => rnd (Z.to_nat (k * 6 + j))).
Proof.
  intros N rnd H0 H1. pose proof dint as [Bm BM]. destruct (new_ok 6 N rnd ltac:(lia) H0 H1) as (d & E & W & D & P).
  exists d; split; [exact E|]. split; [exact W|]. split; [exact D|]. split; [exact P|]. intros k j Hk Hj.
  unfold dist_new, imul in E. rewrite to_int_in in E by lia. cbn [bind] in E. destruct (Z.ltb_spec (6 * N) 0); [lia|].
  apply Ok_inj in E; subst d. unfold coordinate; cbn [dA dDIM].
  rewrite nth_error_map. assert (L : (Z.to_nat (k * 6 + j) < Z.to_nat (6 * N))%nat) by lia.
  rewrite (nth_error_nth' _ O) by (now rewrite seq_length). cbn [option_map]. rewrite seq_nth by exact L. reflexivity.
Qed.
Lemma gauss_holds : forall d N c k rnd, holds d N c -> 0 <= k < 6 ->
  exists d', d_gaussian k rnd d = Ok d' /\ holds d' N (fun i j => if j =? k then rnd i else c i j).
Proof.
  intros d N c k rnd (W & D & P & C) K. destruct (gaussian_ok d k rnd W ltac:(lia)) as (d' & E & W' & [S1 S2] & C').
  exists d'; split; [exact E|]. split; [exact W'|]. split; [congruence|]. split; [congruence|]. intros i j Hi Hj.
  rewrite C' by (split; lia). destruct (j =? k); [reflexivity|now apply C].
Qed.
Lemma scale_holds : forall d N c k f, holds d N c -> 0 <= k < 6 ->
  exists d', d_scale k f d = Ok d' /\ holds d' N (fun i j => if j =? k then nmul (c i j) f else c i j).
Proof.
  intros d N c k f (W & D & P & C) K. destruct (scale_ok d k f W ltac:(lia)) as (d' & E & W' & [S1 S2] & C').
  exists d'; split; [exact E|]. split; [exact W'|]. split; [congruence|]. split; [congruence|]. intros i j Hi Hj.
  rewrite C' by (split; lia). destruct (j =? k); [now rewrite C|now apply C].
Qed.
Lemma dist_holds : forall i N bg xr yr zr zft xp yp de, 0 <= N -> 6 * N <= int_max ->
  exists d, p_dist i N bg xr yr zr zft xp yp de = Ok d /\ holds d N (drawn i bg xr yr zr zft xp yp de).
Proof.
  intros i N bg xr yr zr zft xp yp de H0 H1.
  destruct (new_holds N (wUniform i) H0 H1) as (d0 & E0 & C0).
  destruct (gauss_holds d0 N _ 0 (wGauss i 0 xr) C0 ltac:(lia)) as (d1 & E1 & C1).
  destruct (gauss_holds d1 N _ 1 (wGauss i 1 yr) C1 ltac:(lia)) as (d2 & E2 & C2).
  assert (X : exists d3, (if negb (neqb zft (nZ 0)) then d_scale 2 zft d2
      else if negb (neqb zr (nZ 0)) then d_gaussian 2 (wGauss i 2 zr) d2 else d_scale 2 (nZ 0) d2) = Ok d3 /\
      holds d3 N (fun k j => match j with 2 => drawn i bg xr yr zr zft xp yp de k 2 | _ => 
        (if j =? 1 then wGauss i 1 yr k else if j =? 0 then wGauss i 0 xr k else wUniform i (Z.to_nat (k * 6 + j))) end)).
  { assert (Y : forall c, (forall k j, 0 <= j < 6 -> j <> 2 -> c k j = (if j =? 1 then wGauss i 1 yr k else if j =? 0 then wGauss i 0 xr k else wUniform i (Z.to_nat (k * 6 + j)))) ->
       (forall k, c k 2 = drawn i bg xr yr zr zft xp yp de k 2) -> forall d, holds d N c ->
       holds d N (fun k j => match j with 2 => drawn i bg xr yr zr zft xp yp de k 2 | _ => 
        (if j =? 1 then wGauss i 1 yr k else if j =? 0 then wGauss i 0 xr k else wUniform i (Z.to_nat (k * 6 + j))) end)).
    { intros c A B d (W & D & P & C). split; [exact W|]. split; [exact D|]. split; [exact P|]. intros k j Hk Hj. rewrite C by assumption. f_equal.
      destruct (Z.eq_dec j 2) as [->|J]; [apply B|]. rewrite (A k j Hj J).
      assert (Q : j = 0 \/ j = 1 \/ j = 3 \/ j = 4 \/ j = 5) by lia. destruct Q as [->|[->|[->|[->| ->]]]]; reflexivity. }
    unfold drawn in Y. destruct (neqb zft (nZ 0)) eqn:Z1; cbn [negb].
    - destruct (neqb zr (nZ 0)) eqn:Z2; cbn [negb].
      + destruct (scale_holds d2 N _ 2 (nZ 0) C2 ltac:(lia)) as (d3 & E3 & C3). exists d3; split; [exact E3|].
        unfold drawn; rewrite Z1, Z2. refine (Y _ _ _ d3 C3); [|intros k; reflexivity].
        intros k j Hj J; destruct (Z.eqb_spec j 2); [contradiction|reflexivity].
      + destruct (gauss_holds d2 N _ 2 (wGauss i 2 zr) C2 ltac:(lia)) as (d3 & E3 & C3). exists d3; split; [exact E3|].
        unfold drawn; rewrite Z1, Z2. refine (Y _ _ _ d3 C3); [|intros k; reflexivity].
        intros k j Hj J; destruct (Z.eqb_spec j 2); [contradiction|reflexivity].
    - destruct (scale_holds d2 N _ 2 zft C2 ltac:(lia)) as (d3 & E3 & C3). exists d3; split; [exact E3|].
      unfold drawn; rewrite Z1. refine (Y _ _ _ d3 C3); [|intros k; reflexivity].
      intros k j Hj J; destruct (Z.eqb_spec j 2); [contradiction|reflexivity]. }
  destruct X as (d3 & E3 & C3).
  destruct (gauss_holds d3 N _ 3 (wGauss i 3 (nmul bg xp)) C3 ltac:(lia)) as (d4 & E4 & C4).
  destruct (gauss_holds d4 N _ 4 (wGauss i 4 (nmul bg yp)) C4 ltac:(lia)) as (d5 & E5 & C5).
  destruct (gauss_holds d5 N _ 5 (wGauss i 5 (nmul bg de)) C5 ltac:(lia)) as (d6 & E6 & (W & D & P & C)).
  exists d6; split.
  { unfold p_dist; rewrite E0; cbn [bind]; rewrite E1; cbn [bind]; rewrite E2; cbn [bind]; rewrite E3; cbn [bind];
    rewrite E4; cbn [bind]; rewrite E5; cbn [bind]; exact E6. }
  split; [exact W|]. split; [exact D|]. split; [exact P|]. intros k j Hk Hj. rewrite C by assumption. f_equal.
  assert (Q : j = 0 \/ j = 1 \/ j = 2 \/ j = 3 \/ j = 4 \/ j = 5) by lia. destruct Q as [->|[->|[->|[->|[->| ->]]]]]; reflexivity.
Qed.
Lemma dist_range : forall i N bg xr yr zr zft xp yp de d, p_dist i N bg xr yr zr zft xp yp de = Ok d -> 0 <= N /\ 6 * N <= int_max.
Proof.
  intros i N bg xr yr zr zft xp yp de d H. unfold p_dist in H. bget H as d0 H0.
  unfold dist_new in H0. bget H0 as n Hn. unfold imul in Hn. apply to_int_iff in Hn; destruct Hn as [Hn B].
  assert (6 * N = n) by congruence. destruct (Z.ltb_spec n 0); [discriminate|]. lia.
Qed.
Lemma correlate_holds : forall d N c r, holds d N c ->
  exists d', corr_step d_correlate d r = Ok d' /\ holds d' N (fun k => correlate_coord (c k) r).
Proof.
  intros d N c [[u v] f] (W & D & P & C). unfold corr_step; cbn [fst snd]. unfold correlate_coord.
  destruct ((0 <=? u) && (u <? 6) && (0 <=? v) && (v <? 6) && negb (v =? u)) eqn:E.
  - rewrite !andb_true_iff, negb_true_iff, Z.eqb_neq, !Z.leb_le, !Z.ltb_lt in E.
    destruct (correlate_ok d u v f W ltac:(lia) ltac:(lia) ltac:(lia)) as (d' & F & W' & [S1 S2] & C').
    exists d'; split; [exact F|]. split; [exact W'|]. split; [congruence|]. split; [congruence|]. intros k j Hk Hj.
    destruct (C' k j ltac:(split; lia)) as [A B]. unfold put_coord. destruct (Z.eqb_spec j v) as [->|J].
    + apply B; [reflexivity|apply C; lia|apply C; lia].
    + rewrite A by exact J. now apply C.
  - exists d. split; [|split; [exact W|split; [exact D|split; [exact P|exact C]]]].
    apply no_op; [exact (fun _ => f)|exact 0|exact f|]. rewrite D.
    destruct (Z.leb_spec 0 u), (Z.ltb_spec u 6), (Z.leb_spec 0 v), (Z.ltb_spec v 6), (Z.eqb_spec v u); cbn in E; try discriminate; lia.
Qed.
Lemma correlations_holds : forall cors d N c, holds d N c ->
  exists d', fold_res (corr_step d_correlate) cors d = Ok d' /\ holds d' N (fun k => fold_left correlate_coord cors (c k)).
Proof.
  induction cors as [|r cors IH]; intros d N c H; [exists d; split; [reflexivity|exact H]|].
  destruct (correlate_holds d N c r H) as (d1 & E & H1). destruct (IH d1 N _ H1) as (d2 & E2 & H2).
  exists d2; split; [|exact H2]. cbn [fold_res]; rewrite E; exact E2.
Qed.
Lemma bunch_holds : forall d N c t x m q w, holds d N c -> 0 <= N ->
  exists b, bunch_from_dist d t x m q w = Ok b /\ length b = Z.to_nat N /\
    forall k p, nth_error b k = Some p ->
      starts p q w (nadd t (nZ 0)) (vadd x (V (c (Z.of_nat k) 0) (c (Z.of_nat k) 1) (c (Z.of_nat k) 2)))
        (vadd m (V (c (Z.of_nat k) 3) (c (Z.of_nat k) 4) (c (Z.of_nat k) 5))).
Proof.
  intros d N c t x m q w H HN. pose proof H as (W & D & P & C).
  assert (G : forall k j, 0 <= k < N -> 0 <= j < 6 -> d_coordinate d k j = Ok (c k j)).
  { intros k j Hk Hj. apply getCoordinate_ok; [exact W|split; lia|now apply C]. }
  assert (G6 : forall k, d_coordinate d k 6 = Ok (nZ 0)).
  { intros k. apply (no_op d 0 6 (nZ 0) (fun _ => nZ 0) k (nZ 0)). unfold in_dist; lia. }
  destruct (from_dist_made d t x m q w W) as [b E]. exists b; split; [exact E|]. split.
  { destruct (from_dist_all _ _ _ _ _ _ _ E) as [L _]. now rewrite L, P. }
  intros k p K. unfold bunch_from_dist in E.
  assert (L : length b = length (zseq 0 (Z.to_nat (dNOP d)))) by (apply (DriverProofs.map_res_len _ _ _ E)).
  assert (LK : (k < Z.to_nat N)%nat). { assert (k < length b)%nat by (apply nth_error_Some; congruence). rewrite L, TraceProofs2.zseq_length, P in H0. exact H0. }
  assert (M : forall (A B : Type) (g : A -> res B) l ys, map_res g l = Ok ys -> forall k a y, nth_error l k = Some a -> nth_error ys k = Some y -> g a = Ok y).
  { clear; intros A B g l; induction l as [|a l IH]; intros ys H k x y H1 H2; [destruct k; discriminate|].
    cbn [map_res] in H. bget H as y0 H0; bget H as ys0 Hy. apply Ok_inj in H; subst ys. destruct k; cbn in H1, H2.
    - congruence.
    - exact (IH _ Hy _ _ _ H1 H2). }
  pose proof (M _ _ _ _ _ E k (0 + Z.of_nat k) p) as Q. rewrite P in Q. specialize (Q (TraceProofs2.zseq_nth _ _ _ LK) K). cbv beta in Q.
  rewrite Z.add_0_l in Q. rewrite G6 in Q; cbn [bind] in Q. rewrite !G in Q by lia. cbn [bind] in Q. apply Ok_inj in Q. symmetry. exact Q.
Qed.
Lemma starts_eq : forall p p' : particle T, forall q w t x m, starts p q w t x m -> starts p' q w t x m -> p = p'.
Proof. unfold starts; congruence. Qed.
Lemma bunch_eq : forall (b b' : bunch T) (P : nat -> particle T -> Prop), length b = length b' ->
  (forall k p, nth_error b k = Some p -> P k p) -> (forall k p, nth_error b' k = Some p -> P k p) ->
  (forall k p p', P k p -> P k p' -> p = p') -> b = b'.
Proof.
  intros b b' P L H1 H2 U. apply nth_error_ext; intros k.
  destruct (nth_error b k) as [p|] eqn:E, (nth_error b' k) as [p'|] eqn:E'; auto.
  - f_equal; eapply U; eauto.
  - apply nth_error_None in E'. assert (k < length b)%nat by (apply nth_error_Some; congruence). lia.
  - apply nth_error_None in E. assert (k < length b')%nat by (apply nth_error_Some; congruence). lia.
Qed.
End Beam.
