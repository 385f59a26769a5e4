(* The objects which an input file describes: the entries of the beam and the document. *)
From Coq Require Import ZArith String List Bool Lia.
From Verif Require Import Base BaseFacts Num VecModel ParticleModel TraceModel BunchModel DriverModel LoggerModel
  ElementModel FelModel ObserverModel ParserModel ParserSpec ParserSpec2 ParserProofs ParserProofs2 ParserProofs3 ParserProofs4
  DistSpec DistProofs.
Import ListNotations.
Local Open Scope Z_scope.

Section Entry.
Context {T : Type} {NT : Num T} {TT : Trans T} {CT : Calc T} {WT : World T}.
Definition entry_added (b : pbeam (T:=T)) (bu : bunch T) (lo : list (logger T * string)) : pbeam :=
  PB (beam_add bu (pbBeam b)) (pbLogs b ++ lo) (pbProbe b).
Definition next_bunch (b : pbeam (T:=T)) : Z := Z.of_nat (length (bmB (pbBeam b))).

Lemma particle_iff : forall i n b s b', nName n = "particle"%string ->
  (accepts (p_particle n b) s b' <->
   exists bu lo, bunch_described i (next_bunch b) (psEnv s) n bu lo /\ b' = entry_added b bu lo).
Proof.
  intros i n b s b' Hn; unfold p_particle; split.
  - intros H; acc H. cbv zeta in H. acc H. rewrite acc_bind in H; destruct H as (t0 & s1 & H1 & H).
    assert (X : s1 = exec (calcs_of n) s /\
      t0 = match child n "time" with Some t => num_attr (after (psEnv s) (calcs_of n)) t "t0" | None => nZ 0 end).
    { rewrite <- calcs_env. destruct (child n "time") as [t|]; cbn [popt] in H1; cbv [pret p_double p_text] in H1; unfold num_attr; split; congruence. }
    destruct X as [-> X]. acc H. rewrite acc_log in H; destruct H as (lo & D & H). apply acc_ret in H.
    rewrite calcs_env in D, H. eexists; exists lo; split; [|exact H].
    eapply DB_particle; eauto. unfold starts. reflexivity.
  - intros (bu & lo & D & ->). inversion D as [e1 pn mn t0 p logs q N E1 P M T0 Q gamma St L| |]; try congruence; subst.
    accg. cbv zeta. accg. rewrite acc_bind.
    exists (match child n "time" with Some t => num_attr (after (psEnv s) (calcs_of n)) t "t0" | None => nZ 0 end), (exec (calcs_of n) s).
    split; [rewrite <- calcs_env; destruct (child n "time"); reflexivity|]. accg.
    rewrite acc_log. exists lo. split; [rewrite calcs_env; exact L|]. apply acc_ret. unfold entry_added.
    rewrite St, calcs_env. reflexivity.
Qed.

Lemma acc_time : forall B n (f : T -> pm T B) s y,
  accepts (pbind (popt (child n "time") (nZ 0) (fun t => pbind (p_calcs t) (fun _ => p_double t "t0"))) f) s y <->
  accepts (f (match child n "time" with Some t => num_attr (after (psEnv s) (calcs_opt (child n "time"))) t "t0" | None => nZ 0 end))
    (exec (calcs_opt (child n "time")) s) y.
Proof.
  intros B n f s y; destruct (child n "time") as [t|]; cbn [popt calcs_opt]; [|reflexivity].
  rewrite <- calcs_env. unfold accepts, pbind at 1 2; rewrite calcs_run. reflexivity.
Qed.
Lemma opt_env : forall o s, psEnv (exec (calcs_opt o) s) = after (psEnv s) (calcs_opt o).
Proof. intros; apply exec_env, opt_calc. Qed.

Lemma bunch_iff : forall i n b s b', nName n = "bunch"%string ->
  (accepts (p_bunch i n b) s b' <->
   exists bu lo, bunch_described i (next_bunch b) (psEnv s) n bu lo /\ b' = entry_added b bu lo).
Proof.
  intros i n b s b' Hn; unfold p_bunch; split.
  - intros H; acc H. cbv zeta in H. acc H. rewrite acc_time in H.
    set (s1 := exec (calcs_opt (child n "time")) (exec (calcs_of n) s)) in *.
    assert (E1 : psEnv s1 = after (psEnv s) (calcs_of n ++ calcs_opt (child n "time"))) by (unfold s1; now rewrite opt_env, calcs_env, after_app).
    assert (E1' : after (psEnv (exec (calcs_of n) s)) (calcs_opt (child n "time")) = psEnv s1) by (unfold s1; now rewrite opt_env).
    rewrite E1' in H. clearbody s1. clear E1'.
    rewrite acc_need in H; destruct H as (pn & Ep & H). rewrite acc_calcs in H.
    set (s2 := exec (calcs_of pn) s1) in *. assert (E2 : psEnv s2 = after (psEnv s1) (calcs_of pn)) by (unfold s2; now rewrite calcs_env). clearbody s2.
    acc H. rename a into mn. rename E into Em.
    set (s3 := exec (calcs_of mn) s2) in *. assert (E3 : psEnv s3 = after (psEnv s2) (calcs_of mn)) by (unfold s3; now rewrite calcs_env). clearbody s3.
    rename r into d. rename E0 into Ed. rewrite acc_corr in H; destruct H as (cors & d1 & Dc & Fc & H). acc H. rename r into bu. rename E into Eb.
    rewrite acc_log in H; destruct H as (lo & Dl & H). rewrite acc_traj in H; destruct H as (trj & Dt & H). apply acc_ret in H; subst b'.
    destruct (dist_range _ _ _ _ _ _ _ _ _ _ _ Ed) as [N0 N6].
    match type of Ed with p_dist ?i ?m ?bg ?x1 ?x2 ?x3 ?x4 ?x5 ?x6 ?x7 = _ =>
      destruct (dist_holds i m bg x1 x2 x3 x4 x5 x6 x7 N0 N6) as (d' & Ed' & Hd) end.
    assert (d' = d) by congruence; subst d'.
    destruct (correlations_holds cors d _ _ Hd) as (d1' & Fc' & Hd1). assert (d1' = d1) by congruence; subst d1'.
    match type of Eb with bunch_from_dist _ ?t ?x ?m ?q ?w = _ => destruct (bunch_holds d1 _ _ t x m q w Hd1 N0) as (bu' & Eb' & Lb & Pb) end.
    assert (bu' = bu) by congruence; subst bu'.
    exists bu, (lo ++ trj). split; [|reflexivity].
    eapply DB_bunch with (N := a_int n "n" 1) (et := psEnv s1) (ep := psEnv s2) (em := psEnv s3); eauto.
  - intros (bu & lo & D & ->). inversion D as [|et ep em pn mn t0 q N cors bu0 logs trj Nn Et Ep1 Ep2 Em1 Em2 Et0 Eq EN HN gamma bg Dc Lb Pb Dl Dt|]; try congruence; subst.
    accg. cbv zeta. accg. rewrite acc_time. rewrite !calcs_env.
    set (s1 := exec (calcs_opt (child n "time")) (exec (calcs_of n) s)) in *.
    assert (E1 : psEnv s1 = after (psEnv s) (calcs_of n ++ calcs_opt (child n "time"))) by (unfold s1; now rewrite opt_env, calcs_env, after_app).
    rewrite <- E1 in *. rewrite <- after_app, <- E1. clearbody s1.
    rewrite acc_need; exists pn; split; [exact Ep1|]. rewrite acc_calcs. rewrite <- (calcs_env pn s1) in *.
    set (s2 := exec (calcs_of pn) s1) in *. clearbody s2. accg. rewrite <- (calcs_env mn s2) in *. set (s3 := exec (calcs_of mn) s2) in *. clearbody s3.
    destruct HN as [N0 N6]. change (int_attr n "n" 1) with (a_int n "n" 1) in *.
    match goal with |- accepts (pbind (plift (p_dist ?i ?m ?bg ?x1 ?x2 ?x3 ?x4 ?x5 ?x6 ?x7)) _) _ _ =>
      destruct (dist_holds i m bg x1 x2 x3 x4 x5 x6 x7 N0 N6) as (d & Ed & Hd) end.
    rewrite acc_liftb; exists d; split; [exact Ed|].
    destruct (correlations_holds cors d _ _ Hd) as (d1 & Fc & Hd1).
    rewrite acc_corr; exists cors, d1; split; [exact Dc|]. split; [exact Fc|].
    match goal with |- accepts (pbind (plift (bunch_from_dist _ ?t ?x ?m ?q ?w)) _) _ _ => destruct (bunch_holds d1 _ _ t x m q w Hd1 N0) as (bu' & Eb' & Lb' & Pb') end.
    assert (bu' = bu); [|subst bu'].
    { eapply bunch_eq with (P := fun k p => starts p _ _ _ _ _); [congruence|exact Pb'| |intros k p p'; apply starts_eq].
      intros k p K. destruct (Pb k p K) as (c & -> & St). exact St. }
    rewrite acc_liftb; exists bu; split; [exact Eb'|].
    rewrite acc_log. exists logs. split; [exact Dl|]. rewrite acc_traj. exists trj; split; [exact Dt|]. now apply acc_ret.
Qed.

Lemma sdds_iff : forall i n b s b', nName n = "SDDS"%string ->
  (accepts (p_sdds n b) s b' <->
   exists bu lo, bunch_described i (next_bunch b) (psEnv s) n bu lo /\ b' = entry_added b bu lo).
Proof.
  intros i n b s b' Hn; unfold p_sdds.
  assert (A : forall B (f : vec T -> pm T B) s y,
    accepts (pbind (popt (child n "dir") (V (nZ 0) (nZ 0) (nZ 1)) (fun d => pbind (p_calcs d) (fun _ => pbind (p_vec d) (fun v => pret (vnormalize v))))) f) s y <->
    accepts (f (match child n "dir" with Some d => vnormalize (vec_attr (after (psEnv s) (calcs_opt (child n "dir"))) d) | None => V (nZ 0) (nZ 0) (nZ 1) end))
      (exec (calcs_opt (child n "dir")) s) y).
  { clear; intros B f s y; destruct (child n "dir") as [t|]; cbn [popt calcs_opt]; [|reflexivity].
    rewrite <- calcs_env. unfold accepts, pbind at 1 2; rewrite calcs_run. reflexivity. }
  split.
  - intros H; acc H. rewrite A in H. acc H. rewrite acc_corr in H; destruct H as (cors & bu & Dc & Fc & H).
    rewrite acc_log in H; destruct H as (lo & Dl & H). apply acc_ret in H; subst b'. rewrite opt_env in Dc, Dl.
    exists bu, lo. split; [|reflexivity]. eapply DB_sdds; eauto.
  - intros (bu & lo & D & ->). inversion D as [| |e1 fn dir b0 cors bu0 logs Nn E1 Ef Ed Ew Dc Fc Dl]; try congruence; subst.
    accg. rewrite A. rewrite acc_liftb; exists b0; split; [exact Ew|]. rewrite <- opt_env in Dc, Dl.
    rewrite acc_corr; exists cors, bu; split; [exact Dc|]. split; [exact Fc|]. rewrite acc_log. exists lo; split; [exact Dl|].
    now apply acc_ret.
Qed.

Lemma bunch_name : forall i ib e n bu lo, bunch_described i ib e n bu lo ->
  nName n = "particle"%string \/ nName n = "bunch"%string \/ nName n = "SDDS"%string.
Proof. intros i ib e n bu lo H; inversion H; auto. Qed.
Lemma visit_beam_calc : forall n, Forall (fun n => is_calc n = true) (visit_beam n).
Proof.
  intros n; unfold visit_beam; destruct (is_calc n) eqn:E; [repeat constructor; exact E|].
  destruct (String.eqb _ _); [apply calcs_calc|]. destruct (String.eqb _ _).
  - rewrite !Forall_app; repeat split; try apply calcs_calc; apply opt_calc.
  - destruct (String.eqb _ _); [rewrite !Forall_app; split; apply opt_calc|constructor].
Qed.
Lemma entry_state : forall b n s s' b', p_entry b n s = (s', Ok b') -> psEnv s' = after (psEnv s) (visit_beam n).
Proof. intros b n s s' b' H; rewrite (ex_state _ _ _ _ _ _ (ex_entry b n) H). apply exec_env, visit_beam_calc. Qed.

(* one entry *)
Lemma entry_iff : forall i b n s r, accepts (p_entry (i, b) n) s r <->
  (nName n = "calc"%string /\ r = (S i, b)) \/
  (exists bu lo, bunch_described i (next_bunch b) (psEnv s) n bu lo /\ r = (S i, entry_added b bu lo)) \/
  (nName n = "probe"%string /\ exists fn, attr n "file" = Some fn /\
     r = (S i, PB (pbBeam b) (pbLogs b) (PI true fn (int_attr n "step" 1) (int_attr n "number" 1)))).
Proof.
  intros i b n s r; unfold p_entry; cbn [fst snd]. split.
  - rewrite acc_bind; intros (b' & s1 & H1 & H). apply acc_ret in H; subst r.
    destruct (is_calc n) eqn:C.
    { left; split; [now apply calc_name|]. cbv [pbind p_calc pret] in H1. congruence. }
    destruct (String.eqb_spec (nName n) "particle") as [P|P].
    { right; left. assert (A : accepts (p_particle n b) s b') by (exists s1; exact H1). apply (particle_iff i) in A; [|exact P].
      destruct A as (bu & lo & D & ->); eauto 10. }
    destruct (String.eqb_spec (nName n) "bunch") as [B|B].
    { right; left. assert (A : accepts (p_bunch i n b) s b') by (exists s1; exact H1). apply bunch_iff in A; [|exact B].
      destruct A as (bu & lo & D & ->); eauto 10. }
    destruct (String.eqb_spec (nName n) "SDDS") as [S|S].
    { right; left. assert (A : accepts (p_sdds n b) s b') by (exists s1; exact H1). apply (sdds_iff i) in A; [|exact S].
      destruct A as (bu & lo & D & ->); eauto 10. }
    destruct (String.eqb_spec (nName n) "probe") as [Q|Q]; [|discriminate].
    right; right; split; [exact Q|]. assert (A : accepts (p_probe n b) s b') by (exists s1; exact H1).
    unfold p_probe in A. acc A. apply acc_ret in A; subst b'; eauto.
  - rewrite acc_bind. intros [[N ->]|[(bu & lo & D & ->)|[N (fn & F & ->)]]].
    + exists b, (exec [n] s). split; [rewrite (proj2 (calc_name n) N); reflexivity|now apply acc_ret].
    + pose proof (bunch_name _ _ _ _ _ _ D) as N. destruct N as [N|[N|N]]; rewrite (not_calc n _ N eq_refl), N; cbn [String.eqb Ascii.eqb Bool.eqb].
      * assert (A : accepts (p_particle n b) s (entry_added b bu lo)) by (apply (particle_iff i); eauto). destruct A as [s1 A].
        exists (entry_added b bu lo), s1; split; [exact A|now apply acc_ret].
      * assert (A : accepts (p_bunch i n b) s (entry_added b bu lo)) by (apply bunch_iff; eauto). destruct A as [s1 A].
        exists (entry_added b bu lo), s1; split; [exact A|now apply acc_ret].
      * assert (A : accepts (p_sdds n b) s (entry_added b bu lo)) by (apply (sdds_iff i); eauto). destruct A as [s1 A].
        exists (entry_added b bu lo), s1; split; [exact A|now apply acc_ret].
    + rewrite (not_calc n _ N eq_refl), N; cbn [String.eqb Ascii.eqb Bool.eqb]. unfold p_probe.
      rewrite F. eexists; exists s; split; [reflexivity|now apply acc_ret].
Qed.
Definition probe_or (pr : option probeinfo) (p : probeinfo) : probeinfo := match pr with Some x => x | None => p end.
Definition all_added (b : pbeam (T:=T)) (bs : list (bunch T)) (ls : list (logger T * string)) (pr : option probeinfo) : pbeam :=
  PB (BM (bmB (pbBeam b) ++ bs) (bmNOTS (pbBeam b)) (bmdt (pbBeam b)) (bmTracker (pbBeam b))) (pbLogs b ++ ls) (probe_or pr (pbProbe b)).
Lemma next_added : forall b bu lo, next_bunch (entry_added b bu lo) = next_bunch b + 1.
Proof. intros; unfold next_bunch; cbn [entry_added pbBeam beam_add bmB]. rewrite app_length; cbn [length]; lia. Qed.
Lemma probe_visit : forall n, nName n = "probe"%string -> visit_beam n = [].
Proof. intros n N; unfold visit_beam; rewrite (not_calc n _ N eq_refl), N; reflexivity. Qed.
Lemma beam_fold : forall l i b s r, accepts (pfold p_entry l (i, b)) s r <->
  exists bs ls pr, beam_described i (next_bunch b) (psEnv s) l bs ls pr /\ r = ((i + length l)%nat, all_added b bs ls pr).
Proof.
  induction l as [|n l IH]; intros i b s r; cbn [pfold].
  - rewrite acc_ret; split.
    + intros ->; exists [], [], None; split; [constructor|]. unfold all_added; rewrite !app_nil_r, Nat.add_0_r. destruct b as [[] ? ?]; reflexivity.
    + intros (bs & ls & pr & H & ->); inversion H; subst. unfold all_added; rewrite !app_nil_r, Nat.add_0_r. destruct b as [[] ? ?]; reflexivity.
  - rewrite acc_bind; split.
    + intros (a & s1 & H1 & H). pose proof (entry_state _ _ _ _ _ H1) as Hs.
      assert (A : accepts (p_entry (i, b) n) s a) by (exists s1; exact H1). apply entry_iff in A.
      destruct A as [[N ->]|[(bu & lo & D & ->)|[N (fn & F & ->)]]]; apply IH in H; destruct H as (bs & ls & pr & D' & ->); rewrite Hs in D'.
      * exists bs, ls, pr. split; [|f_equal; cbn [length]; lia]. apply DN_calc; [exact N|].
        unfold visit_beam in D'; rewrite (proj2 (calc_name n) N) in D'. exact D'.
      * exists (bu :: bs), (lo ++ ls), pr. split.
        { rewrite next_added in D'. now apply DN_bunch. }
        f_equal; [cbn [length]; lia|]. unfold all_added, entry_added, beam_add; cbn [pbBeam bmB pbLogs pbProbe bmNOTS bmdt bmTracker].
        now rewrite <- !app_assoc.
      * exists bs, ls, (Some (probe_or pr (PI true fn (int_attr n "step" 1) (int_attr n "number" 1)))). split; [|f_equal; cbn [length]; lia].
        apply DN_probe; [exact N|exact F|]. rewrite (probe_visit n N) in D'. exact D'.
    + intros (bs & ls & pr & H & ->). remember (n :: l) as l' eqn:El. remember (next_bunch b) as ib eqn:Eib. remember (psEnv s) as e eqn:Ee.
      destruct H as [i ib e|i ib e m r' bs ls pr N D|i ib e m r' bu lo bs ls pr B D|i ib e m r' fn bs ls pr N F D]; [discriminate| | |];
        injection El as -> ->; subst.
      * assert (A : accepts (p_entry (i, b) n) s (S i, b)) by (apply entry_iff; auto). destruct A as [s1 A].
        exists (S i, b), s1; split; [exact A|]. apply IH. exists bs, ls, pr. rewrite (entry_state _ _ _ _ _ A).
        unfold visit_beam; rewrite (proj2 (calc_name n) N). split; [exact D|f_equal; cbn [length]; lia].
      * assert (A : accepts (p_entry (i, b) n) s (S i, entry_added b bu lo)) by (apply entry_iff; eauto 10). destruct A as [s1 A].
        exists (S i, entry_added b bu lo), s1; split; [exact A|]. apply IH. exists bs, ls, pr. rewrite (entry_state _ _ _ _ _ A), next_added.
        split; [exact D|]. f_equal; [cbn [length]; lia|]. unfold all_added, entry_added, beam_add; cbn [pbBeam bmB pbLogs pbProbe bmNOTS bmdt bmTracker].
        now rewrite <- !app_assoc.
      * assert (A : accepts (p_entry (i, b) n) s (S i, PB (pbBeam b) (pbLogs b) (PI true fn (int_attr n "step" 1) (int_attr n "number" 1))))
          by (apply entry_iff; eauto 10). destruct A as [s1 A].
        eexists; exists s1; split; [exact A|]. apply IH. exists bs, ls, pr. rewrite (entry_state _ _ _ _ _ A), (probe_visit n N), after_nil.
        split; [exact D|]. f_equal; cbn [length]; lia.
Qed.
Lemma beam_iff : forall root s pb, accepts (p_beam root) s pb <->
  exists b bs ls pr, child root "beam" = Some b /\ beam_described 0 0 (psEnv s) (nKids b) bs ls pr /\
    pb = PB (BM bs 0 (nZ 0) TRACKING_NONE) ls (probe_or pr (PI false EmptyString 0 0)).
Proof.
  intros root s pb; unfold p_beam; rewrite acc_need; split.
  - intros (b & E & H). rewrite acc_bind in H; destruct H as (r & s1 & H1 & H). apply acc_ret in H; subst pb.
    assert (A : accepts (pfold p_entry (nKids b) (O, PB beam_new [] (PI false EmptyString 0 0))) s r) by (exists s1; exact H1).
    apply beam_fold in A; destruct A as (bs & ls & pr & D & ->). exists b, bs, ls, pr. split; [exact E|]. split; [exact D|reflexivity].
  - intros (b & bs & ls & pr & E & D & ->). exists b; split; [exact E|]. rewrite acc_bind.
    assert (A : accepts (pfold p_entry (nKids b) (O, PB beam_new [] (PI false EmptyString 0 0))) s
      ((0 + length (nKids b))%nat, all_added (PB beam_new [] (PI false EmptyString 0 0)) bs ls pr)) by (apply beam_fold; exists bs, ls, pr; auto).
    destruct A as [s1 A]. eexists; exists s1; split; [exact A|]. now apply acc_ret.
Qed.

(* ---- the document ---- *)
Lemma section_all_calc : forall (f : node -> list node) l, (forall n, Forall (fun n => is_calc n = true) (f n)) -> Forall (fun n => is_calc n = true) (flat_map f l).
Proof. intros f l H; induction l as [|n r IH]; cbn; [constructor|]. rewrite Forall_app; auto. Qed.
Lemma lattice_state : forall root s s' els l, p_lattice root s = (s', Ok els) -> child root "lattice" = Some l ->
  psEnv s' = after (psEnv s) (flat_map visit_lattice (nKids l)).
Proof.
  intros root s s' els l H E; rewrite (ex_state _ _ _ _ _ _ (ex_lattice root) H), E; cbn [section_of].
  apply exec_env, section_all_calc, visit_lattice_calc.
Qed.
Lemma beam_state : forall root s s' els l, p_beam root s = (s', Ok els) -> child root "beam" = Some l ->
  psEnv s' = after (psEnv s) (flat_map visit_beam (nKids l)).
Proof.
  intros root s s' els l H E; rewrite (ex_state _ _ _ _ _ _ (ex_beam root) H), E; cbn [section_of].
  apply exec_env, section_all_calc, visit_beam_calc.
Qed.
Lemma tracking_state : forall root bm s s' els l, p_tracking root bm s = (s', Ok els) -> child root "tracking" = Some l ->
  psEnv s' = after (psEnv s) (flat_map visit_tracking (nKids l)).
Proof.
  intros root bm s s' els l H E; rewrite (ex_state _ _ _ _ _ _ (ex_tracking root bm) H), E; cbn [section_of].
  apply exec_env, section_all_calc, visit_tracking_calc.
Qed.
Lemma input_iff : forall consts root pin, (exists s, parse_input consts root = (s, Ok pin)) <-> input_described consts root pin.
Proof.
  intros consts root pin; unfold parse_input. change (exists s, p_program consts root (PST [] [] []) = (s, Ok pin)) with
    (accepts (p_program consts root) (PST [] [] []) pin).
  assert (A : accepts (p_program consts root) (PST [] [] []) pin <->
    accepts (pbind (p_lattice root) (fun els => pbind (p_beam root) (fun pb => pbind (p_tracking root (pbBeam pb)) (fun tr =>
      pbind (p_observers root) (fun obs =>
      pret (PIN els (fst tr) (pbLogs pb) (pbProbe pb) (ptWatch (snd tr)) (ptFel (snd tr)) obs)))))) (exec (calcs_of root) (PST consts [] [])) pin).
  { unfold accepts, p_program, pbind at 1, p_new. rewrite calcs_run. reflexivity. }
  rewrite A; clear A. set (s0 := exec _ _). assert (E0 : psEnv s0 = after consts (calcs_of root)) by (unfold s0; now rewrite calcs_env).
  clearbody s0. split.
  - rewrite acc_bind; intros (els & s1 & H1 & H). assert (A1 : accepts (p_lattice root) s0 els) by (exists s1; exact H1).
    apply lattice_iff in A1; destruct A1 as (l & L & DL). pose proof (lattice_state _ _ _ _ _ H1 L) as E1.
    rewrite acc_bind in H; destruct H as (pb & s2 & H2 & H). assert (A2 : accepts (p_beam root) s1 pb) by (exists s2; exact H2).
    apply beam_iff in A2; destruct A2 as (b & bs & ls & pr & B & DB & ->). pose proof (beam_state _ _ _ _ _ H2 B) as E2.
    rewrite acc_bind in H; destruct H as (tr & s3 & H3 & H). match type of H3 with ?m _ = _ => assert (A3 : accepts m s2 tr) by (exists s3; exact H3) end.
    apply tracking_iff in A3; destruct A3 as (t & ts & tn & N & ws & fs & Tn & M & Dt & Nt & IN & DT & ->). pose proof (tracking_state _ _ _ _ _ _ H3 Tn) as E3.
    rewrite acc_bind in H; destruct H as (os & s4 & H4 & H). assert (A4 : accepts (p_observers root) s3 os) by (exists s4; exact H4).
    apply observers_iff in A4; destruct A4 as (o & O & DO). apply acc_ret in H; subst pin.
    cbn [fst snd pbBeam pbLogs pbProbe ptWatch ptFel bmB]. eapply DI_ with (e0 := psEnv s0) (e1 := psEnv s1) (e2 := psEnv s2) (e3 := psEnv s3); eauto.
  - intros D; destruct D as [e0 e1 e2 e3 l b t o els bs ls pr ts tn dt N ws fs os L B Tn O X0 X1 X2 X3 DL DB M Dt Edt Nt IN DT DO].
    rewrite <- E0 in X0. subst e0.
    assert (A1 : accepts (p_lattice root) s0 els) by (apply lattice_iff; eauto). destruct A1 as [s1 H1].
    pose proof (lattice_state _ _ _ _ _ H1 L) as E1. rewrite <- E1 in X1; subst e1.
    assert (A2 : accepts (p_beam root) s1 (PB (BM bs 0 (nZ 0) TRACKING_NONE) ls (probe_or pr (PI false EmptyString 0 0)))) by (apply beam_iff; eauto 10).
    destruct A2 as [s2 H2]. pose proof (beam_state _ _ _ _ _ H2 B) as E2. rewrite <- E2 in X2; subst e2.
    assert (A3 : accepts (p_tracking root (BM bs 0 (nZ 0) TRACKING_NONE)) s2 (BM bs N dt TRACKING_VAY, PT ws fs)).
    { apply tracking_iff. exists t, ts, tn, N, ws, fs. subst dt. repeat (split; [assumption|]). reflexivity. }
    destruct A3 as [s3 H3]. pose proof (tracking_state _ _ _ _ _ _ H3 Tn) as E3. rewrite <- E3 in X3; subst e3.
    assert (A4 : accepts (p_observers root) s3 os) by (apply observers_iff; eauto). destruct A4 as [s4 H4].
    rewrite acc_bind; eexists; eexists; split; [exact H1|]. rewrite acc_bind; eexists; eexists; split; [exact H2|].
    rewrite acc_bind; eexists; eexists; split; [exact H3|]. rewrite acc_bind; eexists; eexists; split; [exact H4|]. now apply acc_ret.
Qed.
End Entry.
