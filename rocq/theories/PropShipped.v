(* C93: the input files which are part of the repository. *)
From Coq Require Import ZArith String List Bool Reals Lra Lia Floats.
From Verif Require Import Base BaseFacts Num NumFloat VecModel ParticleModel TraceModel BunchModel DriverModel LoggerModel
  ElementModel FelModel ObserverModel ParserModel ParserSpec ParserSpec2 ParserProofs5 CalcModel ShippedModel ShippedSpec ShippedProofs ShippedProofs2 PropParser PropParser2.
Import ListNotations.
Local Open Scope string_scope.
Local Open Scope list_scope.

(* Any arithmetic, calculator and document: if the check of the structure is passed
   (ShippedSpec.v) and files can be read, the document is accepted. *)
Theorem C93_accepted : forall (T : Type) (NT : Num T) (TT : Trans T) (CT : Calc T) (WT : World T) (consts : cenv T) (root : node),
  readable WT -> ok_document consts root = true -> exists s pin, parse_input consts root = (s, Ok pin).
Proof.
  intros T NT TT CT WT consts root R H. destruct (document_accept R consts root H) as [pin D].
  apply C76_described in D. destruct D as [s D]. eauto.
Qed.
Print Assumptions C93_accepted.

(* Any arithmetic and document: if all definitions and numbers have a value, the input does
   not contain any of the zeros which stand for texts without a value: every other
   calculator which agrees on texts with a value gives the same input. *)
Theorem C93_no_default : forall (T : Type) (NT : Num T) (TT : Trans T) (WT : World T) (C1 C2 : Calc T) (consts : cenv T) (root : node) s pin,
  extends C1 C2 -> @all_defined T C1 consts root ->
  @parse_input T NT TT C1 WT consts root = (s, Ok pin) -> exists s', @parse_input T NT TT C2 WT consts root = (s', Ok pin).
Proof.
  intros T NT TT WT C1 C2 consts root s pin E A H.
  assert (D : @input_described T NT TT C1 WT consts root pin) by (apply C76_described; eauto).
  apply (input_same C1 C2 E) in D; [|exact A]. apply C76_described in D. exact D.
Qed.
Print Assumptions C93_no_default.

(* Any arithmetic and document: nothing requested is left out.  The children of the sections
   which are not definitions make one object each, in the order of the document. *)
Definition names (ks : list string) (l : list node) : list node := filter (fun n => existsb (String.eqb (nName n)) ks) l.
Definition not_calc (l : list node) : list node := filter (fun n => negb (String.eqb (nName n) "calc")) l.
Definition kids_at (root : node) (s : string) : list node := match child root s with Some n => nKids n | None => [] end.
Theorem C93_counts : forall (T : Type) (NT : Num T) (TT : Trans T) (CT : Calc T) (WT : World T) (consts : cenv T) (root : node) s pin,
  parse_input consts root = (s, Ok pin) ->
  length (inLattice pin) = length (not_calc (kids_at root "lattice")) /\
  length (bmB (inBeam pin)) = length (names ["particle"; "bunch"; "SDDS"] (kids_at root "beam")) /\
  length (inFel pin) = length (names ["fel1d"] (kids_at root "tracking")) /\
  map snd (inWatch pin) = map (fun n => (if String.eqb (nName n) "watch" then WHdf5 else WSdds, attr_text n "file"))
    (names ["watch"; "watch-sdds"] (kids_at root "tracking")) /\
  map snd (inObs pin) = map (fun n => attr_text n "file") (not_calc (kids_at root "observer")).
Proof.
  intros T NT TT CT WT consts root s pin H.
  assert (D : input_described consts root pin) by (apply C76_described; eauto). clear H.
  destruct D as [e0 e1 e2 e3 l b t o els bs ls pr ts tn dt N ws fs os Cl Cb Ct Co E0 E1 E2 E3 Dl Db Dm Ats Hdt An Dn Dt Do].
  unfold kids_at. rewrite Cl, Cb, Ct, Co. cbn [inLattice inBeam bmB inFel inWatch inObs].
  clear - Dl Db Dt Do. refine (conj _ (conj _ (conj _ (conj _ _)))).
  - induction Dl as [|e n r els E D IH|e n r el els E De D IH]; [reflexivity| |]; unfold not_calc; cbn [filter length].
    + rewrite E. exact IH.
    + apply String.eqb_neq in E. rewrite E. cbn [negb length]. f_equal. exact IH.
  - induction Db as [|i ib e n r bs ls pr E D IH|i ib e n r bu lo bs ls pr E D IH|i ib e n r fn bs ls pr E A D IH];
      [reflexivity| | |]; unfold names; cbn [filter length].
    + rewrite E. exact IH.
    + assert (K : existsb (String.eqb (nName n)) ["particle"; "bunch"; "SDDS"] = true)
        by (destruct E as [? ? ? ? ? ? ? E|? ? ? ? ? ? ? ? ? ? ? ? E|? ? ? ? ? ? ? E]; rewrite E; reflexivity).
      rewrite K. cbn [length]. f_equal. exact IH.
    + rewrite E. exact IH.
  - induction Dt as [|e n r ws fs E D IH|e n r f ws fs E D IH|e n r st z fn ws fs E A1 A2 A3 D IH|e n r st z fn ws fs E A1 A2 A3 D IH];
      [reflexivity| | | |]; unfold names; cbn [filter length].
    + rewrite E. exact IH.
    + destruct E as [? ? ? ? ? ? ? ? E]. rewrite E. cbn [String.eqb Ascii.eqb Bool.eqb existsb orb length]. f_equal. exact IH.
    + rewrite E. exact IH.
    + rewrite E. exact IH.
  - induction Dt as [|e n r ws fs E D IH|e n r f ws fs E D IH|e n r st z fn ws fs E A1 A2 A3 D IH|e n r st z fn ws fs E A1 A2 A3 D IH];
      [reflexivity| | | |]; unfold names; cbn [filter map].
    + rewrite E. exact IH.
    + destruct E as [? ? ? ? ? ? ? ? E]. rewrite E. exact IH.
    + rewrite E. cbn [String.eqb Ascii.eqb Bool.eqb existsb orb map]. rewrite E. cbn [snd]. unfold attr_text. rewrite A3. f_equal. exact IH.
    + rewrite E. cbn [String.eqb Ascii.eqb Bool.eqb existsb orb map]. rewrite E. cbn [snd]. unfold attr_text. rewrite A3. f_equal. exact IH.
  - induction Do as [|e n r os E D IH|e n r ob src fn os E S A D IH]; [reflexivity| |]; unfold not_calc; cbn [filter map].
    + rewrite E. exact IH.
    + assert (K : String.eqb (nName n) "calc" = false) by (destruct E as [? ? ? ? ? ? E|? ? ? ? ? ? ? ? E|? ? ? E|? ? ? E]; rewrite E; reflexivity).
      rewrite K. cbn [negb map snd]. unfold attr_text at 1. rewrite A. f_equal. exact IH.
Qed.
Print Assumptions C93_counts.

(* Double precision, with the calculator of CalcModel.v.
   All the input files in /repo/examples and /repo/tests are accepted, for all random numbers and
   all contents of the files read. *)
Notation CF := (@calculator float NumF).
Notation cf := (@program_consts float NumF).
Theorem C93_shipped : forall (TT : Trans float) (WT : World float), readable WT ->
  Forall (fun d => exists s pin, @parse_input float NumF TT CF WT cf d = (s, Ok pin)) shipped.
Proof.
  intros TT WT R. apply Forall_forall. intros d I. apply C93_accepted; [exact R|].
  assert (A : forallb (@ok_document float NumF CF cf) shipped = true) by (vm_compute; reflexivity).
  rewrite forallb_forall in A. apply A, I.
Qed.
Print Assumptions C93_shipped.

(* The definitions of all of them get the values which they have in document order, although
   they are evaluated in a different order and some of them twice. *)
Theorem C93_values : forall d, In d shipped ->
  let run := @seq_values float CF cf (filter is_def (visited d)) in
  let doc := @seq_values float CF cf (document_defs d) in
  same_values PrimFloat.eqb run doc = true /\ same_values PrimFloat.eqb doc run = true /\ Forall (fun p => snd p <> None) run.
Proof.
  intros d I run doc.
  assert (A : forallb (fun d => same_values PrimFloat.eqb (@seq_values float CF cf (filter is_def (visited d))) (@seq_values float CF cf (document_defs d)) &&
     same_values PrimFloat.eqb (@seq_values float CF cf (document_defs d)) (@seq_values float CF cf (filter is_def (visited d))) &&
     forallb (fun p => has (snd p)) (@seq_values float CF cf (filter is_def (visited d)))) shipped = true) by (vm_compute; reflexivity).
  rewrite forallb_forall in A. specialize (A d I). apply andb_prop in A. destruct A as [A C]. apply andb_prop in A. destruct A as [A B].
  split; [exact A|]. split; [exact B|]. rewrite forallb_forall in C. apply Forall_forall. intros p P. specialize (C p P).
  intros E. rewrite E in C. discriminate.
Qed.
Print Assumptions C93_values.

(* All numbers of all files but three have a value, so that C93_no_default applies. *)
Definition no_time_step : list node := [x_create_source; x_prepare_WG_input; t_create_source].
Definition with_time_step : list node :=
  [x_CSR; x_compton_backscattering_10P; x_compton_backscattering_1P; x_dali_tgu200; x_dali_u100_radiator; x_diffraction_radiation; x_elbe_CDR;
   x_elbe_EOS; x_elbe_u300_snapshot; x_elbe_u300; x_elbe_u300_200pC; x_fel_interaction; x_sdds_beam; x_single_charge_wiggler; x_space_charge;
   x_test_source; x_undulator_matching; x_waveguide; t_fel1d_modulation; t_fel1d_radiation; t_fel_modulation; t_test_source].
Theorem C93_defined : (forall d, In d shipped <-> In d with_time_step \/ In d no_time_step) /\
  Forall (@all_defined float CF cf) with_time_step.
Proof.
  split.
  - intros d. unfold shipped, with_time_step, no_time_step. cbn [In]. tauto.
  - apply Forall_forall. intros d I.
    assert (A : forallb (fun d => match @undefined_texts float CF cf d with [] => true | _ => false end) with_time_step = true) by (vm_compute; reflexivity).
    rewrite forallb_forall in A. specialize (A d I). split.
    + apply C93_values. revert d I A. unfold shipped, with_time_step. cbn [In]. tauto.
    + destruct (undefined_texts cf d); [reflexivity|discriminate].
Qed.
Print Assumptions C93_defined.

(* The other three give the name dt of a time step which is not defined.  The files are
   accepted and the time step is 0; there are no particles to be tracked. *)
Theorem C93_time_step_refuted : forall d, In d no_time_step ->
  @undefined_texts float CF cf d = ["dt"] /\
  forall (TT : Trans float) (WT : World float) s pin, @parse_input float NumF TT CF WT cf d = (s, Ok pin) ->
    bmdt (inBeam pin) = 0%float /\ bmB (inBeam pin) = [].
Proof.
  intros d I. split.
  - unfold no_time_step in I. cbn [In] in I. destruct I as [<-|[<-|[<-|[]]]]; vm_compute; reflexivity.
  - intros TT WT s pin H. assert (D : @input_described float NumF TT CF WT cf d pin) by (apply C76_described; eauto). clear H.
    destruct D as [e0 e1 e2 e3 l b t o els bs ls pr ts tn dt N ws fs os Cl Cb Ct Co E0 E1 E2 E3 Dl Db Dm Ats Hdt An Dn Dt Do].
    cbn [inBeam bmdt bmB].
    assert (K : nKids b = [] /\ dt = 0%float).
    { unfold no_time_step in I. cbn [In] in I. destruct I as [<-|[<-|[<-|[]]]];
        vm_compute in Cl, Cb, Ct; injection Cl as <-; injection Cb as <-; injection Ct as <-; vm_compute in Ats; injection Ats as <-;
        (split; [reflexivity|]); rewrite Hdt, E2, E1, E0; vm_compute; reflexivity. }
    destruct K as [Kb Kd]. rewrite Kb in Db. inversion Db; subst. split; [exact Kd|reflexivity].
Qed.
Print Assumptions C93_time_step_refuted.

(* The numbers of time steps. *)
Definition shipped_steps : list Z :=
  [1000; 10000; 10000; 1000; 4000; 150100; 20000; 30000; 1200; 4000; 4000; 4000; 4000; 1000; 4000; 4000; 5000; 100; 4000; 100;
   1000; 500350; 1000700; 4000; 100]%Z.
Definition step_text (d : node) : option Z :=
  match child d "tracking" with
  | Some t => @rint_of float NumF CF (@after float CF (@after float CF (@after float CF cf (calcs_of d)) (section_of visit_lattice (child d "lattice")))
      (section_of visit_beam (child d "beam"))) (attr_text t "n")
  | None => None
  end.
Theorem C93_steps : forall (TT : Trans float) (WT : World float), 
  Forall2 (fun d N => forall s pin, @parse_input float NumF TT CF WT cf d = (s, Ok pin) -> bmNOTS (inBeam pin) = N) shipped shipped_steps.
Proof.
  intros TT WT.
  assert (A : map step_text shipped = map Some shipped_steps) by (vm_compute; reflexivity).
  revert A. generalize shipped_steps. generalize shipped. intros ds. induction ds as [|d r IH]; intros [|N l] A; cbn [map] in A; try discriminate; [constructor|].
  injection A as A1 A2. constructor; [|apply IH, A2]. intros s pin H.
  assert (D : @input_described float NumF TT CF WT cf d pin) by (apply C76_described; eauto). clear H.
  destruct D as [e0 e1 e2 e3 l' b t o els bs ls pr ts tn dt N' ws fs os Cl Cb Ct Co E0 E1 E2 E3 Dl Db Dm Ats Hdt An Dn Dt Do].
  cbn [inBeam bmNOTS]. unfold step_text in A1. rewrite Cl, Cb, Ct in A1. cbn [section_of] in A1. rewrite <- E0, <- E1, <- E2 in A1.
  unfold attr_text in A1. rewrite An in A1. unfold rint_of in A1. unfold int_text in Dn. destruct (@cEval float CF e2 tn); [|congruence].
  destruct Dn as [Dn _]. congruence.
Qed.
Print Assumptions C93_steps.

(* In all files the watch points lie within the tracking, so that all watch files are written. *)
Section Watch.
Context {T : Type} {NT : Num T} {TT : Trans T} {CT : Calc T} {WT : World T}.
Fixpoint watch_steps (e : cenv T) (l : list node) : list (option Z) :=
  match l with
  | [] => []
  | n :: r => (if String.eqb (nName n) "watch" || String.eqb (nName n) "watch-sdds" then [rint_of e (attr_text n "step")] else []) ++
      watch_steps (after e (visit_tracking n)) r
  end.
Lemma int_rint e t z : int_text e t z -> rint_of e t = Some z.
Proof. unfold int_text, rint_of. destruct (cEval e t); [tauto|]. intros ->. reflexivity. Qed.
Lemma watch_steps_ok ts e l ws fs : tracking_described ts e l ws fs -> watch_steps e l = map (fun w => Some (fst w)) ws.
Proof.
  intros Dt. 
  induction Dt as [|e n r ws fs E D IH|e n r f ws fs E D IH|e n r st z fn ws fs E A1 A2 A3 D IH|e n r st z fn ws fs E A1 A2 A3 D IH];
    [reflexivity| | | |]; cbn [watch_steps map fst].
  - unfold visit_tracking, is_calc. rewrite E. exact IH.
  - assert (K : nName n = "fel1d") by (destruct E; assumption). unfold visit_tracking, is_calc. rewrite K. exact IH.
  - unfold visit_tracking, is_calc. rewrite E. cbn [String.eqb Ascii.eqb Bool.eqb orb app]. unfold attr_text. rewrite A1, (int_rint _ _ _ A2). f_equal. exact IH.
  - unfold visit_tracking, is_calc. rewrite E. cbn [String.eqb Ascii.eqb Bool.eqb orb app]. unfold attr_text. rewrite A1, (int_rint _ _ _ A2). f_equal. exact IH.
Qed.
End Watch.
Definition steps_within (d : node) : bool :=
  match child d "tracking", step_text d with
  | Some t, Some N =>
      forallb (fun o => match o with Some z => (0 <=? z)%Z && (z <=? N)%Z | None => false end)
        (@watch_steps float NumF CF (@after float CF (@after float CF (@after float CF cf (calcs_of d)) (section_of visit_lattice (child d "lattice")))
           (section_of visit_beam (child d "beam"))) (nKids t))
  | _, _ => false
  end.
Theorem C93_watches : forall (TT : Trans float) (WT : World float) d s pin, In d shipped ->
  @parse_input float NumF TT CF WT cf d = (s, Ok pin) ->
  Forall (fun w => (0 <= fst w <= bmNOTS (inBeam pin))%Z) (inWatch pin).
Proof.
  intros TT WT d s pin I H.
  assert (A : forallb steps_within shipped = true) by (vm_compute; reflexivity).
  rewrite forallb_forall in A. specialize (A d I). clear I.
  assert (D : @input_described float NumF TT CF WT cf d pin) by (apply C76_described; eauto). clear H.
  destruct D as [e0 e1 e2 e3 l b t o els bs ls pr ts tn dt N ws fs os Cl Cb Ct Co E0 E1 E2 E3 Dl Db Dm Ats Hdt An Dn Dt Do].
  cbn [inBeam bmNOTS inWatch]. unfold steps_within, step_text in A. rewrite Cl, Cb, Ct in A. cbn [section_of] in A. rewrite <- E0, <- E1, <- E2 in A.
  unfold attr_text in A. rewrite An, (int_rint _ _ _ Dn), (watch_steps_ok _ _ _ _ _ Dt) in A.
  clear - A. induction ws as [|w r IH]; [constructor|]. cbn [map forallb] in A. apply andb_prop in A. destruct A as [A B].
  constructor; [|apply IH, B]. apply andb_prop in A. destruct A as [A A']. apply Z.leb_le in A. apply Z.leb_le in A'. lia.
Qed.
Print Assumptions C93_watches.

Example C93_ex : exists (WT : World float), readable WT.
Proof.
  exists (MkWorld float (fun _ _ => 0%float) (fun _ _ _ _ => 0%float) (fun _ _ => Ok []) (fun _ _ _ => Ok (Homogeneous (EB vzero vzero)))
    (fun _ => Ok (MS [] [] [] 0%Z []))).
  split; [|split].
  - intros fn d. eexists; split; [reflexivity|constructor].
  - intros fn p t. eexists; reflexivity.
  - intros fn. do 2 eexists; split; reflexivity.
Qed.
(* two calculators: the second one gives the value 1 to texts without a value *)
Example C93_extends_ex : extends CF (MkCalc float (fun e t => match @cEval float CF e t with Some x => Some x | None => Some 1%float end) (@cName float CF) (@cInt float CF)).
Proof. split; [|split; reflexivity]. intros e t x H. cbn [cEval] in *. rewrite H. reflexivity. Qed.
(* the order of the operations *)
Example C93_calculator_ex :
  expression "-a-b*2.5e-3/(c+d)^2" = Some (ESub (ENeg (EVar "a")) (EDiv (EMul (EVar "b") (ENum 25 (-4))) (EPow (EAdd (EVar "c") (EVar "d")) (ENum 2 0)))) /\
  expression "sqrt(x)*2 - _c" = Some (ESub (EMul (ESqrt (EVar "x")) (ENum 2 0)) (EVar "_c")) /\ expression "2*" = None /\ expression "2 3" = None.
Proof. repeat split; vm_compute; reflexivity. Qed.
