(* C56, C57: the definitions in an input file and the bunches it defines. *)
From Coq Require Import ZArith String List Bool Reals Lra Lia Floats.
From Verif Require Import Base BaseFacts Num NumFloat VecModel ParticleModel TraceModel BunchModel DriverModel LoggerModel
  ElementModel FelModel ObserverModel ParserModel ParserSpec ParserProofs ParserProofs2 RetardProofs.
Import ListNotations.
Local Open Scope string_scope.
Local Open Scope list_scope.

(* ---- documents used in the examples ---- *)
Definition calc_ (v e : string) : node := Node "calc" [("var", v); ("eq", e)] [].
Definition tracking_ (k : list node) : node := Node "tracking" [("method", "Vay"); ("delta_t", "1"); ("n", "1")] k.
(* a calculator for numbers 0 and 1, names and the expression n+1; the empty name is not
   accepted *)
Definition toy_calc (T : Type) (NT : Num T) : Calc T :=
  MkCalc T (fun e t => if String.eqb t "0" then Some (nZ 0) else if String.eqb t "1" then Some (nZ 1)
                       else if String.eqb t "n+1" then match lookup e "n" with Some x => Some (nadd x (nZ 1)) | None => None end
                       else lookup e t)
           (fun v => negb (String.eqb v ""))
           (fun t => if String.eqb t "0" then 0%Z else if String.eqb t "2" then 2%Z else if String.eqb t "7" then 7%Z else 1%Z).
Definition toy_world (T : Type) (NT : Num T) : World T :=
  MkWorld T (fun _ _ => nZ 0) (fun _ _ _ _ => nZ 0) (fun _ _ => Throw IOexc) (fun _ _ _ => Throw IOexc) (fun _ => Throw IOexc).

(* ==== C56 ==== *)
(* In an orderly document (ParserSpec.v) every definition is evaluated exactly once, in
   document order, each seeing the values defined before.
   Missing for the full property: documents which are not orderly, see the refutations. *)
Theorem C56_document_order_partial : forall (T : Type) (NT : Num T) (TT : Trans T) (CT : Calc T) (WT : World T)
    (consts : cenv T) (root : node) i s,
  orderly root -> parse_input consts root = (s, Ok i) -> in_document_order consts root s.
Proof. intros T NT TT CT WT consts root i s. apply orderly_run. Qed.
Print Assumptions C56_document_order_partial.

(* Every document: the definitions evaluated are those of the list "visited" (ParserSpec.v), each
   seeing the values defined before in this list; if the program stops with an exception they
   are the first ones of the list. *)
Theorem C56_visited : forall (T : Type) (NT : Num T) (TT : Trans T) (CT : Calc T) (WT : World T)
    (consts : cenv T) (root : node), exists l1 l2,
  filter is_def (visited root) = l1 ++ l2 /\
  psLog (fst (parse_input consts root)) = seq_values consts l1 /\
  psEnv (fst (parse_input consts root)) = seq_env consts l1 /\
  forall i, snd (parse_input consts root) = Ok i -> l2 = [].
Proof. intros; apply parse_visits. Qed.
Print Assumptions C56_visited.

(* The definitions within undulators and dipoles are evaluated twice.  This does no harm if
   no definition reads a name which is defined by itself or by a later definition of the
   same element: the values are the same again. *)
Theorem C56_twice : forall (T : Type) (CT : Calc T) (reads : string -> string -> Prop) (l : list node) (e : cenv T),
  local_calc reads -> repeatable reads l ->
  seq_values e (l ++ l) = seq_values e l ++ seq_values e l /\
  forall v, lookup (seq_env e (l ++ l)) v = lookup (seq_env e l) v.
Proof. intros T CT reads l e H1 H2. exact (twice reads H1 l e H2). Qed.
Print Assumptions C56_twice.

(* an orderly document with definitions at many places *)
Definition good_doc : node := Node "teufel" []
  [calc_ "a" "1"; Node "comment" [] [];
   Node "lattice" [] [calc_ "b" "a"; Node "background" [] [calc_ "c" "b"; Node "E" [("x","c")] []];
                      Node "undulator" [("type","planar")] [Node "position" [] []; Node "field" [("B","1"); ("period","1")] []]];
   Node "beam" [] [calc_ "d" "c";
     Node "bunch" [("gamma","1"); ("charge","1"); ("cmr","1"); ("n","2")]
       [calc_ "e" "d"; Node "time" [] [calc_ "f" "e"]; Node "position" [] [calc_ "g" "f"]; Node "momentum" [] [calc_ "h" "g"]];
     Node "particle" [("gamma","1"); ("charge","1"); ("cmr","1")] [calc_ "e" "d"; Node "position" [] []; Node "momentum" [] []]];
   tracking_ [calc_ "k" "h"];
   Node "observer" [] [calc_ "l" "k"; Node "point" [("file","x")] [calc_ "n" "l"; Node "position" [] []; Node "time" [("n","1")] []]]].
Example C56_good_ex : orderly good_doc /\
  forall (TT : Trans float), exists s i,
    @parse_input float NumF TT (toy_calc float NumF) (toy_world float NumF) [] good_doc = (s, Ok i) /\ length (psLog s) = 12%nat.
Proof.
  split.
  - unfold orderly. split; [reflexivity|].
    assert (F : forall v e, flat_calc (calc_ v e)) by (intros; split; reflexivity).
    assert (Q : forall n, doc_defs n = [] -> loud n = false) by (intros n E; unfold loud; now rewrite E).
    split; [repeat constructor; apply F|].
    split; [|split; [|split]]; cbn.
    + constructor; [left; apply F|constructor; [|constructor; [right; left; reflexivity|constructor]]].
      right; right; split; [auto|]. unfold only_calcs; cbn. repeat constructor; apply F.
    + constructor; [left; apply F|constructor; [|constructor; [|constructor]]].
      * right; right; right; left. split; [reflexivity|]. split; [reflexivity|]. split; [repeat constructor; apply F|].
        split; [|split]; unfold only_calcs; cbn; repeat constructor; apply F.
      * right; right; left. split; [reflexivity|]. unfold only_calcs; cbn. repeat constructor; apply F.
    + constructor; [left; apply F|constructor].
    + constructor; [left; apply F|constructor; [|constructor]]. right; right. split; [discriminate|]. unfold only_calcs; cbn. repeat constructor; apply F.
  - intros TT. eexists; eexists. split; [vm_compute; reflexivity|vm_compute; reflexivity].
Qed.

Lemma seq_nodes : forall (T : Type) (CT : Calc T) l (e : cenv T), map fst (seq_values e l) = l.
Proof. intros T CT l; induction l as [|n r IH]; intros e; [reflexivity|]; cbn [seq_values map fst]; now rewrite IH. Qed.
Lemma wrong_nodes : forall (T : Type) (CT : Calc T) (e : cenv T) root s,
  map fst (psLog s) <> document_defs root -> ~ in_document_order e root s.
Proof. intros T CT e root s H [E _]; apply H; rewrite E; apply seq_nodes. Qed.

(* refuted: a definition within an undulator (and likewise within a dipole) is evaluated twice *)
Definition undulator_doc : node := Node "teufel" []
  [calc_ "n" "0";
   Node "lattice" [] [Node "undulator" [("type","planar")]
                        [calc_ "n" "n+1"; Node "position" [] []; Node "field" [("B","1"); ("period","1")] []]];
   Node "beam" [] []; tracking_ []; Node "observer" [] []].
Theorem C56_undulator_refuted : forall (TT : Trans float) (WT : World float),
  exists (CT : Calc float) root s i, parse_input [] root = (s, Ok i) /\ ~ in_document_order [] root s /\
    psLog s = [(calc_ "n" "0", Some 0%float); (calc_ "n" "n+1", Some 1%float); (calc_ "n" "n+1", Some 2%float)] /\
    document_defs root = [calc_ "n" "0"; calc_ "n" "n+1"].
Proof.
  intros TT WT. exists (toy_calc float NumF), undulator_doc. eexists; eexists.
  split; [vm_compute; reflexivity|]. split; [apply wrong_nodes; vm_compute; discriminate|]. split; reflexivity.
Qed.
Print Assumptions C56_undulator_refuted.

(* refuted: the definitions directly below the root are all evaluated before the sections, also
   those which follow a section; here m is not defined because n is not yet *)
Definition late_doc : node := Node "teufel" []
  [Node "lattice" [] [calc_ "n" "1"]; calc_ "m" "n"; Node "beam" [] []; tracking_ []; Node "observer" [] []].
Theorem C56_root_refuted : forall (TT : Trans float) (WT : World float),
  exists (CT : Calc float) root s i, parse_input [] root = (s, Ok i) /\ ~ in_document_order [] root s /\
    document_defs root = [calc_ "n" "1"; calc_ "m" "n"] /\
    psLog s = [(calc_ "m" "n", None); (calc_ "n" "1", Some 1%float)].
Proof.
  intros TT WT. exists (toy_calc float NumF), late_doc. eexists; eexists.
  split; [vm_compute; reflexivity|]. split; [apply wrong_nodes; vm_compute; discriminate|]. split; reflexivity.
Qed.
Print Assumptions C56_root_refuted.

(* refuted: the sections are read in a fixed order *)
Definition swapped_doc : node := Node "teufel" []
  [Node "beam" [] [calc_ "n" "1"]; Node "lattice" [] [calc_ "m" "n"]; tracking_ []; Node "observer" [] []].
Theorem C56_sections_refuted : forall (TT : Trans float) (WT : World float),
  exists (CT : Calc float) root s i, parse_input [] root = (s, Ok i) /\ ~ in_document_order [] root s /\
    document_defs root = [calc_ "n" "1"; calc_ "m" "n"] /\
    psLog s = [(calc_ "m" "n", None); (calc_ "n" "1", Some 1%float)].
Proof.
  intros TT WT. exists (toy_calc float NumF), swapped_doc. eexists; eexists.
  split; [vm_compute; reflexivity|]. split; [apply wrong_nodes; vm_compute; discriminate|]. split; reflexivity.
Qed.
Print Assumptions C56_sections_refuted.

(* refuted: definitions at other places, as within the <position> of a particle (for a bunch it
   would be evaluated), are silently ignored *)
Definition ignored_doc : node := Node "teufel" []
  [Node "lattice" [] [];
   Node "beam" [] [Node "particle" [("gamma","1"); ("charge","1"); ("cmr","1")]
                     [Node "position" [("x","n")] [calc_ "n" "1"]; Node "momentum" [] []]];
   tracking_ []; Node "observer" [] []].
Theorem C56_ignored_refuted : forall (TT : Trans float) (WT : World float),
  exists (CT : Calc float) root s i, parse_input [] root = (s, Ok i) /\ ~ in_document_order [] root s /\
    document_defs root = [calc_ "n" "1"] /\ psLog s = [].
Proof.
  intros TT WT. exists (toy_calc float NumF), ignored_doc. eexists; eexists.
  split; [vm_compute; reflexivity|]. split; [apply wrong_nodes; vm_compute; discriminate|]. split; reflexivity.
Qed.
Print Assumptions C56_ignored_refuted.

(* the hypotheses of C56_twice: here an expression is read as a name or n+1 *)
Definition toy_reads (t v : string) : Prop := t = v \/ (t = "n+1" /\ v = "n").
Example C56_twice_ex : forall (T : Type) (NT : Num T),
  @local_calc T (toy_calc T NT) toy_reads /\ repeatable toy_reads [calc_ "a" "1"; calc_ "b" "a"].
Proof.
  intros T NT; split.
  - intros t e1 e2 H; cbn. destruct (String.eqb t "0"); [reflexivity|]. destruct (String.eqb t "1"); [reflexivity|].
    destruct (String.eqb_spec t "n+1") as [->|_]; [rewrite (H "n"); [reflexivity|right; auto]|]. apply H; left; auto.
  - unfold toy_reads. split; [|split; [|exact I]].
    + intros m [ <- | [ <- | [] ] ]; vm_compute; intros [C|[C _]]; discriminate.
    + intros m [ <- | [] ]; vm_compute; intros [C|[C _]]; discriminate.
Qed.

(* ==== C57 ==== *)
(* Any arithmetic: a <bunch> which is accepted adds one bunch to the beam.  It has the number of
   particles given by the attribute n (none if n is negative, but see C57_negative), and all
   have the same charge (given charge / elementary charge) / n and mass charge / cmr / n. *)
Theorem C57_particles : forall (T : Type) (NT : Num T) (CT : Calc T) (WT : World T) i n (b b' : pbeam (T:=T)) s s',
  p_bunch i n b s = (s', Ok b') ->
  exists bu, bmB (pbBeam b') = (bmB (pbBeam b) ++ [bu]) /\ length bu = Z.to_nat (n_attr n) /\
    forall p, In p bu ->
      pCharge p = ndiv (ndiv (num_attr (psEnv s) n "charge") nqe) (nZ (n_attr n)) /\
      pMass p = ndiv (ndiv (ndiv (num_attr (psEnv s) n "charge") nqe) (num_attr (psEnv s) n "cmr")) (nZ (n_attr n)).
Proof.
  intros T NT CT WT i n b b' s s' H. destruct (bunch_made i n b b' s s' H) as (bu & E & L & F).
  exists bu; split; [exact E|]. split; [exact L|]. rewrite Forall_forall in F; exact F.
Qed.
Print Assumptions C57_particles.

(* Real arithmetic, n at least 1: the charges (in Coulomb) add up to the given charge, the masses to
   the mass which belongs to it.
   Missing for the full property: n=0, see C57_empty_refuted; the rounding errors of the sums. *)
Theorem C57_totals_partial : forall (CT : Calc R) (WT : World R) i n (b b' : pbeam (T:=R)) s s',
  p_bunch i n b s = (s', Ok b') -> (1 <= n_attr n)%Z ->
  exists bu, bmB (pbBeam b') = (bmB (pbBeam b) ++ [bu]) /\ Z.of_nat (length bu) = n_attr n /\
    total getCharge bu = num_attr (psEnv s) n "charge" /\
    total pCharge bu = (num_attr (psEnv s) n "charge" / nqe)%R /\
    total pMass bu = (num_attr (psEnv s) n "charge" / nqe / num_attr (psEnv s) n "cmr")%R.
Proof.
  intros CT WT i n b b' s s' H H1. destruct (bunch_made i n b b' s s' H) as (bu & E & L & F).
  exists bu; split; [exact E|]. split; [rewrite L; lia|].
  set (q := num_attr (psEnv s) n "charge") in *. set (c := num_attr (psEnv s) n "cmr") in *.
  assert (N : (INR (length bu) = IZR (n_attr n))%R) by (rewrite L, INR_IZR_INZ, Z2Nat.id by lia; reflexivity).
  assert (N0 : (IZR (n_attr n) <> 0)%R) by (apply not_0_IZR; lia).
  assert (Q0 : (nqe <> 0 :> R)%R) by (pose proof RetardProofs.nqe_pos; lra).
  rewrite (total_const getCharge (q / nqe / IZR (n_attr n) * nqe)%R), (total_const pCharge (q / nqe / IZR (n_attr n))%R),
    (total_const pMass (q / nqe / c / IZR (n_attr n))%R).
  - rewrite N. generalize dependent (@nqe R _); intros e Q0. 
    assert (K : forall x : R, (IZR (n_attr n) * (x / IZR (n_attr n)) = x)%R) by (intros x; field; exact N0).
    split; [field; split; assumption|]. split; apply K.
  - eapply Forall_impl; [|exact F]; intros p [_ A]; exact A.
  - eapply Forall_impl; [|exact F]; intros p [A _]; exact A.
  - eapply Forall_impl; [|exact F]; intros p [A _]; unfold getCharge; rewrite A; reflexivity.
Qed.
Print Assumptions C57_totals_partial.

(* Such bunches are made: n between 0 and 357913941, <position> and <momentum> given, no correlations *)
Theorem C57_accepted : forall (T : Type) (NT : Num T) (CT : Calc T) (WT : World T) i n (b : pbeam (T:=T)) pn mn s,
  (0 <= n_attr n <= 357913941)%Z ->
  child n "position" = Some pn -> child n "momentum" = Some mn -> child n "correlations" = None ->
  (forall l, child n "log" = Some l -> attr l "file" <> None) ->
  (forall l, child n "trajectories" = Some l -> attr l "file" <> None) ->
  exists s' b', p_bunch i n b s = (s', Ok b').
Proof.
  intros T NT CT WT i n b pn mn s H Hp Hm Hc Hl Ht.
  apply (bunch_accepted i n b pn mn); auto; unfold int_max; lia.
Qed.
Print Assumptions C57_accepted.

Definition two_bunch (k : string) : node := Node "bunch" [("gamma","1"); ("charge","1"); ("cmr","1"); ("n",k)] [Node "position" [] []; Node "momentum" [] []].
Example C57_ex : forall i (b : pbeam (T:=R)) s,
  exists s' b', @p_bunch R NumR (toy_calc R NumR) (toy_world R NumR) i (two_bunch "2") b s = (s', Ok b') /\
    (1 <= @n_attr R (toy_calc R NumR) (two_bunch "2"))%Z /\
    @num_attr R NumR (toy_calc R NumR) (psEnv s) (two_bunch "2") "charge" = 1%R.
Proof.
  intros i b s.
  destruct (C57_accepted R NumR (toy_calc R NumR) (toy_world R NumR) i (two_bunch "2") b (Node "position" [] []) (Node "momentum" [] []) s)
    as (s' & b' & E); try reflexivity; try discriminate.
  { split; vm_compute; discriminate. }
  exists s', b'. split; [exact E|]. split; [vm_compute; discriminate|reflexivity].
Qed.

(* refuted for n=0: the bunch is accepted without particles, its total charge is 0 *)
Theorem C57_empty_refuted : forall (WT : World R), exists (CT : Calc R) n, forall i (b : pbeam (T:=R)) s,
  n_attr n = 0%Z /\ num_attr (psEnv s) n "charge" = 1%R /\
  exists s' b', p_bunch i n b s = (s', Ok b') /\ bmB (pbBeam b') = (bmB (pbBeam b) ++ [[]]) /\ total getCharge [] = 0%R.
Proof.
  intros WT. exists (toy_calc R NumR), (two_bunch "0"). intros i b s. split; [reflexivity|]. split; [reflexivity|].
  destruct (C57_accepted R NumR (toy_calc R NumR) WT i (two_bunch "0") b (Node "position" [] []) (Node "momentum" [] []) s)
    as (s' & b' & E); try reflexivity; try discriminate.
  { split; vm_compute; discriminate. }
  exists s', b'. split; [exact E|].
  destruct (C57_particles _ _ _ _ _ _ _ _ _ _ E) as (bu & B & L & _).
  change (Z.to_nat (n_attr (two_bunch "0"))) with 0%nat in L. destruct bu; [|discriminate]. auto.
Qed.
Print Assumptions C57_empty_refuted.

(* a negative n down to -357913941 is refused by an exception of the standard library; *)
Theorem C57_negative : forall (T : Type) (NT : Num T) (WT : World T) i nop bg a b c d e f g,
  (- 357913941 <= nop < 0)%Z -> p_dist i nop bg a b c d e f g = (Throw STDexc : res (dist T)).
Proof. intros; apply dist_refused; unfold int_min; lia. Qed.
Print Assumptions C57_negative.
Example C57_negative_ex : (- 357913941 <= -1 < 0)%Z. Proof. lia. Qed.
(* refuted: more than 357913941 particles overflow the int size of the distribution *)
Theorem C57_overflow_refuted : forall (T : Type) (NT : Num T) (WT : World T) i nop bg a b c d e f g,
  (357913941 < nop)%Z -> p_dist i nop bg a b c d e f g = (UB : res (dist T)).
Proof. intros; apply dist_overflow; unfold int_max; lia. Qed.
Print Assumptions C57_overflow_refuted.
Example C57_overflow_ex : (357913941 < 357913942)%Z. Proof. lia. Qed.

(* refuted for rounded arithmetic: 7 macro-particles of a bunch of 1 C have a total charge
   (Bunch::getTotalCharge) which differs in the last digit *)
Theorem C57_rounding_refuted : forall (TT : Trans float) (s : pst float), exists (CT : Calc float) (WT : World float) n s' b' bu,
  p_bunch 0 n (PB beam_new [] (PI false "" 0 0)) s = (s', Ok b') /\ n_attr n = 7%Z /\
  num_attr (psEnv s) n "charge" = 1%float /\
  bmB (pbBeam b') = [bu] /\ length bu = 7%nat /\ bunch_charge bu = 1.0000000000000002%float.
Proof.
  intros TT s. exists (toy_calc float NumF), (toy_world float NumF), (two_bunch "7"). do 3 eexists.
  split; [vm_compute; reflexivity|]. split; [reflexivity|]. split; [reflexivity|]. split; [reflexivity|].
  split; [reflexivity|]. vm_compute; reflexivity.
Qed.
Print Assumptions C57_rounding_refuted.
