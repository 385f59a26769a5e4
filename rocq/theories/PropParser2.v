(* C76: the objects made from an input file are those which it describes. *)
From Coq Require Import ZArith String List Bool Reals Lra Lia Floats.
From Verif Require Import Base BaseFacts Num NumFloat VecModel VecFacts ParticleModel TraceModel BunchModel DriverModel LoggerModel
  ElementModel FelModel ObserverModel ParserModel ParserSpec ParserSpec2 ParserProofs ParserProofs2 ParserProofs3 ParserProofs4 ParserProofs5
  ParserProofs6 RetardProofs PropParser.
Import ListNotations.
Local Open Scope string_scope.
Local Open Scope list_scope.

(* Any arithmetic, every document: the document is accepted, with a certain lattice, beam, loggers,
   probe, watches, interactions and observers, if and only if it describes just these
   (ParserSpec2.v), element by element and in document order. *)
Theorem C76_described : forall (T : Type) (NT : Num T) (TT : Trans T) (CT : Calc T) (WT : World T) (consts : cenv T) (root : node) pin,
  (exists s, parse_input consts root = (s, Ok pin)) <-> input_described consts root pin.
Proof. intros; apply input_iff. Qed.
Print Assumptions C76_described.

(* a document does not describe two different inputs *)
Theorem C76_unique : forall (T : Type) (NT : Num T) (TT : Trans T) (CT : Calc T) (WT : World T) (consts : cenv T) (root : node) a b,
  input_described consts root a -> input_described consts root b -> a = b.
Proof. exact input_unique. Qed.
Print Assumptions C76_unique.

(* Two processes which read the same files but draw different random numbers: both accept the
   document or none; they get the same input except for the coordinates of particles. *)
Theorem C76_random_numbers : forall (T : Type) (NT : Num T) (TT : Trans T) (CT : Calc T) (W1 W2 : World T) (consts : cenv T) (root : node) s1 a,
  same_files W1 W2 -> @parse_input T NT TT CT W1 consts root = (s1, Ok a) ->
  exists s2 b, @parse_input T NT TT CT W2 consts root = (s2, Ok b) /\ same_but_coordinates a b.
Proof.
  intros T NT TT CT W1 W2 consts root s1 a HW H.
  assert (D : @input_described T NT TT CT W1 consts root a) by (apply input_iff; eauto).
  destruct (input_rank W1 W2 HW _ _ _ D) as (b & D' & S). apply input_iff in D'. destruct D' as [s2 D']. eauto.
Qed.
Print Assumptions C76_random_numbers.

(* Real arithmetic: a <particle> with gamma>=1 and a direction has the charge (in Coulomb), the
   position and the energy given, and moves in the direction given. *)
Theorem C76_particle : forall (CT : Calc R) (WT : World R) i ib (e : cenv R) n bu lo pn mn,
  bunch_described i ib e n bu lo -> nName n = "particle" ->
  child n "position" = Some pn -> child n "momentum" = Some mn ->
  let gamma := num_attr e n "gamma" in
  let e1 := after e (calcs_of n) in
  let dir := vec_attr e1 mn in
  (1 <= gamma)%R -> dir <> vzero ->
  exists p, bu = [p] /\ getCharge p = num_attr e n "charge" /\ pX p = vec_attr e1 pn /\
    vnorm (pP p) = R_sqrt.sqrt (gamma * gamma - 1) /\ R_sqrt.sqrt (1 + vabs2 (pP p)) = gamma /\
    exists k, (0 <= k)%R /\ pP p = vmul dir k.
Proof.
  intros CT WT i ib e n bu lo pn mn H Hn Hp Hm gamma e1 dir Hg Hd.
  inversion H as [e1' pn' mn' t0 p logs q N E1 P M T0 Q g St L|et ep em pn' mn' t0 q N cors bu' logs trj Nn|e1' fn d b0 cors bu' logs Nn]; try congruence; subst.
  assert (pn' = pn) by congruence; subst pn'. assert (mn' = mn) by congruence; subst mn'.
  fold e1 in St. fold dir in St. subst g. fold gamma in St.
  exists p; split; [reflexivity|]. rewrite St. cbn [getCharge pX pP initTrajectory new_particle pCharge].
  change (nsqrt (nsub (nmul gamma gamma) (nZ 1))) with (R_sqrt.sqrt (gamma * gamma - 1)).
  assert (V : vnorm (vmul (vnormalize dir) (R_sqrt.sqrt (gamma * gamma - 1))) = R_sqrt.sqrt (gamma * gamma - 1)).
  { rewrite vnorm_mul, vnormalize_unit by exact Hd. rewrite Rabs_pos_eq by apply sqrt_pos. apply Rmult_1_r. }
  assert (A : vabs2 (vmul (vnormalize dir) (R_sqrt.sqrt (gamma * gamma - 1))) = (gamma * gamma - 1)%R).
  { rewrite <- vnorm_sq, V. apply sqrt_sqrt. nra. }
  split; [|split; [reflexivity|split; [|split]]].
  - unfold getCharge; cbn [pCharge]. pose proof nqe_pos as Qp. assert (Q0 : (nqe <> 0 :> R)%R) by lra. 
    change ((num_attr e n "charge" / nqe * nqe)%R = num_attr e n "charge"). unfold Rdiv. rewrite Rmult_assoc, Rinv_l by exact Q0. apply Rmult_1_r.
  - exact V.
  - rewrite A. replace (1 + (gamma * gamma - 1))%R with (gamma * gamma)%R by ring. apply sqrt_square; lra.
  - exists (R_sqrt.sqrt (gamma * gamma - 1) / vnorm dir)%R. split.
    + apply Rmult_le_pos; [apply sqrt_pos|]. destruct (Req_dec (vnorm dir) 0) as [Z|Z]; [rewrite Z, Rinv_0; lra|].
      apply Rlt_le, Rinv_0_lt_compat. assert (0 <= vnorm dir)%R by apply sqrt_pos. lra.
    + rewrite vnormalize_div. destruct dir as [a b c]. unfold vdiv, vmul; cbn [vx vy vz]. f_equal; unnum; unfold Rdiv; ring.
Qed.
Print Assumptions C76_particle.

(* Any arithmetic: if there are no definitions in the section <tracking>, every interaction has the
   time step of the beam.  (Otherwise the time step is evaluated again with the new
   values; an interaction refuses a beam with a different time step when it begins.) *)
Theorem C76_time_step : forall (T : Type) (NT : Num T) (TT : Trans T) (CT : Calc T) (WT : World T) (consts : cenv T) (root t : node) pin,
  input_described consts root pin -> child root "tracking" = Some t ->
  filter is_def (flat_map visit_tracking (nKids t)) = [] ->
  Forall (fun f => feDt f = bmdt (inBeam pin)) (inFel pin).
Proof.
  intros T NT TT CT WT consts root t pin H Ht Hd. destruct H. cbn [inBeam bmdt inFel].
  match goal with K : child root "tracking" = Some ?x |- _ => assert (x = t) by congruence; subst x end.
  subst dt. eapply tracking_same_step; eauto.
Qed.
Print Assumptions C76_time_step.

(* a document with a particle and everything else *)
Definition full_doc : node := Node "teufel" []
  [calc_ "a" "1";
   Node "lattice" [] [Node "background" [] [Node "B" [("y","a")] []]];
   Node "beam" [] [Node "particle" [("gamma","1"); ("charge","1"); ("cmr","1")] [Node "position" [("x","a")] []; Node "momentum" [("z","1")] []]];
   tracking_ [Node "watch" [("step","1"); ("file","w")] []];
   Node "observer" [] [Node "point" [("file","x")] [Node "position" [] []; Node "time" [("n","1")] []]]].
Example C76_ex : forall (TT : Trans float), exists pin,
  @input_described float NumF TT (toy_calc float NumF) (toy_world float NumF) [] full_doc pin /\
  inWatch pin = [(1%Z, (WHdf5, "w"))] /\ length (bmB (inBeam pin)) = 1%nat /\ length (inObs pin) = 1%nat /\ length (inLattice pin) = 1%nat.
Proof.
  intros TT. eexists. split.
  - apply C76_described. eexists. vm_compute. reflexivity.
  - split; [reflexivity|]. split; [reflexivity|]. split; reflexivity.
Qed.
Example C76_random_numbers_ex : forall (T : Type) (NT : Num T), same_files (toy_world T NT)
  (MkWorld T (fun _ _ => nZ 1) (fun _ _ _ _ => nZ 1) (fun _ _ => Throw IOexc) (fun _ _ _ => Throw IOexc) (fun _ => Throw IOexc)).
Proof. intros; repeat split. Qed.
Example C76_time_step_ex : exists t, child full_doc "tracking" = Some t /\ filter is_def (flat_map visit_tracking (nKids t)) = [].
Proof. eexists; split; reflexivity. Qed.
Definition part_node : node := Node "particle" [("gamma","1"); ("charge","1"); ("cmr","1")] [Node "position" [] []; Node "momentum" [("z","1")] []].
Example C76_particle_ex : exists bu,
  @bunch_described R NumR (toy_calc R NumR) (toy_world R NumR) 0 0 [] part_node bu [] /\
  (1 <= @num_attr R NumR (toy_calc R NumR) [] part_node "gamma")%R /\
  @vec_attr R NumR (toy_calc R NumR) [] (Node "momentum" [("z","1")] []) <> vzero.
Proof.
  eexists. split; [|split].
  - eapply DB_particle; try reflexivity. apply DG_none; reflexivity.
  - cbn. lra.
  - intros C. apply (f_equal vz) in C. cbn in C. lra.
Qed.
