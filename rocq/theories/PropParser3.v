(* C76: how an input document is refused. *)
From Coq Require Import ZArith String List Bool Reals Lia Floats.
From Verif Require Import Base BaseFacts Num NumFloat VecModel ParticleModel TraceModel BunchModel DriverModel LoggerModel
  ElementModel FelModel ObserverModel SddsModel PropagateModel ParserModel ParserSpec ParserSpec2 ParserSpec3 ParserProofs7 ProgramModel PropParser.
Import ListNotations.
Local Open Scope string_scope.
Local Open Scope list_scope.

(* the particles of bunches read from files have a trajectory of one point *)
Definition bunches_start {T} (WT : World T) : Prop := forall fn dir bu, wSDDS fn dir = Ok bu ->
  Forall (fun p => exists t x m a p0, p = initTrajectory t x m a p0) bu.

(* Any arithmetic, every document: if it is not accepted, then it is refused with the exception of the
   parser, or the outcome is that of a file which it names or of a number in it out of range
   (ParserSpec3.v).  Nothing else in the document leads to an undefined outcome. *)
Theorem C76_refused : forall (T : Type) (NT : Num T) (TT : Trans T) (CT : Calc T) (WT : World T) (consts : cenv T) (root : node) s r,
  bunches_start WT -> parse_input consts root = (s, r) -> (exists pin, r = Ok pin) \/ refusal root (ending r).
Proof.
  intros T NT TT CT WT consts root s r H E. pose proof (en_input root H consts) as K. rewrite E in K. cbn [snd] in K.
  destruct r as [pin| | |]; [left; eauto|right; exact K..].
Qed.
Print Assumptions C76_refused.

(* With readable files and numbers in range the outcome is defined, and no exception is raised but that
   of the parser. *)
Theorem C76_refused_only : forall (T : Type) (NT : Num T) (TT : Trans T) (CT : Calc T) (WT : World T) (consts : cenv T) (root : node) s r,
  bunches_start WT ->
  (forall fn pos t0, exists e, wScreen fn pos t0 = Ok e) -> (forall fn dir, exists b, wSDDS fn dir = Ok b) ->
  (forall fn, exists m g, wMesh fn = Ok m /\ mesh_init m = Ok g) ->
  (forall a e x, integer_of root a -> cEval e a = Some x -> exists z, nrint x = Some z /\ (0 <= z <= int_max)%Z) ->
  (forall a e, index_of root a -> exists z, int_part e a z) ->
  (forall n, entry root "beam" n -> nName n = "bunch" -> (0 <= n_attr n <= 357913941)%Z) ->
  (forall n m k, entry root "observer" n -> child n k = Some m -> number_ok (int_attr m "n" 0)) ->
  parse_input consts root = (s, r) -> (exists pin, r = Ok pin) \/ r = Throw IOexc.
Proof.
  intros T NT TT CT WT consts root s r H HS HB HM HI HX HN HO E.
  assert (K : refusal root (ending r) -> ending r = Throw IOexc \/ ending r = Ok tt).
  { generalize (ending r). intros u K. inversion K; subst; auto.
    - right. destruct (HS fn pos t0) as [e ->]. reflexivity.
    - right. destruct (HB fn dir) as [e ->]. reflexivity.
    - right. destruct (HM fn) as (m & g & -> & _). reflexivity.
    - right. destruct (HM fn) as (m' & g & E1 & E2). replace m with m' by congruence. rewrite E2. reflexivity.
    - exfalso. destruct (HI a e x H0 H1) as (z & Z & R). apply (H2 z Z). unfold int_min. lia.
    - exfalso. destruct (HX a e H0) as (z & Z). exact (H1 z Z).
    - exfalso. specialize (HN n H0 H1). lia.
    - exfalso. specialize (HN n H0 H1). lia.
    - exfalso. unfold int_text in H3. destruct (cEval e a) as [x|] eqn:EV; [|lia].
      destruct (HI a e x) as (z' & Z & R); [right; left; eauto|exact EV|]. destruct H3 as [H3 _]. assert (z = z') by congruence. lia.
    - exfalso. apply H5. eauto 6.
    - exfalso. destruct (HO n tn "time" H0 H2). lia. }
  destruct (C76_refused T NT TT CT WT consts root s r H E) as [O|R]; [left; exact O|].
  destruct (K R) as [F|F]; destruct r; try discriminate; [right; cbn in F; congruence|left; eauto].
Qed.
Print Assumptions C76_refused_only.

(* the files of the program (ProgramModel.v) give such bunches *)
Theorem C76_bunches : forall (T : Type) (NT : Num T) (TT : Trans T) fsS fsH uni gauss, bunches_start (world_of (T:=T) fsS fsH uni gauss).
Proof.
  intros T NT TT fsS fsH uni gauss fn dir bu H. cbn [wSDDS world_of] in H. bget H as r Hr. apply Ok_inj in H. subst bu.
  unfold sdds_read in Hr. destruct (_ <=? _)%Z; [discriminate|]. destruct (fsS fn) as [d|]; [|apply Ok_inj in Hr; subst r; constructor].
  bget Hr as no Hno.
  destruct no as [n|]; [|apply Ok_inj in Hr; subst r; constructor].
  repeat match type of Hr with context[match ?o with Some _ => _ | None => _ end] => destruct o; [|apply Ok_inj in Hr; subst r; constructor] end.
  bget Hr as sum Hs. cbv zeta in Hr. bget Hr as ps Hp. apply Ok_inj in Hr. subst r. cbn [snd]. clear Hs.
  revert ps Hp. generalize (zseq 0 (Z.to_nat n)). intros zs. induction zs as [|i zs IH]; intros ps Hp; cbn [map_res] in Hp.
  - apply Ok_inj in Hp. subst. constructor.
  - bget Hp as p H1. bget Hp as q H2. apply Ok_inj in Hp. subst ps. constructor; [|apply IH, H2].
    bget H1 as v1 E1; bget H1 as v2 E2; bget H1 as v3 E3; bget H1 as v4 E4; bget H1 as v5 E5; bget H1 as v6 E6.
    apply Ok_inj in H1. subst p. unfold sdds_particle. destruct (sdds_frame dir) as [[ex ey] es]. cbv zeta. do 5 eexists. reflexivity.
Qed.
Print Assumptions C76_bunches.

Example C76_refused_ex : bunches_start (toy_world R NumR) /\
  parse_input (WT := toy_world R NumR) (CT := toy_calc R NumR) [] (Node "teufel" [] []) = (PST [] [] [], Throw IOexc).
Proof. split; [intros fn dir bu H; discriminate|reflexivity]. Qed.
