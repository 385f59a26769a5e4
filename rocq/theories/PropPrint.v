(* C56: the values printed while the input is read.  C71: files of a screen which are refused. *)
From Coq Require Import ZArith String List Bool Lia Reals.
From Verif Require Import Base BaseFacts Num VecModel ParticleModel TraceModel ElementModel ObserverModel DriverModel PropagateModel SddsModel OutputModel OutputSpec
  ParserModel ParserSpec ParserProofs ParserSpec2 PropParser.
Import ListNotations.
Local Open Scope string_scope.
Local Open Scope list_scope.

(* the print statements of a list of calc nodes, each with the value of its expression for the constants
   defined before it *)
Definition printed {T} {CT : Calc T} (e : cenv T) (l : list node) : list (node * option T) :=
  flat_map (fun k => match nth_error l k with
    | Some n => if String.eqb (attr_text n "print") "" then [] else [(n, cEval (after e (firstn k l)) (attr_text n "eq"))]
    | None => []
    end) (seq 0 (length l)).
Lemma printed_cons {T} {CT : Calc T} (e : cenv T) n l :
  printed e (n :: l) = (if String.eqb (attr_text n "print") "" then [] else [(n, cEval e (attr_text n "eq"))]) ++ printed (after e [n]) l.
Proof.
  unfold printed. cbn [length seq flat_map nth_error firstn]. f_equal.
  rewrite <- seq_shift, flat_map_concat_map, map_map, <- flat_map_concat_map. apply flat_map_ext. intros k. cbn [nth_error firstn].
  destruct (nth_error l k) as [m|]; [|reflexivity]. destruct (String.eqb _ _); [reflexivity|].
  unfold after. cbn [filter]. destruct (is_def n); reflexivity.
Qed.
Lemma exec_prints {T} {NT : Num T} {TT : Trans T} {CT : Calc T} {WT : World T} : forall l (s : pst T), Forall (fun n => is_calc n = true) l ->
  psOut (exec l s) = psOut s ++ printed (psEnv s) l.
Proof.
  induction l as [|n r IH]; intros s H; [cbn; now rewrite app_nil_r|]. inversion_clear H. rewrite printed_cons.
  change (exec (n :: r) s) with (exec r (p_define n (p_print n s))). rewrite IH by assumption.
  destruct (define_step n s H0) as [_ B]. rewrite B.
  assert (O : psOut (p_define n (p_print n s)) = psOut (p_print n s)).
  { unfold p_define. destruct (attr_text n "var"); [reflexivity|]. destruct (cEval _ _); [destruct (cName _)|]; reflexivity. }
  rewrite O. rewrite app_assoc. f_equal.
  - unfold p_print. destruct (attr_text n "print"); cbn [String.eqb psOut]; [now rewrite app_nil_r|reflexivity].
  - unfold after. cbn [filter]. destruct (is_def n); reflexivity.
Qed.

(* Every document: what is printed are the values of the print statements of the list "visited", each
   with the constants defined before in this list; if the program stops with an exception, of its first part. *)
Theorem C56_printed : forall (T : Type) (NT : Num T) (TT : Trans T) (CT : Calc T) (WT : World T)
    (consts : cenv T) (root : node), exists l1 l2,
  visited root = l1 ++ l2 /\ psOut (fst (parse_input consts root)) = printed consts l1 /\
  forall i, snd (parse_input consts root) = Ok i -> l2 = [].
Proof.
  intros T NT TT CT WT consts root. destruct (program_exec consts root) as (l1 & l2 & E & F & G).
  pose proof (visited_calc root) as V. rewrite E in V. apply Forall_app in V. destruct V as [V _].
  exists l1, l2. split; [exact E|]. split; [|exact G]. rewrite F. exact (exec_prints l1 (PST consts [] []) V).
Qed.
Print Assumptions C56_printed.
(* a definition and a print statement which uses it *)
Example C56_printed_ex : exists root, @printed R (toy_calc R NumR) [] (visited root) = [(Node "calc" [("print", "n is "); ("eq", "n")] [], Some 1%R)].
Proof.
  exists (Node "teufel" [] [Node "calc" [("var", "n"); ("eq", "1")] []; Node "calc" [("print", "n is "); ("eq", "n")] []]). reflexivity.
Qed.

(* ==== C71 ==== *)
(* Every file which is accepted as a source: the numbers of cells and time steps are attributes of its
   geometry, and the field data have exactly these dimensions. *)
Theorem C71_accepted : forall (T : Type) (NT : Num T) (f : h5file T) ss, source_read f = Ok ss ->
  exists g e nx ny n, named f "Screen" = Some g /\ named f "ElMagField" = Some e /\
    attribute g "Nx" = Some (SLong nx) /\ attribute g "Ny" = Some (SLong ny) /\ attribute g "NOTS" = Some (SLong n) /\ attribute g "dt" <> None /\
    hsDims e = [(nx mod 2 ^ 32)%Z; (ny mod 2 ^ 32)%Z; (n mod 2 ^ 32)%Z; 6%Z].
Proof.
  intros T NT f ss H. unfold source_read in H. bget H as g Hg. unfold h5_open in Hg. destruct (named f "Screen") as [g0|] eqn:Eg; [|discriminate]. apply Ok_inj in Hg. subst g0.
  bget H as nx Hx. bget H as ny Hy. bget H as n Hn. bget H as dt Hd. bget H as b Hb. bget H as v Hv.
  destruct (vecs_of v) as [|a [|b1 [|c [|]]]]; try discriminate H. bget H as e He. unfold h5_open in He. destruct (named f "ElMagField") as [e0|] eqn:Ee; [|discriminate]. apply Ok_inj in He. subst e0.
  unfold h5_int in Hx, Hy, Hn. unfold h5_double in Hd.
  destruct (dims_eqb (hsDims e) _) eqn:Dm in H; [|discriminate H].
  exists g, e, nx, ny, n. split; [reflexivity|]. split; [reflexivity|]. unfold attribute.
  destruct (named (hsAttr g) "Nx") as [[z|z]|]; try discriminate Hx. apply Ok_inj in Hx. subst z.
  destruct (named (hsAttr g) "Ny") as [[z|z]|]; try discriminate Hy. apply Ok_inj in Hy. subst z.
  destruct (named (hsAttr g) "NOTS") as [[z|z]|]; try discriminate Hn. apply Ok_inj in Hn. subst z.
  do 3 (split; [reflexivity|]). split; [intros Q; rewrite Q in Hd; discriminate Hd|].
  unfold dims_eqb in Dm. destruct (list_eq_dec Z.eq_dec (hsDims e) _) as [Q|]; [exact Q|discriminate Dm].
Qed.
Print Assumptions C71_accepted.
(* Field data with other dimensions, or none at all: the file is refused with an exception (not read beyond its data). *)
Theorem C71_mismatch : forall (T : Type) (NT : Num T) (f : h5file T) g nx ny n dt l,
  named f "Screen" = Some g -> attribute g "Nx" = Some (SLong nx) -> attribute g "Ny" = Some (SLong ny) -> attribute g "NOTS" = Some (SLong n) ->
  attribute g "dt" = Some (SDouble dt) -> hsData g = HDoubles l -> length l = 12%nat ->
  (forall e, named f "ElMagField" = Some e -> hsDims e <> [(nx mod 2 ^ 32)%Z; (ny mod 2 ^ 32)%Z; (n mod 2 ^ 32)%Z; 6%Z]) ->
  source_read f = Throw IOexc.
Proof.
  intros T NT f g nx ny n dt l Hg Hx Hy Hn Hd Hl Ln H. unfold attribute in *. unfold source_read, h5_open, h5_int, h5_double. rewrite Hg. cbn [bind].
  rewrite Hx, Hy, Hn, Hd. cbn [bind]. unfold h5_doubles at 1. rewrite Hl.
  do 12 (destruct l as [|? l]; [discriminate Ln|]). destruct l; [|discriminate Ln].
  match goal with |- context [h5_fill ?a ?b] => change (h5_fill a b) with (Ok a) end. cbn [bind map skipn buf_read firstn vecs_of].
  cbn -[zero_doubles dims_eqb u32 h5_fill h5_doubles emfs_of ss_new cell_fields Z.mul Z.ltb].
  destruct (named f "ElMagField") as [e|] eqn:Ee; cbn [bind]; [|reflexivity].
  unfold dims_eqb. destruct (list_eq_dec Z.eq_dec (hsDims e) _) as [Q|]; [|reflexivity]. exfalso. exact (H e eq_refl Q).
Qed.
Print Assumptions C71_mismatch.
Example C71_mismatch_ex : let g := H5 [4; 3]%Z (HDoubles (repeat 0%R 12)) [("Nx", SLong 2%Z); ("Ny", SLong 1%Z); ("NOTS", SLong 3%Z); ("dt", SDouble 1%R)] in
  let e := H5 [1; 1; 3; 6]%Z (HDoubles (repeat 0%R 18)) [] in let f := [("Screen", g); ("ElMagField", e)] in
  named f "Screen" = Some g /\ attribute g "Nx" = Some (SLong 2%Z) /\ attribute g "NOTS" = Some (SLong 3%Z) /\ hsDims e <> [2; 1; 3; 6]%Z.
Proof. repeat split. discriminate. Qed.
