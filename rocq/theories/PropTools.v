(* The programs propagate and reflection as a whole (C81-C85). *)
From Coq Require Import ZArith String List Lia Lra Bool Reals Floats.
From Flocq Require Import Core.Raux.
From Verif Require Import PropagateProofs5.
From Verif Require Import Base BaseFacts Num NumFloat VecModel VecFacts TraceModel TraceSpec TraceProofs TraceProofs2 FelProofs FelProofs2 DriverProofs ObserverModel ObserverSpec ObserverProofs
  ObserverProofs7 SddsModel ParticleModel BunchModel PropagateModel PropagateSpec PropagateProofs PropagateProofs3 OutputModel OutputSpec OutputProofs OutputProofs2 OutputProofs3
  ToolsModel ToolsSpec ToolsProofs ToolsProofs2 ToolsProofs3 PropTrace PropPropagate PropOutput PropMesh.
Import ListNotations.
Local Open Scope string_scope.
Local Open Scope list_scope.
Local Open Scope Z_scope.

(* ==== C81: the program propagate ==== *)
(* Whenever it ends without an exception: one file is written; it is the mesh of the second file
   with the fields propagated from the cells of the first file *)
Theorem C81_output : forall (T : Type) (NT : Num T) sched solve fs prog sf infile outfile rest code fs' rs bs, fair sched ->
  propagate_main sched solve fs (prog :: sf :: infile :: outfile :: rest) = Ok (code, fs', rs, bs) ->
  code = 0 /\ only_changed outfile fs fs' /\
  exists fsrc src sdt total g srcs ftgt tgt dt tgt' f,
    fs sf = Some fsrc /\ mesh_read fsrc = Ok (src, sdt) /\ mesh_init src = Ok (total, g) /\ cells_of solve src g srcs /\
    fs infile = Some ftgt /\ mesh_read ftgt = Ok (tgt, dt) /\ same_mesh tgt tgt' /\
    (forall k tr pos, nth_error (msA tgt) k = Some tr -> nth_error (msX tgt) k = Some pos ->
       exists out, prop_cell srcs pos tr = Ok out /\ nth_error (msA tgt') k = Some out) /\
    fs' outfile = Some f /\ mesh_file tgt' dt = Ok f /\ (msX tgt <> [] -> mesh_read f = Ok (tgt', dt)).
Proof.
  intros T NT sched solve fs prog sf infile outfile rest code fs' rs bs F H.
  apply (propagate_inv sched solve F) in H. destruct H as (fsrc & src & sdt & [total g] & r0 & srcs & rs1 & bs1 & fs1 & H1 & H2 & H3 & H4 & H5 & H6 & H7).
  injection H7 as -> -> -> ->. apply (target_inv sched F) in H6. destruct H6 as (ftgt & tgt & tgt' & dt & init & f & r1 & r2 & T1 & T2 & T3 & T4 & T5 & T6 & T7 & T8 & T9).
  split; [reflexivity|]. split. { intros n Hn. rewrite T9. unfold put. destruct (String.eqb_spec n outfile); [contradiction|reflexivity]. }
  exists fsrc, src, sdt, total, g, srcs, ftgt, tgt, dt, tgt', f. pose proof T2 as (U1 & U2 & U3). repeat (split; [assumption|]).
  split; [rewrite T9; unfold put; rewrite String.eqb_refl; reflexivity|]. split; [exact T8|].
  intros NE. apply (target_back _ _ _ _ _ _ T2 T8 NE).
Qed.
Print Assumptions C81_output.

Lemma cells_unique {T} {NT : Num T} solve (s : mesh T) g a b : cells_of solve s g a -> cells_of solve s g b -> a = b.
Proof.
  intros [La Ha] [Lb Hb]. apply nth_error_combine_ext. intros n.
  destruct (nth_error a n) as [x|] eqn:Ea.
  - assert (n < length b)%nat by (rewrite Lb, <- La; apply nth_error_Some; congruence). destruct (nth_error b n) as [y|] eqn:Eb; [|apply nth_error_None in Eb; lia].
    destruct (Ha n x Ea) as (A1 & (e & A2 & A3 & A4) & A5 & A6 & A7). destruct (Hb n y Eb) as (B1 & (e' & B2 & B3 & B4) & B5 & B6 & B7).
    assert (srcX x = srcX y) by congruence. assert (srcA x = srcA y) by congruence. assert (e = e') by congruence. subst e'.
    assert (srcAt x = srcAt y) by (apply Ok_inj; congruence). assert (srcAn x = srcAn y) by (apply Ok_inj; congruence).
    destruct x, y. cbn in *. congruence.
  - apply nth_error_None in Ea. symmetry. apply nth_error_None. lia.
Qed.
(* the values in the file are those of the Kirchhoff integral, if the contributions carry energy
   (see C64) *)
Theorem C81_kirchhoff : forall sched solve fs prog sf infile outfile rest code fs' rs bs fsrc src sdt total g srcs ftgt tgt dt, fair sched ->
  propagate_main (T := R) sched solve fs (prog :: sf :: infile :: outfile :: rest) = Ok (code, fs', rs, bs) ->
  fs sf = Some fsrc -> mesh_read fsrc = Ok (src, sdt) -> mesh_init src = Ok (total, g) -> cells_of solve src g srcs ->
  fs infile = Some ftgt -> mesh_read ftgt = Ok (tgt, dt) ->
  exists f e, fs' outfile = Some f /\ named f "ElMagField" = Some e /\
    forall i tr pos it k, nth_error (msA tgt) i = Some tr -> nth_error (msX tgt) i = Some pos -> (forall c, In c srcs -> cell_carries tr pos c) ->
      0 <= it < msNt tgt -> 0 <= k < 6 ->
      element_of e [Z.of_nat i; it; k] = field_value k (kirchhoff_sum srcs pos (sample_time tr it)).
Proof.
  intros sched solve fs prog sf infile outfile rest code fs' rs bs fsrc src sdt total g srcs ftgt tgt dt F H S1 S2 S3 S4 T1 T2.
  destruct (C81_output R NumR sched solve fs prog sf infile outfile rest code fs' rs bs F H) as
    (_ & _ & fsrc' & src' & sdt' & total' & g' & srcs' & ftgt' & tgt0 & dt' & tgt' & f & A1 & A2 & A3 & A4 & B1 & B2 & B3 & B4 & B5 & B6 & B7).
  assert (fsrc' = fsrc) by congruence. subst fsrc'. rewrite S2 in A2. apply Ok_inj in A2. injection A2 as <- <-.
  rewrite S3 in A3. apply Ok_inj in A3. injection A3 as <- <-. rewrite <- (cells_unique _ _ _ _ _ S4 A4) in *. clear A4.
  assert (ftgt' = ftgt) by congruence. subst ftgt'. rewrite T2 in B2. apply Ok_inj in B2. injection B2 as <- <-.
  destruct (msX tgt) as [|x0 xs] eqn:EX.
  - unfold mesh_file in B6. cbv zeta in B6. bget B6 as c3 Q1. bget B6 as cb Q2. bget B6 as c Q3. bget B6 as p3 Q4. bget B6 as pb Q5. bget B6 as p Q6.
    bget B6 as ts Q7. bget B6 as t0s Q8. bget B6 as o Q9. bget B6 as n Q10. bget B6 as n' Q11. bget B6 as fl Q12. bget B6 as fb Q13. bget B6 as e Q14.
    apply Ok_inj in B6. subst f. do 2 eexists. split; [exact B5|]. split; [reflexivity|]. intros i tr pos it k Ht Hp. destruct i; discriminate Hp.
  - assert (NE : msX tgt <> []) by congruence. rewrite <- EX in *. clear x0 xs EX.
    assert (TR : target_run srcs ftgt tgt tgt' dt) by (split; [exact T2|]; split; [exact B3|exact B4]).
    destruct (target_back srcs ftgt tgt tgt' dt f TR B6 NE) as (_ & Sh & Sm & Ft).
    destruct (C72_file R NumR tgt' dt Sh Sm Ft) as (c & p & t & o & e & E & _ & _ & _ & _ & _ & _ & _ & _ & _ & _ & _ & V).
    rewrite B6 in E. apply Ok_inj in E. subst f. eexists. exists e. split; [exact B5|]. split; [reflexivity|].
    intros i tr pos it k Ht Hp HC Hit Hk. destruct (B4 i tr pos Ht Hp) as (out & O1 & O2).
    destruct (C64_kirchhoff_partial tr pos srcs HC) as (out' & P1 & P2 & P3). rewrite O1 in P1. apply Ok_inj in P1. subst out'.
    destruct B3 as (M1 & M2 & M3 & M4 & M5). destruct (C72_shaped _ _ _ _ _ T2 NE) as ((N1 & N2 & N3) & _ & _).
    assert (LT : Z.of_nat (length (tr_f tr)) = msNt tgt) by (rewrite Forall_forall in N3; apply (N3 tr); eapply nth_error_In; exact Ht).
    assert (K : (i < length (msX tgt))%nat) by (apply nth_error_Some; congruence).
    apply (V (Z.of_nat i) it k).
    + unfold inside. cbn [extent]. rewrite M4. unfold mesh_Np. rewrite M3. lia.
    + exact Hk.
    + cbn [obs_get]. unfold mesh_get. rewrite (zget_nth _ _ _ O2). cbn [bind]. specialize (P3 (Z.to_nat it) ltac:(lia)). rewrite Z2Nat.id in P3 by lia.
      unfold tr_get, tr_in, tr_N. rewrite <- (proj1 P2). rewrite LT. destruct (Z.leb_spec 0 it); [|lia]. destruct (Z.ltb_spec it (msNt tgt)); [|lia]. cbn [andb].
      rewrite <- (Z2Nat.id it) by lia. apply zget_nth. rewrite Z2Nat.id by lia. exact P3.
Qed.
Print Assumptions C81_kirchhoff.
(* the source cells are the triangles of the first file *)
Theorem C81_source : forall solve (src : mesh R) total g srcs i c, mesh_init src = Ok (total, g) -> cells_of solve src g srcs -> nth_error srcs i = Some c ->
  nth_error (msX src) i = Some (srcX c) /\ nth_error (msA src) i = Some (srcA c) /\ tr_derivative (srcA c) = Ok (srcAt c) /\
  exists p1 p2 p3, corners src i p1 p2 p3 /\
    (vcross (vsub p2 p1) (vsub p3 p1) <> vzero ->
     (vnorm (srcN c) = 1 /\ vdot (srcN c) (vsub p2 p1) = 0 /\ vdot (srcN c) (vsub p3 p1) = 0 /\ clockwise (srcN c) p1 p2 p3 /\
      srcArea c = vnorm (vcross (vsub p2 p1) (vsub p3 p1)) / 2)%R).
Proof.
  intros solve src total g srcs i c Hi [_ HC] Hc. destruct (HC i c Hc) as (A1 & (e & A2 & A3 & A4) & A5 & A6 & A7).
  split; [exact A1|]. split; [exact A5|]. split; [exact A6|]. destruct (C43_cells src total g Hi) as (_ & _ & C & _).
  destruct (C i e A2) as (p1 & p2 & p3 & P1 & P2). exists p1, p2, p3. rewrite <- A3, <- A4. auto.
Qed.
Print Assumptions C81_source.
(* the program does its work *)
Theorem C81_runs : forall sched solve fs prog sf infile outfile rest fsrc src sdt total g srcs ftgt tgt dt total' g', fair sched ->
  fs sf = Some fsrc -> mesh_read fsrc = Ok (src, sdt) -> mesh_init src = Ok (total, g) -> cells_of solve src g srcs ->
  fs infile = Some ftgt -> mesh_read ftgt = Ok (tgt, dt) -> mesh_init tgt = Ok (total', g') -> msX tgt <> [] -> small (OMesh tgt) -> mesh_fits tgt ->
  (forall i tr pos c, nth_error (msA tgt) i = Some tr -> nth_error (msX tgt) i = Some pos -> In c srcs -> cell_carries tr pos c) ->
  exists fs' rs, propagate_main (T := R) sched solve fs (prog :: sf :: infile :: outfile :: rest) = Ok (0, fs', rs, []).
Proof.
  intros sched solve fs prog sf infile outfile rest fsrc src sdt total g srcs ftgt tgt dt total' g' F S1 S2 S3 S4 T1 T2 T3 NE Sm Ft HC.
  destruct (C72_shaped _ _ _ _ _ T2 NE) as (Sh & LT & D). pose proof Sh as (N1 & N2 & N3).
  assert (Q : exists A, length A = length (msA tgt) /\ forall i tr pos, nth_error (msA tgt) i = Some tr -> nth_error (msX tgt) i = Some pos ->
     exists out, prop_cell srcs pos tr = Ok out /\ nth_error A i = Some out).
  { clear - HC N2. revert HC N2. generalize (msX tgt). induction (msA tgt) as [|tr l IH]; intros xs HC N2.
    - exists []. split; [reflexivity|]. intros [|i] tr pos E; discriminate E.
    - destruct xs as [|x xs]; [discriminate|]. destruct (IH xs) as (A & L & P).
      + intros i tr' pos c H1 H2 H3. apply (HC (S i) tr' pos c H1 H2 H3).
      + cbn in N2. lia.
      + destruct (C64_kirchhoff_partial tr x srcs) as (out & O1 & O2 & _); [intros c Hc; apply (HC 0%nat tr x c eq_refl eq_refl Hc)|].
        exists (out :: A). split; [cbn; lia|]. intros [|i] tr' pos E1 E2; cbn in *.
        * injection E1 as <-. injection E2 as <-. eauto.
        * apply (P i tr' pos E1 E2). }
  destruct Q as (A & LA & P). set (tgt' := mesh_with tgt A).
  assert (M : same_mesh tgt tgt').
  { unfold same_mesh, tgt', mesh_with. cbn [msPts msTri msX msNt msA]. repeat (split; [reflexivity|]). clear - LA P N2. revert LA P N2. generalize (msX tgt). revert A.
    induction (msA tgt) as [|tr l IH]; intros [|a A] xs LA P N2; try discriminate; [constructor|]. destruct xs as [|x xs]; [discriminate|].
    destruct (P 0%nat tr x eq_refl eq_refl) as (out & O1 & O2). cbn in O2. injection O2 as ->. constructor; [eapply prop_cell_sampling; exact O1|].
    apply (IH A xs); [cbn in LA; lia| |cbn in N2; lia]. intros i tr' pos E1 E2. apply (P (S i) tr' pos E1 E2). }
  assert (Sh' := same_mesh_shaped _ _ M Sh).
  destruct (mesh_file_ok tgt' dt Sh' Sm Ft) as (fl & _ & _ & E).
  assert (TR : target_run srcs ftgt tgt tgt' dt) by (split; [exact T2|]; split; [exact M|exact P]).
  destruct (target_intro sched F false fs srcs infile outfile ftgt tgt tgt' dt (total', g') (mesh_sets tgt' dt fl) T1 TR T3 ltac:(discriminate) E) as (rs & bs & ET).
  destruct (report_some src (total, g)) as (r0 & Er); [eapply read_lengths; eassumption|eapply (init_length src (total, g)); eassumption|].
    exists (put fs outfile (mesh_sets tgt' dt fl)), (r0 :: rs). exact (propagate_intro sched solve F fs prog sf infile outfile rest fsrc src sdt (total, g) r0 srcs rs bs _ S1 S2 S3 Er S4 ET).
Qed.
Print Assumptions C81_runs.

(* ==== C82: command line and source files ==== *)
Theorem C82_usage : forall (T : Type) (NT : Num T) sched solve fs argv,
  (Z.of_nat (length argv) < 3 -> propagate_main sched solve fs argv = Ok (1, fs, [], [])) /\
  (Z.of_nat (length argv) < 4 -> reflection_main sched solve fs argv = Ok (1, fs, [], [])).
Proof.
  intros T NT sched solve fs argv. unfold propagate_main, reflection_main. split; intros H.
  - destruct (Z.ltb_spec (Z.of_nat (length argv)) 3); [reflexivity|lia].
  - destruct (Z.ltb_spec (Z.of_nat (length argv)) 4); [reflexivity|lia].
Qed.
Print Assumptions C82_usage.
Lemma four {A} (a b c d : A) rest : (Z.of_nat (length (a :: b :: c :: d :: rest)) <? 3) = false /\ (Z.of_nat (length (a :: b :: c :: d :: rest)) <? 4) = false.
Proof. cbn [length]. split; apply Z.ltb_ge; lia. Qed.
Ltac args := cbn [arg zget Z.ltb Z.compare Z.to_nat]; change (Pos.to_nat 1) with 1%nat; change (Pos.to_nat 2) with 2%nat; change (Pos.to_nat 3) with 3%nat; cbn [nth_error bind].
(* further arguments are ignored *)
Theorem C82_arguments : forall (T : Type) (NT : Num T) sched solve fs a b c d rest,
  propagate_main (T := T) sched solve fs (a :: b :: c :: d :: rest) = propagate_main sched solve fs [a; b; c; d] /\
  reflection_main (T := T) sched solve fs (a :: b :: c :: d :: rest) = reflection_main sched solve fs [a; b; c; d].
Proof.
  intros T NT sched solve fs a b c d rest. unfold propagate_main, reflection_main. destruct (four a b c d rest) as [-> ->], (four a b c d []) as [-> ->].
  args. auto.
Qed.
Print Assumptions C82_arguments.
Theorem C82_missing_file : forall (T : Type) (NT : Num T) sched solve fs a sf c d rest, fs sf = None ->
  propagate_main (T := T) sched solve fs (a :: sf :: c :: d :: rest) = Throw IOexc /\
  reflection_main (T := T) sched solve fs (a :: sf :: c :: d :: rest) = Throw IOexc.
Proof.
  intros T NT sched solve fs a sf c d rest H. unfold propagate_main, reflection_main. destruct (four a sf c d rest) as [-> ->]. args.
  unfold mesh_open. rewrite H. auto.
Qed.
Print Assumptions C82_missing_file.
(* Violation: called with two file names propagate makes a string of a null pointer *)
Theorem C82_two_files_refuted : forall (T : Type) (NT : Num T) sched solve fs a b c, propagate_main (T := T) sched solve fs [a; b; c] = UB.
Proof. intros T NT sched solve fs a b c. unfold propagate_main. cbn [length Z.of_nat Pos.of_succ_nat Pos.succ Z.ltb Z.compare Pos.compare Pos.compare_cont]. args. reflexivity. Qed.
Print Assumptions C82_two_files_refuted.
Lemma box_cases {T} {NT : Num T} (s : mesh T) dt : (exists b, mesh_box s dt = Ok b) \/ mesh_box s dt = UB.
Proof.
  assert (Z0 : forall o, (exists z, to_int o = Ok z) \/ to_int o = UB).
  { intros [z|]; unfold to_int; [|auto]. match goal with |- context [if ?c then _ else _] => destruct c end; eauto. }
  assert (ZG : forall A (l : list A) i, (exists x, zget l i = Ok x) \/ zget l i = UB).
  { intros A l i. unfold zget. destruct (i <? 0); [auto|]. destruct (nth_error l (Z.to_nat i)); eauto. }
  unfold mesh_box. cbv zeta. generalize (big (T := T), nopp (big (T := T)), (big (T := T), nopp (big (T := T))), (big (T := T), nopp (big (T := T))), (big (T := T), nopp (big (T := T)))).
  induction (zseq 0 (length (msX s))) as [|i l IH]; intros b; cbn [fold_res]; [eauto|]. destruct b as [[[bx by_] bz] bt].
  destruct (ZG _ (msX s) i) as [(p & ->)| ->]; [cbn [bind]|auto]. destruct (ZG _ (msA s) i) as [(tr & ->)| ->]; [cbn [bind]|auto].
  unfold mesh_get_dt at 1 3. unfold imul at 1 3. 
  destruct (Z0 (if nleb (nZ 0) dt then nfloor dt else option_map Z.opp (nfloor (nopp dt)))) as [(d & ->)| ->]; [cbn [bind]|auto].
  destruct (Z0 (Some (msNt s * d))) as [(n & ->)| ->]; [cbn [bind]|auto]. apply IH.
Qed.
(* Violation: traces with fewer than two samples (also: a file without ObservationTime) *)
Theorem C82_short_source_refuted : forall (T : Type) (NT : Num T) sched solve fs a sf c d rest fsrc src dt init, fs sf = Some fsrc ->
  mesh_read fsrc = Ok (src, dt) -> mesh_init src = Ok init -> msX src <> [] -> msNt src < 2 ->
  propagate_main (T := T) sched solve fs (a :: sf :: c :: d :: rest) = UB /\
  reflection_main (T := T) sched solve fs (a :: sf :: c :: d :: rest) = UB.
Proof.
  intros T NT sched solve fs a sf c d rest fsrc src dt init H1 H2 H3 NE HN. unfold propagate_main, reflection_main. destruct (four a sf c d rest) as [-> ->]. args.
  unfold mesh_open. rewrite H1, H2. cbn [bind]. rewrite H3. cbn [bind]. pose proof (read_lengths _ _ _ H2) as LA. pose proof (init_length _ _ H3) as LG.
  destruct (report_some src init LA LG) as (r0 & ->). cbn [bind]. destruct (C72_shaped _ _ _ _ _ H2 NE) as ((N1 & N2 & N3) & _ & _).
  assert (SU : forall (s : mesh T) g, length (msX s) = length (msX src) -> (forall tr, nth_error (msA s) 0 = Some tr -> (length (tr_f tr) < 2)%nat) -> source_cells sched solve s g = UB).
  { intros s g L HS. unfold source_cells. rewrite L. destruct (msX src) as [|x xs]; [congruence|]. cbn [length zseq map_res].
    unfold zget at 1. cbn [Z.ltb Z.compare Z.to_nat]. destruct (nth_error (msA s) 0) as [tr|] eqn:E; [|reflexivity]. cbn [bind].
    rewrite (C19_short_trace_refuted tr (HS tr eq_refl)). reflexivity. }
  assert (SH : forall tr, In tr (msA src) -> (length (tr_f tr) < 2)%nat) by (intros tr Ht; rewrite Forall_forall in N3; specialize (N3 tr Ht); unfold tr_N in N3; lia).
  split.
  - rewrite SU; [reflexivity|reflexivity|]. intros tr Ht. apply SH. eapply nth_error_In. exact Ht.
  - destruct (box_cases src dt) as [(b & ->)| ->]; [cbn [bind]|reflexivity].
    unfold reflect_mesh. destruct (map_res _ _) as [l| | |] eqn:E; cbn [bind].
    + rewrite SU; [reflexivity|reflexivity|]. cbn [msA]. intros tr Ht. apply map_res_zseq in E. destruct E as [L P].
      destruct (P 0%nat) as (y & Y1 & Y2). { rewrite <- L. apply nth_error_Some. congruence. }
      rewrite Ht in Y1. injection Y1 as <-. bget Y2 as t0 Ht0. bget Y2 as c0 Hc0. apply Ok_inj in Y2. subst tr. unfold reflect_trace. cbn [tr_f]. rewrite map_length.
      apply SH. apply zget_inv in Ht0. eapply nth_error_In. apply Ht0.
    + exfalso. destruct (TraceProofs2.map_res_all (fun i => bind (zget (msA src) i) (fun tr => bind (zget (snd init) i) (fun c => Ok (reflect_trace (cgNormal c) tr)))) (zseq 0 (length (msX src)))) as (o & Eo).
      { intros i Hi. apply zseq_In in Hi. destruct (zget_ok (msA src) i) as (tr & -> & _); [lia|]. destruct (zget_ok (snd init) i) as (cc & -> & _); [lia|]. cbn. eauto. }
      congruence.
    + reflexivity.
    + exfalso. destruct (TraceProofs2.map_res_all (fun i => bind (zget (msA src) i) (fun tr => bind (zget (snd init) i) (fun c => Ok (reflect_trace (cgNormal c) tr)))) (zseq 0 (length (msX src)))) as (o & Eo).
      { intros i Hi. apply zseq_In in Hi. destruct (zget_ok (msA src) i) as (tr & -> & _); [lia|]. destruct (zget_ok (snd init) i) as (cc & -> & _); [lia|]. cbn. eauto. }
      congruence.
Qed.
Print Assumptions C82_short_source_refuted.

(* ==== C83: the order in which the threads work ==== *)
Lemma order_source {T} {NT : Num T} s1 s2 solve (s : mesh T) g srcs : fair s1 -> fair s2 -> length (msA s) = length (msX s) -> length g = length (msX s) ->
  source_cells s1 solve s g = Ok srcs -> source_cells s2 solve s g = Ok srcs.
Proof. intros F1 F2 L1 L2 H. apply source_iff; [exact F2|exact L1|exact L2|]. apply (source_iff s1 solve F1) in H; assumption. Qed.
Lemma order_target {T} {NT : Num T} s1 s2 boxed fs (srcs : list (srccell T)) infile outfile r : fair s1 -> fair s2 ->
  to_target s1 boxed fs srcs infile outfile = Ok r -> to_target s2 boxed fs srcs infile outfile = Ok r.
Proof.
  intros F1 F2. unfold to_target, mesh_open. destruct (fs infile) as [ftgt|]; [|discriminate]. intros H. bget H as q Hq. destruct q as [tgt dt].
  bget H as init Hi. bget H as r1 H1. bget H as bs Hb. bget H as t Ht. rewrite Hq. cbn [bind]. rewrite Hi. cbn [bind]. rewrite H1. cbn [bind]. rewrite Hb. cbn [bind].
  assert (LZ : length (msA (mesh_zero tgt)) = length (msX (mesh_zero tgt))) by (cbn; rewrite map_length; eapply read_lengths; exact Hq).
  rewrite (proj2 (target_iff s2 F2 srcs (mesh_zero tgt) t LZ) (proj1 (target_iff s1 F1 srcs (mesh_zero tgt) t LZ) Ht)). exact H.
Qed.
Theorem C83_order : forall (T : Type) (NT : Num T) s1 s2 solve fs argv r, fair s1 -> fair s2 ->
  (propagate_main (T := T) s1 solve fs argv = Ok r -> propagate_main s2 solve fs argv = Ok r) /\
  (reflection_main (T := T) s1 solve fs argv = Ok r -> reflection_main s2 solve fs argv = Ok r).
Proof.
  intros T NT s1 s2 solve fs argv r F1 F2. unfold propagate_main, reflection_main, mesh_open. split.
  - destruct (_ <? 3)%Z; [auto|]. intros H. bget H as a Ha. bget H as b Hb. bget H as c Hc. rewrite Ha. cbn [bind]. rewrite Hb. cbn [bind]. rewrite Hc. cbn [bind].
    destruct (fs a) as [f|]; [|discriminate H]. bget H as q Hq. destruct q as [src dt]. bget H as init Hi. bget H as r0 H0. bget H as srcs Hs. bget H as q2 Hq2.
    rewrite Hq. cbn [bind]. rewrite Hi. cbn [bind]. rewrite H0. cbn [bind].
    rewrite (order_source s1 s2 solve src (snd init) srcs F1 F2 (read_lengths _ _ _ Hq) (init_length _ _ Hi) Hs). cbn [bind].
    rewrite (order_target s1 s2 _ _ _ _ _ _ F1 F2 Hq2). exact H.
  - destruct (_ <? 4)%Z; [auto|]. intros H. bget H as a Ha. bget H as b Hb. bget H as c Hc. rewrite Ha. cbn [bind]. rewrite Hb. cbn [bind]. rewrite Hc. cbn [bind].
    destruct (fs a) as [f|]; [|discriminate H]. bget H as q Hq. destruct q as [src dt]. bget H as init Hi. bget H as r0 H0. bget H as bx Hbx. bget H as src' Hr. bget H as srcs Hs. bget H as q2 Hq2.
    rewrite Hq. cbn [bind]. rewrite Hi. cbn [bind]. rewrite H0. cbn [bind]. rewrite Hbx. cbn [bind]. rewrite Hr. cbn [bind].
    pose proof (reflect_shape _ _ _ Hr) as (R1 & R2 & R3 & R4 & R5).
    rewrite (order_source s1 s2 solve src' (snd init) srcs F1 F2); [|rewrite R3; exact R5|rewrite R3; apply (init_length _ _ Hi)|exact Hs]. cbn [bind].
    rewrite (order_target s1 s2 _ _ _ _ _ _ F1 F2 Hq2). exact H.
Qed.
Print Assumptions C83_order.

(* ==== C84: reflection is propagation of the reflected field ==== *)
Theorem C84_reflection : forall (T : Type) (NT : Num T) sched solve fs prog sf infile outfile code fs' rs bs fsrc src dt total g src' sf2 fsrc2 dt2, fair sched ->
  reflection_main (T := T) sched solve fs [prog; sf; infile; outfile] = Ok (code, fs', rs, bs) ->
  fs sf = Some fsrc -> mesh_read fsrc = Ok (src, dt) -> mesh_init src = Ok (total, g) -> reflect_mesh src g = Ok src' ->
  fs sf2 = Some fsrc2 -> mesh_read fsrc2 = Ok (src', dt2) ->
  code = 0 /\ only_changed outfile fs fs' /\
  exists r, propagate_main sched solve fs [prog; sf2; infile; outfile] = Ok (0, fs', r :: tl rs, []).
Proof.
  intros T NT sched solve fs prog sf infile outfile code fs' rs bs fsrc src dt total g src' sf2 fsrc2 dt2 F H S1 S2 S3 S4 P1 P2.
  apply (reflection_inv sched solve F) in H. destruct H as (fsrc0 & src0 & sdt & init & r0 & b0 & src0' & srcs & rs1 & bs1 & fs1 & H1 & H2 & H3 & H4 & H5 & H6 & H7 & H8 & H9).
  injection H9 as -> -> -> ->. assert (fsrc0 = fsrc) by congruence. subst fsrc0. rewrite S2 in H2. apply Ok_inj in H2. injection H2 as <- <-.
  rewrite S3 in H3. apply Ok_inj in H3. subst init. cbn [snd] in *. rewrite S4 in H6. apply Ok_inj in H6. subst src0'.
  pose proof (reflect_shape _ _ _ S4) as (R1 & R2 & R3 & R4 & R5).
  split; [reflexivity|]. split.
  { apply (target_inv sched F) in H8. destruct H8 as (_ & _ & _ & _ & _ & f & _ & _ & _ & _ & _ & _ & _ & _ & _ & _ & ->).
    intros n Hn. unfold put. destruct (String.eqb_spec n outfile); [contradiction|reflexivity]. }
  assert (I2 : mesh_init src' = Ok (total, g)) by (rewrite (init_same src src' R1 R2 R3); exact S3).
  destruct (report_some src' (total, g)) as (r & Er); [rewrite R3; exact R5|rewrite R3; apply (init_length src (total, g) S3)|].
  (* the target without the box *)
  assert (TT : to_target sched false fs srcs infile outfile = Ok (rs1, [], fs1)).
  { unfold to_target in *. bget H8 as q Hq. destruct q as [tgt tdt]. bget H8 as ti Hti. bget H8 as ra Hra. bget H8 as bb Hbb. bget H8 as t Ht. bget H8 as rb Hrb. bget H8 as ff Hff.
    apply Ok_inj in H8. injection H8 as <- <- <-. rewrite Hq. cbn [bind]. rewrite Hti. cbn [bind]. rewrite Hra. cbn [bind]. rewrite Ht. cbn [bind]. rewrite Hrb. cbn [bind]. rewrite Hff. reflexivity. }
  exists r. cbn [tl]. exact (propagate_intro sched solve F fs prog sf2 infile outfile [] fsrc2 src' dt2 (total, g) r srcs rs1 [] fs1 P1 P2 I2 Er H7 TT).
Qed.
Print Assumptions C84_reflection.
(* the energy reported for the source of this propagation is that of the reflection program with
   the other sign *)
Theorem C84_energy : forall sched solve fs prog sf infile outfile rest code fs' r rs bs fsrc src dt total g src' r', fair sched ->
  reflection_main (T := R) sched solve fs (prog :: sf :: infile :: outfile :: rest) = Ok (code, fs', r :: rs, bs) ->
  fs sf = Some fsrc -> mesh_read fsrc = Ok (src, dt) -> mesh_init src = Ok (total, g) -> reflect_mesh src g = Ok src' ->
  (forall c, In c g -> vdot (cgNormal c) (cgNormal c) = 1%R) -> mesh_report src' (total, g) = Ok r' ->
  rpEnergy r' = Ropp (rpEnergy r).
Proof.
  intros sched solve fs prog sf infile outfile rest code fs' r rs bs fsrc src dt total g src' r' F H S1 S2 S3 S4 U E'.
  apply (reflection_inv sched solve F) in H. destruct H as (fsrc0 & src0 & sdt & init & r0 & b0 & src0' & srcs & rs1 & bs1 & fs1 & H1 & H2 & H3 & H4 & H5 & H6 & H7 & H8 & H9).
  injection H9 as -> -> -> -> ->. assert (fsrc0 = fsrc) by congruence. subst fsrc0. rewrite S2 in H2. apply Ok_inj in H2. injection H2 as <- <-.
  rewrite S3 in H3. apply Ok_inj in H3. subst init.
  destruct (C45_mesh_energy src src' g (read_lengths _ _ _ S2) (init_length src (total, g) S3) U S4) as (e & E1 & E2).
  assert (RE : forall (s : mesh R) i rr en, mesh_report s i = Ok rr -> mesh_energy s (snd i) = Ok en -> rpEnergy rr = en).
  { intros s i rr en Hr He. unfold mesh_report in Hr. rewrite He in Hr. cbn [bind] in Hr. bget Hr as q Hq. destruct q as [[ip pk] sp].
    destruct (0 <=? ip)%Z; [bget Hr as p Hp; bget Hr as tr Ht|]; apply Ok_inj in Hr; subst rr; reflexivity. }
  rewrite (RE _ _ _ _ E' E2), (RE _ _ _ _ H4 E1). reflexivity.
Qed.
Print Assumptions C84_energy.

(* ==== C85: the numbers reported ==== *)
(* the cell with the highest energy density *)
Theorem C85_peak : forall (s : mesh R) init r, length (msA s) = length (msX s) -> mesh_report s init = Ok r ->
  match rpPeak r with
  | Some (ip, p, peak, sp, t0) => exists i tr, ip = Z.of_nat i /\ nth_error (msX s) i = Some p /\ nth_error (msA s) i = Some tr /\ t0 = tr_t0 tr /\
      sp = tr_poynting tr /\ peak = vnorm sp /\ (0 < peak)%R /\
      (forall j tr', nth_error (msA s) j = Some tr' -> (vnorm (tr_poynting tr') <= peak)%R /\ ((j < i)%nat -> (vnorm (tr_poynting tr') < peak)%R))
  | None => forall j tr', nth_error (msA s) j = Some tr' -> tr_poynting tr' = vzero
  end.
Proof.
  intros s init r L H. unfold mesh_report in H. bget H as e He. destruct (peak_spec s L) as ([[ip peak] sp] & Ep & P1 & P2). rewrite Ep in H. cbn [bind] in H.
  destruct P2 as [[-> ->]|(i & tr & -> & Q2 & Q3 & -> & -> & Q6 & Q7)].
  - cbn [Z.leb Z.compare] in H. apply Ok_inj in H. subst r. cbn [rpPeak]. intros j tr' Hj.
    assert (J : (j < length (msX s))%nat) by (rewrite <- L; apply nth_error_Some; congruence). specialize (P1 j tr' J Hj).
    apply vnorm_zero_iff. pose proof (vnorm_nonneg (tr_poynting tr')). lra.
  - destruct (Z.leb_spec 0 (Z.of_nat i)); [|lia]. bget H as p Hp. bget H as tr2 Ht. apply Ok_inj in H. subst r. cbn [rpPeak].
    apply zget_inv in Hp, Ht. rewrite Nat2Z.id in *. assert (tr2 = tr) by (destruct Ht; congruence). subst tr2. exists i, tr.
    repeat (split; [tauto || reflexivity|]). intros j tr' Hj. split; [|intros J; apply (Q7 j tr' J Hj)].
    apply (P1 j tr'); [rewrite <- L; apply nth_error_Some; congruence|exact Hj].
Qed.
Print Assumptions C85_peak.
(* the last report of the program: area and energy of the mesh in the file written *)
Theorem C85_energy : forall (T : Type) (NT : Num T) sched solve fs prog sf infile outfile rest code fs' rs bs f tgt dt, fair sched ->
  propagate_main (T := T) sched solve fs (prog :: sf :: infile :: outfile :: rest) = Ok (code, fs', rs, bs) ->
  fs' outfile = Some f -> mesh_read f = Ok (tgt, dt) -> msX tgt <> [] ->
  exists r0 r1 r2 total g, rs = [r0; r1; r2] /\ mesh_init tgt = Ok (total, g) /\ rpArea r2 = total /\ mesh_energy tgt g = Ok (rpEnergy r2) /\ mesh_report tgt (total, g) = Ok r2.
Proof.
  intros T NT sched solve fs prog sf infile outfile rest code fs' rs bs f tgt dt F H Ff Hr NE.
  apply (propagate_inv sched solve F) in H. destruct H as (fsrc & src & sdt & init & r0 & srcs & rs1 & bs1 & fs1 & H1 & H2 & H3 & H4 & H5 & H6 & H7).
  injection H7 as -> -> -> ->. apply (target_inv sched F) in H6. destruct H6 as (ftgt & tgt0 & tgt' & dt' & [total g] & f' & r1 & r2 & T1 & T2 & T3 & T4 & T5 & T6 & T7 & T8 & T9).
  rewrite T9 in Ff. unfold put in Ff. rewrite String.eqb_refl in Ff. injection Ff as ->.
  pose proof T2 as (U1 & U2 & U3). pose proof U2 as (M1 & M2 & M3 & M4 & M5).
  assert (NE0 : msX tgt0 <> []).
  { intros E0. apply NE.
    assert (mesh_Np tgt' = 0) by (unfold mesh_Np; rewrite M3, E0; reflexivity).
    unfold mesh_file in T8. cbv zeta in T8. bget T8 as c3 Q1. bget T8 as cb Q2. bget T8 as c Q3. bget T8 as p3 Q4. bget T8 as pb Q5. bget T8 as p Q6.
    bget T8 as ts Q7. bget T8 as t0s Q8. bget T8 as o Q9. bget T8 as n Q10. bget T8 as n' Q11. bget T8 as fl Q12. bget T8 as fb Q13. bget T8 as e Q14.
    apply Ok_inj in T8. subst f. unfold mesh_read in Hr. cbn [named String.eqb Ascii.eqb Bool.eqb h5_open bind] in Hr. bget Hr as ncp Z1. bget Hr as pts Z2. bget Hr as np Z3. bget Hr as xs Z4.
    bget Hr as n3 Z5. bget Hr as is Z6. bget Hr as bb Z7. bget Hr as ti Z8. bget Hr as q Z9. destruct q as [[nt ddt] trs]. bget Hr as trs' Z10. apply Ok_inj in Hr. injection Hr as <- <-. cbn [msX].
    apply read_vectors_len in Z4. destruct Z4 as [_ Z4]. unfold h5_write in Q6. bget Q6 as vv Qv. apply Ok_inj in Q6. subst p.
    unfold h5_int in Z3. cbn [hsAttr att_int named String.eqb Ascii.eqb Bool.eqb] in Z3. rewrite H in Z3. cbn in Z3. apply Ok_inj in Z3. subst np. destruct xs; [reflexivity|cbn [length] in Z4; lia]. }
  destruct (target_back srcs ftgt tgt0 tgt' dt' f T2 T8 NE0) as (B1 & _). rewrite Hr in B1. apply Ok_inj in B1. injection B1 as -> ->.
  exists r0, r1, r2, total, g. rewrite T4. split; [reflexivity|]. split; [rewrite (init_same tgt0 tgt' M1 M2 M3); exact T3|].
  pose proof T6 as T6'. unfold mesh_report in T6. bget T6 as e He. bget T6 as q Hq. destruct q as [[ip pk] sp].
  assert (RR : r2 = RP total e (rpPeak r2)). { destruct (0 <=? ip)%Z; [bget T6 as p Hp; bget T6 as tr Ht|]; apply Ok_inj in T6; rewrite <- T6; reflexivity. }
  cbn [snd] in He. rewrite RR at 1. split; [reflexivity|]. split; [|exact T6']. rewrite RR. cbn [rpEnergy]. exact He.
Qed.
Print Assumptions C85_energy.
Lemma combine_at {A B} : forall (a : list A) (b : list B) i x y, nth_error a i = Some x -> nth_error b i = Some y -> nth_error (combine a b) i = Some (x, y).
Proof. induction a as [|u a IH]; intros [|v b] [|i] x y H1 H2; try discriminate; cbn in *; [congruence|auto]. Qed.
(* positions and times up to 10^30 *)
Definition box_limit : R := IZR (10 ^ 30).
Lemma big_limit : big = box_limit.
Proof. unfold big, box_limit. unnum. rewrite <- mult_IZR. reflexivity. Qed.
(* the box contains all points, and is the smallest one *)
Theorem C85_box : forall (s : mesh R) dt bx by_ bz bt, length (msA s) = length (msX s) -> mesh_box s dt = Ok (bx, by_, bz, bt) ->
  (forall p, In p (msX s) -> within bx (vx p) /\ within by_ (vy p) /\ within bz (vz p)) /\
  (forall bx' by' bz', msX s <> [] -> (forall p, In p (msX s) -> (within bx' (vx p) /\ within by' (vy p) /\ within bz' (vz p)) /\
       (Rabs (vx p) <= box_limit /\ Rabs (vy p) <= box_limit /\ Rabs (vz p) <= box_limit)%R) ->
     (forall x, within bx x -> within bx' x) /\ (forall x, within by_ x -> within by' x) /\ (forall x, within bz x -> within bz' x)).
Proof.
  rewrite <- big_limit. intros s dt bx by_ bz bt L H. destruct (msX s) as [|x0 xs] eqn:EX. { split; [intros p []|congruence]. }
  assert (NE : msX s <> []) by congruence. rewrite <- EX in *. clear EX.
  destruct (box_inv s dt _ NE H) as (d & n & Hd & Hn). pose proof (box_ok s dt d n L Hd Hn) as E. cbv zeta in E. rewrite H in E. apply Ok_inj in E. injection E as -> -> -> ->.
  set (l := combine (msX s) (msA s)).
  assert (IN : forall p, In p (msX s) -> exists tr, In (p, tr) l).
  { intros p Hp. apply In_nth_error in Hp. destruct Hp as [i Hi]. destruct (nth_error (msA s) i) as [tr|] eqn:Ei.
    - exists tr. apply (nth_error_In _ i). unfold l. apply combine_at; assumption.
    - apply nth_error_None in Ei. assert (i < length (msX s))%nat by (apply nth_error_Some; congruence). lia. }
  assert (OUT : forall q, In q l -> In (fst q) (msX s)) by (intros [p tr] Hq; apply in_combine_l in Hq; exact Hq).
  assert (W : forall (g : vec R -> R), (forall p, In p (msX s) -> within (widen_all (big, - big)%R (map (fun it => twice (g (fst it))) l)) (g p)) /\
    (forall b', (forall p, In p (msX s) -> within b' (g p) /\ (Rabs (g p) <= big)%R) -> forall x, within (widen_all (big, - big)%R (map (fun it => twice (g (fst it))) l)) x -> within b' x)).
  { intros g. set (vs := map (fun it : vec R * ftrace R => twice (g (fst it))) l). destruct (widen_spec vs (big, - big)%R) as (W1 & W2 & W3 & W4 & W5). split.
    - intros p Hp. destruct (IN p Hp) as (tr & Ht). destruct (W3 (twice (g p))) as [A B]; [apply in_map_iff; exists (p, tr); auto|]. split; [exact A|exact B].
    - intros b' Hb x [X1 X2]. 
      assert (PT : forall v, In v vs -> (fst b' <= fst v)%R /\ (snd v <= snd b')%R /\ (- big <= fst v <= big)%R /\ (- big <= snd v <= big)%R).
      { intros v Hv. apply in_map_iff in Hv. destruct Hv as (q & <- & Hq). apply OUT in Hq. destruct (Hb _ Hq) as [[Q1 Q2] Q3]. cbn [twice fst snd].
        apply Rabs_le_inv in Q3. lra. }
      assert (EXV : exists v, In v vs). { destruct (msX s) as [|p0 ps] eqn:EX; [congruence|]. destruct (IN p0 (or_introl eq_refl)) as (tr & Ht). exists (twice (g p0)). apply in_map_iff. exists (p0, tr). auto. }
      destruct EXV as (v0 & Hv0). destruct (PT v0 Hv0) as (V1 & V2 & V3 & V4). destruct (W3 v0 Hv0) as [V5 V6]. cbn [fst snd] in *.
      split.
      + destruct W4 as [E|(v & Hv & E)]; [rewrite E in *|]; [|destruct (PT v Hv); lra]. lra.
      + destruct W5 as [E|(v & Hv & E)]; [rewrite E in *|]; [|destruct (PT v Hv); lra]. lra. }
  split.
  - intros p Hp. split; [|split]; apply W; exact Hp.
  - intros bx' by' bz' _ HB. split; [|split].
    + apply (proj2 (W vx)). intros p Hp. destruct (HB p Hp) as (A & B). tauto.
    + apply (proj2 (W vy)). intros p Hp. destruct (HB p Hp) as (A & B). tauto.
    + apply (proj2 (W vz)). intros p Hp. destruct (HB p Hp) as (A & B). tauto.
Qed.
Print Assumptions C85_box.
(* Violation: get_dt returns an int, which is zero for time steps below a second: the time
   interval reported ends with the last start time *)
Theorem C85_box_time_refuted : forall (s : mesh R) dt bx by_ bz bt, length (msA s) = length (msX s) -> msX s <> [] -> (0 < dt < 1)%R -> 2 <= msNt s ->
  (forall tr, In tr (msA s) -> tr_dt tr = dt /\ (- box_limit < tr_t0 tr)%R) ->
  mesh_box s dt = Ok (bx, by_, bz, bt) ->
  exists tr, In tr (msA s) /\ snd bt = tr_t0 tr /\ ~ within bt (sample_time tr (msNt s - 1)).
Proof.
  rewrite <- big_limit. intros s dt bx by_ bz bt L NE Hdt HN HT H. assert (Hn : imul (msNt s) 0 = Ok 0) by (unfold imul; rewrite Z.mul_0_r; reflexivity).
  pose proof (box_ok s dt 0 0 L (get_dt_small dt ltac:(lra)) Hn) as E. cbv zeta in E. rewrite H in E. apply Ok_inj in E. injection E as _ _ _ Et.
  set (l := combine (msX s) (msA s)). set (vs := map (fun it : vec R * ftrace R => (tr_t0 (snd it), (tr_t0 (snd it) + 0)%R)) l).
  assert (Et' : bt = widen_all (big, - big)%R vs) by exact Et. clear Et.
  destruct (widen_spec vs (big, - big)%R) as (W1 & W2 & W3 & W4 & W5).
  assert (exists q, In q l) as (q0 & Hq0). { unfold l. destruct (msX s) as [|x xs]; [congruence|]. destruct (msA s) as [|a A]; [discriminate|]. exists (x, a). left. reflexivity. }
  assert (OUT : forall q, In q l -> In (snd q) (msA s)) by (intros [p tr] Hq; apply in_combine_r in Hq; exact Hq).
  destruct W5 as [E|(v & Hv & E)].
  - destruct (W3 (tr_t0 (snd q0), (tr_t0 (snd q0) + 0)%R)) as [_ B]; [apply in_map_iff; exists q0; auto|]. destruct (HT _ (OUT _ Hq0)) as [_ HB]. cbn [fst snd] in *. fold vs in E. lra.
  - apply in_map_iff in Hv. destruct Hv as (q & <- & Hq). cbn [snd] in E. exists (snd q). split; [apply OUT; exact Hq|]. rewrite Et', E. split; [lra|].
    intros [_ B]. rewrite E in B. unfold sample_time in B. destruct (HT _ (OUT _ Hq)) as [HD _]. rewrite HD in B. assert (1 <= IZR (msNt s - 1))%R by (apply IZR_le; lia). nra.
Qed.
Print Assumptions C85_box_time_refuted.

(* ==== examples ==== *)
Lemma fair_forward : fair (fun n => zseq 0 n).
Proof. intros n. apply Permutation.Permutation_refl. Qed.
Lemma fair_backward : fair (fun n => rev (zseq 0 n)).
Proof. intros n. apply Permutation.Permutation_sym, Permutation.Permutation_rev. Qed.

(* runs in double precision: two source cells, one target cell *)
Definition xw : emf float := EB (V 1 0 0)%float (V 0 0x1p-28 0)%float.
Definition xsrc : mesh float :=
  MS [V 0 0 0; V 1 0 0; V 0 1 0; V 1 1 0]%float [(0, 1, 2); (1, 3, 2)] [V 0.25 0.25 0; V 0.75 0.75 0]%float 3
     [FT 0 1 [xw; xw; ezero]; FT 0 1 [xw; xw; xw]]%float.
Definition xtgt : mesh float := MS [V 0 0 1; V 1 0 1; V 0 1 1]%float [(0, 2, 1)] [V 0.25 0.25 1]%float 2 [FT 0.5 1 [ezero; ezero]]%float.
Definition xfile (s : mesh float) (dt : float) : option (h5file float) := match mesh_file s dt with Ok f => Some f | _ => None end.
Definition xreflected : mesh float :=
  match mesh_init xsrc with Ok (_, g) => match reflect_mesh xsrc g with Ok s => s | _ => xsrc end | _ => xsrc end.
Definition xfs : string -> option (h5file float) := fun n =>
  if String.eqb n "s.h5" then xfile xsrc 1%float else if String.eqb n "r.h5" then xfile xreflected 1%float else if String.eqb n "t.h5" then xfile xtgt 1%float else None.
Definition xsolve (A : list (list float)) (b : list float) : list float := repeat 0%float 6.
Definition xresult (r : res (result (T := float))) : option (Z * nat * nat * list (emf float)) :=
  match r with
  | Ok (c, fs', rs, bs) =>
      match fs' "o.h5" with
      | Some f => match mesh_read f with Ok (s, _) => Some (c, length rs, length bs, flat_map (fun tr => tr_f tr) (msA s)) | _ => None end
      | None => None
      end
  | _ => None
  end.
Definition nonzero (f : emf float) : bool := negb (PrimFloat.eqb (vx (fE f)) 0) && PrimFloat.eqb (vx (fE f)) (vx (fE f)).
Example C81_ex_run : match xresult (propagate_main (fun n => zseq 0 n) xsolve xfs ["propagate"; "s.h5"; "t.h5"; "o.h5"]) with
  | Some (c, nr, nb, fs) => (c, nr, nb, length fs, forallb nonzero fs) = (0, 3%nat, 0%nat, 2%nat, true)
  | None => False
  end.
Proof. vm_compute. reflexivity. Qed.
Example C83_ex : fair (fun n => zseq 0 n) /\ fair (fun n => rev (zseq 0 n)) /\
  xresult (propagate_main (fun n => rev (zseq 0 n)) xsolve xfs ["propagate"; "s.h5"; "t.h5"; "o.h5"]) <> None /\
  xresult (reflection_main (fun n => rev (zseq 0 n)) xsolve xfs ["reflection"; "s.h5"; "t.h5"; "o.h5"]) <> None.
Proof. split; [apply fair_forward|]. split; [apply fair_backward|]. split; vm_compute; discriminate. Qed.
Example C84_ex : exists fsrc dt total g fsrc2 dt2, xfs "s.h5" = Some fsrc /\ mesh_read fsrc = Ok (xsrc, dt) /\ mesh_init xsrc = Ok (total, g) /\ reflect_mesh xsrc g = Ok xreflected /\
  xfs "r.h5" = Some fsrc2 /\ mesh_read fsrc2 = Ok (xreflected, dt2) /\
  match xresult (reflection_main (fun n => zseq 0 n) xsolve xfs ["reflection"; "s.h5"; "t.h5"; "o.h5"]) with
  | Some (c, nr, nb, fs) => (c, nr, nb, length fs, forallb nonzero fs) = (0, 3%nat, 2%nat, 2%nat, true)
  | None => False
  end.
Proof. do 6 eexists. do 6 (split; [vm_compute; reflexivity|]). vm_compute. reflexivity. Qed.
Example C82_ex : exists fsrc src dt init, xfs "z.h5" = None /\ mesh_read fsrc = Ok (src, dt) /\ mesh_init src = Ok init /\ msX src <> [] /\ msNt src < 2 /\
  named fsrc "ObservationTime" = None.
Proof.
  exists [("MeshCornerPoints", H5 [3; 3] (HDoubles [0; 0; 0; 1; 0; 0; 0; 1; 0]%float) [att_int "Ncp" 3]);
          ("ObservationPosition", H5 [1; 3] (HDoubles [0.25; 0.25; 0]%float) [att_int "Np" 1]); ("MeshTriangles", H5 [1; 3] (HInts [0; 1; 2]) [att_int "Ntri" 1])].
  do 3 eexists. split; [reflexivity|]. split; [vm_compute; reflexivity|]. split; [vm_compute; reflexivity|]. split; [discriminate|]. split; [cbn; lia|reflexivity].
Qed.

(* the hypotheses of the theorems over the reals *)
Local Open Scope R_scope.
Definition zsrc : mesh R := MS [V 0 0 0; V 1 0 0; V 0 1 0] [(0, 1, 2)%Z] [V 0 0 0] 2 [FT 0 1 [ezero; ezero]].
Definition zsolve (A : list (list R)) (b : list R) : list R := [0; 0; 0; 0; 0; 0].
Definition zfs (f : h5file R) : string -> option (h5file R) := fun n => if String.eqb n "s" then Some f else None.
Lemma ezero_op : ediv (esub (ezero (T := R)) ezero) 1 = ezero.
Proof. unfold ediv, esub, ezero, vdiv, vsub, vzero. cbn [fE fB vx vy vz]. unnum. repeat (f_equal; try field). Qed.
Lemma zsrc_derivative : tr_derivative (FT 0 1 [ezero; ezero]) = Ok (FT 0 1 [ezero (T := R); ezero]).
Proof. rewrite derivative_two, ezero_op. reflexivity. Qed.
Lemma zat k : (k < 2)%nat -> tr_at (FT 0 1 [ezero (T := R); ezero]) (0 + IZR (Z.of_nat k) * 1) = Ok ezero.
Proof.
  intros H. apply (trace_at_sample (FT 0 1 [ezero; ezero]) k ezero); cbn [tr_dt tr_f]; [lra|unfold tr_N, int_max; cbn; lia|].
  destruct k as [|[|k]]; [reflexivity|reflexivity|lia].
Qed.
Lemma ztransform (xi eta n : vec R) : tr_transform (FT 0 1 [ezero; ezero]) xi eta n = FT 0 1 [ezero; ezero].
Proof.
  unfold tr_transform. cbn [tr_t0 tr_dt tr_f map]. 
  assert (E : EB (V (vdot (fE ezero) xi) (vdot (fE ezero) eta) (vdot (fE ezero) n)) (V (vdot (fB ezero) xi) (vdot (fB ezero) eta) (vdot (fB ezero) n)) = ezero (T := R)).
  { unfold ezero, vzero, vdot. cbn [fE fB vx vy vz]. unnum. repeat (f_equal; try ring). }
  rewrite E. reflexivity.
Qed.
Lemma zlocal (xi eta n : vec R) : from_local xi eta n (normal_derivative (EB (V 0 0 0) (V 0 0 0)) (EB (V 0 0 0) (V 0 0 0)) ezero) = ezero.
Proof.
  unfold from_local, normal_derivative, ezero, vzero, vadd, vmul. cbn [fE fB vx vy vz]. generalize nc. intros c. unnum. unfold Rdiv. 
  repeat (f_equal; try ring).
Qed.
Lemma zcell (c : cellgeo (T := R)) : cell_dn zsolve zsrc [c] (FT 0 1 [ezero; ezero]) 0 = Ok (FT 0 1 [ezero; ezero]).
Proof.
  unfold cell_dn. change (mesh_neighbours zsrc 0) with (@Ok (list Z) [0%Z]). cbn [bind length].
  change (24 <? Z.of_nat 1)%Z with false. cbn iota. change (zget (msX zsrc) 0) with (Ok (V 0 0 0)). change (zget [c] 0) with (Ok c). cbn [bind map_res].
  change (zget (msX zsrc) 0) with (Ok (V 0 0 0)). change (zget (msA zsrc) 0) with (Ok (FT 0 1 [ezero (T := R); ezero])). cbn [bind map_res].
  rewrite !ztransform. change (Z.to_nat (msNt zsrc)) with 2%nat. cbn [zseq fold_res]. 
  change (tr_time (FT 0 1 [ezero (T := R); ezero]) 0) with (Ok (0 + IZR (Z.of_nat 0) * 1)). cbn [bind map_res]. rewrite (zat 0) by lia. cbn [bind].
  change (0 + 1)%Z with 1%Z.
  unfold fit_fields, fit1, zsolve. change (zget [0; 0; 0; 0; 0; 0] 1) with (Ok 0). change (zget [0; 0; 0; 0; 0; 0] 2) with (Ok 0). cbn [bind].
  change (tr_get (FT 0 1 [ezero (T := R); ezero]) 0) with (Ok (ezero (T := R))). cbn [bind]. rewrite zlocal.
  change (tr_set (FT 0 1 [ezero (T := R); ezero]) 0 ezero) with (Ok (FT 0 1 [ezero (T := R); ezero])). cbn [bind].
  change (tr_time (FT 0 1 [ezero (T := R); ezero]) 1) with (Ok (0 + IZR (Z.of_nat 1) * 1)). cbn [bind map_res]. rewrite (zat 1) by lia. cbn [bind].
  change (tr_get (FT 0 1 [ezero (T := R); ezero]) 1) with (Ok (ezero (T := R))). cbn [bind]. rewrite zlocal. reflexivity.
Qed.
Example C81_ex : exists fs fsrc total g srcs, fs "s" = Some fsrc /\ mesh_read fsrc = Ok (zsrc, 1) /\ mesh_init zsrc = Ok (total, g) /\ cells_of zsolve zsrc g srcs /\
  msX zsrc <> [] /\ small (OMesh zsrc) /\ mesh_fits zsrc /\ srcs <> [] /\
  (forall i tr pos c, nth_error (msA zsrc) i = Some tr -> nth_error (msX zsrc) i = Some pos -> In c srcs -> cell_carries tr pos c).
Proof.
  assert (Sh : shaped (OMesh zsrc)) by (cbn [shaped zsrc msNt msA msX]; split; [lia|]; split; [reflexivity|]; constructor; [reflexivity|constructor]).
  assert (Sm : small (OMesh zsrc)) by (cbn; unfold int_max; lia).
  assert (Ft : mesh_fits zsrc) by (unfold mesh_fits, int_max; cbn; lia).
  destruct (C72_round_trip R NumR zsrc 1 Sh Sm Ft) as (f & F1 & F2); [constructor; [reflexivity|constructor]|].
  assert (I : exists total c, mesh_init zsrc = Ok (total, [c])) by (eexists; eexists; reflexivity). destruct I as (total & c & Hi).
  exists (zfs f), f, total, [c], [SRC (V 0 0 0) (cgArea c) (cgNormal c) (FT 0 1 [ezero; ezero]) (FT 0 1 [ezero; ezero]) (FT 0 1 [ezero; ezero])].
  split; [reflexivity|]. split; [exact F2|]. split; [exact Hi|]. split.
  { split; [reflexivity|]. intros [|[|i]] e E; try discriminate. injection E as <-. unfold cell_of. cbn [srcX srcArea srcN srcA srcAt srcAn].
    split; [reflexivity|]. split; [exists c; auto|]. split; [reflexivity|]. split; [apply zsrc_derivative|]. apply zcell. }
  split; [discriminate|]. split; [exact Sm|]. split; [exact Ft|]. split; [discriminate|].
  intros [|[|i]] tr pos e E1 E2 [<-|[]]; try discriminate. injection E1 as <-. injection E2 as <-.
  unfold cell_carries. cbn [srcX srcA srcAt srcAn].
  assert (Z0 : vnorm (vsub (V 0 0 0) (V 0 0 0)) / nc = 0).
  { replace (vsub (V 0 0 0) (V 0 0 0)) with (vzero (T := R)) by (unfold vsub, vzero; cbn [vx vy vz]; unnum; f_equal; ring).
    rewrite (proj2 (vnorm_zero_iff vzero) eq_refl). unfold Rdiv. apply Rmult_0_l. }
  cbv zeta. rewrite Z0.
  assert (C : carries (FT 0 1 [ezero; ezero]) (FT 0 1 [ezero; ezero]) 0).
  { right. intros k Hk. unfold tr_N in Hk. cbn [tr_f length] in Hk. unfold sample_time. cbn [tr_t0 tr_dt]. rewrite Rminus_0_r.
    rewrite <- (Z2Nat.id k) by lia. apply zat. lia. }
  auto.
Qed.
