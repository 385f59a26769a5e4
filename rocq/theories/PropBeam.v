(* Beams: C28, C29, C30, C31, C60, C62. *)
From Coq Require Import ZArith Reals List Lia Lra Bool Permutation.
From Verif Require Import Base BaseFacts Num VecModel VecFacts ParticleModel ParticleSpec ParticleProofs TraceModel RetardModel
  BunchModel BunchSpec BeamSpec DistProofs BeamProofs ProbeProofs ProbeProofs2 BunchProofs.
Import ListNotations.
Local Open Scope Z_scope.

Definition ex_p (k : Z) : particle R := initTrajectory (IZR k) (V 1 2 3)%R (V 0 0 5)%R vzero (new_particle (-1)%R 1%R).
Definition ex_beam : beam R := BM [[ex_p 1; ex_p 2]; []; [ex_p 3]] 4 (1%R) TRACKING_VAY.

(* ==== C28 ==== *)
(* the buffer size which is reported is the number of values written: ten per particle *)
Theorem C28_buffer_size : forall (T : Type) (NT : Num T) (bm : beam T),
  10 * count bm <= int_max ->
  beam_stepBufferSize bm = Ok (10 * count bm) /\
  Z.of_nat (length (beam_bufferStep bm)) = 10 * count bm.
Proof.
  intros T NT bm H. assert (0 <= count bm) by (unfold count; lia). split; [|apply beam_step_length].
  unfold beam_stepBufferSize. rewrite beam_NOP_ok by lia. cbn [bind]. unfold imul.
  rewrite to_int_in by (unfold int_min, int_max in *; lia). f_equal. lia.
Qed.
Print Assumptions C28_buffer_size.
Example C28_buffer_size_ex : 10 * count ex_beam <= int_max.
Proof. unfold count, int_max; cbn; lia. Qed.

(* Reading the buffer into a beam of the same structure: every particle gets the
   current point of its partner appended and nothing else changes. *)
Theorem C28_round_trip : forall (T : Type) (NT : Num T) (src bm : beam T) rest,
  same_structure src bm -> wf_beam bm -> int_min <= bmNOTS bm < int_max ->
  exists bm', beam_setStep (beam_bufferStep src ++ rest) bm = Ok (bm', rest) /\ wf_beam bm' /\
    same_structure bm bm' /\
    Forall2 (fun c pq => appended c (fst pq) (snd pq)) (map current (concat (bmB src)))
      (combine (concat (bmB bm)) (concat (bmB bm'))) /\
    bmNOTS bm' = bmNOTS bm + 1 /\ bmdt bm' = bmdt bm /\ bmTracker bm' = bmTracker bm.
Proof. intros; apply exchange_ok; assumption. Qed.
Print Assumptions C28_round_trip.
Example C28_round_trip_ex : same_structure ex_beam ex_beam /\ wf_beam ex_beam /\ int_min <= bmNOTS ex_beam < int_max.
Proof.
  split; [reflexivity|]. split; [|cbn; unfold int_min, int_max; lia].
  unfold wf_beam, ex_beam, wf; cbn. repeat constructor; cbn; lia.
Qed.

(* the order in which the exchange visits the particles is that in which they were added *)
Theorem C28_order : forall (T : Type) (NT : Num T) (bunches : list (list (particle T))),
  bmB (fold_left (fun bm ps => beam_add (fold_left (fun b p => bunch_add p b) ps []) bm) bunches beam_new) = bunches.
Proof.
  intros T NT bunches. assert (A : forall (ps b : list (particle T)), fold_left (fun b p => bunch_add p b) ps b = b ++ ps).
  { induction ps as [|p ps IH]; intros b; cbn [fold_left]; [symmetry; apply app_nil_r|]. rewrite IH. unfold bunch_add. rewrite <- app_assoc. reflexivity. }
  assert (B : forall bs (bm : beam T), bmB (fold_left (fun bm ps => beam_add (fold_left (fun b p => bunch_add p b) ps []) bm) bs bm) = bmB bm ++ bs).
  { induction bs as [|x bs IH]; intros bm; cbn [fold_left]; [symmetry; apply app_nil_r|]. rewrite IH, A. cbn [beam_add bmB app]. rewrite <- app_assoc. reflexivity. }
  apply B.
Qed.
Print Assumptions C28_order.

(* ==== C29 ==== *)
(* without an implemented method set-up raises an exception and changes nothing *)
Theorem C29_setup_refused : forall (T : Type) (NT : Num T) (bm : beam T) F,
  bmTracker bm <> TRACKING_VAY -> beam_setup F bm = (bm, Throw IOexc).
Proof. intros T NT bm F H. apply not_vay. exact H. Qed.
Print Assumptions C29_setup_refused.
(* a step raises an exception too, but the step is counted *)
Theorem C29_step_refused_partial : forall (T : Type) (NT : Num T) (bm : beam T) F,
  bmTracker bm <> TRACKING_VAY -> int_min <= bmNOTS bm < int_max ->
  beam_step F bm = (BM (bmB bm) (bmNOTS bm + 1) (bmdt bm) (bmTracker bm), Throw IOexc).
Proof. intros T NT bm F H HN. apply not_vay; assumption. Qed.
Print Assumptions C29_step_refused_partial.
Theorem C29_step_unchanged_refuted : exists (bm : beam R) F bm',
  bmTracker bm <> TRACKING_VAY /\ beam_step F bm = (bm', Throw IOexc) /\ bm' <> bm.
Proof.
  exists (@beam_new R NumR), (fun _ _ => Ok ezero). eexists. split; [discriminate|]. split; [reflexivity|]. discriminate.
Qed.
Print Assumptions C29_step_unchanged_refuted.
Example C29_refused_ex : bmTracker (@beam_new R NumR) <> TRACKING_VAY /\ int_min <= bmNOTS (@beam_new R NumR) < int_max.
Proof. split; [discriminate|]. cbn. unfold int_min, int_max; lia. Qed.

(* the counter is the number of steps (own or received) since the last reset, the
   time step and the method do not change, for every sequence of operations *)
Theorem C29_counter : forall (T : Type) (NT : Num T) (ops : list (@beam_op T)) (bm bm' : beam T),
  run_beam ops bm = Some bm' ->
  bmNOTS bm' = steps_since ops (bmNOTS bm) /\ bmTracker bm' = bmTracker bm /\ bmdt bm' = bmdt bm.
Proof. intros; apply run_beam_counter; assumption. Qed.
Print Assumptions C29_counter.
Theorem C29_steps_after_setup : forall (T : Type) (NT : Num T) F (Fs : list (field_fn T)) (bm bm' : beam T),
  run_beam (BSetup F :: map BStep Fs) bm = Some bm' -> bmNOTS bm' = Z.of_nat (length Fs).
Proof.
  intros T NT F Fs bm bm' H. apply run_beam_counter in H. destruct H as [H _]. rewrite H. cbn [steps_since].
  assert (G : forall n, steps_since (map BStep Fs) n = n + Z.of_nat (length Fs)).
  { clear. induction Fs as [|f Fs IH]; intros n; cbn [map steps_since length]; [lia|]. rewrite IH. lia. }
  rewrite G. lia.
Qed.
Print Assumptions C29_steps_after_setup.
Example C29_counter_ex : exists bm', run_beam [BSetup (fun _ _ => Ok ezero); BStep (fun _ _ => Ok ezero)] (BM [] 7 (1%R) TRACKING_VAY) = Some bm' /\ bmNOTS bm' = 1.
Proof. eexists. split; reflexivity. Qed.

(* ==== C30 ==== *)
Theorem C30_number_of_particles : forall (T : Type) (NT : Num T) (bm : beam T),
  Z.of_nat (length (concat (bmB bm))) <= int_max ->
  beam_NOP bm = Ok (Z.of_nat (length (concat (bmB bm)))) /\
  length (concat (bmB bm)) = list_sum (map (@length _) (bmB bm)).
Proof.
  intros T NT bm H. split; [apply beam_NOP_ok; exact H|].
  induction (bmB bm) as [|b l IH]; [reflexivity|]. cbn [concat map]. rewrite app_length. cbn. f_equal. apply IH.
  cbn [concat] in H. rewrite app_length in H. lia.
Qed.
Print Assumptions C30_number_of_particles.
(* the total charge is the sum of the charges of all particles, in Coulomb *)
Theorem C30_total_charge : forall bm : beam R,
  beam_charge bm = (sum (map pCharge (concat (bmB bm))) * nqe)%R.
Proof.
  intros bm. unfold beam_charge.
  assert (B : forall b : bunch R, bunch_charge b = (sum (map pCharge b) * nqe)%R).
  { intros b. unfold bunch_charge, getCharge. change (@nZ R NumR 0) with 0%R.
    change (fun s p => nadd s (nmul (pCharge p) nqe)) with (fun s (p : particle R) => (s + pCharge p * nqe)%R).
    rewrite (sum_fold (fun p => (pCharge p * nqe)%R)). rewrite Rplus_0_l.
    rewrite (map_ext _ (fun p => (nqe * pCharge p)%R)) by (intros; apply Rmult_comm).
    rewrite sum_scal. apply Rmult_comm. }
  change (@nZ R NumR 0) with 0%R. change (fun s b => nadd s (bunch_charge b)) with (fun s (b : bunch R) => (s + bunch_charge b)%R).
  rewrite (sum_fold bunch_charge). rewrite Rplus_0_l.
  induction (bmB bm) as [|b l IH].
  - unfold sum. cbn [map concat fold_right]. rewrite Rmult_0_l. reflexivity.
  - cbn [map concat]. rewrite map_app. unfold sum at 1. cbn [fold_right]. fold (sum (map bunch_charge l)). rewrite IH, B.
    assert (A : forall l1 l2, sum (l1 ++ l2) = (sum l1 + sum l2)%R).
    { induction l1 as [|x l1 IHl]; intros l2; unfold sum; cbn [app fold_right]; [lra|]. fold (sum (l1 ++ l2)). rewrite IHl. unfold sum. lra. }
    rewrite A, Rmult_plus_distr_r. reflexivity.
Qed.
Print Assumptions C30_total_charge.
Example C30_ex : Z.of_nat (length (concat (bmB ex_beam))) <= int_max.
Proof. cbn. unfold int_max. lia. Qed.

(* no operation, successful or not, changes the number of bunches, the numbers of
   particles or any charge *)
Theorem C30_operations_keep_totals : forall (T : Type) (NT : Num T) (ops : list (@beam_op T)) (bm : beam T),
  let bm' := run_beam_catch ops bm in
  charges (bmB bm') = charges (bmB bm) /\
  map (@length _) (bmB bm') = map (@length _) (bmB bm) /\
  beam_NOP bm' = beam_NOP bm /\ beam_charge bm' = beam_charge bm.
Proof.
  intros T NT ops bm bm'. assert (E : charges (bmB bm') = charges (bmB bm)) by apply run_catch_charges.
  split; [exact E|]. pose proof (charges_lengths _ _ E) as L. split; [exact L|]. split.
  - unfold beam_NOP. generalize 0. revert L. generalize (bmB bm') (bmB bm). clear. intros l.
    induction l as [|b l IH]; intros [|c l'] L z; try discriminate; [reflexivity|]. injection L as L1 L2.
    cbn [fold_res]. unfold bunch_NOP at 1 3. rewrite L1. destruct (iadd _ _); cbn [bind]; auto.
  - unfold beam_charge. generalize (@nZ T NT 0). revert E. generalize (bmB bm') (bmB bm). clear. intros l.
    induction l as [|b l IH]; intros [|c l'] E z; try discriminate; [reflexivity|].
    unfold charges in E. cbn [map] in E. assert (E1 : map pCharge b = map pCharge c) by congruence.
    assert (E2 : map (map pCharge) l = map (map pCharge) l') by congruence. cbn [fold_left].
    assert (B : bunch_charge b = bunch_charge c).
    { unfold bunch_charge, getCharge. generalize (@nZ T NT 0). clear -E1. revert c E1. induction b as [|p b IHb]; intros [|q c] E1 z; try discriminate; [reflexivity|].
      cbn [map] in E1. assert (pCharge p = pCharge q) by congruence. cbn [fold_left]. rewrite H. apply IHb. congruence. }
    rewrite B. apply IH. exact E2.
Qed.
Print Assumptions C30_operations_keep_totals.
Theorem C30_copy_keeps_totals : forall (T : Type) (NT : Num T) (b b' : bunch T),
  bunch_copy b = Ok b' -> map pCharge b' = map pCharge b /\ length b' = length b.
Proof.
  intros T NT b b' H. assert (E : map pCharge b' = map pCharge b).
  { unfold bunch_copy in H. apply (map_res_map _ pCharge pCharge) in H; [exact H|]. apply copy_charge. }
  split; [exact E|]. apply (f_equal (@length _)) in E. rewrite !map_length in E. exact E.
Qed.
Print Assumptions C30_copy_keeps_totals.
Example C30_copy_ex : exists b', bunch_copy [ex_p 1] = Ok b'.
Proof. eexists. reflexivity. Qed.

(* requests out of range give the null pointer, all others the element *)
Theorem C30_requests : forall (T : Type) (NT : Num T) (bm : beam T) (b : bunch T) i,
  (0 <= i < Z.of_nat (length (bmB bm)) -> beam_bunch bm i = nth_error (bmB bm) (Z.to_nat i) /\ beam_bunch bm i <> None) /\
  (~ (0 <= i < Z.of_nat (length (bmB bm))) -> beam_bunch bm i = None) /\
  (0 <= i < Z.of_nat (length b) -> bunch_particle b i = nth_error b (Z.to_nat i) /\ bunch_particle b i <> None) /\
  (~ (0 <= i < Z.of_nat (length b)) -> bunch_particle b i = None).
Proof.
  intros T NT bm b i. unfold beam_bunch, bunch_particle, bunch_NOP.
  split; [|split; [|split]]; intros H;
    match goal with |- context [if ?c then _ else _] => destruct c eqn:E end;
    try (apply andb_prop in E; destruct E as [E1 E2]; apply Z.leb_le in E1; apply Z.ltb_lt in E2);
    try (apply andb_false_iff in E; destruct E as [E|E]; [apply Z.leb_gt in E|apply Z.ltb_ge in E]);
    try lia; auto.
  - split; [reflexivity|]. apply nth_error_Some. lia.
  - split; [reflexivity|]. apply nth_error_Some. lia.
Qed.
Print Assumptions C30_requests.
Example C30_requests_ex : beam_bunch ex_beam (-1) = None /\ beam_bunch ex_beam 3 = None /\ beam_bunch ex_beam 1 = Some [].
Proof. repeat split. Qed.

(* replacing a particle *)
Theorem C30_replace : forall (T : Type) (NT : Num T) (b : bunch T) i p,
  length (bunch_replace i p b) = length b /\
  (0 <= i < Z.of_nat (length b) -> bunch_particle (bunch_replace i p b) i = Some p) /\
  (forall j, j <> i -> bunch_particle (bunch_replace i p b) j = bunch_particle b j).
Proof.
  intros T NT b i p.
  assert (L : length (bunch_replace i p b) = length b) by (unfold bunch_replace; destruct (_ && _); [apply lset_length|reflexivity]).
  split; [exact L|]. unfold bunch_particle, bunch_NOP. rewrite L. unfold bunch_replace, bunch_NOP. split.
  - intros H. destruct (Z.leb_spec 0 i); [|lia]. destruct (Z.ltb_spec i (Z.of_nat (length b))); [|lia]. cbn [andb].
    apply lset_nth_eq. lia.
  - intros j Hj. destruct (Z.leb_spec 0 j); cbn [andb]; [|reflexivity]. destruct (j <? Z.of_nat (length b)); [|reflexivity].
    destruct (Z.leb_spec 0 i); cbn [andb]; [|reflexivity]. destruct (i <? Z.of_nat (length b)); [|reflexivity].
    apply lset_nth_neq. lia.
Qed.
Print Assumptions C30_replace.
Example C30_replace_ex : 0 <= 0 < Z.of_nat (length [ex_p 1]).
Proof. cbn. lia. Qed.

(* a beam holds the bunches added since it was last cleared; clearing resets the step
   counter, adding does not touch it, and neither touches time step and method *)
Theorem C30_build : forall (T : Type) (NT : Num T) (ops : list (@build_op T)) (bm : beam T),
  let bm' := fold_left apply_build ops bm in
  bmB bm' = added_since ops (bmB bm) /\
  bmNOTS bm' = (if existsb (fun o => match o with BClear => true | _ => false end) ops then 0 else bmNOTS bm) /\
  bmdt bm' = bmdt bm /\ bmTracker bm' = bmTracker bm.
Proof.
  intros T NT ops. induction ops as [|[b|] ops IH]; intros bm.
  - repeat split.
  - cbn [fold_left]. destruct (IH (apply_build bm (BAdd b))) as (A & B & C & D). rewrite A, B, C, D. repeat split.
  - cbn [fold_left]. destruct (IH (apply_build bm BClear)) as (A & B & C & D). rewrite A, B, C, D.
    split; [reflexivity|]. split; [|split; reflexivity]. cbn. destruct (existsb _ ops); reflexivity.
Qed.
Print Assumptions C30_build.
Example C30_build_ex : bmB (fold_left apply_build [BAdd [ex_p 1]; BClear; BAdd [ex_p 2]; BAdd []] (@beam_new R NumR)) = [[ex_p 2]; []].
Proof. reflexivity. Qed.

(* ==== C60: unit of the total charge ==== *)
(* beam.h:97 documents the total charge "in units of elementary charge (i.e. simulated
   number of electrons)"; the value is in Coulomb *)
Theorem C60_documented_unit_refuted : exists bm : beam R,
  sum (map pCharge (concat (bmB bm))) = (-3)%R /\ beam_charge bm <> (-3)%R /\ beam_charge bm = ((-3) * nqe)%R.
Proof.
  exists ex_beam. assert (S3 : sum (map pCharge (concat (bmB ex_beam))) = (-3)%R) by (unfold sum; cbn; lra).
  split; [exact S3|]. rewrite C30_total_charge, S3. split; [|reflexivity].
  intros E. assert (Q : (@nqe R NumR < 1)%R).
  { cbv [nqe NumR]. assert (P : (0 < IZR (10 ^ 29))%R) by (apply (IZR_lt 0); reflexivity).
    apply Rmult_lt_reg_r with (IZR (10 ^ 29)); [exact P|]. unfold Rdiv. rewrite Rmult_assoc, Rinv_l by lra.
    rewrite Rmult_1_r, Rmult_1_l. apply IZR_lt. reflexivity. }
  revert E Q. generalize (@nqe R NumR). intros; lra.
Qed.
Print Assumptions C60_documented_unit_refuted.

(* ==== C31 ==== *)
(* the order is a permutation of all particles *)
Theorem C31_order : forall (A : Type) (bs : list (list A)), Permutation (round_robin bs) (concat bs).
Proof. intros; apply round_robin_perm. Qed.
Print Assumptions C31_order.
(* up to the number of particles the request is served in this order *)
Theorem C31_probe_partial : forall (T : Type) (NT : Num T) (bm : beam T) n,
  (n <= length (concat (bmB bm)))%nat ->
  beam_bufferProbe bm (Z.of_nat n) = Ok (flat_map probe_record (firstn n (round_robin (bmB bm)))).
Proof. intros; apply probe_ok; assumption. Qed.
Print Assumptions C31_probe_partial.
Example C31_probe_ex : (2 <= length (concat (bmB ex_beam)))%nat /\ firstn 2 (round_robin (bmB ex_beam)) = [ex_p 1; ex_p 3].
Proof. split; [cbn; lia|reflexivity]. Qed.
(* The record of a tracked particle: the last point of its trajectory, and the fields acting there. *)
Theorem C31_record : forall (T : Type) (NT : Num T) dt F0 Fs (p0 p1 p : particle T),
  wf p0 -> InitVay dt F0 p0 = Ok p1 -> run_steps Fs p1 = Ok p ->
  exists i t x m a e b, trajectory p = i ++ [TP t x m a] /\ last Fs F0 t x = Ok (EB e b) /\
    probe_record p = [t; vx x; vy x; vz x; vx m; vy m; vz m; vx a; vy a; vz a; vx e; vy e; vz e; vx b; vy b; vz b].
Proof. intros T NT dt F0 Fs p0 p1 p. apply record_tracked. Qed.
Print Assumptions C31_record.
Example C31_record_ex : exists p1, wf (ex_p 1) /\ InitVay 1%R (fun t x => Ok (EB x x)) (ex_p 1) = Ok p1 /\ run_steps [] p1 = Ok p1.
Proof. eexists. split; [unfold wf; cbn; lia|]. split; reflexivity. Qed.
(* for more particles than there are the loop does not end: no number of rounds is
   enough (until the index overflows, which is undefined) *)
Theorem C31_too_many_refuted : forall (T : Type) (NT : Num T) (bm : beam T) n fuel,
  (length (concat (bmB bm)) < n)%nat -> bmB bm <> [] ->
  probe_loop fuel (bmB bm) (Z.of_nat n) 0 0 0 = Loop.
Proof. intros; apply probe_endless; assumption. Qed.
Print Assumptions C31_too_many_refuted.
Example C31_too_many_ex : (length (concat (bmB ex_beam)) < 4)%nat /\ bmB ex_beam <> [].
Proof. split; [cbn; lia|discriminate]. Qed.
(* without bunches a null pointer is followed *)
Theorem C31_no_bunch_refuted : forall (T : Type) (NT : Num T) (bm : beam T) n fuel,
  bmB bm = [] -> 0 < n -> probe_loop (S fuel) (bmB bm) n 0 0 0 = UB.
Proof. intros; apply probe_no_bunch; assumption. Qed.
Print Assumptions C31_no_bunch_refuted.
Example C31_no_bunch_ex : bmB (@beam_new R NumR) = [].
Proof. reflexivity. Qed.

(* ==== C62: superposition ==== *)
(* the field of a beam is the sum of the fields of all its particles *)
Definition total (l : list (emf R)) : emf R := fold_right eadd ezero l.
Theorem C62_retarded_field : forall (bm : beam R) time obs fs,
  map_res (fun p => RetardedField_time p time obs) (concat (bmB bm)) = Ok fs ->
  beam_RetardedField bm time obs = Ok (total fs).
Proof.
  intros bm time obs fs H. unfold beam_RetardedField.
  assert (APP : forall a b, total (a ++ b) = eadd (total a) (total b)).
  { induction a as [|x a IH]; intros b; cbn [app total fold_right]; [symmetry; apply eadd_0_l|].
    fold (total (a ++ b)). rewrite IH. fold (total a). apply eadd_assoc. }
  assert (B : forall (b : bunch R) gs s, map_res (fun p => RetardedField_time p time obs) b = Ok gs ->
     fold_res (fun s p => bind (RetardedField_time p time obs) (fun f => Ok (eadd s f))) b s = Ok (eadd s (total gs))).
  { induction b as [|p b IH]; intros gs s E; cbn [map_res fold_res] in *.
    - injection E as <-. cbn [total fold_right]. rewrite eadd_0_r. reflexivity.
    - bget E as f Hf. bget E as gs' Hg. injection E as <-. rewrite Hf. cbn [bind]. rewrite (IH _ _ Hg).
      cbn [total fold_right]. fold (total gs'). rewrite eadd_assoc. reflexivity. }
  assert (SPLIT : forall (b c : bunch R) fs, map_res (fun p => RetardedField_time p time obs) (b ++ c) = Ok fs ->
     exists f1 f2, fs = f1 ++ f2 /\ map_res (fun p => RetardedField_time p time obs) b = Ok f1 /\ map_res (fun p => RetardedField_time p time obs) c = Ok f2).
  { induction b as [|p b IH]; intros c gs E; cbn [app map_res] in *.
    - exists [], gs. auto.
    - bget E as f Hf. bget E as gs' Hg. injection E as <-. destruct (IH _ _ Hg) as (f1 & f2 & -> & A1 & A2).
      exists (f :: f1), f2. rewrite Hf. cbn [bind]. rewrite A1. auto. }
  rewrite <- (eadd_0_l (total fs)). generalize (@ezero R NumR). revert fs H.
  induction (bmB bm) as [|b l IH]; intros fs H s; cbn [concat map_res fold_res] in *.
  - injection H as <-. cbn [total fold_right]. rewrite eadd_0_r. reflexivity.
  - apply SPLIT in H. destruct H as (f1 & f2 & -> & A1 & A2). unfold bunch_RetardedField at 1. rewrite (B _ _ _ A1). cbn [bind].
    rewrite (IH _ A2). rewrite eadd_0_l, APP, eadd_assoc. reflexivity.
Qed.
Print Assumptions C62_retarded_field.
(* the trace of a beam is obtained by integrating over all particles in turn *)
Theorem C62_field_trace : forall (T : Type) (NT : Num T) (bm : beam T) obs tr,
  beam_integrate bm obs tr = fold_res (fun tr p => integrateFieldTrace p obs tr) (concat (bmB bm)) tr.
Proof.
  intros T NT bm obs tr. unfold beam_integrate, bunch_integrate. revert tr.
  induction (bmB bm) as [|b l IH]; intros tr; [reflexivity|]. cbn [concat fold_res].
  assert (APP : forall (a c : list (particle T)) t, fold_res (fun tr p => integrateFieldTrace p obs tr) (a ++ c) t =
     bind (fold_res (fun tr p => integrateFieldTrace p obs tr) a t) (fold_res (fun tr p => integrateFieldTrace p obs tr) c)).
  { induction a as [|p a IHa]; intros c t; [reflexivity|]. cbn [app fold_res]. destruct (integrateFieldTrace p obs t); cbn [bind]; auto. }
  rewrite APP. destruct (fold_res _ b tr); cbn [bind]; auto.
Qed.
Print Assumptions C62_field_trace.
