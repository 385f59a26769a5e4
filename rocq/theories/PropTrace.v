(* Properties C14-C21: field traces. *)
From Coq Require Import ZArith Reals List Lra Lia Bool Floats.
From Coquelicot Require Import Coquelicot.
From Verif Require Import Base BaseFacts Num NumFloat VecModel VecFacts ParticleModel ParticleSpec
  ParticleSpec2 TraceModel RetardModel RetardSpec RetardProofs RetardProofs3 TraceIntSpec TraceIntProofs
  TraceIntProofs2 TraceSpec TraceProofs TraceProofs2.
Import ListNotations.
Local Open Scope R_scope.
Local Open Scope res_scope.

(* ---- C14 ---- *)
(* Missing: traces of 2^31 and more samples (see C14_long_trace_refuted) and
   trajectories observed later than 2^31-1 time steps after the start of the trace
   (see C15_far_signal_refuted). *)
Theorem C14_bucket_average_partial : forall (p : particle R) obs (tr : ftrace R),
  wf p -> 0 < tr_dt tr -> (2 <= tr_N tr <= int_max)%Z ->
  increasing (map (arrival obs) (trajectory p)) ->
  (forall a, In a (trajectory p) -> (arrival obs a - tr_t0 tr) / tr_dt tr < 2147483647) ->
  exists tr', integrateFieldTrace p obs tr = Ok tr' /\ same_sampling tr tr' /\
    forall k f f', nth_error (tr_f tr) k = Some f -> nth_error (tr_f tr') k = Some f' ->
    forall c, In c components ->
      is_RInt (fun t => c (signal (signal_points p obs) t))
        (tr_t0 tr + (IZR (Z.of_nat k) - / 2) * tr_dt tr)
        (tr_t0 tr + (IZR (Z.of_nat k) + / 2) * tr_dt tr)
        (tr_dt tr * (c f' - c f)).
Proof.
  intros p obs tr Hw Hd HN Hinc Hmax.
  destruct (integrateFieldTrace_ok p obs tr Hw Hd HN Hinc Hmax) as (tr' & E & S & C).
  exists tr'. split; [exact E|]. split; [destruct S as (?&?&?); repeat split; congruence|].
  intros k f f' Hf Hf' c Hc.
  pose proof (components_linear c Hc) as Hl.
  destruct (C c Hl k f Hf) as (g & G & Hk). assert (g = f') by congruence. subst g. rewrite Hk.
  pose proof (signal_integral (tr_t0 tr) (tr_dt tr) c _ (Z.of_nat k) Hl Hd (signal_points_inc p obs Hinc)) as H.
  replace (tr_dt tr * _) with (shares (tr_t0 tr) (tr_dt tr) c (signal_points p obs) (Z.of_nat k)).
  - exact H.
  - field. lra.
Qed.
Print Assumptions C14_bucket_average_partial.

(* every tracked trajectory is slower than light (C13) *)
Theorem C14_bucket_average_subluminal_partial : forall (p : particle R) obs (tr : ftrace R),
  wf p -> 0 < tr_dt tr -> (2 <= tr_N tr <= int_max)%Z -> subluminal (trajectory p) ->
  (forall a, In a (trajectory p) -> (arrival obs a - tr_t0 tr) / tr_dt tr < 2147483647) ->
  exists tr', integrateFieldTrace p obs tr = Ok tr' /\ same_sampling tr tr' /\
    forall k f f', nth_error (tr_f tr) k = Some f -> nth_error (tr_f tr') k = Some f' ->
    forall c, In c components ->
      is_RInt (fun t => c (signal (signal_points p obs) t))
        (tr_t0 tr + (IZR (Z.of_nat k) - / 2) * tr_dt tr)
        (tr_t0 tr + (IZR (Z.of_nat k) + / 2) * tr_dt tr)
        (tr_dt tr * (c f' - c f)).
Proof. intros. apply C14_bucket_average_partial; auto. apply arrivals_increase. assumption. Qed.
Print Assumptions C14_bucket_average_subluminal_partial.

(* traces whose length does not fit into an int with a value of 2 or more are
   ignored: no field is recorded whatever the trajectory *)
Theorem C14_long_trace_refuted : forall {T} {NT : Num T} (p : particle T) obs (tr : ftrace T),
  (2 ^ 31 <= tr_N tr < 2 ^ 32)%Z -> integrateFieldTrace p obs tr = Ok tr.
Proof.
  intros T NT p obs tr H. unfold integrateFieldTrace.
  assert (i32 (tr_N tr) < 2)%Z as L.
  { change (2 ^ 31)%Z with 2147483648%Z in H. change (2 ^ 32)%Z with 4294967296%Z in H.
    unfold i32. change (2 ^ 31)%Z with 2147483648%Z. change (2 ^ 32)%Z with 4294967296%Z.
    replace (tr_N tr + 2147483648)%Z with (tr_N tr - 2147483648 + 1 * 4294967296)%Z by lia.
    rewrite Z.mod_add by lia. rewrite Z.mod_small by lia. lia. }
  apply Z.ltb_lt in L. rewrite L. reflexivity.
Qed.
Print Assumptions C14_long_trace_refuted.

Definition ex_particle : particle R :=
  storeTrajectoryPoint 1 (V 0 0 1) (V 0 0 1) vzero
    (initTrajectory 0 vzero (V 0 0 1) vzero (new_particle (-1) 1)).
Definition ex_trace : ftrace R := tr_new 0 1 5.
Example C14_ex : wf ex_particle /\ subluminal (trajectory ex_particle) /\
  pCharge ex_particle = -1 /\ length (trajectory ex_particle) = 2%nat /\
  0 < tr_dt ex_trace /\ (2 <= tr_N ex_trace <= int_max)%Z /\
  (forall a, In a (trajectory ex_particle) ->
     (arrival (V 0 0 1) a - tr_t0 ex_trace) / tr_dt ex_trace < 2147483647).
Proof.
  split; [unfold wf; cbn; lia|]. split.
  { intros [|[|i]] a b Ha Hb; cbn in Ha, Hb.
    - injection Ha as <-. injection Hb as <-. unfold slower_than_light. rewrite vnorm_sqrt.
      replace (vabs2 _) with (1 * 1) by (cbn; ring). rewrite sqrt_square by lra.
      cbn. lra.
    - discriminate.
    - destruct i; discriminate. }
  split; [reflexivity|]. split; [reflexivity|]. split; [cbn; lra|]. split; [cbn; lia|].
  intros a [<-|[<-|[]]]; unfold arrival; rewrite vnorm_sqrt; cbn [tpx tpt tr_t0 tr_dt tr_new ex_trace].
  - replace (vabs2 _) with (1 * 1) by (cbn; ring). rewrite sqrt_square by lra. cbn. lra.
  - replace (vabs2 _) with 0 by (cbn; ring). rewrite sqrt_0. cbn. lra.
Qed.
Example C14_long_ex : (2 ^ 31 <= 2 ^ 31 + 5 < 2 ^ 32)%Z.
Proof. lia. Qed.

(* ---- C15 ---- *)
(* Missing: rounding (see C15_lower_edge_refuted, C15_upper_edge_refuted) and the
   limits of C14. *)
Theorem C15_no_range_exception_partial : forall (p : particle R) obs (tr : ftrace R),
  wf p -> 0 < tr_dt tr -> (2 <= tr_N tr <= int_max)%Z ->
  increasing (map (arrival obs) (trajectory p)) ->
  (forall a, In a (trajectory p) -> (arrival obs a - tr_t0 tr) / tr_dt tr < 2147483647) ->
  exists tr', integrateFieldTrace p obs tr = Ok tr'.
Proof.
  intros p obs tr Hw Hd HN Hinc Hmax.
  destruct (C14_bucket_average_partial p obs tr Hw Hd HN Hinc Hmax) as (tr' & E & _). eauto.
Qed.
Print Assumptions C15_no_range_exception_partial.

(* IEEE double precision: a particle at rest next to the observer.  The signal
   starts one ulp after the lower edge of the first bucket: the index is
   rounded to -1. *)
Definition rest_particle (ta tb : float) : particle float :=
  storeTrajectoryPoint tb vzero vzero vzero
    (initTrajectory ta vzero vzero vzero (new_particle (-1)%float 1%float)).
Definition near : vec float := V 0%float 0%float 0x1p-40%float.

Theorem C15_lower_edge_refuted :
  let p := rest_particle 0x1.0000000000001p-2%float 1%float in
  let tr := tr_new 1%float 1.5%float 2 in
  wf p /\ integrateFieldTrace p near tr = Throw IOexc.
Proof. cbv zeta. split; [unfold wf; cbn; lia|]. vm_compute. reflexivity. Qed.
Print Assumptions C15_lower_edge_refuted.

(* one ulp before the upper edge of the last bucket: the index is rounded to N *)
Theorem C15_upper_edge_refuted :
  let p := rest_particle 0x1.bffffffffffffp+0%float 5%float in
  let tr := tr_new 0%float 0.7%float 3 in
  wf p /\ integrateFieldTrace p near tr = Throw IOexc.
Proof. cbv zeta. split; [unfold wf; cbn; lia|]. vm_compute. reflexivity. Qed.
Print Assumptions C15_upper_edge_refuted.

(* a step which starts inside and ends more than 2^31 time steps after the
   start of the trace: conversion to int undefined *)
Theorem C15_far_signal_refuted : forall t0 dt ts1 ts2 f1 f2 (tr : ftrace R) nots,
  0 < dt -> 2147483648 <= (ts2 - t0) / dt -> ts1 <= t0 ->
  integrate_step t0 dt nots ts1 ts2 f1 f2 tr = UB.
Proof.
  intros t0 dt ts1 ts2 f1 f2 tr nots Hd H1 H2. unfold integrate_step.
  assert (X : to_int (nround (ndiv (nsub ts2 t0) dt)) = UB).
  { change (nround (ndiv (nsub ts2 t0) dt)) with (Some (Zround_away ((ts2 - t0) / dt))).
    unfold to_int, in_int. destruct int_bounds as [Bm BM].
    destruct (Z.leb_spec (Zround_away ((ts2 - t0) / dt)) int_max) as [L|L].
    - exfalso. pose proof (round_bounds ((ts2 - t0) / dt)) as (L1 & L2).
      apply IZR_le in L. rewrite BM in L. lra.
    - rewrite andb_false_r. reflexivity. }
  rewrite X. cbv zeta. destruct (nleb ts1 _); [reflexivity|].
  destruct (to_int (nround (ndiv (nsub ts1 t0) dt))) eqn:E; cbn [bind]; try reflexivity.
  all: unfold to_int in E; destruct (nround (ndiv (nsub ts1 t0) dt)) as [z|]; try discriminate;
    destruct (in_int z); discriminate.
Qed.
Print Assumptions C15_far_signal_refuted.
Example C15_far_ex : 0 < 1 /\ 2147483648 <= (2147483649 - 0) / 1 /\ 0 <= 0.
Proof. lra. Qed.

(* ---- C16 ---- *)
Theorem C16_at_sample : forall (tr : ftrace R) k f,
  0 < tr_dt tr -> (tr_N tr <= int_max)%Z -> nth_error (tr_f tr) k = Some f ->
  tr_at tr (sample_time tr (Z.of_nat k)) = Ok f.
Proof. exact trace_at_sample. Qed.
Print Assumptions C16_at_sample.

Theorem C16_between_samples : forall (tr : ftrace R) k f g t,
  0 < tr_dt tr -> (tr_N tr <= int_max)%Z ->
  nth_error (tr_f tr) k = Some f -> nth_error (tr_f tr) (S k) = Some g ->
  sample_time tr (Z.of_nat k) <= t <= sample_time tr (Z.of_nat (S k)) ->
  tr_at tr t =
    Ok (interp_field (sample_time tr (Z.of_nat k)) (sample_time tr (Z.of_nat (S k))) f g t).
Proof. exact trace_between. Qed.
Print Assumptions C16_between_samples.

(* Missing: the time steps just outside (refuted below) and times for which the
   index does not fit into an int. *)
Theorem C16_zero_outside_partial : forall (tr : ftrace R) t,
  0 < tr_dt tr -> (tr_N tr <= int_max)%Z ->
  -2147483648 <= (t - tr_t0 tr) / tr_dt tr < 2147483647 ->
  t <= tr_t0 tr - tr_dt tr \/ sample_time tr (tr_N tr) <= t ->
  tr_at tr t = Ok ezero.
Proof. exact trace_outside. Qed.
Print Assumptions C16_zero_outside_partial.

(* within one time step outside the first or last sample the code ramps to zero *)
Theorem C16_zero_outside_refuted : forall (tr : ftrace R) th,
  0 < tr_dt tr -> (1 <= tr_N tr <= int_max)%Z -> 0 < th < 1 ->
  (forall f, nth_error (tr_f tr) 0 = Some f ->
     tr_at tr (tr_t0 tr - th * tr_dt tr) = Ok (emul f (1 - th))) /\
  (forall f, nth_error (tr_f tr) (Z.to_nat (tr_N tr - 1)) = Some f ->
     tr_at tr (sample_time tr (tr_N tr - 1) + th * tr_dt tr) = Ok (emul f (1 - th))) /\
  (forall f, f <> ezero -> emul f (1 - th) <> ezero).
Proof.
  intros tr th Hd HN Hth. split; [intros; apply trace_ramp_up; auto; lia|].
  split; [intros; apply trace_ramp_down; auto; lia|].
  intros f Hf Hz. apply Hf. apply (f_equal (fun g => emul g (/ (1 - th)))) in Hz.
  replace (emul (emul f (1 - th)) (/ (1 - th))) with f in Hz.
  - rewrite Hz. generalize (/ (1 - th)). vring.
  - destruct f as [[a b c] [d e g]]. apply emf_eq; apply vec_eq; cbn; field; lra.
Qed.
Print Assumptions C16_zero_outside_refuted.

Theorem C16_far_time_refuted : forall (tr : ftrace R) t,
  (t - tr_t0 tr) / tr_dt tr < -2147483648 \/ 2147483648 <= (t - tr_t0 tr) / tr_dt tr ->
  tr_at tr t = UB.
Proof. exact trace_far. Qed.
Print Assumptions C16_far_time_refuted.
Example C16_ex : let f := EB (V 1 0 0) vzero in let tr := FT 0 2 [f; ezero] in
  0 < tr_dt tr /\ (1 <= tr_N tr <= int_max)%Z /\ nth_error (tr_f tr) 0 = Some f /\
  nth_error (tr_f tr) 1 = Some ezero /\ sample_time tr 0 <= 1 <= sample_time tr 1 /\
  sample_time tr (tr_N tr) <= 4 /\ 0 < / 2 < 1 /\ f <> ezero.
Proof.
  cbv zeta. cbn [tr_dt tr_f]. unfold sample_time, tr_N. cbn [tr_f length tr_t0 tr_dt].
  repeat split; try reflexivity; try (cbn; lra); try (cbn; lia).
  intros H. apply (f_equal (fun f => vx (fE f))) in H. cbn in H. lra.
Qed.
Example C16_far_ex : (2 ^ 32 - 0) / 1 >= 2147483648.
Proof. lra. Qed.

(* ---- C17 ---- *)
Theorem C17_sum : forall (a b : ftrace R),
  (same_sampling a b -> exists s, tr_add a b = Ok s /\ samplewise eadd a b s) /\
  (~ same_sampling a b -> tr_add a b = Throw IOexc).
Proof.
  intros a b. split.
  - intros H. destruct (combine_tr_defined eadd a b H) as [s E]. exists s. split; [exact E|].
    apply combine_tr_ok, E.
  - apply (combine_tr_refused eadd).
Qed.
Print Assumptions C17_sum.
Theorem C17_difference : forall (a b : ftrace R),
  (same_sampling a b -> exists s, tr_sub a b = Ok s /\ samplewise esub a b s) /\
  (~ same_sampling a b -> tr_sub a b = Throw IOexc).
Proof.
  intros a b. split.
  - intros H. destruct (combine_tr_defined esub a b H) as [s E]. exists s. split; [exact E|].
    apply combine_tr_ok, E.
  - apply (combine_tr_refused esub).
Qed.
Print Assumptions C17_difference.
Theorem C17_sum_then_difference : forall (a b s : ftrace R), tr_add a b = Ok s -> tr_sub s b = Ok a.
Proof. exact add_sub_cancel. Qed.
Print Assumptions C17_sum_then_difference.
Theorem C17_commutative : forall a b : ftrace R, tr_add a b = tr_add b a.
Proof. exact add_commutes. Qed.
Print Assumptions C17_commutative.
Theorem C17_associative : forall a b c : ftrace R,
  (s <- tr_add b c;; tr_add a s) = (s <- tr_add a b;; tr_add s c).
Proof. exact add_associates. Qed.
Print Assumptions C17_associative.
Theorem C17_scaling : forall (a b s : ftrace R) k l,
  (tr_add a b = Ok s -> tr_add (tr_mul a k) (tr_mul b k) = Ok (tr_mul s k)) /\
  tr_add (tr_mul a k) (tr_mul a l) = Ok (tr_mul a (k + l)) /\
  (k <> 0 -> tr_div (tr_mul a k) k = a).
Proof. intros. split; [apply mul_distributes|]. split; [apply scalar_sum|apply mul_div]. Qed.
Print Assumptions C17_scaling.
(* assignment copies timing and samples if the lengths agree and is refused otherwise *)
Theorem C17_assignment : forall {T} {NT : Num T} (a b : ftrace T),
  (length (tr_f a) = length (tr_f b) -> tr_assign a b = Ok b) /\
  (length (tr_f a) <> length (tr_f b) -> tr_assign a b = Throw IOexc).
Proof.
  intros T NT a b. unfold tr_assign, tr_N. 
  destruct (Z.eqb_spec (Z.of_nat (length (tr_f a))) (Z.of_nat (length (tr_f b)))); split; intros H; try lia; auto.
  destruct b; reflexivity.
Qed.
Print Assumptions C17_assignment.
Example C17_ex : same_sampling (tr_new 1 2 3) (tr_new 1 2 3) /\ ~ same_sampling (tr_new 1 2 3) (tr_new 1 3 3).
Proof. split; [repeat split|]. intros (_ & _ & H). cbn in H. lra. Qed.

(* ---- C18 ---- *)
Theorem C18_export : forall {T} {NT : Num T} (tr : ftrace T), tr_get_buffer tr (tr_N tr) = Ok (tr_f tr).
Proof. intros. apply export_all. Qed.
Print Assumptions C18_export.
Theorem C18_export_import : forall {T} {NT : Num T} (tr tr' : ftrace T) buf,
  tr_get_buffer tr (tr_N tr) = Ok buf -> tr_N tr' = tr_N tr ->
  tr_set_buffer tr' buf (tr_N tr) = Ok (FT (tr_t0 tr') (tr_dt tr') (tr_f tr)).
Proof.
  intros T NT tr tr' buf H HN. rewrite export_all in H. assert (buf = tr_f tr) by congruence. subst buf.
  rewrite <- HN. apply import_all. unfold tr_N in HN. lia.
Qed.
Print Assumptions C18_export_import.
Theorem C18_size_mismatch : forall {T} {NT : Num T} (tr : ftrace T) buf Nb, Nb <> tr_N tr ->
  tr_get_buffer tr Nb = Throw IOexc /\ tr_set_buffer tr buf Nb = Throw IOexc.
Proof. intros. apply buffer_mismatch. assumption. Qed.
Print Assumptions C18_size_mismatch.
Theorem C18_index_outside : forall {T} {NT : Num T} (tr : ftrace T) i f, ~ (0 <= i < tr_N tr)%Z ->
  tr_get tr i = Throw IOexc /\ tr_set tr i f = Throw IOexc /\ tr_acc tr i f = Throw IOexc /\
  tr_time tr i = Throw IOexc.
Proof. intros. apply access_outside. assumption. Qed.
Print Assumptions C18_index_outside.
Theorem C18_index_inside : forall {T} {NT : Num T} (tr : ftrace T) k f g,
  nth_error (tr_f tr) k = Some g ->
  tr_get tr (Z.of_nat k) = Ok g /\
  (exists tr', tr_set tr (Z.of_nat k) f = Ok tr' /\ same_sampling tr tr' /\
     nth_error (tr_f tr') k = Some f /\
     forall j, j <> k -> nth_error (tr_f tr') j = nth_error (tr_f tr) j) /\
  (exists tr', tr_acc tr (Z.of_nat k) f = Ok tr' /\ same_sampling tr tr' /\
     nth_error (tr_f tr') k = Some (eadd g f) /\
     forall j, j <> k -> nth_error (tr_f tr') j = nth_error (tr_f tr) j).
Proof. intros. apply access_inside. assumption. Qed.
Print Assumptions C18_index_inside.
(* a buffer with fewer samples than announced is read behind its end *)
Theorem C18_short_buffer : forall {T} {NT : Num T} (tr : ftrace T) buf, (length buf < length (tr_f tr))%nat ->
  tr_set_buffer tr buf (tr_N tr) = UB.
Proof.
  intros T NT [t0 dt l] buf H. unfold tr_set_buffer. rewrite Z.eqb_refl. cbn [tr_f] in *.
  assert (G : forall rest pre buf, (length buf < length rest)%nat ->
    tr_fill (length rest) (Z.of_nat (length pre)) buf (FT t0 dt (pre ++ rest)) = UB).
  { clear. induction rest as [|x rest IH]; intros pre buf H; [cbn in H; lia|]. cbn [length tr_fill]. destruct buf as [|f buf]; [reflexivity|].
    rewrite tr_set_inside.
    - cbn [bind tr_t0 tr_dt tr_f]. rewrite Nat2Z.id, lset_app. specialize (IH (pre ++ [f]) buf ltac:(cbn in H; lia)).
      rewrite app_length, <- !app_assoc in IH. cbn [length app] in IH.
      replace (Z.of_nat (length pre) + 1)%Z with (Z.of_nat (length pre + 1)) by lia. exact IH.
    - unfold tr_N. cbn [tr_f]. rewrite app_length. cbn [length]. lia. }
  exact (G l [] buf H).
Qed.
Print Assumptions C18_short_buffer.
Example C18_short_ex : (length (@nil (emf R)) < length (tr_f (tr_new (T:=R) 7%R 2%R 5)))%nat. Proof. cbn. lia. Qed.
Example C18_ex : nth_error (tr_f ex_trace) 2 = Some ezero /\ ~ (0 <= 5 < tr_N ex_trace)%Z /\
  4%Z <> tr_N ex_trace /\ tr_N (tr_new 7 2 5) = tr_N ex_trace.
Proof. repeat split; cbn; lia || reflexivity. Qed.

(* ---- C95 ---- *)
Theorem C95_times : forall (tr : ftrace R) k, (k < length (tr_f tr))%nat ->
  tr_time tr (Z.of_nat k) = Ok (tr_t0 tr + INR k * tr_dt tr)%R /\
  tr_last_time tr = Ok (tr_t0 tr + INR (length (tr_f tr) - 1) * tr_dt tr)%R.
Proof.
  intros tr k H. unfold tr_last_time, tr_time, tr_in, tr_N.
  destruct (Z.leb_spec 0 (Z.of_nat k)); [|lia]. destruct (Z.ltb_spec (Z.of_nat k) (Z.of_nat (length (tr_f tr)))); [|lia].
  destruct (Z.ltb_spec 0 (Z.of_nat (length (tr_f tr)))); [|lia].
  destruct (Z.leb_spec 0 (Z.of_nat (length (tr_f tr)) - 1)); [|lia].
  destruct (Z.ltb_spec (Z.of_nat (length (tr_f tr)) - 1) (Z.of_nat (length (tr_f tr)))); [|lia]. cbn [andb]. split.
  - unnum. rewrite <- INR_IZR_INZ. reflexivity.
  - replace (Z.of_nat (length (tr_f tr)) - 1)%Z with (Z.of_nat (length (tr_f tr) - 1)) by lia. unnum. rewrite <- INR_IZR_INZ. reflexivity.
Qed.
Print Assumptions C95_times.
(* an empty trace has no times; the last time given is the start time *)
Theorem C95_empty : forall {T} {NT : Num T} (tr : ftrace T), tr_f tr = [] -> tr_last_time tr = Ok (tr_t0 tr) /\ forall i, tr_time tr i = Throw IOexc.
Proof.
  intros T NT tr H. unfold tr_last_time, tr_time, tr_in, tr_N. rewrite H. cbn [length]. split; [reflexivity|].
  intros i. change (Z.of_nat 0) with 0%Z. destruct (Z.leb_spec 0 i); destruct (Z.ltb_spec i 0); try lia; reflexivity.
Qed.
Print Assumptions C95_empty.
(* Violation: the center time is half a time step later than the mean of the first and the last time. *)
Theorem C95_center_refuted : forall (tr : ftrace R) t, tr_last_time tr = Ok t -> (0 < length (tr_f tr))%nat ->
  tr_center_time tr = ((tr_t0 tr + t) / 2 + tr_dt tr / 2)%R /\ (tr_dt tr <> 0%R -> tr_center_time tr <> ((tr_t0 tr + t) / 2)%R).
Proof.
  intros tr t E H. destruct (C95_times tr 0 H) as [_ L]. rewrite L in E. apply Ok_inj in E. subst t.
  assert (K : tr_center_time tr = (tr_t0 tr + / 2 * tr_dt tr * INR (length (tr_f tr)))%R).
  { unfold tr_center_time, tr_N, nhalf. unnum. rewrite <- INR_IZR_INZ. field. }
  rewrite K, minus_INR by lia. cbn [INR]. split; [field|]. intros D Q. apply D. lra.
Qed.
Print Assumptions C95_center_refuted.
Example C95_ex : exists t, tr_last_time (tr_new (T:=R) 7%R 2%R 5) = Ok t /\ (0 < length (tr_f (tr_new (T:=R) 7%R 2%R 5)))%nat /\ tr_dt (tr_new (T:=R) 7%R 2%R 5) <> 0%R.
Proof. eexists. split; [reflexivity|]. split; [cbn; lia|]. cbn. lra. Qed.

(* ---- C19 ---- *)
Theorem C19_linear_signal : forall (tr : ftrace R) a b, tr_dt tr <> 0 -> (2 <= length (tr_f tr))%nat ->
  samples_of tr (linear_signal a b) ->
  exists d, tr_derivative tr = Ok d /\ same_sampling tr d /\
    forall k x, nth_error (tr_f d) k = Some x -> x = b.
Proof. exact derivative_linear. Qed.
Print Assumptions C19_linear_signal.
Theorem C19_quadratic_signal : forall (tr : ftrace R) a b c, tr_dt tr <> 0 -> (2 <= length (tr_f tr))%nat ->
  samples_of tr (quadratic_signal a b c) ->
  exists d, tr_derivative tr = Ok d /\ same_sampling tr d /\
    forall k x, (0 < k < length (tr_f tr) - 1)%nat -> nth_error (tr_f d) k = Some x ->
      x = linear_signal b (emul c 2) (sample_time tr (Z.of_nat k)).
Proof. exact derivative_quadratic. Qed.
Print Assumptions C19_quadratic_signal.
Theorem C19_defined_partial : forall {T} {NT : Num T} (tr : ftrace T), (2 <= length (tr_f tr))%nat ->
  exists d, tr_derivative tr = Ok d /\ same_sampling tr d.
Proof. intros T NT tr H. destruct (derivative_samples tr H) as (d & E & S & _). eauto. Qed.
Print Assumptions C19_defined_partial.
(* traces with fewer than two samples: access outside the trace *)
Theorem C19_short_trace_refuted : forall {T} {NT : Num T} (tr : ftrace T),
  (length (tr_f tr) < 2)%nat -> tr_derivative tr = UB.
Proof. intros. apply derivative_short. assumption. Qed.
Print Assumptions C19_short_trace_refuted.
Example C19_ex : let b := EB (V 1 2 3) (V 4 5 6) in
  let tr := FT 0 1 [ezero; b; emul b 2] in
  tr_dt tr <> 0 /\ (2 <= length (tr_f tr))%nat /\ samples_of tr (linear_signal ezero b) /\
  samples_of tr (quadratic_signal ezero b ezero).
Proof.
  cbv zeta. split; [cbn; lra|]. split; [cbn; lia|].
  split; intros [|[|[|k]]] f H; cbn in H; try (destruct k; discriminate); injection H as <-;
    apply emf_eq; apply vec_eq; unfold sample_time; cbn; lra.
Qed.

(* ---- C20 ---- *)
Theorem C20_samples : forall (tr target out : ftrace R) delta,
  tr_retard tr delta target = Ok out ->
  same_sampling target out /\
  (forall k f, nth_error (tr_f out) k = Some f ->
     tr_at tr (sample_time target (Z.of_nat k) - delta) = Ok f) /\
  tr_poynting out <> vzero.
Proof. exact retard_samples. Qed.
Print Assumptions C20_samples.

(* if all signals exist the result is the trace of these signals, refused exactly
   if it transports no energy *)
Theorem C20_refused_without_energy : forall (tr target : ftrace R) delta vals,
  length vals = length (tr_f target) ->
  (forall k f, nth_error vals k = Some f -> tr_at tr (sample_time target (Z.of_nat k) - delta) = Ok f) ->
  let out := FT (tr_t0 target) (tr_dt target) vals in
  (tr_poynting out <> vzero -> tr_retard tr delta target = Ok out) /\
  (tr_poynting out = vzero -> tr_retard tr delta target = Throw IOexc).
Proof. exact retard_total. Qed.
Print Assumptions C20_refused_without_energy.

Theorem C20_identity : forall (tr target : ftrace R),
  0 < tr_dt tr -> (tr_N tr <= int_max)%Z -> same_sampling tr target -> tr_poynting tr <> vzero ->
  tr_retard tr 0 target = Ok tr.
Proof.
  intros tr target Hd HN SS Hp.
  destruct (retard_shift tr target 0 Hd HN SS) as [H _]; [unfold int_max; lia|lia|].
  rewrite shifted_0 in H. replace (IZR 0 * tr_dt tr) with 0 in H by ring.
  destruct SS as (L & E0 & ED). rewrite <- E0, <- ED in H. destruct tr as [t0 dt l]. cbn in *.
  apply H. exact Hp.
Qed.
Print Assumptions C20_identity.

Theorem C20_shift : forall (tr target out : ftrace R) m,
  0 < tr_dt tr -> (tr_N tr <= int_max)%Z -> same_sampling tr target ->
  (- int_max < m < int_max)%Z -> (tr_N tr - m <= int_max)%Z ->
  tr_retard tr (IZR m * tr_dt tr) target = Ok out ->
  same_sampling tr out /\
  forall k f, nth_error (tr_f out) k = Some f ->
    (forall g, (m <= Z.of_nat k)%Z -> nth_error (tr_f tr) (Z.to_nat (Z.of_nat k - m)) = Some g -> f = g) /\
    ((Z.of_nat k < m)%Z \/ nth_error (tr_f tr) (Z.to_nat (Z.of_nat k - m)) = None -> f = ezero).
Proof.
  intros tr target out m Hd HN SS Hm Hm2 E.
  pose proof (retard_shift tr target m Hd HN SS Hm Hm2) as [H1 H2]. cbv zeta in H1, H2.
  destruct SS as (L & E0 & ED).
  set (o := FT (tr_t0 target) (tr_dt target) (shifted (tr_f tr) m)) in *.
  assert (out = o).
  { destruct (Req_dec (vnorm (tr_poynting o)) 0) as [Z|Z].
    - apply vnorm_zero_iff in Z. rewrite (H2 Z) in E. discriminate.
    - rewrite H1 in E; [congruence|]. intros Z'. apply Z. rewrite Z'. apply vnorm_zero_iff. reflexivity. }
  subst out. unfold o. split.
  - repeat split; cbn; auto. unfold shifted. rewrite map_length, zseq_length. reflexivity.
  - intros k f Hf. cbn in Hf. unfold shifted in Hf. rewrite nth_error_map in Hf.
    destruct (nth_error (zseq 0 (length (tr_f tr))) k) as [z|] eqn:Ez; [|discriminate].
    assert (Hk : (k < length (tr_f tr))%nat) by (apply in_range in Ez; rewrite zseq_length in Ez; exact Ez).
    rewrite zseq_nth in Ez by exact Hk. assert (z = Z.of_nat k) by (injection Ez as <-; lia). subst z.
    cbn [option_map] in Hf. split.
    + intros g Hmk Hg. destruct (Z.ltb_spec (Z.of_nat k - m) 0); [lia|].
      rewrite (nth_error_nth _ _ _ Hg) in Hf. congruence.
    + intros [Hmk|Hnone].
      * destruct (Z.ltb_spec (Z.of_nat k - m) 0); [|lia]. congruence.
      * apply nth_error_None in Hnone. destruct (Z.ltb_spec (Z.of_nat k - m) 0); [congruence|].
        rewrite nth_overflow in Hf by lia. congruence.
Qed.
Print Assumptions C20_shift.
Example C20_ex : let f := EB (V 1 0 0) (V 0 1 0) in let tr := FT 0 1 [f; f] in
  0 < tr_dt tr /\ (tr_N tr <= int_max)%Z /\ same_sampling tr (tr_new 0 1 2) /\ tr_poynting tr <> vzero /\
  (- int_max < 1 < int_max)%Z /\ (tr_N tr - 1 <= int_max)%Z /\
  exists out, tr_retard tr (IZR 1 * tr_dt tr) (tr_new 0 1 2) = Ok out.
Proof.
  assert (M : 0 < / (4 * PI / 10000000)).
  { apply Rinv_0_lt_compat. pose proof PI_RGT_0. lra. }
  cbv zeta. set (f := EB (V 1 0 0) (V 0 1 0)). set (tr := FT 0 1 [f; f]).
  assert (D : 0 < tr_dt tr) by (cbn; lra). assert (NN : (tr_N tr <= int_max)%Z) by (cbn; lia).
  assert (SS : same_sampling tr (tr_new 0 1 2)) by (repeat split).
  split; [exact D|]. split; [exact NN|]. split; [exact SS|]. split.
  { intros H. apply (f_equal vz) in H. unfold tr, f, tr_poynting, epoynting in H. cbn in H. unfold Rdiv in H. lra. }
  split; [unfold int_max; lia|]. split; [cbn; lia|].
  destruct (retard_shift tr (tr_new 0 1 2) 1 D NN SS) as [H _]; [unfold int_max; lia|cbn; lia|].
  eexists. apply H.
  intros H0. apply (f_equal vz) in H0. unfold tr, f, tr_poynting, epoynting in H0. cbn in H0. unfold Rdiv in H0. lra.
Qed.

(* ---- C21 ---- *)
Theorem C21_transform_invariants : forall (tr : ftrace R) ex ey ez, right_handed ex ey ez ->
  let tr' := tr_transform tr ex ey ez in
  same_sampling tr tr' /\
  forall k f f', nth_error (tr_f tr) k = Some f -> nth_error (tr_f tr') k = Some f' ->
    vnorm (fE f') = vnorm (fE f) /\ vnorm (fB f') = vnorm (fB f) /\
    vdot (fE f') (fB f') = vdot (fE f) (fB f) /\ vnorm (epoynting f') = vnorm (epoynting f).
Proof.
  intros tr ex ey ez H tr'. split.
  - repeat split. cbn. rewrite map_length. reflexivity.
  - intros k f f' Hf Hf'. destruct (tr_transform_nth _ _ _ _ _ _ Hf') as (g & G & ->).
    assert (g = f) by congruence. subst g. apply transform_invariants. exact H.
Qed.
Print Assumptions C21_transform_invariants.

(* the components in the new frame: the field is recovered from them *)
Theorem C21_transform_components : forall (tr : ftrace R) ex ey ez k f,
  nth_error (tr_f tr) k = Some f ->
  nth_error (tr_f (tr_transform tr ex ey ez)) k =
    Some (EB (V (vdot (fE f) ex) (vdot (fE f) ey) (vdot (fE f) ez))
             (V (vdot (fB f) ex) (vdot (fB f) ey) (vdot (fB f) ez))).
Proof. intros tr ex ey ez k f H. unfold tr_transform. cbn [tr_f]. rewrite nth_error_map, H. reflexivity. Qed.
Print Assumptions C21_transform_components.

Theorem C21_cancel : forall (tr : ftrace R) n, n <> vzero ->
  let tr' := tr_cancel tr n in
  same_sampling tr tr' /\
  (forall k f f', nth_error (tr_f tr) k = Some f -> nth_error (tr_f tr') k = Some f' ->
     vdot (fE f') n = 0 /\ vdot (fB f') n = 0 /\
     forall u, vdot u n = 0 -> vdot (fE f') u = vdot (fE f) u /\ vdot (fB f') u = vdot (fB f) u) /\
  tr_cancel tr' n = tr'.
Proof.
  intros tr n Hn tr'. split; [repeat split; cbn; rewrite map_length; reflexivity|].
  split; [|apply cancel_idempotent; exact Hn].
  intros k f f' Hf Hf'. destruct (tr_cancel_nth _ _ _ _ Hf') as (g & G & ->).
  assert (g = f) by congruence. subst g. cbn [fE fB].
  pose proof (vnormalize_abs2 n Hn) as H1. pose proof (vnorm_pos n Hn) as Hp.
  destruct (cancel_unit _ (fE f) H1) as (E1 & E2 & _). destruct (cancel_unit _ (fB f) H1) as (B1 & B2 & _).
  assert (Hdir : forall v, vdot v (vnormalize n) = vdot v n / vnorm n).
  { intros v. rewrite vnormalize_div, vdot_div_r. reflexivity. }
  assert (Hz : forall v, vdot v (vnormalize n) = 0 -> vdot v n = 0).
  { intros v Hv. rewrite Hdir in Hv. unfold Rdiv in Hv. apply Rmult_integral in Hv.
    destruct Hv as [Hv|Hv]; [exact Hv|]. pose proof (Rinv_0_lt_compat _ Hp). lra. }
  split; [apply Hz, E1|]. split; [apply Hz, B1|].
  intros u Hu. assert (Hu' : vdot u (vnormalize n) = 0) by (rewrite Hdir, Hu; unfold Rdiv; ring).
  split; [apply E2, Hu'|apply B2, Hu'].
Qed.
Print Assumptions C21_cancel.
Example C21_ex : right_handed (V 1 0 0) (V 0 1 0) (V 0 0 1) /\ V 0 0 1 <> vzero.
Proof.
  split; [unfold right_handed; cbn; repeat split; try lra; apply vec_eq; cbn; lra|].
  intros H. apply (f_equal vz) in H. cbn in H. lra.
Qed.
