(* Properties with the rounding of double precision: C04, C05, C57. *)
From Coq Require Import ZArith Reals String List Bool Lia Lra Floats.
From Flocq Require Import Core.
From Verif Require Import Base BaseFacts Num NumFloat FloatFacts FloatFacts2 VecModel ParticleModel ParticleSpec ParticleProofs BunchModel
  FloatTrack FloatSum ParserModel ParserSpec PropParser.
Import ListNotations.
Local Open Scope R_scope.

(* a particle which is tracked, for the examples *)
Definition fl_start : particle flt := initTrajectory 0%float vzero (V 0 0 5)%float vzero (new_particle (-1)%float 1%float).
Definition fl_dt : flt := 0x1p-40%float.
Definition fl_init : particle flt := match InitVay fl_dt free_field fl_start with Ok p => p | _ => fl_start end.
Lemma fl_init_ok : InitVay fl_dt free_field fl_start = Ok fl_init.
Proof. unfold fl_init. destruct (InitVay fl_dt free_field fl_start) eqn:E; [reflexivity| | |]; vm_compute in E; discriminate E. Qed.
Lemma fl_wf : wf fl_start.
Proof. unfold wf, fl_start, initTrajectory. cbn. lia. Qed.
Lemma fl_dt_ok : fin fl_dt /\ FR fl_dt = bpow radix2 (-40).
Proof.
  destruct (FR_lit fl_dt 4503599627370496 (-92) eq_refl) as [F E]. split; [exact F|]. rewrite E.
  change 4503599627370496 with (bpow radix2 52). rewrite <- bpow_plus. reflexivity.
Qed.

(* ==== C05 ==== *)
(* The stored times of a tracked particle in double precision: equidistant up to the sum of
   the rounding errors of the additions. *)
Theorem C05_double : forall (dt : flt) F n k p q,
  tracked dt p -> StepsVay F n p = Ok q -> (k <= n)%nat ->
  fin dt -> fin (pt p) -> (Z.of_nat n <= 2 ^ 51)%Z -> Rabs (FR (pt p)) + INR n * Rabs (FR dt) <= bpow radix2 1022 ->
  exists a, nth_error (trajectory q) (length (trajectory p) - 1 + k) = Some a /\ fin (tpt a) /\
    Rabs (FR (tpt a) - (FR (pt p) + INR k * FR dt)) <= INR k * bpow radix2 (-52) * (Rabs (FR (pt p)) + INR n * Rabs (FR dt)).
Proof. exact double_times. Qed.
Print Assumptions C05_double.
(* They never decrease. *)
Theorem C05_double_order : forall (dt : flt) F n k p q,
  tracked dt p -> StepsVay F n p = Ok q -> (k < n)%nat ->
  fin dt -> 0 <= FR dt -> fin (pt p) -> (Z.of_nat n <= 2 ^ 51)%Z -> Rabs (FR (pt p)) + INR n * Rabs (FR dt) <= bpow radix2 1021 ->
  exists a b, nth_error (trajectory q) (length (trajectory p) - 1 + k) = Some a /\
    nth_error (trajectory q) (length (trajectory p) - 1 + S k) = Some b /\ FR (tpt a) <= FR (tpt b).
Proof. exact double_times_up. Qed.
Print Assumptions C05_double_order.
Example C05_double_ex : exists q, tracked fl_dt fl_init /\ StepsVay free_field 3 fl_init = Ok q /\ fin fl_dt /\ 0 <= FR fl_dt /\ fin (pt fl_init) /\
  Rabs (FR (pt fl_init)) + INR 3 * Rabs (FR fl_dt) <= bpow radix2 1021.
Proof.
  destruct fl_dt_ok as [F V]. destruct (StepsVay free_field 3 fl_init) as [q| | |] eqn:E; [|vm_compute in E; discriminate E..]. exists q.
  split; [exists fl_start, fl_init, free_field, []; split; [exact fl_wf|]; split; [exact fl_init_ok|reflexivity]|]. split; [reflexivity|]. split; [exact F|].
  pose proof (bpow_gt_0 radix2 (-40)) as P. split; [rewrite V; lra|]. change (pt fl_init) with (f_ofZ 0). destruct (ofZ_ok 0 ltac:(lia)) as [F0 V0]. split; [exact F0|].
  rewrite V0, V, Rabs_R0, Rabs_pos_eq by lra. apply Rle_trans with (4 * bpow radix2 (-40)); [cbn [INR]; lra|]. change 4 with (bpow radix2 2). rewrite <- bpow_plus. apply bp_le. lia.
Qed.

(* ==== C04 ==== *)
(* Field-free motion in double precision: the momentum stays exactly the same, the acceleration is
   exactly zero, and the position stays on the straight line up to rounding. *)
Theorem C04_double : forall (dt : flt) n k p p1 q L,
  wf p -> InitVay dt free_field p = Ok p1 -> StepsVay free_field n p1 = Ok q -> (k <= n)%nat -> (Z.of_nat n <= 2 ^ 51)%Z ->
  fin dt -> Rabs (FR dt) <= bpow radix2 500 -> finv (pP p1) -> below 250 (pP p1) -> fin (pqm p1) -> fin (pqmt2 p1) -> finv (pX p1) ->
  Rabs (FR (vx (pX p1))) + INR n * (299792458 * Rabs (FR dt)) <= L -> Rabs (FR (vy (pX p1))) + INR n * (299792458 * Rabs (FR dt)) <= L ->
  Rabs (FR (vz (pX p1))) + INR n * (299792458 * Rabs (FR dt)) <= L -> L <= bpow radix2 1000 ->
  exists a, nth_error (trajectory q) (length (trajectory p1) - 1 + k) = Some a /\ FV (tpp a) = FV (pP p1) /\ FV (tpa a) = V 0 0 0 /\ finv (tpx a) /\
    near3 (FV (tpx a)) (vadd (FV (pX p1)) (vmul (vdiv (FV (pP p1)) (R_sqrt.sqrt (1 + vabs2 (FV (pP p1))))) (INR k * (299792458 * FR dt))))
      (INR k * (bpow radix2 (-47) * L + 2 * eta)).
Proof. exact double_free. Qed.
Print Assumptions C04_double.
Example C04_double_ex : exists q, wf fl_start /\ InitVay fl_dt free_field fl_start = Ok fl_init /\ StepsVay free_field 3 fl_init = Ok q /\
  finv (pP fl_init) /\ below 250 (pP fl_init) /\ fin (pqm fl_init) /\ fin (pqmt2 fl_init) /\ finv (pX fl_init) /\ FV (pX fl_init) = V 0 0 0.
Proof.
  destruct (StepsVay free_field 3 fl_init) as [q| | |] eqn:E; [|vm_compute in E; discriminate E..]. exists q.
  split; [exact fl_wf|]. split; [exact fl_init_ok|]. split; [reflexivity|].
  change (pP fl_init) with (V 0 0 5)%float. change (pX fl_init) with (@vzero flt NumF).
  assert (Z : fin (f_ofZ 0) /\ FR (f_ofZ 0) = 0) by (apply (ofZ_ok 0); lia). assert (Z5 : fin 5%float /\ FR 5%float = 5) by (apply (ofZ_ok 5); lia). destruct Z as [Z1 Z2].
  split; [split; [exact Z1|split; [exact Z1|apply Z5]]|]. split.
  { unfold below. cbn [vx vy vz]. change 0%float with (f_ofZ 0). destruct Z5 as [_ ->]. rewrite Z2, Rabs_R0. split; [apply bpow_ge_0|]. split; [apply bpow_ge_0|].
    rewrite Rabs_pos_eq by lra. apply Rle_trans with (bpow radix2 3); [cbn; lra|apply bp_le; lia]. }
  split; [apply fin_compute; vm_compute; reflexivity|]. split; [apply fin_compute; vm_compute; reflexivity|].
  split; [split; [exact Z1|split; exact Z1]|]. unfold FV, vzero. cbn [vx vy vz]. change (nZ 0) with (f_ofZ 0). rewrite Z2. reflexivity.
Qed.

(* ==== C57 ==== *)
(* The total charge of a bunch in double precision. *)
Theorem C57_double : forall (CT : Calc flt) (WT : World flt) i n (b b' : pbeam (T:=flt)) s s',
  p_bunch i n b s = (s', Ok b') -> (1 <= n_attr n <= 357913941)%Z ->
  fin (num_attr (psEnv s) n "charge") -> bpow radix2 (-800) <= Rabs (FR (num_attr (psEnv s) n "charge")) <= bpow radix2 800 ->
  exists bu, bmB (pbBeam b') = (bmB (pbBeam b) ++ [bu]) /\ Z.of_nat (length bu) = n_attr n /\ fin (bunch_charge bu) /\
    Rabs (FR (bunch_charge bu) - FR (num_attr (psEnv s) n "charge")) <= (IZR (n_attr n) + 4) * bpow radix2 (-52) * Rabs (FR (num_attr (psEnv s) n "charge")).
Proof. exact bunch_total. Qed.
Print Assumptions C57_double.
Example C57_double_ex : forall s, exists (CT : Calc flt) (WT : World flt) n s' b',
  p_bunch 0 n (PB beam_new [] (PI false "" 0 0)) s = (s', Ok b') /\ n_attr n = 7%Z /\ num_attr (psEnv s) n "charge" = f_ofZ 1 /\
  (fin (f_ofZ 1) /\ bpow radix2 (-800) <= Rabs (FR (f_ofZ 1)) <= bpow radix2 800).
Proof.
  intros s. exists (toy_calc flt NumF), (toy_world flt NumF), (two_bunch "7"). do 2 eexists.
  split; [vm_compute; reflexivity|]. split; [reflexivity|]. split; [reflexivity|]. destruct one_ok as [F ->]. split; [exact F|]. rewrite Rabs_pos_eq by lra.
  change 1 with (bpow radix2 0). split; apply bp_le; lia.
Qed.
