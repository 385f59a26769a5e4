(* C32 and C33: for which numbers of particles and processes the sizes of the buffers overflow. *)
From Coq Require Import ZArith Reals List Lia Bool.
From Verif Require Import Base BaseFacts Num VecModel ParticleModel ParticleSpec ParticleProofs BunchModel BunchSpec BeamSpec
  BeamProofs DistProofs DriverModel DriverSpec DriverProofs DriverProofs2 DriverProofs3 DriverProofs4 PropDriver.
From Verif Require LoggerProofs4.
Import ListNotations.
Local Open Scope Z_scope.

(* Exactly these: N + P or 10 P ceil(N/P) is not an int. *)
Theorem C32_overflow_iff_refuted : forall (T : Type) (NT : Num T) P (bm : beam T), 0 < P ->
  let N := Z.of_nat (length (concat (bmB bm))) in
  driver_sizes P bm = UB <-> 2 ^ 31 - 1 < N + P \/ 2 ^ 31 - 1 < 10 * P * ((N + P - 1) / P).
Proof.
  intros T NT P bm HP. cbv zeta. rewrite (driver_sizes_UB P bm HP). unfold share, count, int_max.
  replace (10 * ((Z.of_nat (length (concat (bmB bm))) + P - 1) / P * P)) with (10 * P * ((Z.of_nat (length (concat (bmB bm))) + P - 1) / P)) by ring.
  reflexivity.
Qed.
Print Assumptions C32_overflow_iff_refuted.

(* Then the run has no defined result.  This depends on the number of nodes: 214748364 particles can
   be tracked on one node, on 1000 nodes the same input has undefined behaviour. *)
Theorem C33_overflow_refuted : forall (T : Type) (NT : Num T) (L : Type) (Fof : L -> field_fn T)
    (linit lstep : beam T -> L -> res L) NOTS lat bm0 bms n,
  let P := Z.of_nat (length bms) in let N := Z.of_nat (length (concat (bmB bm0))) in
  hd_error bms = Some bm0 -> 2 ^ 31 - 1 < N + P \/ 2 ^ 31 - 1 < 10 * P * ((N + P - 1) / P) ->
  driver_run Fof linit lstep P NOTS lat bms n = UB.
Proof.
  intros T NT L Fof linit lstep NOTS lat bm0 bms n P N HH HO.
  assert (E : driver_sizes P bm0 = UB).
  { apply (proj2 (C32_overflow_iff_refuted T NT P bm0 ltac:(destruct bms; [discriminate|]; unfold P; cbn [length]; lia))). exact HO. }
  unfold driver_run, driver_start. destruct bms as [|b bms]; [discriminate|]. cbn [hd_error] in HH. injection HH as ->.
  rewrite E. reflexivity.
Qed.
Print Assumptions C33_overflow_refuted.
Theorem C33_number_of_nodes_refuted : forall q : particle R, exists bm : beam R,
  (exists ns, driver_run (fun _ _ _ => Ok ezero) (fun _ (l : unit) => Ok l) (fun _ l => Ok l) 1 1 tt [bm] 1 = Ok ns) /\
  driver_run (fun _ _ _ => Ok ezero) (fun _ (l : unit) => Ok l) (fun _ l => Ok l) 1000 1 tt (repeat bm (Z.to_nat 1000)) 1 = UB.
Proof.
  intros q. assert (B : exists bm : beam R, Z.of_nat (length (concat (bmB bm))) = 214748364 /\ bmTracker bm = TRACKING_VAY).
  { assert (K : forall n, 0 <= n -> exists bm : beam R, Z.of_nat (length (concat (bmB bm))) = n /\ bmTracker bm = TRACKING_VAY).
    { intros n Hn. exists (BM [repeat q (Z.to_nat n)] 0 0%R TRACKING_VAY). split; [|reflexivity].
      cbn [bmB concat]. rewrite app_nil_r, repeat_length, Z2Nat.id by exact Hn. reflexivity. }
    apply K. lia. }
  destruct B as (bm & C & HT). exists bm.
  assert (S : same_input bm bm).
  { split; [reflexivity|]. split; [reflexivity|]. split; [reflexivity|]. generalize (concat (bmB bm)). intros l. unfold same_but_start.
    induction l; constructor; [repeat split|assumption]. }
  split.
  - assert (H1 : count bm + 1 <= int_max) by (unfold count, int_max; rewrite C; lia).
    assert (H2 : 10 * (share (count bm) 1 * 1) <= int_max) by (unfold share, count, int_max; rewrite C; cbn; lia).
    assert (H3 : 0 <= 1 < int_max) by (unfold int_max; lia).
    pose proof (C33_same_as_one_process_partial R _ unit (fun _ _ _ => Ok ezero) (fun _ l => Ok l) (fun _ l => Ok l) 1 tt bm [bm] 1
      eq_refl ltac:(constructor; [exact S|constructor]) H1 H2 H3 ltac:(lia)) as A.
    change (Z.of_nat (length [bm])) with 1 in A.
    destruct (LoggerProofs4.sim_exists (fun _ _ _ => Ok ezero) (fun _ (l : unit) => Ok l) (fun _ l => Ok l)
      ltac:(intros; exists ezero; reflexivity) ltac:(intros b l; exists l; reflexivity) ltac:(intros b l; exists l; reflexivity) 1 tt bm 1 HT) as [s E].
    rewrite E in A. destruct (driver_run _ _ _ _ _ _ _ _) as [ns| | |]; cbn [same_outcome] in A; try contradiction. eauto.
  - assert (HL : Z.of_nat (length (repeat bm (Z.to_nat 1000))) = 1000) by (rewrite repeat_length, Z2Nat.id by lia; reflexivity).
    rewrite <- HL at 1. apply (C33_overflow_refuted _ _ _ _ _ _ _ _ bm).
    + replace (Z.to_nat 1000) with (Datatypes.S (Z.to_nat 999)) by lia. reflexivity.
    + rewrite HL, C. right. reflexivity.
Qed.
Print Assumptions C33_number_of_nodes_refuted.
Example C33_overflow_ex : 2 ^ 31 - 1 < 10 * 1000 * ((214748364 + 1000 - 1) / 1000) /\ ~ (2 ^ 31 - 1 < 10 * 1 * ((214748364 + 1 - 1) / 1)).
Proof. split; [reflexivity|]. intros H. vm_compute in H. discriminate. Qed.
