(* The parallel program: C32, C33, C39. *)
From Coq Require Import ZArith Reals List Lia Bool.
From Verif Require Import Base BaseFacts Num VecModel ParticleModel ParticleSpec ParticleProofs BunchModel BunchSpec BeamSpec
  BeamProofs DistProofs DriverModel DriverSpec DriverProofs DriverProofs2 DriverProofs3.
From Verif Require LoggerProofs4.
Import ListNotations.
Local Open Scope Z_scope.

Definition ex_q (k : Z) : particle R := initTrajectory (IZR k) (V 1 2 3)%R (V 0 0 5)%R vzero (new_particle (-1)%R 1%R).
Definition ex_bm : beam R := BM [[ex_q 1; ex_q 2]; []; [ex_q 3]] 4 (1%R) TRACKING_VAY.

(* ==== C32 ==== *)
(* Whenever the program gets past the computation of the sizes: the chunks of the nodes
   0..P-1, one after the other, are (copies of) all particles in order; no node has more
   than ceil(N/P) of them; no other node would get any.
   Partial: the sizes are int, see the next two theorems. *)
Theorem C32_distribution_partial : forall (T : Type) (NT : Num T) P (bm : beam T) tn t m n,
  0 < P -> driver_sizes P bm = Ok (tn, t, m) -> 0 <= n ->
  Forall (fun p => pNpre p = Some n /\ 1 <= pNP p) (concat (bmB bm)) ->
  (exists cs, map_res (fun r => driver_chunk r tn n (concat (bmB bm)) 0 0) (zseq 0 (Z.to_nat P)) = Ok cs /\
     concat cs = map no_field (concat (bmB bm)) /\
     Forall (fun c => Z.of_nat (length c) <= share (count bm) P) cs) /\
  (forall r, r < 0 \/ P <= r -> driver_chunk r tn n (concat (bmB bm)) 0 0 = Ok []).
Proof.
  intros T NT P bm tn t m n HP H Hn HF. apply driver_sizes_inv in H; [|exact HP]. destruct H as (-> & _ & _).
  apply (distribution_ok P (count bm)); auto.
Qed.
Print Assumptions C32_distribution_partial.
(* ceil(N/P): sufficient and the least such number *)
Theorem C32_share : forall N P, 0 <= N -> 0 < P ->
  N <= share N P * P /\ forall k, N <= k * P -> share N P <= k.
Proof. intros N P HN HP. split; [apply share_bounds; assumption|]. intros k H. apply share_least; assumption. Qed.
Print Assumptions C32_share.
(* the sizes are computed without overflow up to 2^31 values in the buffer *)
Theorem C32_sizes : forall (T : Type) (NT : Num T) P (bm : beam T),
  0 < P -> count bm + P <= int_max -> 10 * (share (count bm) P * P) <= int_max ->
  driver_sizes P bm = Ok (share (count bm) P, share (count bm) P * 10, share (count bm) P * P * 10).
Proof. intros; apply driver_sizes_ok; assumption. Qed.
Print Assumptions C32_sizes.
(* for more particles the size computation overflows *)
Theorem C32_overflow_refuted : forall (T : Type) (NT : Num T) P (bm : beam T),
  0 < P -> int_max < 10 * count bm -> driver_sizes P bm = UB.
Proof. intros; apply driver_sizes_overflow; assumption. Qed.
Print Assumptions C32_overflow_refuted.
Example C32_ex : 0 < 2 /\ driver_sizes 2 ex_bm = Ok (2, 20, 40) /\ 10 * (share (count ex_bm) 2 * 2) <= int_max /\
  (forall p : particle R, exists P (bm : beam R), 0 < P /\ int_max < 10 * count bm).
Proof.
  split; [lia|]. split; [reflexivity|]. split; [unfold int_max; cbn; lia|]. intros p.
  exists 1, (BM [repeat p (Z.to_nat 214748365)] 0 0%R TRACKING_VAY). split; [lia|]. unfold count. cbn [bmB concat].
  rewrite app_nil_r, repeat_length, Z2Nat.id by lia. unfold int_max. lia.
Qed.

(* ==== C33 ==== *)
(* The run of the program on P nodes ends in the same way as the tracking of all
   particles by one process without communication; if it succeeds then on every node the
   recorded beam and the fields are identical to those of the single process, and the
   particles tracked by the nodes are, one after the other, the particles tracked by the
   single process.  In particular no indeterminate buffer element is used.  The beams
   created by the nodes may have different coordinates (random numbers); those of node 0
   are used. *)
Theorem C33_same_as_one_process_partial : forall (T : Type) (NT : Num T) (L : Type) (Fof : L -> field_fn T)
    (linit lstep : beam T -> L -> res L) NOTS lat bm0 bms n,
  let P := Z.of_nat (length bms) in
  hd_error bms = Some bm0 -> Forall (same_input bm0) bms ->
  count bm0 + P <= int_max -> 10 * (share (count bm0) P * P) <= int_max -> 0 <= NOTS < int_max -> Z.of_nat n <= NOTS ->
  same_outcome (fun s ns => length ns = length bms /\
      Forall (fun nd => nMaster nd = sMaster s /\ nLat nd = sLat s) ns /\
      concat (map (fun nd => concat (bmB (nTracked nd))) ns) = sTracked s)
    (sim_run Fof linit lstep NOTS lat bm0 n) (driver_run Fof linit lstep P NOTS lat bms n).
Proof.
  intros T NT L Fof linit lstep NOTS lat bm0 bms n P HH HF H1 H2 HN Hn.
  eapply same_mono; [|exact (driver_run_ok Fof linit lstep NOTS lat bm0 bms (length bms) _ n eq_refl HH HF H1 H2 HN Hn eq_refl)].
  intros s ns (A1 & A2 & A3 & A4). split; [|split].
  - rewrite <- (forall2_length _ _ _ A1). apply seq_length.
  - clear -A1. induction A1; constructor; auto. tauto.
  - rewrite <- (chunk_concat _ _ _ A3) at 1. f_equal. clear -A1.
    induction A1 as [|r nd l l' H0 H IH]; [reflexivity|]. cbn [map]. rewrite IH. f_equal.
    destruct H0 as (_ & _ & -> & _). cbn. apply app_nil_r.
Qed.
Print Assumptions C33_same_as_one_process_partial.

(* two numbers of nodes *)
Theorem C33_number_of_nodes_partial : forall (T : Type) (NT : Num T) (L : Type) (Fof : L -> field_fn T)
    (linit lstep : beam T -> L -> res L) NOTS lat bm0 bms bms' n ns,
  let P := Z.of_nat (length bms) in let P' := Z.of_nat (length bms') in
  hd_error bms = Some bm0 -> Forall (same_input bm0) bms ->
  hd_error bms' = Some bm0 -> Forall (same_input bm0) bms' ->
  count bm0 + P <= int_max -> 10 * (share (count bm0) P * P) <= int_max ->
  count bm0 + P' <= int_max -> 10 * (share (count bm0) P' * P') <= int_max ->
  0 <= NOTS < int_max -> Z.of_nat n <= NOTS ->
  driver_run Fof linit lstep P NOTS lat bms n = Ok ns ->
  exists ns', driver_run Fof linit lstep P' NOTS lat bms' n = Ok ns' /\
    (forall nd nd', In nd ns -> In nd' ns' -> nMaster nd = nMaster nd') /\
    concat (map (fun nd => concat (bmB (nTracked nd))) ns) = concat (map (fun nd => concat (bmB (nTracked nd))) ns').
Proof.
  intros T NT L Fof linit lstep NOTS lat bm0 bms bms' n ns P P' HH HF HH' HF' H1 H2 H1' H2' HN Hn E.
  pose proof (C33_same_as_one_process_partial T NT L Fof linit lstep NOTS lat bm0 bms n HH HF H1 H2 HN Hn) as A.
  pose proof (C33_same_as_one_process_partial T NT L Fof linit lstep NOTS lat bm0 bms' n HH' HF' H1' H2' HN Hn) as B.
  fold P in A. fold P' in B. rewrite E in A.
  destruct (sim_run _ _ _ _ _ _ _) as [s| | |]; cbn in A; try contradiction.
  destruct (driver_run Fof linit lstep P' NOTS lat bms' n) as [ns'| | |]; cbn in B; try contradiction.
  destruct A as (_ & A1 & A2), B as (_ & B1 & B2). exists ns'. split; [reflexivity|]. split; [|congruence].
  intros nd nd' I1 I2. rewrite Forall_forall in A1, B1. destruct (A1 _ I1) as [-> _], (B1 _ I2) as [-> _]. reflexivity.
Qed.
Print Assumptions C33_number_of_nodes_partial.

(* What the single process records are the tracked trajectories: every point after the
   start is identical; the start differs at most in the acceleration, which is set for the
   tracked copy only when tracking is set up. *)
Theorem C33_recorded_trajectories : forall (T : Type) (NT : Num T) (L : Type) (Fof : L -> field_fn T)
    (linit lstep : beam T -> L -> res L) NOTS lat bm n s,
  sim_run Fof linit lstep NOTS lat bm n = Ok s ->
  Forall2 (fun p q => exists c c' tl, trajectory p = c :: tl /\ trajectory q = c' :: tl /\
      tpt c = tpt c' /\ tpx c = tpx c' /\ tpp c = tpp c' /\ (tl <> [] -> current p = current q))
    (concat (bmB (sMaster s))) (sTracked s).
Proof.
  intros T NT L Fof linit lstep NOTS lat bm n s H. apply records_run in H.
  eapply forall2_impl; [|exact H]. intros p q (_ & _ & R). exact R.
Qed.
Print Assumptions C33_recorded_trajectories.

Example C33_ex : let bms := [ex_bm; ex_bm] in let P := Z.of_nat (length bms) in
  hd_error bms = Some ex_bm /\ Forall (same_input ex_bm) bms /\
  count ex_bm + P <= int_max /\ 10 * (share (count ex_bm) P * P) <= int_max /\ 0 <= 1 < int_max /\ Z.of_nat 1 <= 1 /\
  exists ns, driver_run (fun _ _ _ => Ok ezero) (fun _ l => Ok l) (fun _ l => Ok l) P 1 tt bms 1 = Ok ns.
Proof.
  intros bms P. assert (S : same_input ex_bm ex_bm).
  { split; [reflexivity|]. split; [reflexivity|]. split; [reflexivity|]. unfold same_but_start.
    cbn [ex_bm bmB concat app]. repeat (constructor; [repeat split|]). constructor. }
  assert (H1 : count ex_bm + P <= int_max) by (unfold int_max; cbn; lia).
  assert (H2 : 10 * (share (count ex_bm) P * P) <= int_max) by (unfold int_max; cbn; lia).
  assert (H3 : 0 <= 1 < int_max) by (unfold int_max; cbn; lia).
  split; [reflexivity|]. split; [repeat constructor; exact S|]. split; [exact H1|]. split; [exact H2|].
  split; [exact H3|]. split; [lia|].
  pose proof (C33_same_as_one_process_partial R _ unit (fun _ _ _ => Ok ezero) (fun _ l => Ok l) (fun _ l => Ok l) 1 tt ex_bm bms 1
    eq_refl ltac:(repeat constructor; exact S) H1 H2 H3 ltac:(lia)) as A. fold P in A.
  assert (E : exists s, sim_run (fun _ _ _ => Ok ezero) (fun _ (l : unit) => Ok l) (fun _ l => Ok l) 1 tt ex_bm 1 = Ok s).
  { apply LoggerProofs4.sim_exists; [intros; exists ezero; reflexivity|intros b l; exists l; reflexivity|intros b l; exists l; reflexivity|reflexivity]. }
  destruct E as [s E]. rewrite E in A. destruct (driver_run _ _ _ _ _ _ _ _) as [ns| | |]; cbn in A; try contradiction.
  eauto.
Qed.

(* ==== C39 ==== *)
(* the loop ends after at most one round per element; the external elements remain, in
   their order *)
Theorem C39_removal : forall (A : Type) (external : A -> bool) (l : list A) fuel, (length l <= fuel)%nat ->
  remove_loop external fuel 0 l = Ok (filter external l).
Proof. intros A external l fuel H. exact (remove_ok external fuel [] l eq_refl H). Qed.
Print Assumptions C39_removal.
Theorem C39_exactly : forall (A : Type) (external : A -> bool) (l : list A) e,
  In e (filter external l) <-> In e l /\ external e = true.
Proof. intros A external l e. apply filter_In. Qed.
Print Assumptions C39_exactly.
(* requests for and removal of elements outside of the list are refused, all others served *)
Theorem C39_index : forall (A : Type) (l : list A) i,
  (~ (0 <= i < Z.of_nat (length l)) -> lattice_at i l = Throw IOexc /\ lattice_remove i l = Throw IOexc) /\
  (forall a e b, l = a ++ e :: b -> i = Z.of_nat (length a) ->
     lattice_at i l = Ok e /\ lattice_remove i l = Ok (a ++ b)).
Proof.
  intros A l i. split.
  - intros H. unfold lattice_at, lattice_remove.
    destruct (Z.ltb_spec i 0); [split; reflexivity|]. destruct (Z.leb_spec (Z.of_nat (length l)) i); [split; reflexivity|lia].
  - intros a e b -> ->. unfold lattice_at, lattice_remove. rewrite app_length. cbn [length].
    destruct (Z.ltb_spec (Z.of_nat (length a)) 0); [lia|].
    destruct (Z.leb_spec (Z.of_nat (length a + S (length b))) (Z.of_nat (length a))); [lia|]. cbn [orb].
    rewrite Nat2Z.id. split.
    + unfold zget. destruct (Z.ltb_spec (Z.of_nat (length a)) 0); [lia|]. rewrite Nat2Z.id, nth_error_app2, Nat.sub_diag by lia. reflexivity.
    + rewrite firstn_app, Nat.sub_diag, firstn_all, app_nil_r.
      change (e :: b) with ([e] ++ b). rewrite app_assoc.
      rewrite skipn_app, skipn_all2 by (rewrite app_length; cbn; lia). rewrite app_length. cbn [length app].
      replace (S (length a) - (length a + 1))%nat with 0%nat by lia. reflexivity.
Qed.
Print Assumptions C39_index.
Example C39_index_ex : ~ (0 <= 3 < Z.of_nat (length [1; 2; 3])) /\ lattice_remove 1 [1; 2; 3] = Ok [1; 3].
Proof. split; [cbn; lia|reflexivity]. Qed.
Example C39_ex : remove_loop Z.even 5 0 [1; 2; 3; 5; 6] = Ok [2; 6].
Proof. reflexivity. Qed.
