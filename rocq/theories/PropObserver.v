(* Observation of fields: C34-C38, C41-C44. *)
From Coq Require Import ZArith Reals List Lia Lra Bool Permutation.
From Verif Require Import Base BaseFacts Num NumChecked VecModel VecFacts ParticleModel ParticleSpec TraceModel RetardModel TraceProofs2 BunchModel BunchSpec BeamSpec
  DistProofs DriverModel DriverSpec DriverProofs PropDriver
  ObserverModel ObserverSpec ObserverSpec2 ObserverProofs ObserverProofs2 ObserverProofs3 ObserverProofs4 ObserverProofs5 ObserverProofs6 ObserverProofs7 ObserverProofs8.
Import ListNotations.
Local Open Scope Z_scope.

Definition ex_point : observer R := OPoint (PO (V 0 0 7)%R (tr_new 1%R 1%R 2)).

(* ==== C34 ==== *)
(* The observation by several nodes, each with its own part of the particles, gives the
   same result as the observation of the whole beam by one process, for screens, snapshots,
   points and meshes of the permitted size (see C36) which have been created (cleared).
   Over the reals; the nodes are summed in rank order. *)
Theorem C34_sum_over_nodes : forall (o : observer R) whole bm0 bms o',
  shaped o -> small o -> 6 * fields o <= int_max -> blank o ->
  beam_ps whole = concat (map beam_ps (bm0 :: bms)) ->
  driver_observe (map SBeam (bm0 :: bms)) (repeat o (length (bm0 :: bms))) = Ok o' <->
  obs_integrate (SBeam whole) o = Ok o'.
Proof. intros o whole bm0 bms o' Sh Sm Bd B H. apply observe_whole; auto. apply blank_cells; assumption. Qed.
Print Assumptions C34_sum_over_nodes.

(* end to end: after the tracking by P nodes, the root node obtains what one process
   obtains from the trajectories it has tracked *)
Theorem C34_run_and_observe : forall (L : Type) (Fof : L -> field_fn R) (linit lstep : beam R -> L -> res L)
    NOTS lat bm0 bms n ns (o : observer R) o',
  let P := Z.of_nat (length bms) in
  hd_error bms = Some bm0 -> Forall (same_input bm0) bms ->
  count bm0 + P <= int_max -> 10 * (share (count bm0) P * P) <= int_max -> 0 <= NOTS < int_max -> Z.of_nat n <= NOTS ->
  shaped o -> small o -> 6 * fields o <= int_max -> blank o ->
  driver_run Fof linit lstep P NOTS lat bms n = Ok ns ->
  exists s, sim_run Fof linit lstep NOTS lat bm0 n = Ok s /\
    forall whole, beam_ps whole = sTracked s ->
      driver_observe (map (fun nd => SBeam (nTracked nd)) ns) (repeat o (length ns)) = Ok o' <->
      obs_integrate (SBeam whole) o = Ok o'.
Proof.
  intros L Fof linit lstep NOTS lat bm0 bms n ns o o' P HH HF H1 H2 HN Hn Sh Sm Bd B E.
  pose proof (C33_same_as_one_process_partial R _ L Fof linit lstep NOTS lat bm0 bms n HH HF H1 H2 HN Hn) as A.
  fold P in A. rewrite E in A. destruct (sim_run _ _ _ _ _ _ _) as [s| | |]; cbn in A; try contradiction.
  exists s. split; [reflexivity|]. destruct A as (A1 & _ & A2). intros whole W.
  destruct ns as [|nd ns]. { destruct bms; discriminate. }
  rewrite <- (map_map (@nTracked R L) SBeam). rewrite <- (map_length (@nTracked R L) (nd :: ns)). cbn [map].
  apply (C34_sum_over_nodes o whole (nTracked nd) (map (@nTracked R L) ns) o'); auto.
  rewrite W, <- A2. f_equal. change (nTracked nd :: map (@nTracked R L) ns) with (map (@nTracked R L) (nd :: ns)). rewrite map_map. reflexivity.
Qed.
Print Assumptions C34_run_and_observe.
(* the observers created by the input are cleared *)
Theorem C34_new_observers : forall (T : Type) (NT : Num T),
  (forall (pos dx dy : vec T) nx ny t0 dt dtx dty nots s, 0 <= nx <= int_max -> 0 <= ny <= int_max -> 0 <= nots <= int_max ->
     screen_new pos dx dy nx ny t0 dt dtx dty nots = Ok s -> shaped (OScreen s) /\ blank (OScreen s)) /\
  (forall (pos dx dy : vec T) nx ny t, 0 <= nx <= int_max -> 0 <= ny <= int_max ->
     shaped (OSnap (snap_new pos dx dy nx ny t)) /\ blank (OSnap (snap_new pos dx dy nx ny t))) /\
  (forall (x : vec T) t dt n, shaped (OPoint (PO x (tr_new t dt n))) /\ blank (OPoint (PO x (tr_new t dt n)))) /\
  (forall s : mesh T, shaped (OMesh s) -> shaped (OMesh (mesh_zero s)) /\ blank (OMesh (mesh_zero s))).
Proof.
  intros T NT. split; [|split; [|split]].
  - intros; apply (screen_new_blank pos dx dy nx ny t0 dt dtx dty nots); assumption.
  - intros; split; [apply snap_new_shaped; assumption|apply snap_new_blank].
  - intros; split; [exact Logic.I|apply point_blank].
  - intros; split; [apply mesh_zero_shaped; assumption|apply mesh_blank].
Qed.
Print Assumptions C34_new_observers.
Example C34_ex : shaped ex_point /\ small ex_point /\ 6 * fields ex_point <= int_max /\ blank ex_point /\
  beam_ps ex_bm = concat (map beam_ps [BM [[ex_q 1]] 4 1%R TRACKING_VAY; BM [[ex_q 2]; [ex_q 3]] 4 1%R TRACKING_VAY]) /\
  exists o', obs_integrate (SBeam ex_bm) ex_point = Ok o'.
Proof.
  split; [exact Logic.I|]. split; [cbn; lia|]. split; [unfold int_max; cbn; lia|]. split; [apply point_blank|].
  split; [reflexivity|]. eexists. reflexivity.
Qed.

(* ==== C35 ==== *)
(* Every node computes the complete lattice field and the root takes the sum: the result is
   P times the field. *)
Theorem C35_lattice_times_nodes : forall (F : field_fn R) (o o1 : observer R) P,
  shaped o -> small o -> 6 * fields o <= int_max -> (0 < P)%nat ->
  obs_integrate (SLattice F) o = Ok o1 ->
  exists o', driver_observe (repeat (SLattice F) P) (repeat o P) = Ok o' /\ like o1 o' /\
    forall k, inside o k -> exists f, obs_get o1 k = Ok f /\ obs_get o' k = Ok (emul f (INR P)).
Proof. intros; apply observe_lattice; assumption. Qed.
Print Assumptions C35_lattice_times_nodes.
(* one node: the lattice field *)
Theorem C35_one_node_partial : forall (F : field_fn R) (o o1 : observer R),
  shaped o -> small o -> 6 * fields o <= int_max -> obs_integrate (SLattice F) o = Ok o1 ->
  driver_observe [SLattice F] [o] = Ok o1.
Proof.
  intros F o o1 Sh Sm Bd E. destruct (observe_lattice F o o1 1 Sh Sm Bd ltac:(lia) E) as (o' & D & K & G).
  cbn [repeat] in D. rewrite D. f_equal. symmetry. destruct (integrate_ok _ _ _ Sh E) as [K1 _].
  apply observer_ext_get; [eapply like_shaped; eauto|exact K|]. intros k I.
  destruct (G k) as (f & G1 & G2); [eapply like_inside; [apply like_sym; exact K1|exact I]|]. rewrite G1, G2. f_equal.
  change (INR 1) with 1%R. destruct f as [[] []]. unfold emul, vmul. cbn. f_equal; f_equal; ring.
Qed.
Print Assumptions C35_one_node_partial.
(* with two nodes the observed field differs wherever it is not zero *)
Theorem C35_depends_on_nodes_refuted : forall (F : field_fn R) (o o1 : observer R) P k f,
  shaped o -> small o -> 6 * fields o <= int_max -> (2 <= P)%nat ->
  obs_integrate (SLattice F) o = Ok o1 -> inside o k -> obs_get o1 k = Ok f -> f <> ezero ->
  exists o' g, driver_observe (repeat (SLattice F) P) (repeat o P) = Ok o' /\ obs_get o' k = Ok g /\ g <> f.
Proof.
  intros F o o1 P k f Sh Sm Bd HP E I Gf N. destruct (observe_lattice F o o1 P Sh Sm Bd ltac:(lia) E) as (o' & D & K & G).
  destruct (G k I) as (f' & G1 & G2). assert (f' = f) by congruence. subst f'. exists o', (emul f (INR P)). split; [exact D|].
  split; [exact G2|]. intros X. apply N. assert (HR : (2 <= INR P)%R) by (apply le_INR in HP; exact HP).
  assert (Z0 : forall x, (x * INR P = x)%R -> x = 0%R). { intros x Hx. assert ((x * (INR P - 1) = 0)%R) by lra. apply Rmult_integral in H. destruct H; lra. }
  destruct f as [[a b c] [d e g]]. unfold emul, vmul in X. cbn [fE fB vx vy vz] in X. injection X as X1 X2 X3 X4 X5 X6.
  apply Z0 in X1, X2, X3, X4, X5, X6. subst. reflexivity.
Qed.
Print Assumptions C35_depends_on_nodes_refuted.
Example C35_ex : let F : field_fn R := fun _ _ => Ok (EB (V 1 0 0) vzero)%R in
  shaped ex_point /\ small ex_point /\ 6 * fields ex_point <= int_max /\ (2 <= 2)%nat /\
  exists o1 f, obs_integrate (SLattice F) ex_point = Ok o1 /\ inside ex_point (0, 0, 1) /\ obs_get o1 (0, 0, 1) = Ok f /\ f <> ezero.
Proof.
  intros F. split; [exact Logic.I|]. split; [cbn; lia|]. split; [unfold int_max; cbn; lia|]. split; [lia|].
  eexists. exists (eadd ezero (EB (V 1 0 0) vzero))%R. split; [reflexivity|]. split; [cbn; lia|]. split; [reflexivity|].
  intros H. apply (f_equal (fun f => vx (fE f))) in H. cbn in H. lra.
Qed.

(* ==== C36 ==== *)
(* up to the stated sizes the buffer has exactly the room needed and is accepted again *)
Theorem C36_buffer_size_partial : forall (T : Type) (NT : Num T) (o : observer T), shaped o -> small o ->
  obs_size o = Ok (6 * fields o) /\
  exists b, obs_getBuffer o = Ok b /\ Z.of_nat (length b) = 6 * fields o /\ Forall (fun x => x <> None) b /\
    obs_fromBuffer b (Z.of_nat (length b)) o = Ok o /\
    forall b' n, n <> 6 * fields o -> obs_fromBuffer b' n o = Throw IOexc.
Proof.
  intros T NT o Sh Sm. split; [apply obs_size_small; assumption|].
  destruct (round_trip o o Sh Sm (like_refl o)) as (b & E1 & E2 & E3). exists b. split; [exact E1|].
  rewrite (obs_size_small o Sh Sm) in E2. split; [congruence|]. split; [|split; [exact E3|]].
  - destruct (getBuffer_ok o Sh Sm) as (fs & _ & _ & G). rewrite G in E1. injection E1 as <-. apply Forall_forall. intros x I.
    apply in_map_iff in I. destruct I as (y & <- & _). discriminate.
  - intros; apply wrong_size; assumption.
Qed.
Print Assumptions C36_buffer_size_partial.
(* Screens and snapshots: from 2^32 values on the size wraps around (unsigned int) and
   getBuffer writes behind the end of the buffer.  Meshes: from 2^31 values on the size
   overflows (int). *)
Theorem C36_overflow_refuted : forall (T : Type) (NT : Num T) (o : observer T), shaped o ->
  match o with
  | OScreen _ | OSnap _ => 2 ^ 32 <= 6 * fields o
  | OMesh _ => int_max < 6 * fields o
  | OPoint _ => False
  end -> obs_getBuffer o = UB.
Proof.
  intros T NT o Sh H. destruct o as [s|s|s|s]; [| |contradiction|].
  - apply grid_overflow; [exact Sh|exact Logic.I|exact H].
  - apply grid_overflow; [exact Sh|exact Logic.I|exact H].
  - apply mesh_overflow; assumption.
Qed.
Print Assumptions C36_overflow_refuted.
(* in the MPI program: from 2^31 values on the reduction is refused; a point observer
   with more than 2^32 values has its count truncated and is refused on import *)
Theorem C36_reduction_refuted : forall (T : Type) (NT : Num T),
  (forall root (os : list (observer T)), shaped root -> small root -> Forall (like root) os ->
     int_max < 6 * fields root < 2 ^ 32 -> gather (root :: os) = Throw STDexc) /\
  (forall s : point T, 2 ^ 32 <= 6 * fields (OPoint s) < 2 ^ 60 -> u32 (6 * fields (OPoint s)) <= int_max ->
     gather [OPoint s] = Throw IOexc).
Proof. intros T NT. split; intros; [apply reduce_refuses|apply point_truncated]; assumption. Qed.
Print Assumptions C36_reduction_refuted.
(* a screen of 400 x 400 cells with 5000 samples, 200 x 200 with 12000, and a small one *)
Example C36_ex : exists s1 s2 s3 : screen R,
  screen_new vzero vzero vzero 400 400 0%R 1%R 0%R 0%R 5000 = Ok s1 /\ shaped (OScreen s1) /\ 2 ^ 32 <= 6 * fields (OScreen s1) /\
  screen_new vzero vzero vzero 200 200 0%R 1%R 0%R 0%R 12000 = Ok s2 /\ shaped (OScreen s2) /\ small (OScreen s2) /\ int_max < 6 * fields (OScreen s2) < 2 ^ 32 /\
  screen_new vzero vzero vzero 100 100 0%R 1%R 0%R 0%R 1000 = Ok s3 /\ shaped (OScreen s3) /\ small (OScreen s3).
Proof.
  assert (D := dint).
  destruct (screen_new_ok (T := R) vzero vzero vzero 400 400 0%R 1%R 0%R 0%R 5000) as (s1 & E1 & S1 & _ & _ & _ & X1 & Y1 & N1 & _); [lia..|].
  destruct (screen_new_ok (T := R) vzero vzero vzero 200 200 0%R 1%R 0%R 0%R 12000) as (s2 & E2 & S2 & _ & _ & _ & X2 & Y2 & N2 & _); [lia..|].
  destruct (screen_new_ok (T := R) vzero vzero vzero 100 100 0%R 1%R 0%R 0%R 1000) as (s3 & E3 & S3 & _ & _ & _ & X3 & Y3 & N3 & _); [lia..|].
  exists s1, s2, s3. unfold small, fields, extent. rewrite X1, Y1, N1, X2, Y2, N2, X3, Y3, N3. 
  split; [exact E1|]. split; [exact S1|]. split; [lia|]. split; [exact E2|]. split; [exact S2|]. split; [lia|]. split; [lia|].
  split; [exact E3|]. split; [exact S3|]. lia.
Qed.

(* ==== C37 ==== *)
(* import of an exported buffer restores the observer, whatever fields were stored before;
   o2 is any observer of the same geometry *)
Theorem C37_round_trip : forall (T : Type) (NT : Num T) (o o2 : observer T), shaped o -> small o -> like o o2 ->
  exists b, obs_getBuffer o = Ok b /\ obs_size o = Ok (Z.of_nat (length b)) /\ obs_fromBuffer b (Z.of_nat (length b)) o2 = Ok o.
Proof. intros; apply round_trip; assumption. Qed.
Print Assumptions C37_round_trip.
(* the place of each value in the buffer *)
Theorem C37_export : forall (T : Type) (NT : Num T) (o : observer T) k f c, shaped o -> small o -> inside o k ->
  obs_get o k = Ok f -> (c < 6)%nat ->
  exists b, obs_getBuffer o = Ok b /\ Z.of_nat (length b) = 6 * fields o /\
    nth_error b (Z.to_nat (6 * place o k + Z.of_nat c)) = option_map Some (component c f).
Proof. intros; apply export_place; assumption. Qed.
Print Assumptions C37_export.
Theorem C37_import : forall (T : Type) (NT : Num T) (o : observer T) vs, shaped o -> small o -> Z.of_nat (length vs) = 6 * fields o ->
  exists o', obs_fromBuffer (map Some vs) (6 * fields o) o = Ok o' /\ shaped o' /\ like o o' /\
    forall k c, inside o k -> (c < 6)%nat ->
      exists f, obs_get o' k = Ok f /\ component c f = nth_error vs (Z.to_nat (6 * place o k + Z.of_nat c)).
Proof. intros; apply import_place; assumption. Qed.
Print Assumptions C37_import.
(* different cells and times have different places *)
Theorem C37_places : forall (T : Type) (NT : Num T) (o : observer T) k k', inside o k -> inside o k' -> place o k = place o k' -> k = k'.
Proof.
  intros T NT o [[a b] c] [[a' b'] c']. unfold inside, place. destruct (extent o) as [[nx ny] n]. intros (H1 & H2 & H3) (H1' & H2' & H3') E.
  assert (E1 : a * ny + b = a' * ny + b' /\ c = c').
  { apply (Z.div_mod_unique n); [lia|lia|]. rewrite !(Z.mul_comm n). exact E. }
  destruct E1 as [E1 ->]. assert (E2 : a = a' /\ b = b').
  { apply (Z.div_mod_unique ny); [lia|lia|]. rewrite !(Z.mul_comm ny). exact E1. }
  destruct E2 as [-> ->]. reflexivity.
Qed.
Print Assumptions C37_places.
(* storing one field changes no other *)
Theorem C37_not_mixed : forall (T : Type) (NT : Num T) (o : observer T) k f, shaped o -> inside o k ->
  exists o', obs_set o k f = Ok o' /\ shaped o' /\ like o o' /\ obs_get o' k = Ok f /\
    forall k', inside o k' -> k' <> k -> obs_get o' k' = obs_get o k'.
Proof. intros; apply obs_set_ok; assumption. Qed.
Print Assumptions C37_not_mixed.
(* the sum of the buffers of several nodes is imported as the sum of the fields *)
Theorem C37_sums : forall (T : Type) (NT : Num T) (root : observer T) os, shaped root -> small root -> 6 * fields root <= int_max ->
  Forall (like root) os ->
  exists o', gather (root :: os) = Ok o' /\ shaped o' /\ like root o' /\
    forall k, inside root k -> exists f gs, obs_get root k = Ok f /\ Forall2 (fun o g => obs_get o k = Ok g) os gs /\
      obs_get o' k = Ok (sum_from f gs).
Proof. intros; apply ObserverProofs2.gather_ok; assumption. Qed.
Print Assumptions C37_sums.
Theorem C37_wrong_size : forall (T : Type) (NT : Num T) (o : observer T) b n, shaped o -> small o -> n <> 6 * fields o ->
  obs_fromBuffer b n o = Throw IOexc.
Proof. intros; apply wrong_size; assumption. Qed.
Print Assumptions C37_wrong_size.
Definition ex_screen : screen R := SC vzero (V 1 0 0)%R (V 0 1 0)%R (V 0 0 1)%R 2 1 2 0%R 1%R 0%R 0%R
  [[FT 0%R 1%R [EB (V 1 2 3) (V 4 5 6); EB (V 7 8 9) (V 10 11 12)]%R]; [FT 0%R 1%R [EB (V 1 0 0) (V 4 0 0); EB (V 0 8 9) (V 0 0 12)]%R]].
Lemma ex_screen_shaped : shaped (OScreen ex_screen).
Proof. cbn. repeat (split; [lia|]). repeat constructor. Qed.
Example C37_ex : shaped (OScreen ex_screen) /\ small (OScreen ex_screen) /\ 6 * fields (OScreen ex_screen) <= int_max /\
  like (OScreen ex_screen) (OScreen ex_screen) /\ inside (OScreen ex_screen) (1, 0, 1) /\
  obs_get (OScreen ex_screen) (1, 0, 1) = Ok (EB (V 0 8 9) (V 0 0 12))%R /\ 7 <> 6 * fields (OScreen ex_screen).
Proof.
  split; [exact ex_screen_shaped|]. split; [cbn; lia|]. split; [unfold int_max; cbn; lia|]. split; [apply like_refl|].
  split; [cbn; lia|]. split; [reflexivity|]. cbn. lia.
Qed.

(* ==== C38 ==== *)
(* The cells are distributed to threads in any way, each thread works on its cells one after
   the other (counting, then any sequence of atomic updates of the cell which together do
   the work for the cell), and the events of the threads are interleaved in any way: the
   integration succeeds if and only if the sequential one does, with the same contents of
   all cells and the counter at the number of cells. *)
Theorem C38_every_schedule : forall (T : Type) (NT : Num T) src (o : observer T)
    (ops : Z * Z -> list (ftrace T -> res (ftrace T))) (m0 : cells T) threads schedule,
  shaped o ->
  (forall xy, in_cells o xy -> cell_of o xy = Ok (m0 xy)) ->
  (forall xy tr, in_cells o xy -> do_ops (ops xy) tr = cell_op src o xy tr) ->
  Permutation (concat threads) (all_cells o) ->
  interleaved (map (thread ops) threads) schedule ->
  forall o', obs_integrate src o = Ok o' <->
    like o o' /\ exists m', run schedule (0, m0) = Ok (Z.of_nat (length (all_cells o)), m') /\
      forall xy, in_cells o xy -> cell_of o' xy = Ok (m' xy).
Proof. intros T NT src o ops m0 threads schedule Sh M0 OPS P H o'. eapply parallel_ok; eauto. Qed.
Print Assumptions C38_every_schedule.
(* two schedules: the same contents of all cells *)
Theorem C38_same_result : forall (T : Type) (NT : Num T) src (o : observer T) ops (m0 : cells T) threads schedule threads' schedule' n m',
  shaped o ->
  (forall xy, in_cells o xy -> cell_of o xy = Ok (m0 xy)) ->
  (forall xy tr, in_cells o xy -> do_ops (ops xy) tr = cell_op src o xy tr) ->
  Permutation (concat threads) (all_cells o) -> interleaved (map (thread ops) threads) schedule ->
  Permutation (concat threads') (all_cells o) -> interleaved (map (thread ops) threads') schedule' ->
  run schedule (0, m0) = Ok (n, m') ->
  exists m2, run schedule' (0, m0) = Ok (n, m2) /\ forall xy, in_cells o xy -> m2 xy = m' xy.
Proof.
  intros T NT src o ops m0 ts l ts' l' n m' Sh M0 OPS P H P' H' E.
  destruct (run_local _ _ _ _ _ E) as [A B].
  assert (Q : exists o2, obs_integrate src o = Ok o2).
  { apply integrate_total; [exact Sh|]. intros xy I. exists (m0 xy). specialize (B xy).
    rewrite (local_schedule ops o ts l xy _ P H I), (OPS _ _ I) in B. rewrite (M0 _ I). eauto. }
  destruct Q as [o2 Q]. pose proof Q as Q'.
  rewrite (C38_every_schedule T NT src o ops m0 ts l Sh M0 OPS P H) in Q.
  rewrite (C38_every_schedule T NT src o ops m0 ts' l' Sh M0 OPS P' H') in Q'.
  destruct Q as (_ & m1 & R1 & C1), Q' as (_ & m2 & R2 & C2). exists m2.
  assert (X : n = Z.of_nat (length (all_cells o)) /\ m' = m1).
  { pose proof (eq_trans (eq_sym E) R1) as X. injection X as -> ->. auto. }
  destruct X as [-> ->]. split; [exact R2|]. intros xy I. specialize (C1 xy I). specialize (C2 xy I). congruence.
Qed.
Print Assumptions C38_same_result.
(* two threads with one cell each, the samples of which are added one by one *)
Example C38_ex : let F : field_fn R := fun t _ => Ok (EB (V t 0 0) vzero)%R in
  let o := OScreen ex_screen in
  let ops xy := map (fun it tr => bind (bind (screen_t0 ex_screen (fst xy) (snd xy)) (fun t => Ok (t + IZR it * scdt ex_screen)%R)) (fun t =>
       bind (F t vzero) (fun f => tr_acc tr it f))) [0; 1] in
  let threads := [[(1, 0)]; [(0, 0)]] in
  shaped o /\
  (forall xy, in_cells o xy -> exists tr, cell_of o xy = Ok tr) /\
  (forall xy tr, in_cells o xy -> do_ops (ops xy) tr = cell_op (SLattice F) o xy tr) /\
  Permutation (concat threads) (all_cells o) /\
  (exists l, interleaved (map (thread ops) threads) l /\ nth_error l 0 = Some Count /\ nth_error l 1 = Some Count).
Proof.
  intros F o ops threads. split; [exact ex_screen_shaped|].
  assert (IC : forall xy, in_cells o xy -> xy = (0, 0) \/ xy = (1, 0)).
  { intros [x y] [I1 I2]. cbn in I1, I2. assert (y = 0) by lia. assert (x = 0 \/ x = 1) by lia. subst y. destruct H0; subst; auto. }
  split; [intros xy I; destruct (cell_ok o xy ex_screen_shaped I) as (tr & E & _); eauto|].
  split; [|split].
  - intros xy tr I. destruct (IC xy I) as [->| ->]; reflexivity.
  - apply perm_swap.
  - unfold threads. cbn [map thread flat_map app]. eexists. split.
    + apply (int_step [] Count _ _). apply (int_step [_] Count _ []).
      apply (int_step [_] _ _ []). apply (int_step [] _ _ _). apply (int_step [_] _ _ []). apply (int_step [] _ _ _).
      apply int_done. repeat constructor.
    + split; reflexivity.
Qed.

(* ==== C41 ==== *)
Local Open Scope R_scope.
(* position and start time of a screen cell; i counts from the centre index (Nx/2, Ny/2) *)
Theorem C41_screen_cells : forall (pos dx dy : vec R) nx ny t0 dt dtx dty nots ix iy,
  (0 <= nx <= int_max)%Z -> (0 <= ny <= int_max)%Z -> (0 <= nots <= int_max)%Z -> (0 <= ix < nx)%Z -> (0 <= iy < ny)%Z ->
  let i := (ix - nx / 2)%Z in let j := (iy - ny / 2)%Z in
  exists s tr, screen_new pos dx dy nx ny t0 dt dtx dty nots = Ok s /\
    screen_pos s ix iy = Ok (V (vx pos + IZR i * vx dx + IZR j * vx dy) (vy pos + IZR i * vy dx + IZR j * vy dy)
                               (vz pos + IZR i * vz dx + IZR j * vz dy)) /\
    cell_get (scTr s) ix iy = Ok tr /\ tr_t0 tr = t0 + IZR i * dtx + IZR j * dty /\ tr_dt tr = dt /\ tr_N tr = nots.
Proof.
  intros pos dx dy nx ny t0 dt dtx dty nots ix iy Hx Hy Hn Ix Iy i j.
  destruct (screen_new_ok pos dx dy nx ny t0 dt dtx dty nots Hx Hy Hn) as (s & E & _ & S1 & S2 & S3 & S4 & S5 & S6 & S7 & S8 & S9 & S10 & C).
  destruct (C ix iy Ix Iy) as (t & Et & G). exists s, (tr_new t dt (Z.to_nat nots)). split; [exact E|]. split; [|split; [exact G|]].
  - unfold screen_pos. rewrite S1, S2, S3, S4, S5, !centred_ok by lia. cbn [bind]. fold i. fold j. f_equal.
    destruct pos, dx, dy. vunfold. unnum. vsplit; ring.
  - unfold time_zero in Et. rewrite !centred_ok in Et by lia. cbn [bind] in Et. okinj Et. fold i. fold j. unnum. split; [|split].
    + cbn. ring.
    + reflexivity.
    + unfold tr_N, tr_new. cbn [tr_f]. rewrite repeat_length. lia.
Qed.
Print Assumptions C41_screen_cells.
(* the cells of a snapshot are displaced by dX, dY and lie symmetrically about the given position *)
Theorem C41_snapshot_cells : forall (pos dx dy : vec R) nx ny t ix iy,
  (0 <= nx <= int_max)%Z -> (0 <= ny <= int_max)%Z -> (0 <= ix < nx)%Z -> (0 <= iy < ny)%Z ->
  let s := snap_new pos dx dy nx ny t in
  (forall ix', (0 <= ix' < nx)%Z -> vsub (snap_pos s ix' iy) (snap_pos s ix iy) = vmul dx (IZR (ix' - ix))) /\
  (forall iy', (0 <= iy' < ny)%Z -> vsub (snap_pos s ix iy') (snap_pos s ix iy) = vmul dy (IZR (iy' - iy))) /\
  vadd (snap_pos s ix iy) (snap_pos s (nx - 1 - ix) (ny - 1 - iy)) = vmul pos 2.
Proof.
  intros pos dx dy nx ny t ix iy Hx Hy Ix Iy s. pose proof dint as [D1 D2].
  assert (Q : forall a b, (0 <= a < nx)%Z -> (0 <= b < ny)%Z -> snap_pos s a b =
     vadd (vadd pos (vmul dx (IZR a - / 2 * (IZR nx - 1)))) (vmul dy (IZR b - / 2 * (IZR ny - 1)))).
  { intros a b Ha Hb. unfold snap_pos, s, snap_new. cbn [snO sndX sndY snNx snNy]. rewrite !i32_id by lia. rewrite !u32_id by lia.
    unfold nhalf. unnum. replace (1 / 2) with (/ 2) by field. reflexivity. }
  split; [|split].
  - intros ix' I'. rewrite !Q by lia. rewrite minus_IZR. vdestr. vunfold. unnum. vsplit; ring.
  - intros iy' I'. rewrite !Q by lia. rewrite minus_IZR. vdestr. vunfold. unnum. vsplit; ring.
  - rewrite !Q by lia. rewrite !minus_IZR. vdestr. vunfold. unnum. vsplit; field.
Qed.
Print Assumptions C41_snapshot_cells.
(* requests out of range raise exceptions *)
Theorem C41_out_of_range : forall (T : Type) (NT : Num T),
  (forall (s : screen T) ix iy it f, ~ (0 <= ix < scNx s /\ 0 <= iy < scNy s /\ 0 <= it < scN s)%Z ->
     screen_get s ix iy it = Throw IOexc /\ screen_set s ix iy it f = Throw IOexc) /\
  (forall (s : snapshot T) ix iy f, ~ (0 <= ix < snNx s /\ 0 <= iy < snNy s)%Z ->
     snap_get s ix iy = Throw IOexc /\ snap_set s ix iy f = Throw IOexc).
Proof.
  intros T NT. split.
  - intros s ix iy it f N. unfold screen_get, screen_set. assert (E : screen_in s ix iy it = false).
    { apply not_true_is_false. unfold screen_in. rewrite !andb_true_iff, !Z.leb_le, !Z.ltb_lt. lia. }
    rewrite E. auto.
  - intros s ix iy f N. unfold snap_get, snap_set. assert (E : snap_in s ix iy = false).
    { apply not_true_is_false. unfold snap_in. rewrite !andb_true_iff, !Z.leb_le, !Z.ltb_lt. lia. }
    rewrite E. auto.
Qed.
Print Assumptions C41_out_of_range.
Example C41_ex : (0 <= 5 <= int_max)%Z /\ (0 <= 4 <= int_max)%Z /\ (0 <= 2 < 5)%Z /\ (0 <= 3 < 4)%Z /\
  ~ (0 <= 2 < scNx ex_screen /\ 0 <= 0 < scNy ex_screen /\ 0 <= 0 < scN ex_screen)%Z.
Proof. unfold int_max. cbn [ex_screen scNx]. lia. Qed.

(* ==== C42 ==== *)
(* The frame of a source screen: the normal and the two directions are unit vectors and
   the directions are perpendicular to the normal, but the directions are perpendicular to
   each other only if the stored cell vectors (their parts perpendicular to the normal) are,
   or if the length of dX is 1. *)
Theorem C42_frame_partial : forall n dX dY : vec R, n <> vzero ->
  let n' := vnormalize n in
  let pX := vsub dX (vmul n' (vdot dX n')) in let pY := vsub dY (vmul n' (vdot dY n')) in
  pX <> vzero -> vcross pX pY <> vzero ->
  exists ex ey, source_frame n dX dY = (n', ex, ey, vmul ex (vnorm dX), vmul ey (vnorm dY)) /\
    vdot n' n' = 1 /\ vdot ex ex = 1 /\ vdot ey ey = 1 /\ vdot n' ex = 0 /\ vdot n' ey = 0 /\
    (vdot ex ey = 0 <-> vdot pX pY = 0 \/ vnorm dX = 1).
Proof. intros n dX dY Hn n' pX pY HX HXY. apply source_frame_ok; assumption. Qed.
Print Assumptions C42_frame_partial.
(* linearly independent vectors for which the frame is not orthogonal *)
Theorem C42_not_orthogonal_refuted : let n := V 0 0 1 in let dX := V 2 0 0 in let dY := V 1 1 0 in
  vdot n (vcross dX dY) <> 0 /\
  exists n' ex ey dX' dY', source_frame n dX dY = (n', ex, ey, dX', dY') /\ vdot ex ey <> 0.
Proof.
  intros n dX dY. split; [unfold n, dX, dY; vunfold; unnum; lra|].
  assert (Hn : n <> vzero). { intros E. apply (f_equal vz) in E. cbn in E. lra. }
  assert (N1 : vnorm n = 1). { unfold vnorm, n. cbn. replace (0 * 0 + 0 * 0 + 1 * 1) with (1 * 1) by ring. apply sqrt_square. lra. }
  assert (E1 : vnormalize n = n). { rewrite vnormalize_div, N1. unfold n. vunfold. unnum. vsplit; field. }
  destruct (source_frame_ok n dX dY Hn) as (ex & ey & E & _ & _ & _ & _ & _ & O); rewrite E1 in *.
  - intros X. apply (f_equal vx) in X. cbn in X. lra.
  - intros X. apply (f_equal vz) in X. cbn in X. lra.
  - exists n, ex, ey, (vmul ex (vnorm dX)), (vmul ey (vnorm dY)). split; [exact E|]. intros Z. apply O in Z. destruct Z as [Z|Z].
    + revert Z. unfold n, dX, dY. vunfold. unnum. lra.
    + revert Z. unfold vnorm, dX. cbn. replace (2 * 2 + 0 * 0 + 0 * 0) with (2 * 2) by ring. rewrite sqrt_square; lra.
Qed.
Print Assumptions C42_not_orthogonal_refuted.
Example C42_ex : let n := V 0 0 1 in let dX := V 3 0 0 in let dY := V 0 2 0 in
  n <> vzero /\ vdot n (vcross dX dY) <> 0 /\ vdot dX dY = 0 /\ vdot dX n = 0 /\ vdot dY n = 0.
Proof.
  intros n dX dY. split; [intros E; apply (f_equal vz) in E; cbn in E; lra|].
  unfold n, dX, dY. vunfold. unnum. repeat split; lra.
Qed.

(* ==== C43 ==== *)
(* normal and area of a non-degenerate triangle; the area is given by Heron's formula for
   the squares of the edge lengths *)
Theorem C43_triangle : forall p1 p2 p3 : vec R, vcross (vsub p2 p1) (vsub p3 p1) <> vzero ->
  let n := tri_normal p1 p2 p3 in
  vnorm n = 1 /\ vdot n (vsub p2 p1) = 0 /\ vdot n (vsub p3 p2) = 0 /\ vdot n (vsub p1 p3) = 0 /\
  0 < tri_area p1 p2 p3 /\
  (let a := vabs2 (vsub p2 p3) in let b := vabs2 (vsub p3 p1) in let c := vabs2 (vsub p1 p2) in
   16 * (tri_area p1 p2 p3 * tri_area p1 p2 p3) = 2 * (a * b + b * c + c * a) - (a * a + b * b + c * c)).
Proof.
  intros p1 p2 p3 H n. assert (Q : tri_cross p1 p2 p3 <> vzero).
  { intros E. apply H. unfold tri_cross in E. rewrite vcross_anti, E. vunfold. unnum. vsplit; ring. }
  split; [apply vnormalize_unit; exact Q|].
  assert (P2 : vdot n (vsub p2 p1) = 0). { unfold n, tri_normal. apply normalize_perp_l. rewrite vdot_comm. apply vdot_cross_r. }
  assert (P3 : vdot n (vsub p3 p1) = 0). { unfold n, tri_normal. apply normalize_perp_l. rewrite vdot_comm. apply vdot_cross_l. }
  split; [exact P2|]. rewrite !vdot_sub_r in *. split; [lra|]. split; [lra|]. split; [|apply tri_heron].
  pose proof (vnorm_pos _ Q) as VP. unfold tri_area. revert VP. generalize (vnorm (tri_cross p1 p2 p3)). intros r VP. unfold nhalf. unnum. lra.
Qed.
Print Assumptions C43_triangle.
(* the local frame: orthonormal unless the normal is parallel to the y axis (first way) or
   to the x axis (second way) *)
Theorem C43_frame_partial : forall n : vec R, vdot n n = 1 ->
  ((vx n <> 0 \/ vz n <> 0) -> orthonormal n (fst (frame_xz n)) (snd (frame_xz n)) /\ vy (fst (frame_xz n)) = 0) /\
  ((vy n <> 0 \/ vz n <> 0) -> orthonormal n (fst (frame_yz n)) (snd (frame_yz n)) /\ vx (snd (frame_yz n)) = 0).
Proof. intros n H. split; intros; [apply frame_xz_ok|apply frame_yz_ok]; assumption. Qed.
Print Assumptions C43_frame_partial.
(* a single cell: the second way is never degenerate, the first one only for a normal
   in the direction of -y *)
Theorem C43_single_cell_partial : forall n : vec R, vdot n n = 1 -> n <> V 0 (-1) 0 ->
  let f := if Rltb (vy n) (7 / 10) then frame_xz n else frame_yz n in orthonormal n (fst f) (snd f).
Proof.
  intros n H N f. unfold f. destruct (Rltb_spec (vy n) (7 / 10)) as [L|L].
  - apply frame_xz_ok; [exact H|]. destruct (Req_dec (vx n) 0) as [X|X]; [|left; exact X]. right. intros Z. apply N.
    destruct n as [x y z]. cbn in *. subst. unfold vdot in H. cbn in H. f_equal. assert ((y - 1) * (y + 1) = 0) by lra.
    apply Rmult_integral in H0. destruct H0; lra.
  - apply frame_yz_ok; [exact H|]. left. lra.
Qed.
Print Assumptions C43_single_cell_partial.
(* The mesh of one triangle in a plane y=const with the normal along -y: area and normal
   are fine, but the direction xi is computed as zero divided by zero: over the reals (where
   Coq gives 0/0=0) it is not a unit vector, with checked numbers it has no value. *)
Definition ex_down : mesh R := MS [V 0 0 0; V 0 0 1; V 1 0 0] [(0, 1, 2)%Z] [V 0 0 0] 1 [].
Theorem C43_frame_refuted :
  (exists g, mesh_init ex_down = Ok (1 / 2, [g]) /\ cgArea g = 1 / 2 /\ cgNormal g = V 0 (-1) 0 /\ cgXi g = V 0 0 0) /\
  fst (@frame_xz _ NumChk (lv (V 0 (-1) 0))) = V None None None.
Proof.
  assert (C : tri_cross (V 0 0 0) (V 0 0 1) (V 1 0 0) = V 0 (-1) 0). { unfold tri_cross. vunfold. unnum. vsplit; ring. }
  assert (N1 : vnorm (V 0 (-1) 0) = 1). { unfold vnorm. cbn. replace (0 * 0 + -1 * -1 + 0 * 0) with (1 * 1) by ring. apply sqrt_square. lra. }
  assert (U : vnormalize (V 0 (-1) 0) = V 0 (-1) 0). { rewrite vnormalize_div, N1. vunfold. unnum. vsplit; field. }
  split.
  - unfold mesh_init.
    match goal with |- context [bind (map_res ?f ?l) _] => change (map_res f l) with (Ok [(V 0 0 0, V 0 0 1, V 1 0 0)]) end.
    cbn [bind map fold_left fst snd].
    unfold tri_area, tri_normal. rewrite C, N1, U. rewrite vadd_0_l, U.
    assert (HH : @nmul R NumR 1 nhalf = 1 / 2) by (unfold nhalf; unnum; field). rewrite HH.
    assert (HS : @nadd R NumR (nZ 0) (1 / 2) = 1 / 2) by (unnum; field). rewrite HS.
    cbn [vy]. assert (B : @nltb R NumR (-1) (@ndiv R NumR (nZ 7) (nZ 10)) = true).
    { unnum. destruct (Rltb_spec (-1) (7 / 10)); [reflexivity|lra]. }
    rewrite B. eexists. split; [reflexivity|]. cbn [cgArea cgNormal cgXi]. split; [reflexivity|]. split; [reflexivity|].
    destruct (frame_xz_fails (-1)) as (X & Z & Y). destruct (fst (frame_xz (V 0 (-1) 0))) as [x y z]. cbn in X, Y, Z. congruence.
  - unfold frame_xz. cbv zeta. cbn [fst]. unfold vnormalize, vnorm, vcross, lv.
    cbn [vx vy vz nZ nadd nsub nmul ndiv nsqrt NumChk ck2 cksqrt ckdiv].
    match goal with |- context [Rltb ?a 0] => replace a with 0 by (cbn; ring) end.
    destruct (Rltb_spec 0 0); [lra|]. rewrite sqrt_0.
    destruct (Reqb_spec 0 0) as [_|Q]; [reflexivity|lra].
Qed.
Print Assumptions C43_frame_refuted.
(* the energy is the sum over the cells, so it adds up for two parts of a mesh *)
Theorem C43_energy : forall (s : mesh R) (g : list cellgeo), length (msA s) = length (msX s) -> length g = length (msX s) ->
  mesh_energy s g = Ok (rsum (map outflow (combine (msA s) g))).
Proof. intros; apply mesh_energy_sum; assumption. Qed.
Print Assumptions C43_energy.
Theorem C43_energy_additive : forall (s a b : mesh R) (g ga gb : list cellgeo),
  length (msA a) = length (msX a) -> length ga = length (msX a) -> length (msA b) = length (msX b) -> length gb = length (msX b) ->
  msX s = msX a ++ msX b -> msA s = msA a ++ msA b -> g = ga ++ gb ->
  exists ea eb, mesh_energy a ga = Ok ea /\ mesh_energy b gb = Ok eb /\ mesh_energy s g = Ok (ea + eb).
Proof.
  intros s a b g ga gb H1 H2 H3 H4 E1 E2 ->. do 2 eexists. split; [apply mesh_energy_sum; assumption|]. split; [apply mesh_energy_sum; assumption|].
  rewrite mesh_energy_sum.
  - rewrite E2, combine_app by congruence. rewrite map_app, rsum_app. reflexivity.
  - rewrite E1, E2, !app_length. congruence.
  - rewrite E1, !app_length. congruence.
Qed.
Print Assumptions C43_energy_additive.
Example C43_ex : vcross (vsub (V 1 0 0) (V 0 0 0)) (vsub (V 0 1 0) (V 0 0 0)) <> vzero /\
  vdot (V 0 0 1) (V 0 0 1) = 1 /\ V 0 0 1 <> V 0 (-1) 0 /\
  (let a := MS [] [] [V 0 0 0] 1 [FT 0 1 [ezero]] in length (msA a) = length (msX a)).
Proof.
  split; [intros E; apply (f_equal vz) in E; cbn in E; lra|]. split; [vunfold; unnum; ring|]. split; [intros E; injection E; lra|reflexivity].
Qed.

(* ==== C44 ==== *)
Local Open Scope Z_scope.
(* the cells listed are those sharing a corner with the given one, each once; the cell
   itself is one of them *)
Theorem C44_neighbours_partial : forall (T : Type) (s : mesh T) i, length (msX s) = length (msTri s) -> 0 <= i < mesh_Np s ->
  exists ns, mesh_neighbours s i = Ok ns /\ NoDup ns /\
    forall j, In j ns <-> 0 <= j < mesh_Np s /\
      exists a b p, zget (msTri s) i = Ok a /\ zget (msTri s) j = Ok b /\ corner a p /\ corner b p.
Proof.
  intros T s i H Hi. destruct (neighbours_total s i H Hi) as [ns E]. exists ns. split; [exact E|]. apply neighbours_ok. exact E.
Qed.
Print Assumptions C44_neighbours_partial.
Theorem C44_itself_refuted : forall (T : Type) (s : mesh T) i ns, length (msX s) = length (msTri s) -> 0 <= i < mesh_Np s ->
  mesh_neighbours s i = Ok ns -> In i ns.
Proof.
  intros T s i ns H Hi E. apply (neighbours_ok s i ns E). split; [exact Hi|]. unfold mesh_Np in Hi.
  destruct (zget_ok (msTri s) i) as ([[p q] r] & G & _); [lia|]. exists (p, q, r), (p, q, r), p. cbn. auto.
Qed.
Print Assumptions C44_itself_refuted.
(* the callers provide room for 24 indices (propagate.cpp:155, reflection.cpp:237):
   k triangles with one common corner need room for k *)
Definition fan (k : nat) : mesh R := MS [] (map (fun j => (0, j, j + 1)) (zseq 1 k)) (repeat vzero k) 1 [].
Lemma all_in_length (ns : list Z) k : (forall j, 0 <= j < Z.of_nat k -> In j ns) -> (k <= length ns)%nat.
Proof.
  intros H. rewrite <- (zseq_length k 0). apply NoDup_incl_length; [apply zseq_nodup|].
  intros j Hj. apply zseq_In in Hj. apply H. lia.
Qed.
Theorem C44_buffer_refuted : forall k i, 0 <= i < Z.of_nat k ->
  exists ns, mesh_neighbours (fan k) i = Ok ns /\ (k <= length ns)%nat.
Proof.
  intros k i Hi. assert (L : length (msX (fan k)) = length (msTri (fan k))). { cbn [fan msX msTri]. rewrite repeat_length, map_length, zseq_length. reflexivity. }
  assert (NP : mesh_Np (fan k) = Z.of_nat k). { unfold mesh_Np. cbn [fan msX]. rewrite repeat_length. reflexivity. }
  destruct (C44_neighbours_partial R (fan k) i L ltac:(lia)) as (ns & E & ND & A). exists ns. split; [exact E|].
  assert (TR : forall j, 0 <= j < Z.of_nat k -> exists b, zget (msTri (fan k)) j = Ok b /\ corner b 0).
  { intros j Hj. destruct (zget_ok (msTri (fan k)) j) as (b & G & N); [pose proof NP as NP'; unfold mesh_Np in NP'; rewrite <- L; lia|]. exists b. split; [exact G|].
    apply nth_error_In in N. cbn [fan msTri] in N. apply in_map_iff in N. destruct N as (z & <- & _). cbn. auto. }
  apply all_in_length. intros j Hj. apply A. split; [lia|]. destruct (TR i Hi) as (a & G1 & C1), (TR j Hj) as (b & G2 & C2). exists a, b, 0. auto.
Qed.
Print Assumptions C44_buffer_refuted.
Example C44_ex : exists ns, mesh_neighbours (fan 25) 3 = Ok ns /\ (24 < length ns)%nat.
Proof. destruct (C44_buffer_refuted 25 3) as (ns & E & L); [lia|]. exists ns. split; [exact E|exact L]. Qed.
