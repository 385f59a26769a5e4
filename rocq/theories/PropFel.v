(* The one-dimensional FEL interaction: C52-C55, C69, C70. *)
From Coq Require Import ZArith Reals List Bool Lia Lra Floats.
From Flocq Require Import Core.Raux Core.Round_NE Core.Generic_fmt.
From Verif Require Import Base BaseFacts Num NumFloat VecModel VecFacts ParticleModel ParticleSpec BunchModel BeamSpec ElementModel DriverModel DriverSpec
  DriverProofs FelModel FelSpec FelProofs FelProofs2 FelProofs3 FelProofs4 FelProofs5 PropDriver.
Import ListNotations.
Local Open Scope Z_scope.

Lemma ds_pos (dt : R) : (0 < dt)%R -> (0 < nmul dt nc)%R.
Proof. intros H. apply Rmult_lt_0_compat; [exact H|exact nc_pos]. Qed.

(* ==== C52 ==== *)
(* all arrays have the size of the grid, from the constructor on; a negative size is
   refused *)
Theorem C52_grid_size : forall (T : Type) (NT : Num T) (TT : Trans T) dt N pos prop pol log zR w0 zw sd,
  (N < 0 -> fel_new dt N pos prop pol log zR w0 zw sd = (Throw STDexc : res (fel T))) /\
  (N <= int_max -> forall f : fel T, fel_new dt N pos prop pol log zR w0 zw sd = Ok f -> fel_wf f /\ feN f = N) /\
  (forall (f g : fel T) bm, fel_wf f -> fel_init bm f = Ok g -> fel_wf g) /\
  (forall (f g : fel T) bm, fel_wf f -> fel_step bm f = Ok g -> fel_wf g).
Proof.
  intros. split; [intros; apply new_neg; assumption|]. split; [|split].
  - intros HN f H. apply new_wf in H; [|exact HN]. tauto.
  - intros f g bm. apply init_wf.
  - intros f g bm. apply step_wf.
Qed.
Print Assumptions C52_grid_size.

(* A particle is refused if and only if it is not between the head and the tail of the
   grid; otherwise only the 21 cells around its position which exist are changed.
   Partial: sizes of more than 2^31-12 cells, see below. *)
Theorem C52_deposit_partial : forall (TT : Trans R) (f : fel R) (J : list R) (p : particle R),
  (0 < feDs f)%R -> 0 <= feN f <= int_max - 11 -> Z.of_nat (length J) = feN f ->
  let dz := behind f (pX p) in
  ((dz < 0 \/ IZR (feN f) * feDs f < dz)%R -> deposit_at f J p = Throw IOexc) /\
  ((0 <= dz <= IZR (feN f) * feDs f)%R -> exists J', deposit_at f J p = Ok J' /\ length J' = length J /\
     forall i, 10 < Z.abs (Z.of_nat i - ZnearestE (dz / feDs f)) -> nth_error J' i = nth_error J i).
Proof. intros; apply deposit_R; assumption. Qed.
Print Assumptions C52_deposit_partial.

(* with any arithmetic, as long as the position can be converted to int *)
Theorem C52_deposit_any : forall (T : Type) (NT : Num T) (TT : Trans T) (f : fel T) J p c,
  Z.of_nat (length J) = feN f -> feN f <= int_max ->
  nrint (ndiv (behind f (pX p)) (feDs f)) = Some c -> int_min + 10 <= c <= int_max - 11 ->
  deposit_at f J p = Throw IOexc \/
  exists J' add, deposit_at f J p = Ok J' /\ length J' = length J /\
    forall i, nth_error J' i = if Z.abs (Z.of_nat i - c) <=? 10 then option_map (fun v => nadd v (add (Z.of_nat i))) (nth_error J i) else nth_error J i.
Proof. intros; apply deposit_window; assumption. Qed.
Print Assumptions C52_deposit_any.

(* a whole step either succeeds or ends with an exception *)
Theorem C52_step_partial : forall (TT : Trans R) (f : fel R) bm s,
  fel_wf f -> 2 <= feN f <= int_max - 11 -> (0 < feDs f)%R -> int_min <= feNst f < int_max -> feEvery f = Some s -> s <> 0 ->
  fel_step bm f = Throw IOexc \/ exists f', fel_step bm f = Ok f'.
Proof. intros; eapply step_R; eassumption. Qed.
Print Assumptions C52_step_partial.

(* field queries: the cell nearest to the position, if it exists; refused if the position
   is outside the grid; undefined if the distance is too large for the conversion to int *)
Theorem C52_field_partial : forall (T : Type) (NT : Num T) (TT : Trans T) (f : fel T) X, fel_wf f ->
  match nrint (ndiv (behind f X) (feDs f)) with
  | Some c => if (int_min <=? c) && (c <=? int_max) then
                if (0 <=? c) && (c <? feN f) then exists e, nth_error (feE f) (Z.to_nat c) = Some e /\
                  fel_field_at f X = Ok (EB (vmul (feEx f) e) (vdiv (vmul (feEy f) e) nc))
                else fel_field_at f X = Throw IOexc
              else fel_field_at f X = UB
  | None => fel_field_at f X = UB
  end.
Proof. intros; apply field_cases; assumption. Qed.
Print Assumptions C52_field_partial.

(* Violations. *)
(* a query far away from the grid is not refused but undefined *)
Theorem C52_field_far_refuted : forall (TT : Trans R), exists (f : fel R) X, fel_wf f /\ (0 < feDs f)%R /\ feN f = 2 /\ fel_field f (feTime f) X = UB.
Proof.
  intros TT. destruct (new_exists (1 : R)%R 2 vzero (V 0 0 1)%R (V 1 0 0)%R (Some 1) 1%R 1%R 0%R None ltac:(unfold int_max; lia)) as [f Hf].
  pose proof Hf as H. apply new_wf in H; [|unfold int_max; lia]. destruct H as (W & N & D & T0 & _ & HH & P & DS & _).
  assert (P1 : feProp f = (V 0 0 1)%R).
  { rewrite P. unfold vnormalize, vnorm. cbn [vx vy vz]. unnum. replace (0 * 0 + 0 * 0 + 1 * 1)%R with 1%R by ring. rewrite sqrt_1. apply vec_eq; cbn; field. }
  assert (DS1 : (0 < feDs f)%R) by (rewrite DS; apply ds_pos; lra).
  exists f, (V 0 0 (- (IZR (2 ^ 31) * feDs f)))%R. split; [exact W|]. split; [exact DS1|]. split; [exact N|].
  unfold fel_field. rewrite (off_R f 1%R) by (auto; lra). pose proof (field_cases f (V 0 0 (- (IZR (2 ^ 31) * feDs f)))%R W) as C.
  assert (B : ndiv (behind f (V 0 0 (- (IZR (2 ^ 31) * feDs f)))%R) (feDs f) = IZR (2 ^ 31)).
  { unfold behind. rewrite HH, P1. unfold vdot, vsub, vzero. cbn [vx vy vz]. unnum. field. lra. }
  rewrite B in C. change (nrint (IZR (2 ^ 31))) with (Some (ZnearestE (IZR (2 ^ 31)))) in C. rewrite Zrnd_IZR in C by apply valid_rnd_N. exact C.
Qed.
Print Assumptions C52_field_far_refuted.
(* less than two cells: access outside the grid at the first step *)
Theorem C52_small_grid_refuted : forall (T : Type) (NT : Num T) (TT : Trans T) (f : fel T) bm, fel_wf f -> feN f < 2 ->
  nltb (ndiv (nZ 1) (nZ 1000000000)) (ndiv (nabs (nsub (bmdt bm) (feDt f))) (feDt f)) = false -> fel_init bm f = UB.
Proof.
  intros T NT TT f bm (W1 & W2 & _) HN Hc. unfold fel_init. rewrite Hc, next_field_small by lia. reflexivity.
Qed.
Print Assumptions C52_small_grid_refuted.
(* the very last cells of the largest grids: int overflow *)
Theorem C52_large_grid_refuted : forall (TT : Trans R) (f : fel R) J p, (0 < feDs f)%R ->
  int_max - 11 < ZnearestE (behind f (pX p) / feDs f) <= int_max -> (0 <= behind f (pX p) <= IZR (feN f) * feDs f)%R -> deposit_at f J p = UB.
Proof. intros; apply deposit_large; assumption. Qed.
Print Assumptions C52_large_grid_refuted.
(* floating point: a particle at an undefined position (NaN) is accepted *)
Definition nan_particle : particle float := initTrajectory (nZ 0) (V (0 / 0) 0 0)%float (V 0 0 0)%float (V 0 0 0)%float (new_particle (-1)%float 1%float).
Definition nan_grid : fel float :=
  FEL 2 (nZ 1) (nZ 0) 0 (V 0 0 0)%float (V 0 0 0)%float (V 0 0 0)%float (V 0 0 1)%float (nmul (nZ 1) nc) (V 1 0 0)%float (V 0 1 0)%float (nZ 1) (nZ 1) (nZ 0)
      [0; 0]%float [0; 0]%float [[0; 0]%float] [[0; 0]%float] true (Some 1).
Theorem C52_nan_refuted : forall (TT : Trans float), exists (f : fel float) (p : particle float), fel_wf f /\ deposit f [0; 0]%float p = UB.
Proof.
  intros TT. exists nan_grid, nan_particle. split; [|vm_compute; reflexivity].
  unfold fel_wf, nan_grid. cbn [feN feE fePrev feSt feJst length]. unfold int_max. repeat split; try lia; repeat constructor.
Qed.
Print Assumptions C52_nan_refuted.
Example C52_ex : exists f : fel R, fel_wf f /\ 2 <= feN f <= int_max - 11 /\ (0 < feDs f)%R /\ int_min <= feNst f < int_max /\
  feEvery f = Some 1 /\ (forall bm, bmdt bm = feDt f -> exists g, fel_init bm f = Ok g) /\
  (exists J : list R, Z.of_nat (length J) = feN f /\ (0 <= behind f (feHead f) <= IZR (feN f) * feDs f)%R) /\
  (exists g : fel R, fel_wf g /\ feN g < 2).
Proof.
  destruct (new_exists (1 : R)%R 100 vzero (V 0 0 1)%R (V 1 0 0)%R (Some 1) 1%R 1%R 0%R None ltac:(unfold int_max; lia)) as [f Hf].
  apply new_wf in Hf; [|unfold int_max; lia]. destruct Hf as (W & N & D & T0 & S0 & HH & P & DS & _ & _ & _ & _ & E & _ & EP).
  destruct (new_exists (1 : R)%R 1 vzero (V 0 0 1)%R (V 1 0 0)%R (Some 1) 1%R 1%R 0%R None ltac:(unfold int_max; lia)) as [g Hg].
  apply new_wf in Hg; [|unfold int_max; lia]. destruct Hg as (W' & N' & _).
  assert (DS1 : (0 < feDs f)%R) by (rewrite DS; apply ds_pos; lra).
  exists f. split; [exact W|]. rewrite N. split; [unfold int_max; lia|]. split; [exact DS1|]. rewrite S0. split; [unfold int_min, int_max; lia|].
  split; [exact E|]. split; [intros bm Hb; apply init_exists; [exact W|lia|rewrite S0; unfold int_min, int_max; lia|exact Hb]|].
  split; [|exists g; split; [exact W'|lia]]. exists (feE f). split; [destruct W as (_ & W2 & _); lia|].
  assert (B : behind f (feHead f) = 0%R) by (unfold behind, vdot, vsub; cbn [vx vy vz]; unnum; ring).
  rewrite B. lra.
Qed.

(* ==== C53 ==== *)
(* The undriven field after n steps in closed form: the head moves by n steps of the size
   ds, the values of the even cells are reduced by the value of the first cell (and those of
   the odd cells changed accordingly) as soon as the front, which moves two cells per step,
   has passed. *)
Theorem C53_undriven : forall (TT : Trans R) (f0 f1 f : fel R) bm0 bms,
  fel_wf f0 -> fePrev f0 = feE f0 -> fel_init bm0 f0 = Ok f1 -> Forall (quiet f0) bms -> fel_steps bms f1 = Ok f ->
  (forall j, 0 <= j < feN f0 -> cell (feE f) j = undriven (cell (feE f0)) (Z.of_nat (length bms) + 1) j) /\
  feHead f = vadd (feHead f0) (vmul (feProp f0) ((INR (length bms) + 1) * feDs f0)%R).
Proof. intros TT f0 f1 f bm0 bms W HP H1 HF H. destruct (undriven_run f0 f1 f bm0 bms W HP H1 HF H). tauto. Qed.
Print Assumptions C53_undriven.
(* the shape is kept exactly if the first two cells are empty *)
Theorem C53_shape_partial : forall (TT : Trans R) (f0 f1 f : fel R) bm0 bms,
  fel_wf f0 -> fePrev f0 = feE f0 -> fel_init bm0 f0 = Ok f1 -> Forall (quiet f0) bms -> fel_steps bms f1 = Ok f -> bms <> [] ->
  (feE f = feE f0 <-> cell (feE f0) 0 = 0%R /\ cell (feE f0) 1 = 0%R).
Proof. intros; eapply undriven_shape; eassumption. Qed.
Print Assumptions C53_shape_partial.
(* in space: the field at X moves with the grid *)
Theorem C53_moves_partial : forall (TT : Trans R) (f0 f1 f : fel R) bm0 bms X,
  fel_wf f0 -> fePrev f0 = feE f0 -> fel_init bm0 f0 = Ok f1 -> Forall (quiet f0) bms -> fel_steps bms f1 = Ok f ->
  cell (feE f0) 0 = 0%R -> cell (feE f0) 1 = 0%R ->
  fel_field_at f (vadd X (vmul (feProp f0) ((INR (length bms) + 1) * feDs f0)%R)) = fel_field_at f0 X.
Proof. intros; eapply undriven_moves; eassumption. Qed.
Print Assumptions C53_moves_partial.
(* the speed: the displacement per step is c*dt in a unit direction *)
Theorem C53_speed : forall (TT : Trans R) dt N pos prop pol log zR w0 zw sd (f : fel R), N <= int_max -> prop <> vzero -> (0 < dt)%R ->
  fel_new dt N pos prop pol log zR w0 zw sd = Ok f -> fePrev f = feE f /\ feHead f = pos /\ vnorm (vmul (feProp f) (feDs f)) = (nc * dt)%R.
Proof.
  intros TT dt N pos prop pol log zR w0 zw sd f HN Hp Hd H. apply new_wf in H; [|exact HN].
  destruct H as (W & _ & D & T0 & S0 & HH & P & DS & _ & _ & _ & _ & E & _ & EP). split; [exact EP|]. split; [exact HH|].
  rewrite vnorm_mul, P, vnormalize_unit, DS by exact Hp. rewrite Rabs_pos_eq; [|apply Rlt_le, ds_pos, Hd]. change (nmul dt nc) with (dt * nc)%R. ring.
Qed.
Print Assumptions C53_speed.
(* Violation: a seed pulse has some field in the first cell (the gaussian envelope is never
   zero); this is lost at once. *)
Theorem C53_seed_refuted : forall dt N pos prop pol log zR w0 zw E0 lambda tau tstart (f0 f1 : fel R) bm0,
  N <= int_max -> fel_new dt N pos prop pol log zR w0 zw (Some (E0, lambda, tau, tstart)) = Ok f0 -> fel_init bm0 f0 = Ok f1 ->
  (E0 <> 0)%R -> cos (2 * PI * nc / lambda * tstart)%R <> 0%R -> cell (feE f0) 0 <> 0%R /\ cell (feE f1) 0 = 0%R.
Proof.
  intros dt N pos prop pol log zR w0 zw E0 lambda tau tstart f0 f1 bm0 HN H H1 HE HC.
  pose proof H as H'. apply new_wf in H'; [|exact HN]. destruct H' as (W & N0 & D & _ & _ & _ & _ & _ & _ & _ & _ & _ & _ & _ & EP).
  assert (N2 : 2 <= N). { pose proof H1 as K. apply init_inv in K; [|exact W]. lia. }
  destruct (solved_init f0 f1 bm0 W EP H1) as (_ & _ & S3 & _).
  destruct (init_const f0 f1 bm0 W H1) as (_ & N1 & _). split.
  - unfold fel_new in H. bget H as g Hg. apply setup_wf in Hg; [|exact HN]. destruct Hg as (G0 & G1 & G2 & _). cbn [feN feDt] in G1, G2.
    apply seed_wf in H; [|exact G0]. destruct H as (_ & _ & _ & _ & _ & _ & _ & _ & _ & _ & _ & _ & _ & _ & _ & SV).
    rewrite (cell_nth _ 0 _ ltac:(lia) (SV 0 ltac:(lia))). unfold seed_value. rewrite G2.
    unfold ncos, nexp, TransR. revert HC. generalize (@nc R _). intros cc HC. unnum. change (@nPi R _) with PI.
    intros Z0. apply Rmult_integral in Z0. destruct Z0 as [Z0|Z0].
    + apply Rmult_integral in Z0. destruct Z0 as [Z0|Z0]; [contradiction|]. apply HC. rewrite <- cos_neg. rewrite <- Z0. f_equal. ring.
    + pose proof (exp_pos (- @nhalf R _ * ((0 * dt - tstart) / tau * ((0 * dt - tstart) / tau)))) as EPOS. revert Z0 EPOS. unnum. intros Z0 EPOS. lra.
  - rewrite S3 by lia. cbn [driven]. rewrite undriven_head by lia. lra.
Qed.
Print Assumptions C53_seed_refuted.
(* Violation: floating point; small fields behind larger ones are lost by rounding *)
Definition round_grid : fel float :=
  let e := [0; 0; 1; 0; 0x1p-60]%float in
  FEL 5 (nZ 1) (nZ 0) 0 (V 0 0 0)%float (V 0 0 0)%float (V 0 0 0)%float (V 0 0 1)%float (nmul (nZ 1) nc) (V 1 0 0)%float (V 0 1 0)%float (nZ 1) (nZ 1) (nZ 0)
      e e [e] [e] true (Some 1).
Theorem C53_rounding_refuted : forall (TT : Trans float), exists (f f' : fel float), fel_wf f /\ fePrev f = feE f /\
  nth_error (feE f) 0 = Some 0%float /\ nth_error (feE f) 1 = Some 0%float /\ nth_error (feE f) 4 = Some 0x1p-60%float /\
  fel_init (BM [] 0 (feDt f) TRACKING_VAY) f = Ok f' /\ nth_error (feE f') 4 = Some 0%float.
Proof.
  intros TT. eexists round_grid, _. split.
  { unfold fel_wf, round_grid. cbn [feN feE fePrev feSt feJst length]. unfold int_max. repeat split; try lia; repeat constructor. }
  do 4 (split; [reflexivity|]). split; [vm_compute; reflexivity|]. reflexivity.
Qed.
Print Assumptions C53_rounding_refuted.
(* grids with a field in the middle, and beams, exist *)
Definition mid_grid : fel R :=
  let e := [0; 0; 1; 0]%R in
  FEL 4 1%R 0%R 0 vzero vzero vzero (V 0 0 1)%R 1%R (V 1 0 0)%R (V 0 1 0)%R 1%R 1%R 0%R e e [e] [e] true (Some 1).
Example C53_ex : forall n, exists bm0 bms f1 f, fel_wf mid_grid /\ fePrev mid_grid = feE mid_grid /\ fel_init bm0 mid_grid = Ok f1 /\ Forall (quiet mid_grid) bms /\
  fel_steps bms f1 = Ok f /\ length bms = n /\ cell (feE mid_grid) 0 = 0%R /\ cell (feE mid_grid) 1 = 0%R \/ int_max < Z.of_nat n + 1.
Proof.
  intros n. destruct (Z_lt_le_dec int_max (Z.of_nat n + 1)) as [L|L]; [exists (no_beam 0 1%R), [], mid_grid, mid_grid; right; exact L|].
  assert (W : fel_wf mid_grid).
  { unfold fel_wf, mid_grid. cbn [feN feE fePrev feSt feJst length]. unfold int_max. repeat split; try lia; repeat constructor. }
  destruct (init_exists mid_grid (no_beam 0 1%R) W ltac:(cbn [mid_grid feN]; lia) ltac:(cbn [mid_grid feNst]; unfold int_min, int_max; lia) eq_refl) as [f1 H1].
  pose proof H1 as K. apply init_inv in K; [|exact W]. destruct K as (_ & _ & _ & r & E & _).
  pose proof (init_wf _ _ _ W H1) as W1.
  destruct (steps_exist 1 ltac:(lia) n f1 1 W1) as (bms & gs & L1 & Q & S).
  - rewrite E. cbn. lia.
  - rewrite E. cbn. lia.
  - rewrite E. cbn [feNst mid_grid]. lia.
  - rewrite E. reflexivity.
  - rewrite E. cbn. lra.
  - rewrite E. cbn. lra.
  - destruct (states_steps _ _ _ S) as [f Hf]. exists (no_beam 0 1%R), bms, f1, f. left. split; [exact W|]. split; [reflexivity|]. split; [exact H1|].
    split; [|split; [exact Hf|split; [exact L1|split; reflexivity]]]. eapply Forall_impl; [|exact Q]. intros b Hb. unfold quiet in *.
    assert (X : feEx f1 = feEx mid_grid) by (rewrite E; reflexivity). rewrite <- X. exact Hb.
Qed.

(* ==== C54 ==== *)
(* With exact arithmetic the run is the same as that of a program without any comparison of
   times, so no time-mismatch exception is raised.  All particles start at t=0, the beam and
   the fields have the same time step. *)
Theorem C54_never_off : forall (TT : Trans R) dt NOTS lat (bm : beam R) k,
  (0 < dt)%R -> bmdt bm = dt -> Forall (fun p => pt p = 0%R) (concat (bmB bm)) ->
  Forall (fun f => feTime f = 0%R /\ feDt f = dt) (snd lat) ->
  sim_run full_field inter_init inter_step NOTS lat bm k = sim_run field_free inter_init_free inter_step_free NOTS lat bm k.
Proof. intros; eapply free_run; eassumption. Qed.
Print Assumptions C54_never_off.
(* the same for the parallel program *)
Theorem C54_parallel : forall (TT : Trans R) dt NOTS lat (bm0 : beam R) bms n,
  let P := Z.of_nat (length bms) in
  (0 < dt)%R -> bmdt bm0 = dt -> Forall (fun p => pt p = 0%R) (concat (bmB bm0)) ->
  Forall (fun f => feTime f = 0%R /\ feDt f = dt) (snd lat) ->
  hd_error bms = Some bm0 -> Forall (same_input bm0) bms ->
  count bm0 + P <= int_max -> 10 * (share (count bm0) P * P) <= int_max -> 0 <= NOTS < int_max -> Z.of_nat n <= NOTS ->
  same_outcome (fun s ns => Forall (fun nd => nMaster nd = sMaster s /\ nLat nd = sLat s) ns)
    (sim_run field_free inter_init_free inter_step_free NOTS lat bm0 n)
    (driver_run full_field inter_init inter_step P NOTS lat bms n).
Proof.
  intros TT dt NOTS lat bm0 bms n P Hd Hb HP HL H1 H2 H3 H4 H5 H6. rewrite <- (free_run dt) by assumption.
  eapply DriverProofs2.same_mono; [|apply C33_same_as_one_process_partial; assumption]. intros s ns (_ & A & _). exact A.
Qed.
Print Assumptions C54_parallel.
(* With any arithmetic, floating point included: the clocks of the field and of the
   particles show identical numbers, the field being one step ahead: after k steps the
   particles will next ask for the field at their time plus dt, the time of the field.
   Not covered: the additional comparison of the field time to (number of steps)*dt in
   FEL_1D::step with rounding. *)
Theorem C54_identical_clocks : forall (T : Type) (NT : Num T) (TT : Trans T) dt NOTS lat (bm : beam T),
  bmdt bm = dt -> Forall (fun p => pt p = nZ 0) (concat (bmB bm)) -> Forall (fun f => feTime f = nZ 0 /\ feDt f = dt) (snd lat) ->
  forall k s, sim_run full_field inter_init inter_step NOTS lat bm k = Ok s ->
  Forall (fun f => feTime f = clock dt (S k)) (snd (sLat s)) /\
  Forall (fun p => nadd (pt p) (pdt p) = clock dt (S k)) (sTracked s) /\
  Forall (fun p => pt p = clock dt k) (concat (bmB (sMaster s))) /\ bmNOTS (sMaster s) = Z.of_nat k.
Proof.
  intros T NT TT dt NOTS lat bm H1 H2 H3 k s H. destruct (run_in_time dt NOTS lat bm H1 H2 H3 k s H) as (A & B & C & D & _).
  split; [eapply Forall_impl; [|exact A]; intros f X; apply X|]. split; [|auto].
  eapply Forall_impl; [|exact B]. intros p (P1 & P2). rewrite P1, P2. reflexivity.
Qed.
Print Assumptions C54_identical_clocks.
Example C54_ex : exists lat : lattice_T R, exists bm : beam R, (0 < 1)%R /\ bmdt bm = 1%R /\ Forall (fun p => pt p = 0%R) (concat (bmB bm)) /\ concat (bmB bm) <> [] /\
  snd lat <> [] /\ Forall (fun f => feTime f = 0%R /\ feDt f = 1%R) (snd lat).
Proof.
  exists ([], [mid_grid]), (BM [[initTrajectory 0%R (V 0 0 (-1))%R (V 0 0 5)%R vzero (new_particle (-1)%R 1%R)]] 0 1%R TRACKING_VAY).
  split; [lra|]. split; [reflexivity|]. split; [constructor; [reflexivity|constructor]|]. split; [discriminate|]. split; [discriminate|].
  constructor; [split; reflexivity|constructor].
Qed.

(* ==== C55 ==== *)
(* The record after any number of steps: the initial field and every field with a number
   n>=2 which is a multiple of s (the step attribute of <log>). *)
Theorem C55_record : forall (T : Type) (NT : Num T) (TT : Trans T) dt N pos prop pol s zR w0 zw sd (f0 f1 : fel T) bm0 bms gs,
  N <= int_max -> fel_new dt N pos prop pol (Some s) zR w0 zw sd = Ok f0 -> fel_init bm0 f0 = Ok f1 -> fel_states bms f1 = Ok gs ->
  feSt (last gs f1) = feE f0 :: map feE (filter (due_by s) gs) /\ fel_steps bms f1 = Ok (last gs f1) /\
  feNst f0 = 0 /\ feNst f1 = 1 /\ (forall i g, nth_error gs i = Some g -> feNst g = Z.of_nat i + 2) /\ length gs = length bms.
Proof.
  intros T NT TT dt N pos prop pol s zR w0 zw sd f0 f1 bm0 bms gs HN H0 H1 H.
  apply new_wf in H0; [|exact HN]. destruct H0 as (W & N0 & D & _ & S0 & _ & _ & _ & _ & _ & St & Js & E & _ & EP).
  pose proof (init_wf _ _ _ W H1) as W1. apply init_inv in H1; [|exact W]. destruct H1 as (_ & _ & _ & r & E1 & _).
  assert (A1 : feNst f1 = 1) by (rewrite E1; cbn [feNst]; lia).
  assert (A2 : feEvery f1 = Some s) by (rewrite E1; exact E). assert (A3 : feSt f1 = [feE f0]) by (rewrite E1; exact St).
  assert (A4 : length (feJst f1) = length (feSt f1)) by (rewrite A3, E1; exact Js).
  destruct (states_record s bms f1 gs W1 ltac:(lia) A2 A4 H) as (B1 & B2 & B3 & B4 & _). rewrite A3 in B4.
  split; [exact B4|]. split; [exact B3|]. split; [exact S0|]. split; [exact A1|]. split; [|exact B2].
  intros i g G. destruct (B1 i g G) as (G1 & _). lia.
Qed.
Print Assumptions C55_record.
(* so the record is as specified if s is at least 2 (or at most -2) *)
Theorem C55_multiples_partial : forall (T : Type) (NT : Num T) (TT : Trans T) dt N pos prop pol s zR w0 zw sd (f0 f1 : fel T) bm0 bms gs,
  N <= int_max -> 2 <= Z.abs s -> fel_new dt N pos prop pol (Some s) zR w0 zw sd = Ok f0 -> fel_init bm0 f0 = Ok f1 -> fel_states bms f1 = Ok gs ->
  feSt (last gs f1) = feE f0 :: map feE (filter (due_by s) (f1 :: gs)).
Proof.
  intros T NT TT dt N pos prop pol s zR w0 zw sd f0 f1 bm0 bms gs HN Hs H0 H1 H.
  destruct (C55_record T NT TT dt N pos prop pol s zR w0 zw sd f0 f1 bm0 bms gs HN H0 H1 H) as (-> & _ & _ & A1 & _).
  cbn [filter]. unfold due_by at 2. rewrite A1. destruct (Z.eqb_spec (1 mod s) 0) as [K|K]; [|reflexivity].
  exfalso. apply Z.mod_divide in K; [|lia]. apply Z.divide_1_r in K. lia.
Qed.
Print Assumptions C55_multiples_partial.
(* the file contains the record *)
Theorem C55_file : forall (T : Type) (NT : Num T) (TT : Trans T) dt N pos prop pol s zR w0 zw sd (f0 f1 : fel T) bm0 bms gs,
  let f := last gs f1 in
  N <= int_max -> fel_new dt N pos prop pol (Some s) zR w0 zw sd = Ok f0 -> fel_init bm0 f0 = Ok f1 -> fel_states bms f1 = Ok gs ->
  Z.of_nat (length (feSt f)) <= int_max -> N * Z.of_nat (length (feSt f)) <= int_max ->
  fel_output f = Ok (Some (Z.of_nat (length (feSt f)), N, concat (feSt f), concat (feJst f))).
Proof.
  intros T NT TT dt N pos prop pol s zR w0 zw sd f0 f1 bm0 bms gs f HN H0 H1 H L1 L2.
  apply new_wf in H0; [|exact HN]. destruct H0 as (W & N0 & D & _ & S0 & _ & _ & _ & _ & _ & St & Js & E & O & EP).
  pose proof (init_wf _ _ _ W H1) as W1. apply init_inv in H1; [|exact W]. destruct H1 as (_ & _ & _ & r & E1 & _).
  assert (A1 : feNst f1 = 1) by (rewrite E1; cbn [feNst]; lia).
  assert (A2 : feEvery f1 = Some s) by (rewrite E1; exact E). assert (A3 : feSt f1 = [feE f0]) by (rewrite E1; exact St).
  assert (A4 : length (feJst f1) = length (feSt f1)) by (rewrite A3, E1; exact Js).
  assert (A5 : feN f1 = N) by (rewrite E1; exact N0). assert (A6 : feOut f1 = true) by (rewrite E1; exact O).
  destruct (states_record s bms f1 gs W1 ltac:(lia) A2 A4 H) as (_ & _ & _ & _ & B5 & B6 & B7 & B8). fold f in B5, B6, B7, B8.
  rewrite <- A5, <- B7. rewrite <- A5, <- B7 in L2. apply output_ok; try assumption. congruence.
Qed.
Print Assumptions C55_file.
(* Violations.  With step="1" (the default) the field number 1 is missing: *)
Theorem C55_every_step_refuted : forall (T : Type) (NT : Num T) (TT : Trans T) dt N pos prop pol zR w0 zw sd (f0 f1 : fel T) bm0 bms gs,
  N <= int_max -> fel_new dt N pos prop pol (Some 1) zR w0 zw sd = Ok f0 -> fel_init bm0 f0 = Ok f1 -> fel_states bms f1 = Ok gs ->
  feSt (last gs f1) = feE f0 :: map feE gs /\ length (feSt (last gs f1)) = S (length bms) /\ feNst (last gs f1) = Z.of_nat (length bms) + 1.
Proof.
  intros T NT TT dt N pos prop pol zR w0 zw sd f0 f1 bm0 bms gs HN H0 H1 H.
  destruct (C55_record T NT TT dt N pos prop pol 1 zR w0 zw sd f0 f1 bm0 bms gs HN H0 H1 H) as (E & _ & _ & A1 & A2 & A3).
  assert (F : filter (due_by 1) gs = gs).
  { clear. induction gs as [|g gs IH]; [reflexivity|]. cbn [filter]. unfold due_by at 1. rewrite Z.mod_1_r. cbn. rewrite IH. reflexivity. }
  rewrite F in E. rewrite E. split; [reflexivity|]. split; [cbn [length]; rewrite map_length, A3; reflexivity|].
  destruct gs as [|g gs] using rev_ind; [cbn [last length] in *; lia|]. rewrite last_last. clear IHgs.
  rewrite (A2 (length gs) g) by (rewrite nth_error_app2, Nat.sub_diag by lia; reflexivity). rewrite app_length in A3. cbn [length] in A3. lia.
Qed.
Print Assumptions C55_every_step_refuted.
(* without <log> the member step_Output is never set; no step ever succeeds, the first one
   which gets to the comparison is undefined.  The same with step="0". *)
Theorem C55_no_log_refuted : forall (T : Type) (NT : Num T) (TT : Trans T) dt N pos prop pol log zR w0 zw sd (f0 f1 : fel T) bm0,
  N <= int_max -> log = None \/ log = Some 0 -> fel_new dt N pos prop pol log zR w0 zw sd = Ok f0 -> fel_init bm0 f0 = Ok f1 ->
  (forall bm g, fel_step bm f1 <> Ok g) /\ (forall bm, concat (bmB bm) = [] -> beam_late f1 (bmNOTS bm) = false -> fel_step bm f1 = UB).
Proof.
  intros T NT TT dt N pos prop pol log zR w0 zw sd f0 f1 bm0 HN HL H0 H1.
  apply new_wf in H0; [|exact HN]. destruct H0 as (W & N0 & D & _ & S0 & _ & _ & _ & _ & _ & St & Js & E & O & EP).
  pose proof (init_wf _ _ _ W H1) as W1. apply init_inv in H1; [|exact W]. destruct H1 as (N2 & _ & _ & r & E1 & _).
  assert (A1 : feNst f1 = 1) by (rewrite E1; cbn [feNst]; lia). assert (A2 : feEvery f1 = log) by (rewrite E1; exact E).
  assert (A5 : feN f1 = feN f0) by (rewrite E1; reflexivity).
  split.
  - intros bm g H. destruct HL as [-> | ->].
    + apply (no_log f1 bm g W1 A2 H).
    + apply step_inv in H; [|exact W1]. destruct H as (_ & J & _ & LJ & H). rewrite advance_no_log in H; [discriminate H|exact W1|lia|exact LJ|rewrite A1; unfold int_min, int_max; lia|].
      right. exact A2.
  - intros bm Hb Hl. unfold fel_step. rewrite Hl, Hb. destruct (zeros_ok (feN f1) ltac:(lia)) as (z & -> & Lz & _). cbn [bind fold_res].
    apply advance_no_log; [exact W1|lia|exact Lz|rewrite A1; unfold int_min, int_max; lia|]. rewrite A2. exact HL.
Qed.
Print Assumptions C55_no_log_refuted.
(* too much data for the int size of the output buffer *)
Theorem C55_file_overflow_refuted : forall (T : Type) (NT : Num T) (TT : Trans T) (f : fel T), feOut f = true -> 0 <= feN f ->
  Z.of_nat (length (feSt f)) <= int_max -> int_max < feN f * Z.of_nat (length (feSt f)) -> fel_output f = UB.
Proof. intros; apply output_overflow; assumption. Qed.
Print Assumptions C55_file_overflow_refuted.
Example C55_ex : forall s n, s <> 0 -> Z.of_nat n + 1 <= int_max -> exists (f0 f1 : fel R) bm0 bms gs,
  fel_new 1%R 5 vzero (V 0 0 1)%R (V 1 0 0)%R (Some s) 1%R 1%R 0%R None = Ok f0 /\ fel_init bm0 f0 = Ok f1 /\ fel_states bms f1 = Ok gs /\ length bms = n.
Proof.
  intros s n Hs L. destruct (new_exists (1 : R)%R 5 vzero (V 0 0 1)%R (V 1 0 0)%R (Some s) 1%R 1%R 0%R None ltac:(unfold int_max; lia)) as [f0 H0].
  pose proof H0 as K. apply new_wf in K; [|unfold int_max; lia]. destruct K as (W & N0 & D & T0 & S0 & _ & _ & _ & _ & _ & St & Js & E & O & EP).
  destruct (init_exists f0 (no_beam 0 1%R) W ltac:(lia) ltac:(rewrite S0; unfold int_min, int_max; lia) ltac:(cbn [no_beam bmdt]; congruence)) as [f1 H1].
  pose proof (init_wf _ _ _ W H1) as W1. pose proof H1 as K. apply init_inv in K; [|exact W]. destruct K as (_ & _ & _ & r & E1 & _).
  destruct (steps_exist s Hs n f1 1 W1) as (bms & gs & L1 & _ & S).
  - rewrite E1. cbn [feN]. lia.
  - rewrite E1. cbn [feNst]. lia.
  - rewrite E1. cbn [feNst]. lia.
  - rewrite E1. exact E.
  - rewrite E1. cbn [feDt]. rewrite D. lra.
  - rewrite E1. cbn [feTime feDt]. rewrite T0, D. unnum. lra.
  - exists f0, f1, (no_beam 0 1%R), bms, gs. auto.
Qed.

(* ==== C69 ==== *)
(* The field is that of a plane wave in the direction of propagation.  It is given in SI
   units: B is E rotated and divided by c.  Propagation direction and polarization must not
   be parallel, otherwise e_x is 0/0. *)
Theorem C69_plane_wave : forall (TT : Trans R) dt N pos prop pol log zR w0 zw sd (f0 : fel R), N <= int_max -> prop <> vzero ->
  fel_new dt N pos prop pol log zR w0 zw sd = Ok f0 ->
  forall f X e, feProp f = feProp f0 -> feEx f = feEx f0 -> feEy f = feEy f0 -> fel_field_at f X = Ok e ->
  vnorm (feProp f) = 1%R /\ vdot (fE e) (feProp f) = 0%R /\ fB e = vdiv (vcross (feProp f) (fE e)) nc /\
  (vsub pol (vmul (feProp f) (vdot pol (feProp f))) <> vzero -> vnorm (feEx f) = 1%R).
Proof.
  intros TT dt N pos prop pol log zR w0 zw sd f0 HN Hp H f X e P EX EY HX. apply new_wf in H; [|exact HN].
  destruct H as (_ & _ & _ & _ & _ & _ & P0 & _ & X0 & Y0 & _).
  assert (U : vabs2 (feProp f) = 1%R) by (rewrite P, P0; apply vnormalize_abs2; exact Hp).
  rewrite <- P in Y0. rewrite <- EX, <- EY in Y0. rewrite <- P0, <- P, <- EX in X0.
  destruct (field_wave f X e) as [F1 F2]; [|exact Y0|exact HX|].
  - rewrite X0. apply vnormalize_dot_0, pol_perp. exact U.
  - split; [rewrite vnorm_sqrt, U; apply sqrt_1|]. split; [exact F1|]. split; [exact F2|]. intros NZ. rewrite X0. apply vnormalize_unit. exact NZ.
Qed.
Print Assumptions C69_plane_wave.
(* the directions do not change *)
Theorem C69_directions : forall (TT : Trans R) (f g : fel R) bm, fel_wf f -> fel_init bm f = Ok g \/ fel_step bm f = Ok g ->
  feProp g = feProp f /\ feEx g = feEx f /\ feEy g = feEy f.
Proof.
  intros TT f g bm W [H|H].
  - destruct (init_const _ _ _ W H) as (_ & _ & _ & A & _ & B & C & _). auto.
  - apply step_inv in H; [|exact W]. destruct H as (_ & J & _ & LJ & H). destruct (advance_const _ _ _ W LJ H) as (_ & _ & _ & A & _ & B & C & _). auto.
Qed.
Print Assumptions C69_directions.
(* the default constructor: a grid along z from the origin, with the steps of light; a field of zero,
   every step recorded, no file *)
Theorem C69_default : forall (T : Type) (NT : Num T) (TT : Trans T) dt N (f : fel T), N <= int_max -> fel_default dt N = Ok f ->
  feN f = N /\ feDt f = dt /\ feHead f = vzero /\ feProp f = V (nZ 0) (nZ 0) (nZ 1) /\ feDs f = nmul dt nc /\
  feEx f = V (nZ 0) (nZ 1) (nZ 0) /\ feOut f = false /\ feEvery f = Some 1 /\ feTime f = nZ 0 /\ feNst f = 0 /\ feOrig f = vzero /\
  feZR f = nZ 1 /\ feW0 f = ndiv (nZ 1) (nZ 1000) /\ feZw f = nZ 1 /\ feE f = repeat (nZ 0) (Z.to_nat N) /\ fePrev f = feE f /\ feSt f = [feE f] /\ feJst f = [feE f].
Proof.
  intros T NT TT dt N f HN H. unfold fel_default, fel_setup in H. bget H as z Hz. okinj H. cbn [feN] in Hz. unfold zeros in Hz. destruct (N <? 0); [discriminate Hz|].
  okinj Hz. repeat split; reflexivity.
Qed.
Print Assumptions C69_default.
(* Violation: the default constructor assigns e_x twice; the field has no magnetic part *)
Theorem C69_default_refuted : forall (TT : Trans R) dt N (f0 : fel R), N <= int_max -> fel_default dt N = Ok f0 ->
  forall f X e, feEy f = feEy f0 -> fel_field_at f X = Ok e -> fB e = vzero.
Proof.
  intros TT dt N f0 HN H f X e EY HX. unfold fel_default in H. apply setup_wf in H; [|exact HN].
  destruct H as (_ & _ & _ & _ & _ & _ & _ & _ & _ & Y0 & _). cbn [feEy] in Y0. rewrite Y0 in EY.
  unfold fel_field_at in HX. bget HX as i Hi. destruct (_ || _)%bool; [discriminate HX|]. bget HX as v Hv. okinj HX. cbn [fB]. rewrite EY.
  generalize (@nc R _). intros cc. apply vec_eq; cbn; unfold Rdiv; ring.
Qed.
Print Assumptions C69_default_refuted.
Example C69_ex : (V 0 0 1)%R <> vzero /\ exists f0 e X, fel_new 1%R 5 vzero (V 0 0 1)%R (V 1 0 0)%R (Some 1) 1%R 1%R 0%R None = Ok f0 /\ fel_field_at f0 X = Ok e.
Proof.
  split; [intros H; apply (f_equal vz) in H; cbn in H; lra|].
  destruct (new_exists (1 : R)%R 5 vzero (V 0 0 1)%R (V 1 0 0)%R (Some 1) 1%R 1%R 0%R None ltac:(unfold int_max; lia)) as [f0 H0].
  pose proof H0 as K. apply new_wf in K; [|unfold int_max; lia]. destruct K as (W & N0 & _). pose proof (field_cases f0 (feHead f0) W) as C.
  assert (B : ndiv (behind f0 (feHead f0)) (feDs f0) = 0%R).
  { unfold behind, vdot, vsub. cbn [vx vy vz]. unnum. unfold Rdiv. ring. }
  rewrite B in C. change (nrint 0%R) with (Some (ZnearestE 0)) in C. rewrite Zrnd_IZR in C by apply valid_rnd_N. rewrite N0 in C. cbn in C.
  destruct C as (e & _ & C). eexists f0, _, (feHead f0). split; [exact H0|exact C].
Qed.

(* ==== C70 ==== *)
(* The field for any sequence of currents: the undriven solution plus the sum of the gains.
   In every step a cell gains the current of the cell in front of it; the gain moves by two
   cells per step with the current of the preceding step taken out. *)
Theorem C70_driven : forall (TT : Trans R) (f0 f1 f : fel R) bm0 Js,
  fel_wf f0 -> fePrev f0 = feE f0 -> fel_init bm0 f0 = Ok f1 -> Forall (fun J => Z.of_nat (length J) = feN f0) Js -> fel_drive Js f1 = Ok f ->
  forall j, 0 <= j < feN f0 ->
  cell (feE f) j = (undriven (cell (feE f0)) (Z.of_nat (length Js) + 1) j + driven (rev (map (source f0) Js)) j)%R.
Proof.
  intros TT f0 f1 f bm0 Js W HP H1 HF H j Hj. destruct (init_const _ _ _ W H1) as (W1 & A1 & A2 & _).
  pose proof (solved_init _ _ _ W HP H1) as S.
  destruct (drive_solved (cell (feE f0)) Js f1 f 0 [] W1) as ((_ & _ & S3 & _) & B0 & B1 & _); [rewrite A1; exact HF|exact H|exact S|].
  rewrite S3 by lia. rewrite app_nil_r. cbn [Nat.add].
  assert (EQ : map (source f1) Js = map (source f0) Js) by (apply map_ext; intros l; apply source_ext; assumption). rewrite EQ. reflexivity.
Qed.
Print Assumptions C70_driven.
(* superposition *)
Theorem C70_superposition : forall x y ps qs, length ps = length qs -> forall j,
  driven (map (fun pq i => x * fst pq i + y * snd pq i)%R (combine ps qs)) j = (x * driven ps j + y * driven qs j)%R.
Proof. exact driven_linear. Qed.
Print Assumptions C70_superposition.
(* the field of a cell depends only on the currents in front of it *)
Theorem C70_causal : forall k qs qs', Forall2 (fun q q' : Z -> R => forall i, i < k -> q i = q' i) qs qs' ->
  forall j, j <= k -> driven qs j = driven qs' j.
Proof. exact driven_causal. Qed.
Print Assumptions C70_causal.
Example C70_ex : exists bm0 f1 f, fel_wf mid_grid /\ fePrev mid_grid = feE mid_grid /\ fel_init bm0 mid_grid = Ok f1 /\
  Forall (fun J => Z.of_nat (length J) = feN mid_grid) [[0; 1; 2; 3]%R] /\ fel_drive [[0; 1; 2; 3]%R] f1 = Ok f.
Proof.
  assert (W : fel_wf mid_grid).
  { unfold fel_wf, mid_grid. cbn [feN feE fePrev feSt feJst length]. unfold int_max. repeat split; try lia; repeat constructor. }
  destruct (init_exists mid_grid (no_beam 0 1%R) W ltac:(cbn [mid_grid feN]; lia) ltac:(cbn [mid_grid feNst]; unfold int_min, int_max; lia) eq_refl) as [f1 H1].
  pose proof H1 as K. apply init_inv in K; [|exact W]. destruct K as (_ & _ & _ & r & E & _). pose proof (init_wf _ _ _ W H1) as W1.
  destruct (advance_ok f1 [0; 1; 2; 3]%R 1 W1) as (r' & e & A & _); try (rewrite E; cbn; unfold int_min, int_max; lia); [rewrite E; reflexivity|lia|].
  eexists (no_beam 0 1%R), f1, _. split; [exact W|]. split; [reflexivity|]. split; [exact H1|]. split; [constructor; [reflexivity|constructor]|].
  unfold fel_drive. cbn [fold_res]. rewrite A. reflexivity.
Qed.
