(* The whole program teufel.DiffractionScreen.cpp. *)
From Coq Require Import ZArith Reals Lra Lia List Bool String.
From Verif Require Import Base BaseFacts Num VecModel VecFacts ParticleModel TraceModel ElementModel BunchModel ObserverModel ObserverSpec ObserverProofs2 ObserverProofs4
  ObserverSpec2 ObserverProofs7 ObserverProofs8 SddsModel OutputModel OutputSpec OutputProofs OutputProofs2 OutputProofs3 TestModel TestModel3 HybridProofs ParticleSpec ParticleProofs VaySpec OrbitSpec VayTracking OrbitProofs TestProofs TestProofs3 PropOutput.
Import ListNotations.
Local Open Scope R_scope.

Lemma init_length (s : mesh R) total g : mesh_init s = Ok (total, g) -> List.length g = List.length (msX s).
Proof.
  intros H. unfold mesh_init in H. bget H as ps HP. apply Ok_inj in H. apply (f_equal snd) in H. cbn [snd] in H. subst g. rewrite !map_length.
  rewrite (map_res_length _ _ _ HP). clear. generalize 0%Z. induction (List.length (msX s)) as [|n IH]; intros z; [reflexivity|]. cbn [zseq List.length]. f_equal. apply IH.
Qed.
Lemma zero_small (s : mesh R) : small (OMesh s) -> small (OMesh (mesh_zero s)).
Proof. intros H. exact H. Qed.

Lemma screen_run fs p f s dt total g s' :
  fs "tests/DiffractionScreen.h5"%string = Some f -> mesh_read f = Ok (s, dt) -> msX s <> [] -> mesh_init s = Ok (total, g) ->
  small (OMesh s) -> mesh_fits s -> mesh_integrate (SBeam (BM [[p]] 0 0 TRACKING_NONE)) (mesh_zero s) = Ok s' ->
  exists n out, DiffractionScreen_screen fs p = Ok (n, Some out) /\ mesh_read out = Ok (s', dt) /\ (0 <= n <= 1)%Z /\
    (n = 0%Z <-> Rabs (rsum (map outflow (combine (msA s') g)) * 1000000 - 463 / 1000) <= 20 / 1000).
Proof.
  intros Hf Hr NE Hi Sm Fi H. destruct (mesh_read_shaped f s dt Hr NE) as (Sh & LT & D).
  pose proof (mesh_zero_shaped s Sh) as Shz.
  assert (HO : obs_integrate (SBeam (BM [[p]] 0 0 TRACKING_NONE)) (OMesh (mesh_zero s)) = Ok (OMesh s')).
  { cbn [obs_integrate]. rewrite H. reflexivity. }
  destruct (integrate_ok _ _ _ Shz HO) as [L _]. pose proof (like_shaped _ _ L Shz) as Sh'. pose proof (like_small _ _ L (zero_small s Sm)) as Sm'.
  cbn [like] in L. destruct L as [L1 L2].
  assert (X' : msX s' = msX s) by (rewrite L1; reflexivity).
  assert (Fi' : mesh_fits s'). { unfold mesh_fits in *. rewrite L1. cbn [mesh_with mesh_zero msTri msX msPts msNt]. exact Fi. }
  assert (D' : List.Forall (fun tr => tr_dt tr = dt) (msA s')).
  { cbn [mesh_zero mesh_with msA] in L2. clear - D L2. assert (D0 : List.Forall (fun tr => tr_dt tr = dt) (map tr_zero (msA s))).
    { apply Forall_forall. intros t I. apply in_map_iff in I. destruct I as (u & <- & I). rewrite Forall_forall in D. exact (D u I). }
    revert L2 D0. generalize (map tr_zero (msA s)). intros l L2. induction L2 as [|a b l l' (_ & E & _) _ IH]; intros D0; constructor.
    - rewrite <- E. exact (Forall_inv D0).
    - apply IH. exact (Forall_inv_tail D0). }
  destruct (C72_round_trip R NumR s' dt Sh' Sm' Fi' D') as (out & W & B).
  assert (E : mesh_energy s' g = Ok (rsum (map outflow (combine (msA s') g)))).
  { apply mesh_energy_sum; [exact (proj1 (proj2 Sh'))|]. rewrite X'. exact (init_length _ _ _ Hi). }
  set (e := rsum (map outflow (combine (msA s') g))) in *.
  exists (energy_check e), out. split.
  { unfold DiffractionScreen_screen, mesh_open. rewrite Hf, Hr. cbn [fst snd]. rewrite Hi. cbn [fst snd]. change (nZ 0) with 0. rewrite H. cbn [bind]. rewrite E, W. reflexivity. }
  split; [exact B|]. split; [apply fails_01|]. unfold energy_check. rewrite fails_iff. rewrite !lit_R by lia. reflexivity.
Qed.

(* the particle: uniform motion along the axis from -10 m to 10 m *)
Lemma screen_particle charge gamma N : 1 < gamma -> (0 < N)%nat ->
  let v := sqrt (1 - 1 / (gamma * gamma)) * nc in
  exists p, DiffractionScreen_particle charge gamma N = Ok p /\ List.length (trajectory p) = S N /\
    forall k, (k <= N)%nat -> nth_error (trajectory p) k =
      Some (TP (- (10 / v) + INR k * (20 / v / INR N)) (V 0 0 (-10 + 20 * INR k / INR N)) (V 0 0 (sqrt (gamma * gamma - 1))) vzero).
Proof.
  intros HG HN v. unfold DiffractionScreen_particle. cbv zeta. rewrite NOTS_INR.
  change (@nsqrt R NumR (nsub (nZ 1) (ndiv (nZ 1) (nmul gamma gamma)))) with (sqrt (1 - 1 / (gamma * gamma))).
  change (@nsqrt R NumR (nsub (nmul gamma gamma) (nZ 1))) with (sqrt (gamma * gamma - 1)).
  set (beta := sqrt (1 - 1 / (gamma * gamma))) in *.
  assert (BP : 0 < beta). { apply sqrt_lt_R0. assert (1 / (gamma * gamma) < 1) by (apply Rmult_lt_reg_r with (gamma * gamma); [nra|]; unfold Rdiv; rewrite Rmult_assoc, Rinv_l by nra; nra). lra. }
  assert (NP : 0 < INR N) by (apply lt_0_INR; exact HN). pose proof nc_pos as CP.
  set (F := lat_field []). set (t0 := ndiv (nopp (nZ 10)) (nmul beta nc)). set (dt := ndiv (ndiv (nZ 20) (nmul beta nc)) (INR N)).
  set (x0 := V (nZ 0) (nZ 0) (nZ (-10))). set (m0 := V (nZ 0) (nZ 0) (sqrt (gamma * gamma - 1))).
  set (p := initTrajectory t0 x0 m0 vzero _).
  assert (Hw : wf p) by (unfold wf, p; cbn; lia). assert (HT : trajectory p = [] ++ [TP t0 x0 m0 vzero]) by reflexivity.
  assert (BO : beta_of m0 = V 0 0 beta) by (apply beta_z; lra).
  assert (HL : lorentz (beta_of m0) vzero vzero = vzero).
  { unfold lorentz. generalize (beta_of m0). intros b. generalize (@nc R NumR) nc_pos. intros c Hc. destruct b. vunfold. unnum. vsplit; field; lra. }
  destruct (orbit_drift dt F vzero vzero p [] t0 x0 m0 vzero N Hw free_homogeneous HT HL) as (q & Hq & L & NT).
  exists q. split; [exact Hq|]. split; [exact L|]. intros k Hk. pose proof (NT k Hk) as E. cbn [List.length Nat.add] in E. rewrite E. f_equal.
  rewrite BO. unfold m0. change (nZ 0) with 0. unfold x0, dt, t0, v, vadd, vmul. cbn [nadd nmul ndiv nopp nZ NumR vx vy vz].
  set (cc := @nc R NumR) in *. clearbody cc beta.
  f_equal; [field; lra|]. f_equal; [ring|ring|]. field. lra.
Qed.

Lemma screen_program fs charge gamma N f s dt total g : 1 < gamma -> (0 < N)%nat -> 20 / (sqrt (1 - 1 / (gamma * gamma)) * nc) / INR N <= 1 / 1000000 ->
  fs "tests/DiffractionScreen.h5"%string = Some f -> mesh_read f = Ok (s, dt) -> msX s <> [] -> mesh_init s = Ok (total, g) ->
  small (OMesh s) -> mesh_fits s -> forall p s', DiffractionScreen_particle charge gamma N = Ok p ->
  mesh_integrate (SBeam (BM [[p]] 0 0 TRACKING_NONE)) (mesh_zero s) = Ok s' ->
  exists n out, DiffractionScreen fs charge gamma N = Ok (n, Some out) /\ mesh_read out = Ok (s', dt) /\ (0 <= n <= 1)%Z /\
    (n = 0%Z <-> Rabs (rsum (map outflow (combine (msA s') g)) * 1000000 - 463 / 1000) <= 20 / 1000).
Proof.
  intros HG HN HD Hf Hr NE Hi Sm Fi p s' Hp H. destruct (screen_run fs p f s dt total g s' Hf Hr NE Hi Sm Fi H) as (n & out & A & B & C & D).
  exists n, out. split; [|auto]. unfold DiffractionScreen. rewrite (screen_passes charge gamma N HG HN HD). cbn [bind]. rewrite Hp. cbn [bind]. rewrite A. cbn [bind fst snd Z.add].
  destruct n; reflexivity.
Qed.
(* without a readable file the program reports one error and writes nothing *)
Lemma screen_unread fs charge gamma N : 1 < gamma -> (0 < N)%nat -> 20 / (sqrt (1 - 1 / (gamma * gamma)) * nc) / INR N <= 1 / 1000000 ->
  (fs "tests/DiffractionScreen.h5"%string = None \/ exists f x, fs "tests/DiffractionScreen.h5"%string = Some f /\ mesh_read f = Throw x) ->
  DiffractionScreen fs charge gamma N = Ok (1%Z, None).
Proof.
  intros HG HN HD H. unfold DiffractionScreen. rewrite (screen_passes charge gamma N HG HN HD). cbn [bind].
  destruct (screen_particle charge gamma N HG HN) as (p & -> & _). cbn [bind]. unfold DiffractionScreen_screen, mesh_open.
  destruct H as [-> | (f & x & -> & ->)]; reflexivity.
Qed.
