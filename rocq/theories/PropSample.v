(* The values recorded by an observer of the lattice: C35, in addition to PropObserver.v *)
From Coq Require Import ZArith Reals List Lia Lra Bool.
From Verif Require Import Base BaseFacts Num VecModel VecFacts ParticleModel TraceModel RetardModel TraceProofs2 BunchModel
  DriverModel ObserverModel ObserverSpec ObserverSpec2 ObserverProofs ObserverProofs2 ObserverProofs3 ObserverProofs4 ObserverProofs5 ObserverProofs6.
Import ListNotations.
Local Open Scope Z_scope.

(* where and when the sample k of an observer is taken *)
Definition along (o dx dy : vec R) (i j : R) : vec R :=
  (V (vx o + i * vx dx + j * vx dy) (vy o + i * vy dx + j * vy dy) (vz o + i * vz dx + j * vz dy))%R.
Definition sampled (o : observer R) (k : Z * Z * Z) (t : R) (x : vec R) : Prop :=
  let '(a, b, c) := k in
  match o with
  | OScreen s => let i := IZR (a - scNx s / 2) in let j := IZR (b - scNy s / 2) in
      x = along (scO s) (scdX s) (scdY s) i j /\ t = (sct0 s + i * scdtx s + j * scdty s + IZR c * scdt s)%R
  | OSnap s => x = along (snO s) (sndX s) (sndY s) (IZR a - (IZR (snNx s) - 1) / 2) (IZR b - (IZR (snNy s) - 1) / 2) /\ t = snt s
  | OPoint s => x = poX s /\ t = (tr_t0 (poTr s) + IZR c * tr_dt (poTr s))%R
  | OMesh s => nth_error (msX s) (Z.to_nat a) = Some x /\
      exists tr, nth_error (msA s) (Z.to_nat a) = Some tr /\ t = (tr_t0 tr + IZR c * tr_dt tr)%R
  end.
(* the numbers of columns and rows fit into an int *)
Definition int_sized (o : observer R) : Prop := let '(nx, ny, _) := extent o in nx <= int_max /\ ny <= int_max.

Lemma acc_fold {A} (g : A -> Z -> res (emf R)) (a : A) n : forall k (tr r : ftrace R),
  fold_res (fun tr it => bind (g a it) (fun f => tr_acc tr it f)) (zseq k n) tr = Ok r ->
  forall i, (i < k \/ k + Z.of_nat n <= i -> tr_get r i = tr_get tr i) /\
    (k <= i < k + Z.of_nat n -> exists f0 f, tr_get tr i = Ok f0 /\ g a i = Ok f /\ tr_get r i = Ok (eadd f0 f)).
Proof.
  induction n as [|n IH]; intros k tr r H i.
  - cbn in H. okinj H. split; [reflexivity|lia].
  - cbn [zseq fold_res] in H. bget H as tr1 H1. bget H1 as f Hf.
    assert (St : forall j, (j <> k -> tr_get tr1 j = tr_get tr j) /\ (j = k -> exists f0, tr_get tr k = Ok f0 /\ tr_get tr1 k = Ok (eadd f0 f))).
    { intros j. unfold tr_acc in H1. destruct (tr_in tr k) eqn:I; [|discriminate]. bget H1 as f0 H0. bget H1 as l Hl. okinj H1.
      assert (B : 0 <= k < Z.of_nat (length (tr_f tr))).
      { apply zget_inv in H0. destruct H0 as [Q1 Q2]. assert (Q3 : nth_error (tr_f tr) (Z.to_nat k) <> None) by congruence. apply nth_error_Some in Q3. lia. }
      destruct (zset_get (tr_f tr) k (eadd f0 f) B) as (l' & E1 & E2 & _ & E3 & E4). rewrite Hl in E1. apply Ok_inj in E1. subst l'.
      assert (IN : forall j, tr_in (FT (tr_t0 tr) (tr_dt tr) l) j = tr_in tr j).
      { intros j'. unfold tr_in, tr_N. cbn [tr_f]. rewrite E2. reflexivity. }
      split.
      - intros Nj. unfold tr_get. rewrite IN. destruct (tr_in tr j); [|reflexivity]. cbn [tr_f]. apply E4. exact Nj.
      - intros ->. exists f0. unfold tr_get. rewrite IN, I. cbn [tr_f]. split; [exact H0|exact E3]. }
    destruct (IH (k + 1) tr1 r H i) as [A1 A2]. split.
    + intros Hi. rewrite A1 by lia. apply St. lia.
    + intros Hi. destruct (Z.eq_dec i k) as [->|Nk].
      * destruct (proj2 (St k) eq_refl) as (f0 & G0 & G1). exists f0, f. split; [exact G0|]. split; [exact Hf|]. rewrite A1 by lia. exact G1.
      * destruct (A2 ltac:(lia)) as (f0 & f' & G0 & G1 & G2). exists f0, f'. split; [|split; assumption]. rewrite <- G0. symmetry. apply St. exact Nk.
Qed.

Lemma lattice_samples (F : field_fn R) time n pos (tr r : ftrace R) : lattice_trace F time n pos tr = Ok r ->
  forall i, 0 <= i < Z.of_nat n -> exists f0 t f, tr_get tr i = Ok f0 /\ time i = Ok t /\ F t pos = Ok f /\ tr_get r i = Ok (eadd f0 f).
Proof.
  intros H i Hi. unfold lattice_trace in H.
  assert (H' : fold_res (fun tr it => bind ((fun (_ : unit) it => bind (time it) (fun t => F t pos)) tt it) (fun f => tr_acc tr it f)) (zseq 0 n) tr = Ok r).
  { rewrite <- H. apply fold_res_ext. intros s a. destruct (time a); reflexivity. }
  destruct (acc_fold _ tt n 0 tr r H' i) as [_ Q]. destruct (Q ltac:(lia)) as (f0 & f & G1 & G2 & G3).
  cbv beta in G2. bget G2 as t Ht. exists f0, t, f. repeat split; assumption.
Qed.
Lemma centre_screen (s : screen R) a b : 0 <= scNx s <= int_max -> 0 <= scNy s <= int_max -> 0 <= a < scNx s -> 0 <= b < scNy s ->
  screen_pos s a b = Ok (along (scO s) (scdX s) (scdY s) (IZR (a - scNx s / 2)) (IZR (b - scNy s / 2))) /\
  screen_t0 s a b = Ok (sct0 s + IZR (a - scNx s / 2) * scdtx s + IZR (b - scNy s / 2) * scdty s)%R.
Proof.
  intros H1 H2 H3 H4. unfold screen_pos, screen_t0, time_zero. rewrite !centred_ok by lia. cbn [bind].
  generalize (a - scNx s / 2) (b - scNy s / 2). intros i j. split; f_equal.
  - unfold along. destruct (scO s), (scdX s), (scdY s). vunfold. unnum. vsplit; ring.
  - unnum. ring.
Qed.

Lemma observed_sample (F : field_fn R) (o o1 : observer R) k : shaped o -> int_sized o -> inside o k ->
  obs_integrate (SLattice F) o = Ok o1 ->
  exists f0 t x f, obs_get o k = Ok f0 /\ sampled o k t x /\ F t x = Ok f /\
    obs_get o1 k = Ok (match o with OSnap _ => f | _ => eadd f0 f end).
Proof.
  intros Sh Is I E. destruct k as [[a b] c]. destruct (integrate_ok _ _ _ Sh E) as [K C].
  pose proof (inside_cell _ _ _ _ I) as IC. destruct (C (a, b) IC) as (tr & r & C0 & C1 & C2).
  assert (I1 : inside o1 (a, b, c)) by (eapply like_inside; eassumption).
  rewrite (get_cell o a b c I), (get_cell o1 a b c I1), C0, C2. cbn [bind].
  destruct o as [s|s|s|s]; cbn [cell_op cell_of fst snd] in *.
  - pose proof Sh as (H1 & H2 & H3 & H4 & H5). destruct Is as [I2 I3]. destruct I as (J1 & J2 & J3).
    destruct (centre_screen s a b) as [P1 P2]; try lia. unfold screen_cell in C1. rewrite P1 in C1. cbn [bind] in C1.
    destruct (lattice_samples F _ _ _ _ _ C1 c ltac:(lia)) as (f0 & t & f & G1 & G2 & G3 & G4).
    rewrite P2 in G2. cbn [bind] in G2. apply Ok_inj in G2.
    exists f0, t, (along (scO s) (scdX s) (scdY s) (IZR (a - scNx s / 2)) (IZR (b - scNy s / 2))), f. split; [exact G1|]. split; [|split; assumption].
    cbn [sampled]. split; [reflexivity|]. rewrite <- G2. unnum. reflexivity.
  - pose proof Sh as (H1 & H2 & H3 & H4). destruct Is as [I2 I3]. destruct I as (J1 & J2 & J3).
    assert (c = 0) by lia. subst c. bget C0 as f0 Hf0. okinj C0. bget C1 as f Hf. okinj C1.
    unfold snap_cell in Hf. cbn [tr_get]. exists f0, (snt s), (snap_pos s a b), f. split; [reflexivity|]. split; [|split; [exact Hf|reflexivity]].
    cbn [sampled]. split; [|reflexivity]. unfold snap_pos. rewrite !i32_id by (unfold int_min; lia).
    unfold nhalf, along. destruct (snO s), (sndX s), (sndY s). vunfold. unnum. vsplit; field.
  - okinj C0. destruct I as (J1 & J2 & J3). unfold tr_N in J3.
    destruct (lattice_samples F _ _ _ _ _ C1 c ltac:(lia)) as (f0 & t & f & G1 & G2 & G3 & G4).
    unfold tr_time in G2. destruct (tr_in _ _); [|discriminate]. apply Ok_inj in G2.
    exists f0, t, (poX s), f. split; [exact G1|]. split; [|split; assumption]. cbn [sampled]. split; [reflexivity|]. rewrite <- G2. unnum. reflexivity.
  - destruct I as (J1 & J2 & J3). pose proof Sh as (H1 & H2 & H3). unfold mesh_cell in C1. bget C1 as x Hx.
    destruct (lattice_samples F _ _ _ _ _ C1 c ltac:(lia)) as (f0 & t & f & G1 & G2 & G3 & G4).
    unfold tr_time in G2. destruct (tr_in _ _); [|discriminate]. apply Ok_inj in G2.
    exists f0, t, x, f. split; [exact G1|]. split; [|split; assumption]. cbn [sampled]. apply zget_inv in Hx. apply zget_inv in C0.
    split; [apply Hx|]. exists tr. split; [apply C0|]. rewrite <- G2. unnum. reflexivity.
Qed.

(* One process (see C35_one_node_partial and C35_lattice_times_nodes for what the program
   makes of it): a new observer of any kind holds the lattice field at the place and the
   time of each of its samples. *)
Theorem C35_samples : forall (F : field_fn R) (o o1 : observer R) k, shaped o -> int_sized o -> blank o -> inside o k ->
  obs_integrate (SLattice F) o = Ok o1 ->
  exists t x f, sampled o k t x /\ F t x = Ok f /\ obs_get o1 k = Ok f.
Proof.
  intros F o o1 k Sh Is B I E. destruct (observed_sample F o o1 k Sh Is I E) as (f0 & t & x & f & G1 & G2 & G3 & G4).
  exists t, x, f. split; [exact G2|]. split; [exact G3|]. rewrite G4. rewrite (B k f0 I G1). destruct o; rewrite ?eadd_zero_l; reflexivity.
Qed.
Print Assumptions C35_samples.
(* place and time are determined by the index of the sample *)
Theorem C35_sampled_once : forall (o : observer R) k t x t' x', sampled o k t x -> sampled o k t' x' -> t = t' /\ x = x'.
Proof.
  intros o [[a b] c] t x t' x' H H'. destruct o; cbn [sampled] in *.
  1-3: destruct H, H'; split; congruence.
  destruct H as (H1 & tr & H2 & H3), H' as (H1' & tr' & H2' & H3'). split; congruence.
Qed.
Print Assumptions C35_sampled_once.
(* a screen of two columns, the second one starting later *)
Example C35_samples_ex : exists s o1, screen_new (V 0 0 7)%R (V 1 0 0)%R (V 0 1 0)%R 2 1 3%R 1%R (1/2)%R 0%R 2 = Ok s /\
  shaped (OScreen s) /\ int_sized (OScreen s) /\ blank (OScreen s) /\ inside (OScreen s) (0, 0, 1) /\
  obs_integrate (SLattice (fun t x => Ok (EB (V t 0 0) x)%R)) (OScreen s) = Ok o1.
Proof.
  pose proof (screen_new_ok (V 0 0 7)%R (V 1 0 0)%R (V 0 1 0)%R 2 1 3%R 1%R (1/2)%R 0%R 2) as N.
  destruct N as (s & E & Sh & S1 & S2 & S3 & S4 & S5 & S6 & S7 & S8 & S9 & S10 & C); try (unfold int_max; lia).
  assert (Sz : int_sized (OScreen s)). { unfold int_sized, extent. rewrite S4, S5. unfold int_max. lia. }
  destruct (integrate_total (SLattice (fun t x => Ok (EB (V t 0 0) x)%R)) (OScreen s) Sh) as (o1 & H).
  { intros [x y] Hxy. destruct (cell_ok (OScreen s) (x, y) Sh Hxy) as (tr & Htr & L). exists tr.
    assert (Q : exists r, cell_op (SLattice (fun t x => Ok (EB (V t 0 0) x)%R)) (OScreen s) (x, y) tr = Ok r); [|destruct Q as (r & Q); exists r; split; [exact Htr|exact Q]].
    cbn [cell_op fst snd]. unfold in_cells, extent in Hxy. cbn [fst snd] in Hxy. destruct Sz as [Z1 Z2].
    destruct (centre_screen s x y) as [P1 P2]; try lia. unfold screen_cell. rewrite P1. cbn [bind]. unfold lattice_trace.
    rewrite P2, S6. change (Z.to_nat 2) with 2%nat. cbn [zseq fold_res bind].
    assert (Ln : length (tr_f tr) = 2%nat).
    { destruct (C x y ltac:(lia) ltac:(lia)) as (t & _ & G). cbn [cell_of fst snd] in Htr. rewrite G in Htr. apply Ok_inj in Htr. subst tr.
      unfold tr_new. cbn [tr_f]. apply repeat_length. }
    destruct tr as [t0 dt l]. cbn [tr_f] in Ln. destruct l as [|f1 [|f2 [|]]]; try discriminate Ln.
    cbn [bind fold_res tr_acc]. eexists. reflexivity. }
  exists s, o1. split; [exact E|]. split; [exact Sh|]. split; [exact Sz|]. split; [|split; [|exact H]].
  - intros [[a b] c] f I G. destruct I as (J1 & J2 & J3). cbn [obs_get] in G. unfold screen_get in G.
    destruct (screen_in s a b c); [|discriminate]. bget G as tr Htr. destruct (C a b) as (t & _ & G2); try lia. rewrite G2 in Htr. apply Ok_inj in Htr.
    subst tr. unfold tr_get in G. destruct (tr_in _ _); [|discriminate]. apply zget_inv in G. destruct G as [_ G].
    apply nth_error_In in G. unfold tr_new in G. cbn [tr_f] in G. now apply repeat_spec in G.
  - unfold inside, extent. rewrite S4, S5, S6. lia.
Qed.
