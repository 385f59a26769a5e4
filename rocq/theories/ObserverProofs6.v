(* Proofs about sizes and geometry of the observers. *)
From Coq Require Import ZArith Reals List Lia Lra Bool.
From Verif Require Import Base BaseFacts Num VecModel VecFacts ParticleModel TraceModel RetardModel TraceProofs2 BunchModel DistProofs DriverModel DriverProofs
  ObserverModel ObserverSpec ObserverSpec2 ObserverProofs ObserverProofs2 ObserverProofs3 ObserverProofs4 ObserverProofs5.
Import ListNotations.
Local Open Scope Z_scope.

Section Gen.
Context {T : Type} {NT : Num T}.
Implicit Types (o : observer T).

Lemma i32_id z : int_min <= z <= int_max -> i32 z = z.
Proof. unfold i32, int_min, int_max. intros H. rewrite Z.mod_small by lia. lia. Qed.
Lemma u32_id z : 0 <= z < 2 ^ 32 -> u32 z = z.
Proof. intros H. unfold u32. apply Z.mod_small. exact H. Qed.
Lemma centred_ok i n : 0 <= i <= int_max -> 0 <= n <= int_max -> centred i n = Ok (i - n / 2).
Proof.
  intros Hi Hn. unfold centred. rewrite !i32_id by (unfold int_min; lia). rewrite Z.quot_div_nonneg by lia.
  assert (0 <= n / 2 <= n). { split; [apply Z.div_pos; lia|]. apply Z.div_le_upper_bound; lia. }
  unfold iadd. rewrite to_int_in by (unfold int_min, int_max in *; lia). f_equal; lia.
Qed.

(* ---- fresh observers ---- *)
Lemma screen_new_ok (pos dx dy : vec T) nx ny t0 dt dtx dty nots : 0 <= nx <= int_max -> 0 <= ny <= int_max -> 0 <= nots <= int_max ->
  exists s, screen_new pos dx dy nx ny t0 dt dtx dty nots = Ok s /\ shaped (OScreen s) /\
    scO s = pos /\ scdX s = dx /\ scdY s = dy /\ scNx s = nx /\ scNy s = ny /\ scN s = nots /\
    sct0 s = t0 /\ scdt s = dt /\ scdtx s = dtx /\ scdty s = dty /\
    forall ix iy, 0 <= ix < nx -> 0 <= iy < ny ->
      exists t, time_zero nx ny t0 dtx dty ix iy = Ok t /\ cell_get (scTr s) ix iy = Ok (tr_new t dt (Z.to_nat nots)).
Proof.
  intros Hx Hy Hn. unfold screen_new. rewrite !u32_id by (unfold int_max in *; lia).
  assert (TZ : forall ix iy, 0 <= ix < nx -> 0 <= iy < ny -> exists t, time_zero nx ny t0 dtx dty ix iy = Ok t).
  { intros ix iy A B. unfold time_zero. rewrite !centred_ok by lia. cbn [bind]. eauto. }
  destruct (map_res_all (fun ix => map_res (fun iy => bind (time_zero nx ny t0 dtx dty ix iy) (fun t => Ok (tr_new t dt (Z.to_nat nots))))
        (zseq 0 (Z.to_nat ny))) (zseq 0 (Z.to_nat nx))) as [m E].
  { intros ix Ix. apply zseq_In in Ix. apply map_res_all. intros iy Iy. apply zseq_In in Iy.
    destruct (TZ ix iy) as [t ->]; [lia|lia|]. cbn [bind]. eauto. }
  rewrite E. cbn [bind]. eexists. split; [reflexivity|]. cbn [scO scdX scdY scNx scNy scN sct0 scdt scdtx scdty scTr shaped].
  assert (Q : forall ix, 0 <= ix < nx -> exists r, nth_error m (Z.to_nat ix) = Some r /\
      map_res (fun iy => bind (time_zero nx ny t0 dtx dty ix iy) (fun t => Ok (tr_new t dt (Z.to_nat nots)))) (zseq 0 (Z.to_nat ny)) = Ok r).
  { intros ix Ix. destruct (map_res_nth _ _ _ E) as [_ Hnth].
    destruct (Hnth (Z.to_nat ix) ix) as (r & A & B); [|eauto]. rewrite zseq_nth by lia. f_equal. lia. }
  pose proof (map_res_len _ _ _ E) as EL. rewrite zseq_length in EL.
  split; [|repeat (split; [reflexivity|])].
  - unfold int_max in *. split; [lia|]. split; [lia|]. split; [lia|]. split; [lia|].
    apply Forall_forall. intros r Ir. apply In_nth_error in Ir. destruct Ir as [k Ik].
    assert (k < length m)%nat by (apply nth_error_Some; congruence).
    destruct (Q (Z.of_nat k)) as (r' & A & B); [lia|]. rewrite Nat2Z.id in A. assert (r' = r) by congruence. subst r'.
    pose proof (map_res_len _ _ _ B) as BL. rewrite zseq_length in BL. split; [lia|].
    apply Forall_forall. intros tr It. apply In_nth_error in It. destruct It as [j Ij].
    apply map_res_forall2 in B. clear -B Ij Hn. revert j Ij. induction B as [|y tr' l l' E1 E2 IH]; intros [|j] Ij; try discriminate.
    + cbn in Ij. injection Ij as ->. bget E1 as t Et. okinj E1. unfold tr_N, tr_new. cbn [tr_f]. rewrite repeat_length. lia.
    + apply (IH j). exact Ij.
  - intros ix iy A B. destruct (TZ ix iy A B) as [t Et]. exists t. split; [exact Et|].
    destruct (Q ix A) as (r & R1 & R2). unfold cell_get. unfold zget at 1. destruct (Z.ltb_spec ix 0); [lia|]. rewrite R1. cbn [bind].
    destruct (map_res_nth _ _ _ R2) as [_ Hnth]. destruct (Hnth (Z.to_nat iy) iy) as (tr & A1 & A2).
    { rewrite zseq_nth by lia. f_equal. lia. }
    unfold zget. destruct (Z.ltb_spec iy 0); [lia|]. rewrite A1. rewrite Et in A2. cbn [bind] in A2. congruence.
Qed.
Lemma snap_new_shaped (pos dx dy : vec T) nx ny t : 0 <= nx <= int_max -> 0 <= ny <= int_max -> shaped (OSnap (snap_new pos dx dy nx ny t)).
Proof.
  intros Hx Hy. unfold snap_new. cbn [shaped snNx snNy snF]. unfold int_max in *. rewrite !u32_id by lia. split; [lia|]. split; [lia|].
  rewrite repeat_length. split; [lia|]. apply Forall_forall. intros r Ir. apply repeat_spec in Ir. subst r. rewrite repeat_length.  lia.
Qed.

(* ---- too large ---- *)
Lemma export_overflow o n : shaped o -> obs_size o = Ok n -> 0 <= n < 2 ^ 60 -> n < 6 * fields o -> obs_getBuffer o = UB.
Proof.
  intros Sh E H60 H. destruct (values_ok o Sh) as (fs & E1 & HL). unfold obs_getBuffer. rewrite E. cbn [bind].
  unfold new_doubles. destruct (Z.leb_spec (2 ^ 60) n); [lia|]. cbn [bind]. rewrite E1. cbn [bind]. unfold buf_write.
  rewrite six_length. unfold buf_new. rewrite repeat_length. pose proof (fields_pos o Sh).
  destruct (Nat.leb_spec (6 * length fs) (Z.to_nat n)); [lia|reflexivity].
Qed.
Lemma grid_overflow o : shaped o -> match o with OScreen _ | OSnap _ => True | _ => False end -> 2 ^ 32 <= 6 * fields o -> obs_getBuffer o = UB.
Proof.
  intros Sh K H. assert (E : obs_size o = Ok (u32 (6 * fields o))).
  { destruct o as [s|s| |]; try contradiction; cbn [obs_size fields extent]; unfold screen_size, snap_size; f_equal; f_equal; lia. }
  pose proof (Z.mod_pos_bound (6 * fields o) (2 ^ 32) ltac:(lia)) as B. fold (u32 (6 * fields o)) in B.
  eapply export_overflow; eauto; lia.
Qed.
Lemma to_int_out z : int_max < z -> to_int (Some z) = UB.
Proof. intros H. unfold to_int, in_int. destruct (Z.leb_spec z int_max); [lia|]. rewrite andb_false_r. reflexivity. Qed.
Lemma mesh_overflow (s : mesh T) : shaped (OMesh s) -> int_max < 6 * fields (OMesh s) -> obs_getBuffer (OMesh s) = UB.
Proof.
  intros Sh H. unfold obs_getBuffer. cbn [obs_size]. unfold mesh_size. cbn [fields extent] in H.
  assert (0 <= mesh_Np s) by (unfold mesh_Np; lia). assert (0 <= msNt s) by apply Sh. pose proof dint as [D1 D2].
  unfold imul. destruct (Z.le_gt_cases (mesh_Np s * msNt s) int_max).
  - rewrite to_int_in by nia. cbn [bind]. rewrite to_int_out by nia. reflexivity.
  - rewrite to_int_out by nia. reflexivity.
Qed.
(* the number of values as int: MPI refuses *)
Lemma reduce_refuses root os : shaped root -> small root -> Forall (like root) os ->
  int_max < 6 * fields root < 2 ^ 32 -> gather (root :: os) = Throw STDexc.
Proof.
  intros H Sm HF B. unfold gather. rewrite (obs_size_small root H Sm). cbn [bind].
  rewrite u32_id by (unfold int_max in *; lia).
  destruct (map_res_all obs_getBuffer (root :: os)) as [bufs E].
  { intros o [<-|I].
    - destruct (getBuffer_ok root H Sm) as (fs & _ & _ & E). eauto.
    - rewrite Forall_forall in HF. pose proof (HF o I) as K.
      destruct (getBuffer_ok o (like_shaped _ _ K H) (like_small _ _ K Sm)) as (fs & _ & _ & E). eauto. }
  rewrite E. cbn [bind]. unfold mpi_reduce. destruct (Z.ltb_spec int_max (6 * fields root)); [reflexivity|lia].
Qed.
(* more than 2^32 values in a point observer (std::size_t): the count is truncated *)
Lemma point_truncated (s : point T) : 2 ^ 32 <= 6 * fields (OPoint s) < 2 ^ 60 -> u32 (6 * fields (OPoint s)) <= int_max ->
  gather [OPoint s] = Throw IOexc.
Proof.
  intros B C. assert (Sh : shaped (OPoint s)) by exact Logic.I. assert (Sm : small (OPoint s)) by (cbn [small]; lia).
  unfold gather. rewrite (obs_size_small _ Sh Sm). cbn [bind map_res].
  destruct (getBuffer_ok _ Sh Sm) as (fs & _ & HL & E). rewrite E. cbn [bind].
  pose proof (Z.mod_pos_bound (6 * fields (OPoint s)) (2 ^ 32) ltac:(lia)) as M. fold (u32 (6 * fields (OPoint s))) in M.
  unfold mpi_reduce. destruct (Z.ltb_spec int_max (u32 (6 * fields (OPoint s)))); [lia|]. cbn [map_res].
  rewrite map_length, six_length. destruct (Nat.leb_spec (Z.to_nat (u32 (6 * fields (OPoint s)))) (6 * length fs)); [|lia].
  cbn [bind fold_left]. unfold obs_fromBuffer. rewrite (obs_size_small _ Sh Sm). cbn [bind].
  destruct (Z.eqb_spec (u32 (6 * fields (OPoint s))) (6 * fields (OPoint s))); [lia|reflexivity].
Qed.
End Gen.

(* ---- geometry ---- *)
Local Open Scope R_scope.
Lemma unit_of (a : vec R) : a <> vzero -> vdot (vnormalize a) (vnormalize a) = 1.
Proof. intros H. rewrite <- vabs2_dot. apply vnormalize_abs2. exact H. Qed.
Lemma normalize_perp_r (a b : vec R) : vdot a b = 0 -> vdot a (vnormalize b) = 0.
Proof. intros H. rewrite vnormalize_div, vdot_div_r, H. unfold Rdiv. ring. Qed.
Lemma normalize_perp_l (a b : vec R) : vdot a b = 0 -> vdot (vnormalize a) b = 0.
Proof. intros H. rewrite vdot_comm. apply normalize_perp_r. rewrite vdot_comm. exact H. Qed.
Lemma nonzero_sq (a : vec R) : vabs2 a <> 0 -> a <> vzero.
Proof. intros H E. apply H. apply vabs2_zero_iff. exact E. Qed.
Lemma cross_unit (n a : vec R) : vdot n n = 1 -> vdot n a = 0 -> vdot a a = 1 -> vabs2 (vcross n a) = 1.
Proof. intros H1 H2 H3. pose proof (lagrange n a) as L. rewrite <- !vabs2_dot in *. rewrite H1, H3, H2 in L. lra. Qed.
Lemma frame_xz_ok (n : vec R) : vdot n n = 1 -> vx n <> 0 \/ vz n <> 0 ->
  orthonormal n (fst (frame_xz n)) (snd (frame_xz n)) /\ vy (fst (frame_xz n)) = 0.
Proof.
  intros H1 H2. unfold frame_xz. cbv zeta. cbn [fst snd]. set (u := V (nZ 0) (nZ 1) (nZ 0)).
  assert (Q : vcross u n <> vzero).
  { apply nonzero_sq. destruct n as [x y z]. unfold u. vunfold. unnum. cbn in H2. intros E. destruct H2; nra. }
  pose proof (unit_of _ Q) as U. pose proof (normalize_perp_r n _ (vdot_cross_r u n)) as P. set (xi := vnormalize (vcross u n)) in *.
  assert (W : vcross n xi <> vzero). { apply nonzero_sq. rewrite (cross_unit n xi H1 P U). lra. }
  split.
  - repeat split; auto.
    + apply unit_of. exact W.
    + apply normalize_perp_r, vdot_cross_r.
    + apply normalize_perp_r, vdot_cross_l.
  - unfold xi. rewrite vnormalize_div. unfold u. destruct n as [x y z]. vunfold. unnum. generalize (vnorm (V (1 * z - 0 * y) (0 * x - 0 * z) (0 * y - 1 * x))). intros r. unfold Rdiv. ring.
Qed.
Lemma frame_yz_ok (n : vec R) : vdot n n = 1 -> vy n <> 0 \/ vz n <> 0 ->
  orthonormal n (fst (frame_yz n)) (snd (frame_yz n)) /\ vx (snd (frame_yz n)) = 0.
Proof.
  intros H1 H2. unfold frame_yz. cbv zeta. cbn [fst snd]. set (u := V (nZ 1) (nZ 0) (nZ 0)).
  assert (Q : vcross n u <> vzero).
  { apply nonzero_sq. destruct n as [x y z]. unfold u. vunfold. unnum. cbn in H2. intros E. destruct H2; nra. }
  pose proof (unit_of _ Q) as U. pose proof (normalize_perp_r n _ (vdot_cross_l n u)) as P. set (eta := vnormalize (vcross n u)) in *.
  assert (W : vcross eta n <> vzero). { apply nonzero_sq. rewrite (cross_unit eta n); [lra|exact U|rewrite vdot_comm; exact P|exact H1]. }
  split.
  - repeat split; auto.
    + apply unit_of. exact W.
    + apply normalize_perp_r, vdot_cross_r.
    + apply normalize_perp_l. rewrite vdot_comm. apply vdot_cross_l.
  - unfold eta. rewrite vnormalize_div. unfold u. destruct n as [x y z]. vunfold. unnum. match goal with |- context[vnorm ?v] => generalize (vnorm v) end. intros r. unfold Rdiv. ring.
Qed.
(* the frame fails for a normal along y *)
Lemma frame_xz_fails y : vx (fst (frame_xz (V 0 y 0))) = 0 /\ vz (fst (frame_xz (V 0 y 0))) = 0 /\ vy (fst (frame_xz (V 0 y 0))) = 0.
Proof.
  unfold frame_xz. cbn [fst]. rewrite vnormalize_div. vunfold. unnum. match goal with |- context[vnorm ?v] => generalize (vnorm v) end. intros r.
  repeat split; unfold Rdiv; ring.
Qed.

(* 16 area^2 by the edge lengths *)
Lemma tri_heron (p1 p2 p3 : vec R) :
  let a := vabs2 (vsub p2 p3) in let b := vabs2 (vsub p3 p1) in let c := vabs2 (vsub p1 p2) in
  16 * (tri_area p1 p2 p3 * tri_area p1 p2 p3) = 2 * (a * b + b * c + c * a) - (a * a + b * b + c * c).
Proof.
  intros a b c. unfold tri_area. change (@nhalf R NumR) with (/ 2) || idtac.
  assert (Hh : @nhalf R NumR = / 2) by (unfold nhalf; unnum; field).
  rewrite Hh. pose proof (vnorm_sq (tri_cross p1 p2 p3)) as S.
  replace (16 * (nmul (vnorm (tri_cross p1 p2 p3)) (/ 2) * nmul (vnorm (tri_cross p1 p2 p3)) (/ 2)))
    with (4 * (vnorm (tri_cross p1 p2 p3) * vnorm (tri_cross p1 p2 p3))) by (unnum; field).
  rewrite S. unfold a, b, c, tri_cross. vdestr. vunfold. unnum. ring.
Qed.
