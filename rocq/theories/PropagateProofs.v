(* Reflection and the normal derivatives *)
From Coq Require Import ZArith List Bool Lia Reals Lra Psatz.
From Verif Require Import Base BaseFacts Num VecModel VecFacts ParticleModel TraceModel TraceSpec TraceProofs2
  BunchModel ObserverModel ObserverSpec2 ObserverProofs6 ObserverProofs7 PropagateModel PropagateSpec.
Import ListNotations.
Local Open Scope R_scope.

Lemma reflect_alt (n : vec R) (f : emf R) :
  reflect_field n f = EB (vsub (vmul n (2 * vdot (fE f) n)) (fE f)) (vsub (fB f) (vmul n (2 * vdot (fB f) n))).
Proof.
  unfold reflect_field. set (a := vdot (fE f) n). set (b := vdot (fB f) n). clearbody a b.
  destruct f as [E B]; cbn [fE fB]. apply f_equal2; revert n E B; intros; vdestr; vunfold; unnum; vsplit; ring.
Qed.
Lemma reflect_tangential_E (n : vec R) f : vcross n (vadd (fE f) (fE (reflect_field n f))) = vzero.
Proof.
  rewrite reflect_alt. cbn [fE]. set (a := vdot (fE f) n). clearbody a. generalize (fE f). intros E.
  vdestr; vunfold; unnum; vsplit; ring.
Qed.
Lemma reflect_normal_B (n : vec R) f : vdot n n = 1 -> vdot n (vadd (fB f) (fB (reflect_field n f))) = 0.
Proof.
  intros H. rewrite reflect_alt. cbn [fB]. rewrite vdot_add_r, vdot_sub_r, vdot_mul_r, H, (vdot_comm n (fB f)). ring.
Qed.
Lemma reflect_norm_vec (n v : vec R) s : vdot n n = 1 -> s * s = 1 ->
  vnorm (vadd (vmul n (s * (2 * vdot v n))) (vmul v (- s))) = vnorm v.
Proof.
  intros H Hs. rewrite !vnorm_sqrt. f_equal. rewrite !vabs2_dot.
  rewrite !vdot_add_l, !vdot_add_r, !vdot_mul_l, !vdot_mul_r, H, (vdot_comm n v).
  transitivity (s * s * (4 * (vdot v n * vdot v n) - 4 * (vdot v n * vdot v n) + vdot v v)); [ring|].
  rewrite Hs. ring.
Qed.
Lemma reflect_norms (n : vec R) f : vdot n n = 1 ->
  vnorm (fE (reflect_field n f)) = vnorm (fE f) /\ vnorm (fB (reflect_field n f)) = vnorm (fB f).
Proof.
  intros H. rewrite reflect_alt. cbn [fE fB]. split.
  - rewrite <- (reflect_norm_vec n (fE f) 1 H) by ring. f_equal. generalize (vdot (fE f) n) (fE f). intros a E.
    revert n E H; intros n E _. vdestr; vunfold; unnum; vsplit; ring.
  - rewrite <- (reflect_norm_vec n (fB f) (-1) H) by ring. f_equal. generalize (vdot (fB f) n) (fB f). intros a E.
    revert n E H; intros n E _. vdestr; vunfold; unnum; vsplit; ring.
Qed.
Lemma reflect_involution (n : vec R) f : vdot n n = 1 -> reflect_field n (reflect_field n f) = f.
Proof.
  intros H. rewrite (reflect_alt n (reflect_field n f)), reflect_alt. cbn [fE fB].
  rewrite !vdot_sub_l, !vdot_mul_l, H. generalize (vdot (fE f) n) (vdot (fB f) n). intros a b. destruct f as [E B]. cbn [fE fB].
  clear H. vdestr; vunfold; unnum; vsplit; ring.
Qed.
Lemma reflect_poynting (n : vec R) f : vdot n n = 1 ->
  vdot (epoynting (reflect_field n f)) n = - vdot (epoynting f) n /\
  vcross (epoynting (reflect_field n f)) n = vcross (epoynting f) n.
Proof.
  intros H. rewrite reflect_alt. unfold epoynting. cbn [fE fB]. generalize (@nmu0 R NumR). intros m.
  rewrite !vdot_div_l.
  (* ExB splits into the parts along and across n *)
  assert (HS : forall a b : R, a = - b -> a / m = - (b / m)) by (intros a b ->; unfold Rdiv; ring).
  split.
  - apply HS. set (a := vdot (fE f) n). set (b := vdot (fB f) n).
    generalize (fE f) (fB f). intros E B. clear H. clearbody a b. vdestr; vunfold; unnum. ring.
  - (* triple products of the tangential parts vanish when multiplied by n *)
    assert (HC : forall u v : vec R, vcross u n = vcross v n -> vcross (vdiv u m) n = vcross (vdiv v m) n).
    { intros u v E. replace (vcross (vdiv u m) n) with (vdiv (vcross u n) m).
      - rewrite E. clear. vdestr; vunfold; unnum; vsplit; unfold Rdiv; ring.
      - clear. vdestr; vunfold; unnum; vsplit; unfold Rdiv; ring. }
    apply HC. set (E := fE f). set (B := fB f).
    assert (X1 : vcross (vsub (vmul n (2 * vdot E n)) E) (vsub B (vmul n (2 * vdot B n)))
                 = vsub (vadd (vmul (vcross n B) (2 * vdot E n)) (vmul (vcross E n) (2 * vdot B n))) (vcross E B)).
    { generalize (vdot E n) (vdot B n). intros a b. clearbody E B. clear. vdestr; vunfold; unnum; vsplit; ring. }
    rewrite X1.
    (* (v x n) x n = n (v.n) - v *)
    assert (X2 : forall v : vec R, vcross (vcross v n) n = vsub (vmul n (vdot v n)) v).
    { intros v. replace (vcross (vcross v n) n) with (vsub (vmul n (vdot v n)) (vmul v (vdot n n)))
        by (clear; vdestr; vunfold; unnum; vsplit; ring). rewrite H. clear. vdestr; vunfold; unnum; vsplit; ring. }
    assert (X3 : vcross (vcross E B) n = vsub (vmul B (vdot E n)) (vmul E (vdot B n))).
    { clearbody E B. clear. vdestr; vunfold; unnum; vsplit; ring. }
    replace (vcross (vsub (vadd (vmul (vcross n B) (2 * vdot E n)) (vmul (vcross E n) (2 * vdot B n))) (vcross E B)) n)
      with (vsub (vadd (vmul (vcross (vcross B n) n) (- (2 * vdot E n))) (vmul (vcross (vcross E n) n) (2 * vdot B n))) (vcross (vcross E B) n)).
    2: { generalize (vdot E n) (vdot B n). intros a b. clearbody E B. clear. vdestr; vunfold; unnum; vsplit; ring. }
    rewrite !X2, X3. generalize (vdot E n) (vdot B n). intros a b. clearbody E B. clear. vdestr; vunfold; unnum; vsplit; ring.
Qed.
Lemma reflect_linear (n : vec R) f g a : reflect_field n (eadd f (emul g a)) = eadd (reflect_field n f) (emul (reflect_field n g) a).
Proof. unfold reflect_field. vdestr; vunfold; unnum; vsplit; ring. Qed.
Lemma reflect_orientation (n : vec R) f : reflect_field (vopp n) f = reflect_field n f.
Proof. unfold reflect_field. vdestr; vunfold; unnum; vsplit; ring. Qed.
Lemma reflect_zero (n : vec R) : reflect_field n ezero = ezero.
Proof. unfold reflect_field. vdestr; vunfold; unnum; vsplit; ring. Qed.

(* ---- traces and meshes ---- *)
Lemma vnormalize_unit_id (n : vec R) : vdot n n = 1 -> vnormalize n = n.
Proof.
  intros H. rewrite vnormalize_div. replace (vnorm n) with 1.
  - clear. vdestr; vunfold; unnum; vsplit; field.
  - rewrite vnorm_sqrt, vabs2_dot, H. symmetry. apply sqrt_1.
Qed.
Lemma sum_poynting_dot (n : vec R) l : forall s,
  vdot (fold_left (fun s f => vadd s (epoynting f)) l s) n = vdot s n + fold_right Rplus 0 (map (fun f => vdot (epoynting f) n) l).
Proof.
  induction l as [|f l IH]; intros s; cbn [fold_left map fold_right]; [ring|].
  rewrite IH, vdot_add_l. ring.
Qed.
Lemma reflect_trace_flow (n : vec R) tr : vdot n n = 1 ->
  vdot (tr_poynting (reflect_trace n tr)) n = - vdot (tr_poynting tr) n.
Proof.
  intros H. unfold tr_poynting, reflect_trace. cbn [tr_f tr_dt]. rewrite vnormalize_unit_id by exact H.
  rewrite !vdot_mul_l, !sum_poynting_dot. rewrite map_map.
  replace (fold_right Rplus 0 (map (fun x => vdot (epoynting (reflect_field n x)) n) (tr_f tr)))
    with (- fold_right Rplus 0 (map (fun f => vdot (epoynting f) n) (tr_f tr))).
  - replace (vdot vzero n) with 0 by (symmetry; clear; vdestr; vunfold; unnum; ring). ring.
  - induction (tr_f tr) as [|f l IH]; cbn [map fold_right]; [ring|].
    rewrite <- IH. destruct (reflect_poynting n f H) as [-> _]. ring.
Qed.
Lemma reflect_mesh_ok (s : mesh R) g : length (msA s) = length (msX s) -> length g = length (msX s) ->
  reflect_mesh s g = Ok (MS (msPts s) (msTri s) (msX s) (msNt s)
    (map (fun tc => reflect_trace (cgNormal (snd tc)) (fst tc)) (combine (msA s) g))).
Proof.
  intros H1 H2. unfold reflect_mesh.
  assert (HM : forall l k, (forall i tc, nth_error l i = Some tc -> zget (msA s) (k + Z.of_nat i)%Z = Ok (fst tc) /\ zget g (k + Z.of_nat i)%Z = Ok (snd tc)) ->
    map_res (fun i => bind (zget (msA s) i) (fun tr => bind (zget g i) (fun c => Ok (reflect_trace (cgNormal c) tr)))) (zseq k (length l))
    = Ok (map (fun tc => reflect_trace (cgNormal (snd tc)) (fst tc)) l)).
  { induction l as [|tc l IH]; intros k Hk; cbn [length zseq map_res map]; [reflexivity|].
    destruct (Hk 0%nat tc eq_refl) as [E1 E2]. cbn [Z.of_nat] in E1, E2. rewrite Z.add_0_r in E1, E2. rewrite E1, E2. cbn [bind].
    rewrite IH; [reflexivity|]. intros i c Hi. replace (k + 1 + Z.of_nat i)%Z with (k + Z.of_nat (S i))%Z by lia. apply Hk. exact Hi. }
  specialize (HM (combine (msA s) g) 0%Z). rewrite combine_length, H1, H2, Nat.min_id in HM. rewrite HM; [reflexivity|].
  intros i [tr c] En. apply nth_combine in En. destruct En as [E1 E2]. cbn [Z.add fst snd]. split; apply zget_nth; assumption.
Qed.
Lemma reflect_mesh_energy (s s' : mesh R) g : length (msA s) = length (msX s) -> length g = length (msX s) ->
  (forall c, In c g -> vdot (cgNormal c) (cgNormal c) = 1) ->
  reflect_mesh s g = Ok s' ->
  exists e, mesh_energy s g = Ok e /\ mesh_energy s' g = Ok (- e).
Proof.
  intros H1 H2 Hu Hr. rewrite reflect_mesh_ok in Hr by assumption. injection Hr as <-.
  eexists. split; [apply mesh_energy_sum; assumption|].
  assert (HL : length (map (fun tc => reflect_trace (cgNormal (snd tc)) (fst tc)) (combine (msA s) g)) = length (msX s)).
  { rewrite map_length, combine_length. lia. }
  rewrite mesh_energy_sum; cbn [msA msX]; [|exact HL|exact H2]. f_equal.
  clear HL. revert H1 H2. generalize (length (msX s)). intros N H1 H2. revert N H1 H2. generalize (msA s). revert Hu.
  induction g as [|c g IH]; intros Hu [|tr l] [|N] H1 H2; try discriminate; cbn [combine map rsum fold_right]; try (unfold rsum; cbn; ring).
  injection H1 as H1. injection H2 as H2. unfold rsum in IH.
  rewrite (IH (fun c Hc => Hu c (or_intror Hc)) l N H1 H2). unfold outflow. cbn [fst snd].
  rewrite reflect_trace_flow by (apply Hu; left; reflexivity). ring.
Qed.

(* ---- normal derivatives ---- *)
Lemma frame_complete xi eta n (v : vec R) : right_handed xi eta n ->
  vadd (vadd (vmul xi (vdot v xi)) (vmul eta (vdot v eta))) (vmul n (vdot v n)) = v.
Proof.
  intros H.
  assert (HD : forall u, vdot (vadd (vadd (vmul xi (vdot v xi)) (vmul eta (vdot v eta))) (vmul n (vdot v n))) u = vdot v u).
  { intros u. rewrite !vdot_add_l, !vdot_mul_l. rewrite <- (transform_dot xi eta n v u H).
    change (vdot v xi * vdot xi u + vdot v eta * vdot eta u + vdot v n * vdot n u =
      vdot v xi * vdot u xi + vdot v eta * vdot u eta + vdot v n * vdot u n).
    rewrite (vdot_comm xi u), (vdot_comm eta u), (vdot_comm n u). reflexivity. }
  generalize dependent (vadd (vadd (vmul xi (vdot v xi)) (vmul eta (vdot v eta))) (vmul n (vdot v n))). intros w HD.
  pose proof (HD (V 1 0 0)) as D1. pose proof (HD (V 0 1 0)) as D2. pose proof (HD (V 0 0 1)) as D3.
  clear H HD. destruct v as [a b c], w as [d e f]. vunfold_in D1; vunfold_in D2; vunfold_in D3.
  unnum_in D1; unnum_in D2; unnum_in D3. apply f_equal3; lra.
Qed.
Lemma from_to_local xi eta n f : right_handed xi eta n -> from_local xi eta n (to_local xi eta n f) = f.
Proof.
  intros H. unfold from_local, to_local. cbn [fE fB]. unfold vtransform. cbn [vx vy vz].
  rewrite !(frame_complete xi eta n) by exact H. destruct f; reflexivity.
Qed.

(* one vector field with derivatives a, b, c along x, y, z *)
Definition dalong (a b c v : vec R) : vec R := vadd (vadd (vmul a (vx v)) (vmul b (vy v))) (vmul c (vz v)).
Lemma antisymmetric_part a b c (p q : vec R) :
  vdot p (dalong a b c q) - vdot q (dalong a b c p) = vdot (curl a b c) (vcross q p).
Proof. unfold dalong, curl. vdestr; vunfold; unnum. ring. Qed.
Lemma trace_frame a b c xi eta n : right_handed xi eta n ->
  vdot xi (dalong a b c xi) + vdot eta (dalong a b c eta) + vdot n (dalong a b c n) = div a b c.
Proof.
  intros H.
  (* sum over rows: the frame resolves every unit vector *)
  assert (E : forall u v : vec R, vdot u xi * vdot v xi + vdot u eta * vdot v eta + vdot u n * vdot v n = vdot u v).
  { intros u v. exact (transform_dot xi eta n u v H). }
  pose proof (E (V 1 0 0) a) as E1. pose proof (E (V 0 1 0) b) as E2. pose proof (E (V 0 0 1) c) as E3.
  clear E H. unfold dalong, div. vdestr. vunfold_in E1; vunfold_in E2; vunfold_in E3. vunfold.
  unnum_in E1; unnum_in E2; unnum_in E3. unnum. lra.
Qed.
Lemma along_E j v : fE (along j v) = dalong (fE (jx j)) (fE (jy j)) (fE (jz j)) v.
Proof. reflexivity. Qed.
Lemma along_B j v : fB (along j v) = dalong (fB (jx j)) (fB (jy j)) (fB (jz j)) v.
Proof. reflexivity. Qed.

Lemma normal_derivative_local j d xi eta n : right_handed xi eta n -> maxwell j d ->
  normal_derivative (to_local xi eta n (along j xi)) (to_local xi eta n (along j eta)) (to_local xi eta n d)
  = to_local xi eta n (along j n).
Proof.
  intros H (M1 & M2 & M3 & M4). destruct (right_handed_cyclic _ _ _ H) as [C1 C2].
  pose proof (proj2 (proj2 (proj2 (proj2 (proj2 (proj2 H)))))) as C3.
  unfold normal_derivative, to_local. cbn [fE fB]. unfold vtransform. cbn [vx vy vz].
  set (JE := fE (along j xi)). set (JE2 := fE (along j eta)). set (JE3 := fE (along j n)).
  set (JB := fB (along j xi)). set (JB2 := fB (along j eta)). set (JB3 := fB (along j n)).
  pose proof (antisymmetric_part (fE (jx j)) (fE (jy j)) (fE (jz j)) xi n) as A1.
  pose proof (antisymmetric_part (fE (jx j)) (fE (jy j)) (fE (jz j)) eta n) as A2.
  pose proof (antisymmetric_part (fB (jx j)) (fB (jy j)) (fB (jz j)) xi n) as A3.
  pose proof (antisymmetric_part (fB (jx j)) (fB (jy j)) (fB (jz j)) eta n) as A4.
  pose proof (trace_frame (fE (jx j)) (fE (jy j)) (fE (jz j)) xi eta n H) as T1.
  pose proof (trace_frame (fB (jx j)) (fB (jy j)) (fB (jz j)) xi eta n H) as T2.
  rewrite <- !along_E in A1, A2, T1. rewrite <- !along_B in A3, A4, T2. fold JE JE2 JE3 in A1, A2, T1. fold JB JB2 JB3 in A3, A4, T2.
  rewrite M1 in A1, A2. rewrite M2 in A3, A4. rewrite M3 in T1. rewrite M4 in T2.
  rewrite C2 in A1, A3.
  assert (C4 : vcross n eta = vopp xi) by (rewrite vcross_anti, C1; reflexivity). rewrite C4 in A2, A4.
  assert (DO : forall u v : vec R, vdot (vopp u) v = - vdot u v) by (clear; vring).
  assert (DO2 : forall u v : vec R, vdot u (vopp v) = - vdot u v) by (clear; vring).
  rewrite DO in A1, A2. rewrite DO2 in A2, A4. rewrite !vdot_div_l in A3, A4.
  rewrite (vdot_comm xi JE3), (vdot_comm n JE) in A1. rewrite (vdot_comm eta JE3), (vdot_comm n JE2) in A2.
  rewrite (vdot_comm xi JB3), (vdot_comm n JB) in A3. rewrite (vdot_comm eta JB3), (vdot_comm n JB2) in A4.
  change (vdot xi JE + vdot eta JE2 + vdot n JE3 = 0) in T1. change (vdot xi JB + vdot eta JB2 + vdot n JB3 = 0) in T2.
  rewrite (vdot_comm xi JE), (vdot_comm eta JE2), (vdot_comm n JE3) in T1.
  rewrite (vdot_comm xi JB), (vdot_comm eta JB2), (vdot_comm n JB3) in T2.
  revert A3 A4. generalize (@nc R NumR). intros c2 A3 A4.
  clearbody JE JE2 JE3 JB JB2 JB3. clear M1 M2 M3 M4 C1 C2 C3 C4 DO DO2 H.
  revert A1 A2 A3 A4 T1 T2.
  generalize (vdot JE xi) (vdot JE n) (vdot JE2 eta) (vdot JE2 n) (vdot JE3 xi) (vdot JE3 eta) (vdot JE3 n)
    (vdot JB xi) (vdot JB n) (vdot JB2 eta) (vdot JB2 n) (vdot JB3 xi) (vdot JB3 eta) (vdot JB3 n)
    (vdot (fE d) xi) (vdot (fE d) eta) (vdot (fB d) xi) (vdot (fB d) eta).
  intros. unnum. apply f_equal2; apply f_equal3; lra.
Qed.
Lemma normal_derivative_global j d xi eta n : right_handed xi eta n -> maxwell j d ->
  from_local xi eta n
    (normal_derivative (to_local xi eta n (along j xi)) (to_local xi eta n (along j eta)) (to_local xi eta n d))
  = along j n.
Proof. intros H M. rewrite (normal_derivative_local j d xi eta n H M). now apply from_to_local. Qed.

(* handedness of the frames of a mesh *)
Lemma ortho_right_handed (n xi eta : vec R) : orthonormal n xi eta -> vcross xi eta = n -> right_handed xi eta n.
Proof.
  intros (A & B & C & D & E & F) X. unfold right_handed. repeat split; try assumption; rewrite vdot_comm; assumption.
Qed.

(* with n and a unit, a x n is a unit already *)
Lemma perp_frame (n a : vec R) : vdot n n = 1 -> vdot a a = 1 -> vdot n a = 0 ->
  vnormalize (vcross n a) = vcross n a /\ vnormalize (vcross a n) = vcross a n /\
  vcross a (vcross n a) = n /\ vcross (vcross a n) a = n.
Proof.
  intros Hn Ha P.
  assert (U : vdot (vcross n a) (vcross n a) = 1).
  { rewrite binet_cauchy, Hn, Ha, P, (vdot_comm a n), P. ring. }
  assert (U' : vdot (vcross a n) (vcross a n) = 1).
  { rewrite binet_cauchy, Hn, Ha, P, (vdot_comm a n), P. ring. }
  assert (M1 : forall v : vec R, vmul v 1 = v) by (clear; vring).
  assert (Z1 : forall v : vec R, vsub v (vmul a 0) = v) by (clear; vring).
  split; [|split; [|split]].
  - now apply vnormalize_unit_id.
  - now apply vnormalize_unit_id.
  - rewrite bac_cab, Ha, (vdot_comm a n), P, M1, Z1. reflexivity.
  - rewrite vcross_anti, bac_cab, Ha, (vdot_comm a n), P.
    assert (Q : vopp (vsub (vmul a 0) (vmul n 1)) = n) by (clear; vring). exact Q.
Qed.
Lemma frame_xz_hand (n : vec R) : vdot n n = 1 -> vx n <> 0 \/ vz n <> 0 ->
  right_handed (fst (frame_xz n)) (snd (frame_xz n)) n.
Proof.
  intros H1 H2. destruct (frame_xz_ok n H1 H2) as [O _]. apply ortho_right_handed; [exact O|].
  destruct O as (_ & Oxi & _ & O1 & _). revert Oxi O1. unfold frame_xz. cbv zeta. cbn [fst snd].
  generalize (vnormalize (vcross (V (nZ 0) (nZ 1) (nZ 0)) n)). intros a Ha P.
  destruct (perp_frame n a H1 Ha P) as (E1 & E2 & E3 & E4). rewrite E1. exact E3.
Qed.
Lemma frame_yz_hand (n : vec R) : vdot n n = 1 -> vy n <> 0 \/ vz n <> 0 ->
  right_handed (fst (frame_yz n)) (snd (frame_yz n)) n.
Proof.
  intros H1 H2. destruct (frame_yz_ok n H1 H2) as [O _]. apply ortho_right_handed; [exact O|].
  destruct O as (_ & _ & Oeta & _ & _ & O2). revert Oeta O2. unfold frame_yz. cbv zeta. cbn [fst snd].
  generalize (vnormalize (vcross n (V (nZ 1) (nZ 0) (nZ 0)))). intros a Ha P.
  destruct (perp_frame n a H1 Ha P) as (E1 & E2 & E3 & E4). rewrite E2. exact E4.
Qed.
