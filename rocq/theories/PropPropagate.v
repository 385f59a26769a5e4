(* C45, C46, C64-C67: reflection, propagation and recorded screens *)
From Coq Require Import ZArith List Bool Lia Reals Lra.
From Coquelicot Require Import Coquelicot.
From Verif Require Import Base Num VecModel VecFacts ParticleModel TraceModel TraceSpec TraceProofs2 BunchModel ObserverModel
  ObserverSpec2 PropagateModel PropagateSpec PropagateProofs PropagateProofs2 PropagateProofs3 PropagateProofs4 PropagateProofs5.
From Verif Require PropObserver.
Import ListNotations.
Local Open Scope R_scope.

(* ---- C45 ---- *)
Theorem C45_boundary : forall (n : vec R) (f : emf R), vdot n n = 1 ->
  vcross n (vadd (fE f) (fE (reflect_field n f))) = vzero /\
  vdot n (vadd (fB f) (fB (reflect_field n f))) = 0.
Proof. intros n f H. split; [apply reflect_tangential_E|now apply reflect_normal_B]. Qed.
Print Assumptions C45_boundary.
Theorem C45_amplitude : forall (n : vec R) (f : emf R), vdot n n = 1 ->
  vnorm (fE (reflect_field n f)) = vnorm (fE f) /\ vnorm (fB (reflect_field n f)) = vnorm (fB f).
Proof. exact reflect_norms. Qed.
Print Assumptions C45_amplitude.
(* the normal energy flow is reversed, the tangential one is kept *)
Theorem C45_energy_flow : forall (n : vec R) (f : emf R), vdot n n = 1 ->
  vdot (epoynting (reflect_field n f)) n = - vdot (epoynting f) n /\
  vcross (epoynting (reflect_field n f)) n = vcross (epoynting f) n.
Proof. exact reflect_poynting. Qed.
Print Assumptions C45_energy_flow.
Theorem C45_involution : forall (n : vec R) (f : emf R), vdot n n = 1 -> reflect_field n (reflect_field n f) = f.
Proof. exact reflect_involution. Qed.
Print Assumptions C45_involution.
(* both orientations of the normal give the same reflection *)
Theorem C45_orientation : forall (n : vec R) (f : emf R), reflect_field (vopp n) f = reflect_field n f.
Proof. exact reflect_orientation. Qed.
Print Assumptions C45_orientation.
(* traces, for any nonzero normal *)
Theorem C45_trace : forall (n : vec R) (tr : ftrace R), n <> vzero ->
  same_sampling tr (reflect_trace n tr) /\
  reflect_trace n (reflect_trace n tr) = tr /\
  vdot (tr_poynting (reflect_trace n tr)) n = - vdot (tr_poynting tr) n.
Proof.
  intros n tr Hn.
  assert (U : vdot (vnormalize n) (vnormalize n) = 1) by (rewrite <- vabs2_dot; now apply vnormalize_abs2).
  split; [|split].
  - unfold same_sampling, reflect_trace. cbn [tr_f tr_t0 tr_dt]. rewrite map_length. auto.
  - unfold reflect_trace. cbv zeta. cbn [tr_f tr_t0 tr_dt]. rewrite map_map.
    rewrite (map_ext _ (fun f => f)) by (intros f; now apply reflect_involution). rewrite map_id. destruct tr; reflexivity.
  - pose proof (reflect_trace_flow (vnormalize n) tr U) as F.
    assert (ER : reflect_trace (vnormalize n) tr = reflect_trace n tr).
    { unfold reflect_trace. rewrite (vnormalize_unit_id (vnormalize n) U). reflexivity. }
    rewrite ER in F. rewrite vnormalize_div in F. rewrite !vdot_div_r in F.
    assert (Hq : vnorm n <> 0) by (intros E; apply Hn; now apply vnorm_zero_iff).
    apply (Rmult_eq_reg_r (/ vnorm n)); [|now apply Rinv_neq_0_compat]. unfold Rdiv in F. rewrite F. ring.
Qed.
Print Assumptions C45_trace.
(* the energy entering the surface becomes energy leaving it *)
Theorem C45_mesh_energy : forall (s s' : mesh R) g,
  length (msA s) = length (msX s) -> length g = length (msX s) ->
  (forall c, In c g -> vdot (cgNormal c) (cgNormal c) = 1) ->
  reflect_mesh s g = Ok s' ->
  exists e, mesh_energy s g = Ok e /\ mesh_energy s' g = Ok (- e).
Proof. exact reflect_mesh_energy. Qed.
Print Assumptions C45_mesh_energy.
Example ex_C45 : let n := V (3/5) 0 (4/5) in vdot n n = 1 /\ n <> vzero /\
  reflect_field n (EB (V 0 1 0) (V 1 0 0)) = EB (V 0 (-1) 0) (V (7/25) 0 (-24/25)).
Proof.
  cbv zeta. split; [vunfold; unnum; field|]. split; [intros E; injection E; lra|].
  unfold reflect_field. cbv zeta. vunfold; unnum; vsplit; field.
Qed.

(* ---- C46 ---- *)
Theorem C46_normal_derivative : forall (j : jacobian) (d : emf R) (xi eta n : vec R),
  right_handed xi eta n -> maxwell j d ->
  from_local xi eta n
    (normal_derivative (to_local xi eta n (along j xi)) (to_local xi eta n (along j eta)) (to_local xi eta n d))
  = along j n.
Proof. exact normal_derivative_global. Qed.
Print Assumptions C46_normal_derivative.
(* the frames of the mesh cells satisfy the hypothesis *)
Theorem C46_frames : forall n : vec R, vdot n n = 1 ->
  (vx n <> 0 \/ vz n <> 0 -> right_handed (fst (frame_xz n)) (snd (frame_xz n)) n) /\
  (vy n <> 0 \/ vz n <> 0 -> right_handed (fst (frame_yz n)) (snd (frame_yz n)) n).
Proof. intros n H. split; intros; [now apply frame_xz_hand|now apply frame_yz_hand]. Qed.
Print Assumptions C46_frames.
(* a plane wave E_x = f(t - z/c), B_y = E_x/c *)
Example ex_C46 : let d := EB (V nc 0 0) (V 0 1 0) in
  maxwell (J ezero ezero (EB (V (-1) 0 0) (V 0 (- / nc) 0))) d /\ right_handed (V 1 0 0) (V 0 1 0) (V 0 0 1).
Proof.
  cbv zeta. assert (Hc : @nc R NumR <> 0) by (cbn; lra).
  split.
  - unfold maxwell, curl, div. cbn [jx jy jz]. revert Hc. generalize (@nc R NumR). intros c Hc.
    split; [|split; [|split]]; vunfold; unnum; vsplit; field; auto.
  - unfold right_handed. vunfold; unnum. repeat split; try ring. vsplit; ring.
Qed.

(* ---- C67: the fit ---- *)
(* the least-squares fit of samples of a quadratic polynomial is the polynomial *)
Theorem C67_fit : forall solve (A : list (list R)) (a : list R),
  least_squares solve A -> determined A -> length a = 6%nat ->
  solve A (map (fun r => rowdot r a) A) = a.
Proof. exact fit_exact. Qed.
Print Assumptions C67_fit.
(* if the fields of the neighbours are quadratic on the surface and satisfy Maxwell's
   equations, the program finds the exact derivative along the normal *)
Theorem C67_normal_derivative : forall solve (s : mesh R) g dA out index k nbh ref c tr j d q0 q3 q4 q5,
  cell_dn solve s g dA index = Ok out ->
  mesh_neighbours s index = Ok nbh -> zget (msX s) index = Ok ref -> zget g index = Ok c -> zget (msA s) index = Ok tr ->
  right_handed (cgXi c) (cgEta c) (cgNormal c) ->
  (forall cs, Forall2 (lcoord s c ref) nbh cs -> least_squares solve (map fit_row cs) /\ determined (map fit_row cs)) ->
  (0 <= k < msNt s)%Z -> tr_get dA k = Ok d -> maxwell j d ->
  (forall i p tri, In i nbh -> lcoord s c ref i p -> zget (msA s) i = Ok tri ->
     tr_at tri (sample_time tr k)
     = Ok (eadd (eadd q0 (along j (vadd (vmul (cgXi c) (vx p)) (vmul (cgEta c) (vy p))))) (second q3 q4 q5 p))) ->
  tr_get out k = Ok (along j (cgNormal c)).
Proof. exact cell_dn_exact. Qed.
Print Assumptions C67_normal_derivative.
(* more than 24 neighbours: the list of them is written beyond its end; so for every mesh with 25 or
   more triangles around a corner *)
Theorem C44_overrun : forall (T : Type) (NT : Num T) solve (s : mesh T) g dA index nbh,
  mesh_neighbours s index = Ok nbh -> (24 < length nbh)%nat -> cell_dn solve s g dA index = UB.
Proof.
  intros T NT solve s g dA index nbh H L. unfold cell_dn. rewrite H. cbn [bind].
  destruct (Z.ltb_spec 24 (Z.of_nat (length nbh))); [reflexivity|lia].
Qed.
Print Assumptions C44_overrun.
Theorem C44_fan_refuted : forall solve k i g dA, (25 <= k)%nat -> (0 <= i < Z.of_nat k)%Z ->
  cell_dn solve (PropObserver.fan k) g dA i = UB.
Proof.
  intros solve k i g dA Hk Hi. destruct (PropObserver.C44_buffer_refuted k i Hi) as (ns & E & L).
  apply (C44_overrun _ _ solve _ g dA i ns E). lia.
Qed.
Print Assumptions C44_fan_refuted.
Example C44_fan_ex : (25 <= 25)%nat /\ (0 <= 3 < Z.of_nat 25)%Z. Proof. lia. Qed.
(* six points, and the solver for them *)
Definition ex_pts : list (vec R) := [V 0 0 0; V 1 0 0; V 0 1 0; V 2 0 0; V 0 2 0; V 1 1 0].
Definition ex_solve (A : list (list R)) (b : list R) : list R :=
  let f k := nth k b 0 in
  [f 0%nat; -(3/2) * f 0%nat + 2 * f 1%nat - / 2 * f 3%nat; -(3/2) * f 0%nat + 2 * f 2%nat - / 2 * f 4%nat;
   / 2 * f 0%nat - f 1%nat + / 2 * f 3%nat; / 2 * f 0%nat - f 2%nat + / 2 * f 4%nat;
   f 5%nat - f 1%nat - f 2%nat + f 0%nat].
Example ex_C67 : least_squares ex_solve (map fit_row ex_pts) /\ determined (map fit_row ex_pts).
Proof.
  split.
  - intros b. split; [reflexivity|]. intros y Hy.
    replace (residual (map fit_row ex_pts) (ex_solve (map fit_row ex_pts) b) b) with 0; [apply residual_nonneg|].
    unfold residual, ex_solve, rowdot, ex_pts, fit_row.
    destruct b as [|b0 [|b1 [|b2 [|b3 [|b4 [|b5 b]]]]]]; cbn [map combine fold_right fst snd nth vx vy]; unnum; field.
  - intros y Hy H. destruct y as [|y0 [|y1 [|y2 [|y3 [|y4 [|y5 [|y6 y]]]]]]]; try discriminate.
    unfold ex_pts, fit_row in H. cbn [map vx vy] in H. 
    pose proof (fun r Hr => H r Hr) as K. 
    assert (H0 := K _ (or_introl eq_refl)). assert (H1 := K _ (or_intror (or_introl eq_refl))).
    assert (H2 := K _ (or_intror (or_intror (or_introl eq_refl)))).
    assert (H3 := K _ (or_intror (or_intror (or_intror (or_introl eq_refl))))).
    assert (H4 := K _ (or_intror (or_intror (or_intror (or_intror (or_introl eq_refl)))))).
    assert (H5 := K _ (or_intror (or_intror (or_intror (or_intror (or_intror (or_introl eq_refl))))))).
    clear H K. unfold rowdot in *. cbn [map combine fold_right fst snd] in *. unnum_all.
    cbn [repeat]. repeat f_equal; lra.
Qed.

(* ---- C64: the propagated field ---- *)
Theorem C64_kirchhoff_partial : forall (target : ftrace R) (pos : vec R) (srcs : list (srccell R)),
  (forall c, In c srcs -> cell_carries target pos c) ->
  exists out, prop_cell srcs pos target = Ok out /\ same_sampling target out /\
    forall k, (k < length (tr_f target))%nat ->
      nth_error (tr_f out) k = Some (kirchhoff_sum srcs pos (sample_time target (Z.of_nat k))).
Proof. exact propagated. Qed.
Print Assumptions C64_kirchhoff_partial.
(* terms without energy flow are left out, whatever their field *)
Theorem C64_term_dropped : forall (target tr acc : ftrace R) delay w dA vals,
  length vals = length (tr_f target) ->
  (forall k f, nth_error vals k = Some f -> tr_at tr (sample_time target (Z.of_nat k) - delay) = Ok f) ->
  (forall f, In f vals -> vcross (fE f) (fB f) = vzero) ->
  prop_term target tr delay w dA acc = Ok acc.
Proof. exact term_dropped. Qed.
Print Assumptions C64_term_dropped.
Theorem C64_without_energy_refuted : exists (srcs : list (srccell R)) pos target out,
  prop_cell srcs pos target = Ok out /\ tr_get out 0 <> Ok (kirchhoff_sum srcs pos (sample_time target 0)).
Proof.
  exists [w_src], (V 0 0 0), w_target. eexists. split; [exact w_propagated|].
  change (tr_get (FT 0 1 [ezero]) 0) with (Ok (@ezero R NumR)). intros E. apply BaseFacts.Ok_inj in E.
  replace (sample_time w_target 0) with 0 in E by (unfold sample_time; cbn; ring).
  pose proof w_expected as W. rewrite <- E in W. cbn in W. lra.
Qed.
Print Assumptions C64_without_energy_refuted.
Example ex_C64 : cell_carries (FT 0 1 [ezero]) (V 0 0 0)
  (SRC (V 0 0 (- nc)) 1 (V 0 0 1) (FT (-1) 1 [EB (V 1 0 0) (V 0 1 0)]) (FT (-1) 1 [ezero]) (FT (-1) 1 [ezero])).
Proof.
  unfold cell_carries. cbv zeta. cbn [srcX srcA srcAt srcAn]. rewrite w_delay.
  assert (Z0 : carries (FT (-1) 1 [ezero]) (FT 0 1 [ezero]) 1).
  { right. intros k Hk. cbn in Hk. assert (k = 0%Z) as -> by lia.
    replace (sample_time (FT 0 1 [ezero]) 0 - 1) with (-1) by (unfold sample_time; cbn; ring). apply w_at. }
  split; [|split; exact Z0].
  left. set (f := EB (V 1 0 0) (V 0 1 0)).
  destruct (retard_total (FT (-1) 1 [f]) (FT 0 1 [ezero]) 1 [f]) as [H _].
  - reflexivity.
  - intros [|[|k]] g Hg; cbn [nth_error] in Hg; try discriminate. injection Hg as <-.
    replace (sample_time (FT 0 1 [ezero]) (Z.of_nat 0) - 1) with (-1) by (unfold sample_time; cbn; ring). apply w_at.
  - eexists. apply H. intros E. apply (f_equal vz) in E. revert E. unfold tr_poynting, epoynting, f. cbn [tr_f tr_dt fold_left].
    assert (Hm : 0 < @nmu0 R NumR) by (cbn; pose proof PI_RGT_0; lra). revert Hm. generalize (@nmu0 R NumR). intros m Hm.
    vunfold; unnum. intros E. assert (0 < / m) by (now apply Rinv_0_lt_compat). unfold Rdiv in E. lra.
Qed.

(* ---- C65: the weights ---- *)
(* weight and weight_t are minus the derivative of the retarded spherical wave f(t-r/c)/r
   along the normal of the source *)
Theorem C65_weights : forall (f : R -> R) (f' t : R) (P S n : vec R), vsub P S <> vzero ->
  is_derive f (t - vnorm (vsub P S) / nc) f' ->
  is_derive (fun e => f (t - vnorm (vsub P (displace S n e)) / nc) / vnorm (vsub P (displace S n e))) 0
    (- (weight (vsub P S) n * f (t - vnorm (vsub P S) / nc) + weight_t (vsub P S) n * f')).
Proof. exact weights_derive. Qed.
Print Assumptions C65_weights.
(* the other orientation of the surface gives the opposite field *)
Theorem C65_orientation : forall pos t c,
  kirchhoff pos t (SRC (srcX c) (srcArea c) (vopp (srcN c)) (srcA c) (srcAt c) (tr_mul (srcAn c) (-1)))
  = emul (kirchhoff pos t c) (-1).
Proof. exact kirchhoff_reversed. Qed.
Print Assumptions C65_orientation.
Example ex_C65 : vsub (V 0 0 1) (V 0 0 0) <> (@vzero R NumR) /\ is_derive (fun t => t * t) (3 - 1) (2 * (3 - 1)).
Proof.
  split; [intros E; apply (f_equal vz) in E; cbn in E; lra|]. auto_derive; [exact I|ring].
Qed.

(* ---- C66: recorded screens ---- *)
Theorem C66_field_partial : forall (s : sscreen R) t X cs f,
  Forall2 (screen_cell s) (pairs (ssNx s) (ssNy s)) cs ->
  (forall c, In c cs -> vsub X (srcX c) <> vzero) -> ss_local s t X = Ok f ->
  f = kirchhoff_sum (filter (lit X t) cs) X t.
Proof. exact screen_field. Qed.
Print Assumptions C66_field_partial.
Theorem C66_dark : forall (s : sscreen R) t X f,
  (forall p c, screen_cell s p c -> lit X t c = false) -> ss_local s t X = Ok f -> f = ezero.
Proof. exact screen_dark. Qed.
Print Assumptions C66_dark.
(* the components of the field are the ones in the frame of the screen, they are not
   transformed back: a screen facing along x which recorded a field along y returns one
   along x *)
Theorem C66_direction_refuted : exists n dX dY f s,
  ss_new n dX dY 1 1 1 0 0 [[[f; f]]] = Ok s /\
  exists t X g, ss_local s t X = Ok g /\
    g <> kirchhoff X t (SRC (V 0 0 0) 1 n (FT 0 1 [f; f]) (FT 0 1 [ezero; ezero]) (FT 0 1 [ezero; ezero])).
Proof.
  exists (V 1 0 0), (V 0 1 0), (V 0 0 1), w_field, w_screen. split; [exact w_new|].
  exists (1 / nc), (V 1 0 0). eexists. split; [exact w_local|]. fold w_global. rewrite w_true. exact w_differ.
Qed.
Print Assumptions C66_direction_refuted.
Example ex_C66 : exists cs, Forall2 (screen_cell w_screen) (pairs (ssNx w_screen) (ssNy w_screen)) cs /\
  (forall c, In c cs -> vsub (V 1 0 0) (srcX c) <> vzero) /\ exists f, ss_local w_screen (1 / nc) (V 1 0 0) = Ok f.
Proof.
  exists [SRC (V 0 0 0) (1 * 1) (V 1 0 0) (FT 0 1 [w_loc; w_loc]) (FT 0 1 [ezero; ezero]) (tr_mul (FT 0 1 [ezero; ezero]) (1 / nc))].
  split; [|split].
  - change (pairs (ssNx w_screen) (ssNy w_screen)) with [(0%Z, 0%Z)]. constructor; [|constructor].
    unfold screen_cell. cbn [srcX srcArea srcN srcA srcAt srcAn fst snd]. repeat split.
    unfold ss_pos. change (centred 0 (ssNx w_screen)) with (@Ok Z 0%Z). change (centred 0 (ssNy w_screen)) with (@Ok Z 0%Z). cbn [bind].
    f_equal. unfold w_screen. cbn [ssdX ssdY]. vunfold; unnum; vsplit; ring.
  - intros c [<-|[]] E. apply (f_equal vx) in E. cbn in E. lra.
  - eexists. exact w_local.
Qed.
