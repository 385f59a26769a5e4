(* Counterexamples: fields without energy flow, tilted source screens *)
From Coq Require Import ZArith List Bool Lia Reals Lra Psatz.
From Coquelicot Require Import Coquelicot.
From Verif Require Import Base BaseFacts Num VecModel VecFacts ParticleModel TraceModel TraceSpec TraceProofs TraceProofs2
  BunchModel ObserverModel ObserverSpec2 ElementProofs ElementProofs2 PropagateModel PropagateSpec PropagateProofs PropagateProofs2 PropagateProofs3 PropagateProofs4.
Import ListNotations.
Local Open Scope R_scope.

(* a term whose retarded samples carry no energy flow is left out *)
Lemma poynting_each (tr : ftrace R) : (forall f, In f (tr_f tr) -> epoynting f = vzero) -> tr_poynting tr = vzero.
Proof.
  intros H. unfold tr_poynting.
  assert (E : fold_left (fun s f => vadd s (epoynting f)) (tr_f tr) vzero = vzero).
  { induction (tr_f tr) as [|f l IH]; [reflexivity|]. cbn [fold_left]. rewrite (H f (or_introl eq_refl)).
    replace (vadd vzero vzero) with (@vzero R NumR) by (vunfold; unnum; vsplit; ring).
    apply IH. intros g Hg. apply H. now right. }
  rewrite E. vunfold; unnum; vsplit; ring.
Qed.
Lemma term_dropped (target tr acc : ftrace R) delay w dA vals :
  length vals = length (tr_f target) ->
  (forall k f, nth_error vals k = Some f -> tr_at tr (sample_time target (Z.of_nat k) - delay) = Ok f) ->
  (forall f, In f vals -> vcross (fE f) (fB f) = vzero) ->
  prop_term target tr delay w dA acc = Ok acc.
Proof.
  intros L H HP. unfold prop_term. destruct (retard_total tr target delay vals L H) as [_ RT]. rewrite RT; [reflexivity|].
  apply poynting_each. cbn [tr_f]. intros f Hf. unfold epoynting. rewrite (HP f Hf).
  generalize (@nmu0 R NumR). intros m. vunfold; unnum; vsplit; unfold Rdiv; ring.
Qed.

(* a purely electric field *)
Definition w_E : emf R := EB (V 1 0 0) (V 0 0 0).
Definition w_target : ftrace R := FT 0 1 [ezero].
Definition w_src : srccell R := SRC (V 0 0 (- nc)) 1 (V 0 0 1) (FT (-1) 1 [w_E]) (FT (-1) 1 [ezero]) (FT (-1) 1 [ezero]).
Lemma w_at f : tr_at (FT (-1) 1 [f]) (-1) = Ok f.
Proof.
  assert (T : -1 = sample_time (FT (-1) 1 [f]) (Z.of_nat 0)) by (unfold sample_time; cbn; ring).
  rewrite T at 2. apply trace_at_sample; cbn; try reflexivity; try lra; try lia.
Qed.
Lemma w_dist : vnorm (vsub (V 0 0 0) (V 0 0 (- nc))) = nc.
Proof.
  rewrite vnorm_sqrt. replace (vabs2 (vsub (V 0 0 0) (V 0 0 (- nc)))) with (Rsqr nc).
  - apply sqrt_Rsqr. cbn. lra.
  - unfold Rsqr. generalize (@nc R NumR). intros c. vunfold; unnum. ring.
Qed.
Lemma w_delay : vnorm (vsub (V 0 0 0) (V 0 0 (- nc))) / nc = 1.
Proof. rewrite w_dist. unfold Rdiv. apply Rinv_r. cbn. lra. Qed.
Lemma w_propagated : prop_cell [w_src] (V 0 0 0) w_target = Ok (FT 0 1 [ezero]).
Proof.
  assert (D : forall f acc w dA, vcross (fE f) (fB f) = vzero ->
     prop_term (tr_zero w_target) (FT (-1) 1 [f]) (vnorm (vsub (V 0 0 0) (V 0 0 (- nc))) / nc) w dA acc = Ok acc).
  { intros f acc w dA Hf. rewrite w_delay. apply (term_dropped _ _ _ _ _ _ [f]); [reflexivity| |].
    - intros [|[|k]] g Hg; cbn [nth_error] in Hg; try discriminate. injection Hg as <-.
      replace (sample_time (tr_zero w_target) (Z.of_nat 0) - 1) with (-1) by (unfold sample_time; cbn; ring). apply w_at.
    - intros g [<-|[]]. exact Hf. }
  unfold prop_cell. cbv zeta. cbn [fold_res]. unfold prop_source. cbv zeta. unfold w_src. cbn [srcX srcArea srcN srcA srcAt srcAn].
  change (@ndiv R NumR (vnorm (vsub (V 0 0 0) (V 0 0 (- nc)))) nc) with (vnorm (vsub (V 0 0 0) (V 0 0 (- nc))) / nc).
  rewrite D. 2: { unfold w_E. vunfold; unnum; vsplit; ring. }
  cbn [bind]. rewrite D. 2: { vunfold; unnum; vsplit; ring. }
  cbn [bind]. rewrite D. 2: { vunfold; unnum; vsplit; ring. }
  reflexivity.
Qed.
Lemma w_expected : vx (fE (kirchhoff_sum [w_src] (V 0 0 0) 0)) < 0.
Proof.
  unfold kirchhoff_sum. cbn [map fold_right]. rewrite eadd_0_r. unfold kirchhoff. cbv zeta. unfold w_src. cbn [srcX srcArea srcN srcA srcAt srcAn].
  rewrite w_delay. replace (0 - 1) with (-1) by ring. unfold value. rewrite !w_at. unfold weight, weight_t. rewrite w_dist.
  replace (vdot (vsub (V 0 0 0) (V 0 0 (- nc))) (V 0 0 1)) with (@nc R NumR)
    by (generalize (@nc R NumR); intros c; symmetry; vunfold; unnum; ring).
  assert (Hc : 0 < @nc R NumR) by (cbn; lra). revert Hc. generalize (@nc R NumR). intros c Hc.
  pose proof PI_RGT_0 as HP.
  replace (vx (fE (emul (eadd (eadd (emul w_E (- c / (c * c * c))) (emul ezero (- c / (c * c * c)))) (emul ezero (1 / c))) (1 / (4 * PI)))))
    with (- (/ (c * c) * / (4 * PI))).
  - assert (0 < / (c * c)) by (apply Rinv_0_lt_compat; nra). assert (0 < / (4 * PI)) by (apply Rinv_0_lt_compat; lra). nra.
  - unfold w_E. vunfold; unnum. field. split; lra.
Qed.

(* a screen facing along x, recording one cell of a field polarised along y *)
Definition w_field : emf R := EB (V 0 1 0) (V 0 0 1).
Definition w_screen : sscreen R :=
  SS 1 1 (V 0 1 0) (V 0 0 1) 1 1 (V 1 0 0)
     [[FT 0 1 [EB (V 1 0 0) (V 0 1 0); EB (V 1 0 0) (V 0 1 0)]]]
     [[FT 0 1 [ezero; ezero]]].
Lemma unit_norm (a b c : R) : a * a + b * b + c * c = 1 -> vnorm (V a b c) = 1.
Proof. intros H. rewrite vnorm_sqrt. assert (E : vabs2 (V a b c) = 1) by (rewrite <- H; vunfold; unnum; ring). rewrite E. apply sqrt_1. Qed.
Lemma unit_normalize (a b c : R) : a * a + b * b + c * c = 1 -> vnormalize (V a b c) = V a b c.
Proof. intros H. apply vnormalize_unit_id. rewrite <- H. vunfold. unnum. ring. Qed.
Lemma w_frame : source_frame (V 1 0 0) (V 0 1 0) (V 0 0 1) = (V 1 0 0, V 0 1 0, V 0 0 1, V 0 1 0, V 0 0 1).
Proof.
  unfold source_frame. cbv zeta. rewrite !(unit_normalize 1 0 0) by ring. rewrite !(unit_norm 0 1 0), !(unit_norm 0 0 1) by ring.
  replace (vsub (V 0 1 0) (vmul (V 1 0 0) (vdot (V 0 1 0) (V 1 0 0)))) with (V 0 1 0) by (symmetry; vunfold; unnum; vsplit; ring).
  rewrite !(unit_normalize 0 1 0) by ring.
  replace (vmul (V 0 1 0) 1) with (V 0 1 0) by (symmetry; vunfold; unnum; vsplit; ring).
  replace (vsub (V 0 0 1) (vmul (V 1 0 0) (vdot (V 0 0 1) (V 1 0 0)))) with (V 0 0 1) by (symmetry; vunfold; unnum; vsplit; ring).
  replace (vsub (V 0 0 1) (vmul (V 0 1 0) (vdot (V 0 0 1) (V 0 1 0)))) with (V 0 0 1) by (symmetry; vunfold; unnum; vsplit; ring).
  rewrite !(unit_normalize 0 0 1) by ring.
  replace (vmul (V 0 0 1) 1) with (V 0 0 1) by (symmetry; vunfold; unnum; vsplit; ring). reflexivity.
Qed.
Lemma w_cell : ss_cell (V 0 1 0) (V 0 0 1) (V 1 0 0) 0 1 [w_field; w_field]
  = FT 0 1 [EB (V 1 0 0) (V 0 1 0); EB (V 1 0 0) (V 0 1 0)].
Proof.
  unfold ss_cell, tr_cancel, tr_transform. cbv zeta. cbn [tr_t0 tr_dt tr_f map].
  change (@nZ R NumR 0) with 0. change (@nZ R NumR 1) with 1. rewrite (unit_normalize 0 0 1) by ring. unfold w_field.
  assert (E : EB (vsub (fE (EB (V (vdot (fE (EB (V 0 1 0) (V 0 0 1))) (V 0 1 0)) (vdot (fE (EB (V 0 1 0) (V 0 0 1))) (V 0 0 1)) (vdot (fE (EB (V 0 1 0) (V 0 0 1))) (V 1 0 0)))
      (V (vdot (fB (EB (V 0 1 0) (V 0 0 1))) (V 0 1 0)) (vdot (fB (EB (V 0 1 0) (V 0 0 1))) (V 0 0 1)) (vdot (fB (EB (V 0 1 0) (V 0 0 1))) (V 1 0 0)))))
      (vmul (V 0 0 1) (vdot (fE (EB (V (vdot (fE (EB (V 0 1 0) (V 0 0 1))) (V 0 1 0)) (vdot (fE (EB (V 0 1 0) (V 0 0 1))) (V 0 0 1)) (vdot (fE (EB (V 0 1 0) (V 0 0 1))) (V 1 0 0)))
      (V (vdot (fB (EB (V 0 1 0) (V 0 0 1))) (V 0 1 0)) (vdot (fB (EB (V 0 1 0) (V 0 0 1))) (V 0 0 1)) (vdot (fB (EB (V 0 1 0) (V 0 0 1))) (V 1 0 0))))) (V 0 0 1))))
    (vsub (fB (EB (V (vdot (fE (EB (V 0 1 0) (V 0 0 1))) (V 0 1 0)) (vdot (fE (EB (V 0 1 0) (V 0 0 1))) (V 0 0 1)) (vdot (fE (EB (V 0 1 0) (V 0 0 1))) (V 1 0 0)))
      (V (vdot (fB (EB (V 0 1 0) (V 0 0 1))) (V 0 1 0)) (vdot (fB (EB (V 0 1 0) (V 0 0 1))) (V 0 0 1)) (vdot (fB (EB (V 0 1 0) (V 0 0 1))) (V 1 0 0)))))
      (vmul (V 0 0 1) (vdot (fB (EB (V (vdot (fE (EB (V 0 1 0) (V 0 0 1))) (V 0 1 0)) (vdot (fE (EB (V 0 1 0) (V 0 0 1))) (V 0 0 1)) (vdot (fE (EB (V 0 1 0) (V 0 0 1))) (V 1 0 0)))
      (V (vdot (fB (EB (V 0 1 0) (V 0 0 1))) (V 0 1 0)) (vdot (fB (EB (V 0 1 0) (V 0 0 1))) (V 0 0 1)) (vdot (fB (EB (V 0 1 0) (V 0 0 1))) (V 1 0 0))))) (V 0 0 1))))
    = EB (V 1 0 0) (V 0 1 0)) by (vunfold; unnum; vsplit; ring).
  rewrite E. reflexivity.
Qed.
Lemma derivative_two {T} {NT : Num T} (t dt : T) (a b : emf T) :
  tr_derivative (FT t dt [a; b]) = Ok (FT t dt [ediv (esub b a) dt; ediv (esub b a) dt]).
Proof. reflexivity. Qed.
Lemma w_new : ss_new (V 1 0 0) (V 0 1 0) (V 0 0 1) 1 1 1 0 0 [[[w_field; w_field]]] = Ok w_screen.
Proof.
  unfold ss_new. rewrite w_frame. change (Z.to_nat 1) with 1%nat. cbn [zseq map_res].
  change (centred 0 1) with (@Ok Z 0%Z). cbn [bind].
  change (cell_get [[[w_field; w_field]]] 0 0) with (Ok [w_field; w_field]). cbn [bind].
  replace (0 * nZ 0 + 0 * nZ 0)%num with 0 by (unnum; ring). rewrite w_cell.
  cbn [map_res bind].
  rewrite (unit_norm 0 1 0), (unit_norm 0 0 1) by ring.
  assert (E : tr_derivative (FT 0 1 [EB (V 1 0 0) (V 0 1 0); EB (V 1 0 0) (V 0 1 0)]) = Ok (FT 0 1 [ezero; ezero])).
  { rewrite derivative_two.
    assert (Q : ediv (esub (EB (V 1 0 0) (V 0 1 0)) (EB (V 1 0 0) (V 0 1 0))) 1 = @ezero R NumR) by (vunfold; unnum; vsplit; field).
    rewrite Q. reflexivity. }
  rewrite E. cbn [bind]. reflexivity.
Qed.
Lemma w_at0 f : tr_at (FT 0 1 [f; f]) 0 = Ok f.
Proof.
  assert (T : 0 = sample_time (FT 0 1 [f; f]) (Z.of_nat 0)) by (unfold sample_time; cbn; ring).
  rewrite T at 2. apply trace_at_sample; cbn; try reflexivity; try lra; try lia.
Qed.
Definition w_loc : emf R := EB (V 1 0 0) (V 0 1 0).
Lemma w_local : ss_local w_screen (1 / nc) (V 1 0 0) = Ok (emul w_loc (- / (4 * PI))).
Proof.
  unfold ss_local. change (pairs (ssNx w_screen) (ssNy w_screen)) with [(0%Z, 0%Z)]. cbn [fold_res fst snd].
  assert (EP : ss_pos w_screen 0 0 = Ok (V 0 0 0)).
  { unfold ss_pos. change (centred 0 (ssNx w_screen)) with (@Ok Z 0%Z). change (centred 0 (ssNy w_screen)) with (@Ok Z 0%Z). cbn [bind].
    f_equal. unfold w_screen. cbn [ssdX ssdY]. vunfold; unnum; vsplit; ring. }
  rewrite EP. change (cell_get (ssTr w_screen) 0 0) with (Ok (FT 0 1 [w_loc; w_loc])).
  change (cell_get (ssDt w_screen) 0 0) with (Ok (FT 0 1 [@ezero R NumR; @ezero R NumR])). cbn [bind].
  unfold ss_term. cbv zeta.
  assert (EN : vnorm (vsub (V 1 0 0) (V 0 0 0)) = 1).
  { replace (vsub (V 1 0 0) (V 0 0 0)) with (V 1 0 0) by (symmetry; vunfold; unnum; vsplit; ring). apply unit_norm. ring. }
  rewrite EN. rewrite last_time_real. cbn [bind].
  change (@nsub R NumR (1 / nc) (@ndiv R NumR 1 nc)) with (1 / nc - 1 / nc). rewrite Rminus_eq_0.
  change (@tr_t0 R (FT 0 1 [w_loc; w_loc])) with 0.
  replace (sample_time (FT 0 1 [w_loc; w_loc]) (Z.max 0 (tr_N (FT 0 1 [w_loc; w_loc]) - 1))) with 1 by (unfold sample_time; cbn; ring).
  change (nleb 0 0) with (Rleb 0 0). change (nleb 0 1) with (Rleb 0 1).
  destruct (Rleb_spec 0 0); [|lra]. destruct (Rleb_spec 0 1); [|lra]. cbn [andb].
  rewrite !w_at0. cbn [bind]. f_equal.
  replace (vdot (vsub (V 1 0 0) (V 0 0 0)) (ssN w_screen)) with 1 by (symmetry; unfold w_screen; cbn [ssN]; vunfold; unnum; ring).
  unfold w_screen. cbn [ssdx ssdy]. unfold w_loc. change (@nPi R NumR) with PI.
  assert (Hc : @nc R NumR <> 0) by (cbn; lra). revert Hc. generalize (@nc R NumR). intros c Hc.
  pose proof PI_RGT_0 as HP. vunfold; unnum; vsplit; field; lra.
Qed.
Definition w_global : srccell R :=
  SRC (V 0 0 0) 1 (V 1 0 0) (FT 0 1 [w_field; w_field]) (FT 0 1 [ezero; ezero]) (FT 0 1 [ezero; ezero]).
Lemma w_true : kirchhoff (V 1 0 0) (1 / nc) w_global = emul w_field (- / (4 * PI)).
Proof.
  unfold kirchhoff. cbv zeta. unfold w_global. cbn [srcX srcArea srcN srcA srcAt srcAn].
  assert (ED : vsub (V 1 0 0) (V 0 0 0) = V 1 0 0) by (vunfold; unnum; vsplit; ring).
  unfold weight, weight_t. rewrite ED, (unit_norm 1 0 0) by ring. rewrite Rminus_eq_0. unfold value. rewrite !w_at0.
  replace (vdot (V 1 0 0) (V 1 0 0)) with 1 by (symmetry; vunfold; unnum; ring). unfold w_field.
  assert (Hc : @nc R NumR <> 0) by (cbn; lra). revert Hc. generalize (@nc R NumR). intros c Hc.
  pose proof PI_RGT_0 as HP. vunfold; unnum; vsplit; field; lra.
Qed.
Lemma w_differ : emul w_loc (- / (4 * PI)) <> emul w_field (- / (4 * PI)).
Proof.
  intros E. apply (f_equal (fun f => vx (fE f))) in E. unfold w_loc, w_field in E. vunfold_in E. unnum_in E.
  pose proof PI_RGT_0. assert (0 < / (4 * PI)) by (apply Rinv_0_lt_compat; lra). lra.
Qed.
