(* A screen file read as a source: the cells are in place (real numbers). *)
From Coq Require Import ZArith String List Bool Lia Reals Lra Psatz.
From Verif Require Import Base BaseFacts Num VecModel VecFacts ParticleModel TraceModel TraceSpec TraceProofs TraceProofs2 RetardModel BunchModel DriverModel DriverProofs
  ElementProofs ElementProofs2 ObserverModel ObserverSpec ObserverProofs ObserverProofs2 ObserverProofs6 PropagateModel PropagateProofs PropagateProofs2 PropagateProofs5 SddsModel OutputModel OutputSpec OutputProofs OutputProofs2.
Import ListNotations.
Local Open Scope list_scope.
Local Open Scope R_scope.

Lemma perp_frame (n dX dY : vec R) : vabs2 n = 1 -> vdot dX n = 0 -> vdot dY n = 0 -> vdot dY dX = 0 -> dX <> vzero -> dY <> vzero ->
  source_frame n dX dY = (n, vnormalize dX, vnormalize dY, dX, dY).
Proof.
  intros Hn HX HY HXY NX NY. unfold source_frame. cbv zeta. rewrite (vnormalize_unit_id n Hn).
  rewrite HX, HY.
  assert (Z0 : forall v w : vec R, vsub v (vmul w 0) = v) by (intros; vring). rewrite !Z0.
  assert (B : forall v : vec R, v <> vzero -> vmul (vnormalize v) (vnorm v) = v).
  { intros v Hv. pose proof (vnorm_pos v Hv) as Hp. rewrite vnormalize_div. generalize dependent (vnorm v). intros k Hk.
    destruct v as [a b c]. vunfold. unnum. vsplit; field; lra. }
  rewrite (B dX NX). rewrite HXY, Z0. rewrite (B dY NY). reflexivity.
Qed.

Lemma ss_cell_samples ex ey n t0 dt fs : ss_cell ex ey n t0 dt fs = FT t0 dt (map (tangential ex ey) fs).
Proof.
  unfold ss_cell, tr_transform, tr_cancel. cbv zeta. cbn [tr_t0 tr_dt tr_f].
  change (V (nZ 0) (nZ 0) (nZ 1)) with (V 0 0 1). rewrite unit_normalize by ring. f_equal. rewrite map_map. apply map_ext. intros f.
  unfold tangential. cbn [fE fB]. generalize (vdot (fE f) ex) (vdot (fE f) ey) (vdot (fE f) n) (vdot (fB f) ex) (vdot (fB f) ey) (vdot (fB f) n).
  intros. vunfold. unnum. vsplit; ring.
Qed.
Lemma cell_in {A} (m : list (list A)) ix iy a : cell_get m ix iy = Ok a -> exists r, In r m /\ In a r.
Proof.
  unfold cell_get. intros H. bget H as r Hr. apply zget_inv in Hr. apply zget_inv in H. exists r. split; eapply nth_error_In; [apply Hr|apply H].
Qed.
Lemma grid_res {A} (g : Z -> Z -> res A) (h : Z -> Z -> A) nx ny :
  (forall ix iy, (0 <= ix < nx)%Z -> (0 <= iy < ny)%Z -> g ix iy = Ok (h ix iy)) ->
  map_res (fun ix => map_res (fun iy => g ix iy) (zseq 0 (Z.to_nat ny))) (zseq 0 (Z.to_nat nx)) =
  Ok (map (fun ix => map (fun iy => h ix iy) (zseq 0 (Z.to_nat ny))) (zseq 0 (Z.to_nat nx))).
Proof.
  intros H. apply map_res_ext. intros ix I1. apply map_res_ext. intros iy I2. apply zseq_In in I1. apply zseq_In in I2. apply H; lia.
Qed.
Lemma grid_cell {A} (h : Z -> Z -> A) nx ny ix iy : (0 <= ix < nx)%Z -> (0 <= iy < ny)%Z ->
  cell_get (map (fun ix => map (fun iy => h ix iy) (zseq 0 (Z.to_nat ny))) (zseq 0 (Z.to_nat nx))) ix iy = Ok (h ix iy).
Proof.
  intros I1 I2. unfold cell_get.
  rewrite <- (Z2Nat.id ix) by lia. rewrite (zget_nth _ _ (map (fun iy => h (Z.of_nat (Z.to_nat ix)) iy) (zseq 0 (Z.to_nat ny)))) by (apply nth_zseq_map; lia).
  cbn [bind]. rewrite <- (Z2Nat.id iy) by lia. apply zget_nth. apply nth_zseq_map. lia.
Qed.

Lemma screen_as_source (s : screen R) (f : h5file R) : shaped (OScreen s) -> small (OScreen s) -> positions_fit (scNx s) (scNy s) -> (2 <= scN s)%Z ->
  scdX s <> vzero -> scdY s <> vzero -> vdot (scdX s) (scdY s) = 0 -> scNormal s = vnormalize (vmul (vcross (scdX s) (scdY s)) (-1)) ->
  screen_file s = Ok f ->
  exists ss, source_read f = Ok ss /\ ssNx ss = scNx s /\ ssNy ss = scNy s /\ ssN ss = scNormal s /\ ssdx ss = vnorm (scdX s) /\ ssdy ss = vnorm (scdY s) /\
    forall ix iy, (0 <= ix < scNx s)%Z -> (0 <= iy < scNy s)%Z ->
      (exists p, ss_pos ss ix iy = Ok p /\ vadd (scO s) p = centre_pos (scO s) (scdX s) (scdY s) (scNx s) (scNy s) ix iy) /\
      exists tr, cell_get (ssTr ss) ix iy = Ok tr /\ screen_t0 s ix iy = Ok (sct0 s + tr_t0 tr) /\ tr_dt tr = scdt s /\ tr_N tr = scN s /\
        forall it g, (0 <= it < scN s)%Z -> obs_get (OScreen s) (ix, iy, it) = Ok g ->
          tr_get tr it = Ok (tangential (vnormalize (scdX s)) (vnormalize (scdY s)) g).
Proof.
  intros Sh Sm Pf HN NX NY Or No F. rewrite (screen_back s f Sh Sm Pf F).
  pose proof Sh as (H1 & H2 & H3 & H4 & H5). pose proof Pf as (Q1 & Q2 & _).
  assert (CN : vmul (vcross (scdX s) (scdY s)) (-1) <> vzero).
  { intros E. assert (E2 : vabs2 (scdX s) * vabs2 (scdY s) = 0).
    { replace (vabs2 (scdX s) * vabs2 (scdY s)) with (vabs2 (vmul (vcross (scdX s) (scdY s)) (-1)) + vdot (scdX s) (scdY s) * vdot (scdX s) (scdY s)).
      - rewrite E, Or. vunfold. unnum. ring.
      - clear. destruct (scdX s), (scdY s). vunfold. unnum. ring. }
    apply Rmult_integral in E2. rewrite <- !vnorm_sq in E2. pose proof (vnorm_pos _ NX). pose proof (vnorm_pos _ NY). nra. }
  assert (Fr : source_frame (scNormal s) (scdX s) (scdY s) = (scNormal s, vnormalize (scdX s), vnormalize (scdY s), scdX s, scdY s)).
  { apply perp_frame; [rewrite No; apply vnormalize_abs2; exact CN| | | |exact NX|exact NY].
    - rewrite No, vnormalize_div. generalize (vnorm (vmul (vcross (scdX s) (scdY s)) (-1))). intros k. destruct (scdX s), (scdY s). vunfold. unnum. unfold Rdiv. ring.
    - rewrite No, vnormalize_div. generalize (vnorm (vmul (vcross (scdX s) (scdY s)) (-1))). intros k. destruct (scdX s), (scdY s). vunfold. unnum. unfold Rdiv. ring.
    - rewrite <- Or. destruct (scdX s), (scdY s). vunfold. unnum. ring. }
  assert (CG : forall ix iy, (0 <= ix < scNx s)%Z -> (0 <= iy < scNy s)%Z -> exists tr, cell_get (scTr s) ix iy = Ok tr /\ tr_N tr = scN s).
  { intros ix iy I1 I2. unfold cell_get. destruct (zget_ok (scTr s) ix) as (r & E & I); [lia|]. rewrite E. cbn [bind].
    destruct (proj1 (Forall_forall _ _) H5 r (nth_error_In _ _ I)) as [L A]. destruct (zget_ok r iy) as (tr & E' & I'); [lia|].
    exists tr. split; [exact E'|]. apply (proj1 (Forall_forall _ _) A tr (nth_error_In _ _ I')). }
  set (samples := fun ix iy => match cell_get (scTr s) ix iy with Ok tr => tr_f tr | _ => [] end).
  set (cell := fun ix iy => FT (scdtx s * IZR (ix - scNx s / 2) + scdty s * IZR (iy - scNy s / 2)) (scdt s)
                 (map (tangential (vnormalize (scdX s)) (vnormalize (scdY s))) (samples ix iy))).
  unfold ss_new. rewrite Fr.
  rewrite (grid_res _ cell).
  2:{ intros ix iy I1 I2. rewrite !centred_ok by lia. cbn [bind]. destruct (CG ix iy I1 I2) as (tr & E & L).
      assert (G : cell_get (map (map tr_f) (scTr s)) ix iy = Ok (tr_f tr)).
      { unfold cell_get in *. bget E as r Hr. rewrite zget_map, Hr. cbn [bind]. rewrite zget_map, E. reflexivity. }
      rewrite G. cbn [bind]. rewrite ss_cell_samples. unfold cell, samples. rewrite E. reflexivity. }
  cbn [bind].
  assert (D : exists dts, map_res (map_res tr_derivative) (map (fun ix => map (fun iy => cell ix iy) (zseq 0 (Z.to_nat (scNy s)))) (zseq 0 (Z.to_nat (scNx s)))) = Ok dts).
  { apply map_res_all. intros r Ir. apply in_map_iff in Ir. destruct Ir as (ix & <- & Ix). apply map_res_all. intros tr It.
    apply in_map_iff in It. destruct It as (iy & <- & Iy). apply zseq_In in Ix. apply zseq_In in Iy.
    destruct (CG ix iy ltac:(lia) ltac:(lia)) as (tr & E & L). destruct (derivative_samples (cell ix iy)) as (d & Ed & _).
    - unfold cell, samples. cbn [tr_f]. rewrite map_length, E. unfold tr_N in L. lia.
    - exists d. exact Ed. }
  destruct D as [dts D]. rewrite D. cbn [bind]. eexists. split; [reflexivity|]. cbn [ssNx ssNy ssN ssdx ssdy ssTr ssdX ssdY].
  split; [reflexivity|]. split; [reflexivity|]. split; [reflexivity|]. split; [reflexivity|]. split; [reflexivity|].
  intros ix iy I1 I2. split.
  - unfold ss_pos. cbn [ssNx ssNy ssdX ssdY]. rewrite !centred_ok by lia. cbn [bind]. eexists. split; [reflexivity|].
    unfold centre_pos. generalize (nZ (ix - scNx s / 2)) (nZ (iy - scNy s / 2)). intros a b. destruct (scO s), (scdX s), (scdY s). vunfold. unnum. vsplit; ring.
  - exists (cell ix iy). destruct (CG ix iy I1 I2) as (tr & E & L). split; [apply grid_cell; assumption|]. split; [|split; [reflexivity|split]].
    + unfold screen_t0, time_zero. rewrite !centred_ok by lia. cbn [bind]. f_equal. unfold cell. cbn [tr_t0]. unnum. ring.
    + unfold cell, samples, tr_N. cbn [tr_f]. rewrite map_length, E. exact L.
    + intros it g It G. cbn [obs_get] in G. unfold screen_get in G. rewrite screen_in_true in G by (cbn [inside extent]; lia). rewrite E in G. cbn [bind] in G.
      unfold tr_get, tr_in, tr_N in *. unfold cell, samples. cbn [tr_f]. rewrite map_length, E. rewrite L in *. rewrite inb in * by lia.
      rewrite zget_map, G. reflexivity.
Qed.
