(* The energy of a recorded screen, source_screen.cpp:214-217,278-288: C78 *)
From Coq Require Import ZArith String List Bool Lia Reals Lra Psatz.
From Verif Require Import Base BaseFacts Num VecModel VecFacts ParticleModel TraceModel TraceSpec TraceProofs TraceProofs2 RetardModel BunchModel DriverModel DriverProofs
  ElementProofs ElementProofs2 ObserverModel ObserverSpec ObserverSpec2 ObserverProofs ObserverProofs2 ObserverProofs4 ObserverProofs5 ObserverProofs6 ObserverProofs7 PropagateModel PropagateProofs PropagateProofs2 PropagateProofs5 SddsModel OutputModel OutputSpec OutputProofs OutputProofs2 OutputProofs4.
Import ListNotations.
Local Open Scope list_scope.
Local Open Scope R_scope.

(* energy per area which flows in the direction n, for fields sampled with the step dt *)
Definition flux (dt : R) (n : vec R) (fs : list (emf R)) : R :=
  dt * rsum (map (fun f => vdot (vcross (fE f) (fB f)) n / nmu0) fs).

Lemma grid_get {A} (g : Z -> Z -> res A) nx ny m :
  map_res (fun ix => map_res (fun iy => g ix iy) (zseq 0 (Z.to_nat ny))) (zseq 0 (Z.to_nat nx)) = Ok m ->
  forall ix iy, (0 <= ix < nx)%Z -> (0 <= iy < ny)%Z -> exists a, g ix iy = Ok a /\ cell_get m ix iy = Ok a.
Proof.
  intros H ix iy I1 I2. destruct (map_res_nth _ _ _ H) as [_ N].
  destruct (N (Z.to_nat ix) ix) as (r & R1 & R2).
  { rewrite zseq_nth by lia. f_equal. lia. }
  destruct (map_res_nth _ _ _ R2) as [_ N']. destruct (N' (Z.to_nat iy) iy) as (a & A1 & A2).
  { rewrite zseq_nth by lia. f_equal. lia. }
  exists a. split; [exact A2|]. unfold cell_get. rewrite <- (Z2Nat.id ix), <- (Z2Nat.id iy) by lia.
  rewrite (zget_nth _ _ _ R1). cbn [bind]. apply zget_nth. exact A1.
Qed.
(* the Poynting vector of the tangential fields points along z *)
Lemma tangential_poynting (ex ey : vec R) f :
  epoynting (tangential ex ey f) = V 0 0 (vdot (vcross (fE f) (fB f)) (vcross ex ey) / nmu0).
Proof.
  unfold epoynting, tangential. cbn [fE fB]. generalize (@nmu0 R NumR). intros m.
  destruct f as [[a b c] [d e g]], ex as [x1 x2 x3], ey as [y1 y2 y3]. vunfold. unnum. vsplit; unfold Rdiv; ring.
Qed.
Lemma poynting_z (ex ey n : vec R) a t0 dt fs : vcross ex ey = vmul n a ->
  tr_poynting (FT t0 dt (map (tangential ex ey) fs)) = V 0 0 (a * flux dt n fs).
Proof.
  intros H. unfold tr_poynting, flux. cbn [tr_f tr_dt].
  assert (Q : forall l z, fold_left (fun s f => vadd s (epoynting f)) (map (tangential ex ey) l) (V 0 0 z) =
     V 0 0 (z + a * rsum (map (fun f => vdot (vcross (fE f) (fB f)) n / nmu0) l))).
  { induction l as [|f l IH]; intros z.
    - cbn [map fold_left rsum fold_right]. f_equal. ring.
    - cbn [map fold_left]. rewrite tangential_poynting, H.
      replace (vadd (V 0 0 z) (V 0 0 (vdot (vcross (fE f) (fB f)) (vmul n a) / nmu0)))
        with (V 0 0 (z + a * (vdot (vcross (fE f) (fB f)) n / nmu0))).
      + rewrite IH. f_equal. cbn [rsum fold_right]. unfold rsum. ring.
      + generalize (@nmu0 R NumR). intros m. generalize (vcross (fE f) (fB f)). intros w. destruct w, n. vunfold. unnum. vsplit; unfold Rdiv; ring. }
  change (@vzero R NumR) with (V 0 0 0). rewrite Q. generalize (rsum (map (fun f => vdot (vcross (fE f) (fB f)) n / nmu0) fs)). intros x.
  vunfold. unnum. vsplit; ring.
Qed.
Lemma energy_fold (s : sscreen R) h : forall ps e0,
  (forall p, In p ps -> exists tr, cell_get (ssTr s) (fst p) (snd p) = Ok tr /\ vdot (tr_poynting tr) (ssN s) * vnorm (ssdX s) * vnorm (ssdY s) = h p) ->
  fold_res (fun total p => bind (cell_get (ssTr s) (fst p) (snd p)) (fun tr =>
    Ok (total - vdot (tr_poynting tr) (ssN s) * vnorm (ssdX s) * vnorm (ssdY s)))) ps e0 = Ok (e0 - rsum (map h ps)).
Proof.
  induction ps as [|p ps IH]; intros e0 H.
  - cbn. f_equal. ring.
  - cbn [fold_res]. destruct (H p (or_introl eq_refl)) as (tr & E & Q). rewrite E. cbn [bind]. rewrite Q, IH.
    + f_equal. cbn [map rsum fold_right]. unfold rsum. ring.
    + intros p' I. apply H. right. exact I.
Qed.

(* dX x dY is a times the normal: a is the area of a cell, positive or negative depending on
   the sense of rotation *)
Lemma energy_value n dX dY nx ny dt dtx dty fs (s : sscreen R) a ls :
  vabs2 n = 1 -> vdot dX n = 0 -> vdot dY n = 0 -> vdot dY dX = 0 -> dX <> vzero -> dY <> vzero -> vcross dX dY = vmul n a ->
  Forall2 (fun p l => cell_get fs (fst p) (snd p) = Ok l) (pairs nx ny) ls ->
  ss_new n dX dY nx ny dt dtx dty fs = Ok s ->
  ss_energy s = Ok (- (vz n * a * rsum (map (flux dt n) ls))).
Proof.
  intros Hn HX HY HXY NX NY Ha HL H. unfold ss_new in H. rewrite (perp_frame n dX dY Hn HX HY HXY NX NY) in H.
  bget H as trs Htr. bget H as dts Hd. apply Ok_inj in H. subst s. unfold ss_energy. cbn [ssNx ssNy].
  assert (XX : vcross (vnormalize dX) (vnormalize dY) = vmul n (a / (vnorm dX * vnorm dY))).
  { pose proof (vnorm_pos dX NX) as P1. pose proof (vnorm_pos dY NY) as P2. rewrite !vnormalize_div.
    generalize dependent (vnorm dX). generalize dependent (vnorm dY). intros k2 P2 k1 P1.
    transitivity (vmul (vcross dX dY) (/ (k1 * k2))).
    - destruct dX, dY. vunfold. unnum. vsplit; field; lra.
    - rewrite Ha. destruct n. vunfold. unnum. vsplit; field; lra. }
  rewrite (energy_fold _ (fun p => vz n * a * flux dt n (match cell_get fs (fst p) (snd p) with Ok l => l | _ => [] end))).
  - f_equal. unnum.
    assert (Q : forall ps ls, Forall2 (fun p l => cell_get fs (fst p) (snd p) = Ok l) ps ls ->
       rsum (map (fun p => vz n * a * flux dt n (match cell_get fs (fst p) (snd p) with Ok l => l | _ => [] end)) ps) = vz n * a * rsum (map (flux dt n) ls)).
    { induction 1 as [|p l ps' ls' E _ IH]; [cbn; ring|]. cbn [map rsum fold_right]. rewrite E. unfold rsum in IH. rewrite IH. unfold rsum. ring. }
    rewrite (Q _ _ HL). ring.
  - intros [ix iy] Ip. apply pairs_in in Ip. destruct Ip as [I1 I2]. cbn [fst snd ssTr ssN ssdX ssdY].
    destruct (grid_get _ _ _ _ Htr ix iy I1 I2) as (tr & G1 & G2). exists tr. split; [exact G2|].
    bget G1 as kx K1. bget G1 as ky K2. bget G1 as l Hl. okinj G1. rewrite Hl.
    rewrite ss_cell_samples, (poynting_z _ _ n _ _ _ _ XX).
    pose proof (vnorm_pos dX NX) as P1. pose proof (vnorm_pos dY NY) as P2. generalize dependent (vnorm dX). generalize dependent (vnorm dY). intros k2 P2 k1 P1.
    intros. generalize (flux dt n l). intros x. destruct n as [n1 n2 n3]. cbn [vz]. vunfold. unnum. field. split; lra.
Qed.

(* The energy which reached the screen (flowing against its normal) through cells of the area
   |a|.  The value computed is this energy for right-handed (dX,dY,n) times the z component
   of the normal, for left-handed ones - as written by the screens of this program - times
   the negative of it. *)
Theorem C78_energy_partial : forall n dX dY nx ny dt dtx dty fs (s : sscreen R) a ls,
  vabs2 n = 1 -> vdot dX n = 0 -> vdot dY n = 0 -> vdot dY dX = 0 -> dX <> vzero -> dY <> vzero -> vcross dX dY = vmul n a ->
  Forall2 (fun p l => cell_get fs (fst p) (snd p) = Ok l) (pairs nx ny) ls ->
  ss_new n dX dY nx ny dt dtx dty fs = Ok s ->
  let incident := - (Rabs a * rsum (map (flux dt n) ls)) in
  (0 < a -> ss_energy s = Ok (vz n * incident)) /\ (a < 0 -> ss_energy s = Ok (- vz n * incident)).
Proof.
  intros n dX dY nx ny dt dtx dty fs s a ls Hn HX HY HXY NX NY Ha HL H incident.
  rewrite (energy_value n dX dY nx ny dt dtx dty fs s a ls) by assumption. unfold incident.
  split; intros Hs; f_equal; [rewrite Rabs_pos_eq by lra|rewrite Rabs_left by lra]; ring.
Qed.
Print Assumptions C78_energy_partial.
(* so it is right for a screen of this program hit by a beam along z *)
Theorem C78_forward : forall n dX dY nx ny dt dtx dty fs (s : sscreen R) a ls,
  n = V 0 0 (-1) -> vdot dX n = 0 -> vdot dY n = 0 -> vdot dY dX = 0 -> dX <> vzero -> dY <> vzero -> vcross dX dY = vmul n a -> a < 0 ->
  Forall2 (fun p l => cell_get fs (fst p) (snd p) = Ok l) (pairs nx ny) ls ->
  ss_new n dX dY nx ny dt dtx dty fs = Ok s ->
  ss_energy s = Ok (- (Rabs a * rsum (map (flux dt n) ls))).
Proof.
  intros n dX dY nx ny dt dtx dty fs s a ls Hn HX HY HXY NX NY Ha Hs HL H.
  assert (Hu : vabs2 n = 1) by (subst n; vunfold; unnum; ring).
  rewrite (proj2 (C78_energy_partial n dX dY nx ny dt dtx dty fs s a ls Hu HX HY HXY NX NY Ha HL H) Hs). f_equal. subst n. cbn [vz]. ring.
Qed.
Print Assumptions C78_forward.
(* A screen facing along x is reported to have received no energy, whatever it recorded *)
Theorem C78_side_refuted : exists n dX dY fs s,
  ss_new n dX dY 1 1 1 0 0 [[fs]] = Ok s /\ vcross dX dY = n /\ vabs2 n = 1 /\ flux 1 n fs <> 0 /\ ss_energy s = Ok 0.
Proof.
  exists (V 1 0 0), (V 0 1 0), (V 0 0 1), [w_field; w_field], w_screen. split; [exact w_new|].
  assert (Cr : vcross (V 0 1 0) (V 0 0 1) = V 1 0 0) by (vunfold; unnum; vsplit; ring).
  assert (Un : vabs2 (V 1 0 0) = 1) by (vunfold; unnum; ring).
  split; [exact Cr|]. split; [exact Un|]. split.
  - unfold flux, w_field. cbn [map rsum fold_right fE fB]. assert (M : 0 < @nmu0 R NumR). { cbn [nmu0 NumR]. pose proof PI_RGT_0. lra. }
    replace (vdot (vcross (V 0 1 0) (V 0 0 1)) (V 1 0 0)) with 1 by (rewrite Cr; vunfold; unnum; ring).
    revert M. generalize (@nmu0 R NumR). intros m M. apply Rgt_not_eq. pose proof (Rinv_0_lt_compat m M). unfold Rdiv. lra.
  - assert (D1 : V 0 1 0 <> @vzero R NumR) by (intros E; apply (f_equal vy) in E; cbn in E; lra).
    assert (D2 : V 0 0 1 <> @vzero R NumR) by (intros E; apply (f_equal vz) in E; cbn in E; lra).
    rewrite (energy_value (V 1 0 0) (V 0 1 0) (V 0 0 1) 1 1 1 0 0 [[[w_field; w_field]]] w_screen 1 [[w_field; w_field]]).
    + f_equal. cbn [vz]. ring.
    + exact Un.
    + vunfold; unnum; ring.
    + vunfold; unnum; ring.
    + vunfold; unnum; ring.
    + exact D1.
    + exact D2.
    + rewrite Cr. vunfold; unnum; vsplit; ring.
    + change (pairs 1 1) with [(0%Z, 0%Z)]. constructor; [reflexivity|constructor].
    + exact w_new.
Qed.
Print Assumptions C78_side_refuted.
(* a screen as written by the program for a beam along z *)
Example C78_ex : let n := V 0 0 (-1) in let dX := V 2 0 0 in let dY := V 0 1 0 in
  vdot dX n = 0 /\ vdot dY n = 0 /\ vdot dY dX = 0 /\ dX <> vzero /\ dY <> vzero /\ vcross dX dY = vmul n (-2) /\
  exists s, ss_new n dX dY 1 1 1 0 0 [[[w_field; w_field]]] = Ok s /\
    Forall2 (fun p l => cell_get [[[w_field; w_field]]] (fst p) (snd p) = Ok l) (pairs 1 1) [[w_field; w_field]].
Proof.
  intros n dX dY. unfold n, dX, dY. repeat match goal with |- _ /\ _ => split end.
  1-3: vunfold; unnum; ring.
  1: intros E; apply (f_equal vx) in E; cbn in E; lra.
  1: intros E; apply (f_equal vy) in E; cbn in E; lra.
  1: vunfold; unnum; vsplit; ring.
  unfold ss_new. destruct (source_frame _ _ _) as [[[[n' ex] ey] dX'] dY']. change (Z.to_nat 1) with 1%nat. cbn [zseq map_res].
  change (centred 0 1) with (@Ok Z 0%Z). cbn [bind]. change (cell_get [[[w_field; w_field]]] 0 0) with (Ok [w_field; w_field]). cbn [bind map_res].
  rewrite ss_cell_samples. cbn [map]. rewrite derivative_two. cbn [bind]. eexists. split; [reflexivity|].
  change (pairs 1 1) with [(0%Z, 0%Z)]. constructor; [reflexivity|constructor].
Qed.
