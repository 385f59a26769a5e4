(* A recorded screen read from its file as a source of radiation: the field of the element. *)
From Coq Require Import ZArith String List Bool Lia Reals Lra Psatz.
From Coquelicot Require Import Coquelicot.
From Flocq Require Import Core.Raux.
From Verif Require Import Base BaseFacts Num VecModel VecFacts ParticleModel TraceModel TraceSpec TraceProofs TraceProofs2
  BunchModel ObserverModel ObserverSpec ObserverSpec2 ObserverProofs ElementModel ElementProofs ElementProofs2 PropagateModel PropagateSpec PropagateProofs PropagateProofs2 PropagateProofs3
  PropagateProofs4 PropagateProofs5 SddsModel OutputModel OutputSpec OutputProofs4 ReplaySpec.
Import ListNotations.
Local Open Scope R_scope.

(* ---- traces moved in time ---- *)
Lemma at_moved (tr : ftrace R) d t : tr_at (FT (tr_t0 tr + d) (tr_dt tr) (tr_f tr)) (t + d) = tr_at tr t.
Proof. 
  unfold tr_at. cbn [tr_t0 tr_dt]. cbv zeta.
  assert (E : @nsub R NumR (Rplus t d) (Rplus (tr_t0 tr) d) = @nsub R NumR t (tr_t0 tr)) by (unnum; ring). rewrite E. reflexivity.
Qed.
Lemma value_moved (tr : ftrace R) d t : value (FT (tr_t0 tr + d) (tr_dt tr) (tr_f tr)) t = value tr (t - d).
Proof. unfold value. rewrite <- (at_moved tr d (t - d)). replace (t - d + d) with t by ring. reflexivity. Qed.
Lemma derivative_moved (tr s : ftrace R) d : tr_derivative tr = Ok s ->
  tr_derivative (FT (tr_t0 tr + d) (tr_dt tr) (tr_f tr)) = Ok (FT (tr_t0 s + d) (tr_dt s) (tr_f s)).
Proof.
  intros H.
  assert (ST : forall (u w : ftrace R) i x, tr_set u i x = Ok w -> tr_set (FT (tr_t0 u + d) (tr_dt u) (tr_f u)) i x = Ok (FT (tr_t0 w + d) (tr_dt w) (tr_f w))).
  { intros u w i x Ew. unfold tr_set in *. destruct (tr_in u i) eqn:I; [|discriminate]. change (tr_in (FT (tr_t0 u + d) (tr_dt u) (tr_f u)) i) with (tr_in u i). rewrite I.
    bget Ew as f Ef. apply Ok_inj in Ew. subst w. cbn [tr_f]. rewrite Ef. reflexivity. }
  assert (G : forall (A : list (emf R)) (g : emf R -> emf R -> emf R) l (u v : ftrace R),
     fold_res (fun s i => bind (zget A (i + 1)) (fun up => bind (zget A (i - 1)) (fun dn => tr_set s i (g up dn)))) l u = Ok v ->
     fold_res (fun s i => bind (zget A (i + 1)) (fun up => bind (zget A (i - 1)) (fun dn => tr_set s i (g up dn)))) l (FT (tr_t0 u + d) (tr_dt u) (tr_f u)) = Ok (FT (tr_t0 v + d) (tr_dt v) (tr_f v))).
  { intros A g l. induction l as [|i l IH]; intros u v F; cbn [fold_res] in *; [apply Ok_inj in F; subst; reflexivity|].
    bget F as w Ew. bget Ew as up Eu. bget Ew as dn Ed. rewrite Eu, Ed. cbn [bind]. rewrite (ST _ _ _ _ Ew). cbn [bind]. apply IH. exact F. }
  unfold tr_derivative in *. cbv zeta in *. bget H as a1 E1. bget H as a0 E0. bget H as s1 F1. bget H as s2 F2. bget H as z1 E2. bget H as z2 E3.
  cbn [tr_f tr_dt]. change (tr_N (FT (tr_t0 tr + d) (tr_dt tr) (tr_f tr))) with (tr_N tr). rewrite E1, E0. cbn [bind]. rewrite (ST _ _ _ _ F1). cbn [bind].
  rewrite (G (tr_f tr) (fun up dn => ediv (esub up dn) (@nmul R NumR (nZ 2) (tr_dt tr))) _ s1 s2 F2). cbn [bind].
  rewrite E2, E3. cbn [bind]. apply ST. exact H.
Qed.
(* within the recorded time *)
Lemma at_inside (tr : ftrace R) t : 0 < tr_dt tr -> (1 <= tr_N tr <= int_max)%Z -> tr_t0 tr <= t <= sample_time tr (tr_N tr - 1) -> exists f, tr_at tr t = Ok f.
Proof.
  intros Hd HN [L U]. unfold sample_time in U.
  set (x := (t - tr_t0 tr) / tr_dt tr).
  assert (X0 : 0 <= x) by (unfold x; apply Rdiv_le_0_compat; lra).
  assert (X1 : x <= IZR (tr_N tr - 1)). { unfold x. apply (Rmult_le_reg_r (tr_dt tr)); [exact Hd|]. unfold Rdiv. rewrite Rmult_assoc, Rinv_l, Rmult_1_r by lra. lra. }
  pose proof (Zfloor_lb x) as F1. pose proof (Zfloor_ub x) as F2. set (k := Zfloor x) in *.
  assert (K0 : (0 <= k)%Z) by (apply Zfloor_lub; exact X0).
  assert (K1 : (k <= tr_N tr - 1)%Z) by (apply le_IZR; lra).
  replace t with (tr_t0 tr + (IZR k + (x - IZR k)) * tr_dt tr) by (unfold x; field; lra).
  unfold int_max in *. rewrite tr_at_unfold; [|exact Hd|lra|unfold int_min, int_max; lia|unfold int_max; lia].
  destruct (zget_ok (tr_f tr) k) as (f1 & E1 & _); [unfold tr_N in *; lia|].
  destruct (Z.leb_spec 0 k); [|lia]. destruct (Z.ltb_spec k (tr_N tr)); [|lia]. cbn [andb]. rewrite E1. cbn [bind].
  destruct (Z.leb_spec 0 (k + 1)); [|lia]. cbn [andb]. destruct (Z.ltb_spec (k + 1) (tr_N tr)) as [N1|N1].
  - destruct (zget_ok (tr_f tr) (k + 1)) as (f2 & E2 & _); [unfold tr_N in *; lia|]. rewrite E2. cbn [bind]. eauto.
  - cbn [bind]. eauto.
Qed.

(* ---- cells moved in space and time ---- *)
Definition moved (O : vec R) (d : R) (c : srccell R) : srccell R :=
  let m tr := FT (tr_t0 tr + d) (tr_dt tr) (tr_f tr) in
  SRC (vadd O (srcX c)) (srcArea c) (srcN c) (m (srcA c)) (m (srcAt c)) (m (srcAn c)).
Lemma vsub_moved (X O p : vec R) : vsub X (vadd O p) = vsub (vsub X O) p.
Proof. destruct X, O, p. vunfold. unnum. vsplit; ring. Qed.
Lemma kirchhoff_moved O d X t c : kirchhoff X t (moved O d c) = kirchhoff (vsub X O) (t - d) c.
Proof.
  unfold kirchhoff, moved. cbv zeta. cbn [srcX srcArea srcN srcA srcAt srcAn]. rewrite vsub_moved, !value_moved.
  replace (t - vnorm (vsub (vsub X O) (srcX c)) / nc - d) with (t - d - vnorm (vsub (vsub X O) (srcX c)) / nc) by ring. reflexivity.
Qed.
Lemma lit_moved O d X t c : lit X t (moved O d c) = lit (vsub X O) (t - d) c.
Proof.
  unfold lit, moved. cbv zeta. cbn [srcX srcA]. rewrite vsub_moved. set (r := vnorm (vsub (vsub X O) (srcX c)) / nc). unfold sample_time.
  cbn [tr_t0 tr_dt]. change (tr_N (FT (tr_t0 (srcA c) + d) (tr_dt (srcA c)) (tr_f (srcA c)))) with (tr_N (srcA c)).
  destruct (Rle_dec (tr_t0 (srcA c) + d) (t - r)) as [A|A]; destruct (Rle_dec (tr_t0 (srcA c)) (t - d - r)) as [B|B]; try (exfalso; lra); [|reflexivity].
  destruct (Rle_dec (t - r) _) as [C|C]; destruct (Rle_dec (t - d - r) _) as [D|D]; try reflexivity; exfalso; lra.
Qed.
Lemma sum_moved O d X t cs : kirchhoff_sum (filter (lit X t) (map (moved O d) cs)) X t = kirchhoff_sum (filter (lit (vsub X O) (t - d)) cs) (vsub X O) (t - d).
Proof.
  unfold kirchhoff_sum. induction cs as [|c cs IH]; [reflexivity|]. cbn [map filter]. rewrite lit_moved.
  destruct (lit (vsub X O) (t - d) c); cbn [map fold_right]; [rewrite kirchhoff_moved, IH; reflexivity|exact IH].
Qed.

(* ---- the derivatives of a source which has been read ---- *)
Lemma new_derivatives (n dX dY : vec R) nx ny dt dtx dty fs ss : ss_new n dX dY nx ny dt dtx dty fs = Ok ss -> map_res (map_res tr_derivative) (ssTr ss) = Ok (ssDt ss).
Proof.
  unfold ss_new. destruct (source_frame n dX dY) as [[[[n' ex] ey] dX'] dY']. intros H. bget H as trs E. bget H as dts D. apply Ok_inj in H. subst ss. exact D.
Qed.
Lemma read_derivatives (f : h5file R) ss : source_read f = Ok ss -> map_res (map_res tr_derivative) (ssTr ss) = Ok (ssDt ss).
Proof.
  unfold source_read. intros H. bget H as d Ed. bget H as nx E1. bget H as ny E2. bget H as nt E3. cbv zeta in H. bget H as dt E4. bget H as b E5. bget H as g E6.
  destruct (vecs_of g) as [|v1 [|v2 [|v3 [|v4 l]]]]; try discriminate. bget H as e E7.
  destruct (dims_eqb _ _); [|discriminate]. bget H as vals E8. destruct (_ <? _)%Z; [discriminate|]. eapply new_derivatives. exact H.
Qed.
Lemma derivative_cell (trs dts : list (list (ftrace R))) ix iy tr : map_res (map_res tr_derivative) trs = Ok dts -> cell_get trs ix iy = Ok tr ->
  exists d, cell_get dts ix iy = Ok d /\ tr_derivative tr = Ok d.
Proof.
  intros H C. unfold cell_get in *. bget C as r Er.
  destruct (zget_inv _ _ _ Er) as [I1 N1]. destruct (zget_inv _ _ _ C) as [I2 N2].
  destruct (proj2 (map_res_nth _ _ _ H) _ _ N1) as (r' & N1' & E'). destruct (proj2 (map_res_nth _ _ _ E') _ _ N2) as (d & N2' & Ed).
  exists d. split; [|exact Ed]. rewrite <- (Z2Nat.id ix), (zget_nth _ _ _ N1') by lia. cbn [bind]. rewrite <- (Z2Nat.id iy) by lia. apply zget_nth. exact N2'.
Qed.

(* ---- the field is defined everywhere ---- *)
Lemma term_total X (c : srccell R) n t : 0 < tr_dt (srcA c) -> (1 <= tr_N (srcA c) <= int_max)%Z -> same_sampling (srcA c) (srcAt c) ->
  exists o, ss_term X (srcX c) n t (srcA c) (srcAt c) = Ok o.
Proof.
  intros Hd HN (S3 & S1 & S2). unfold ss_term. cbv zeta. rewrite last_time_real. cbn [bind]. set (d := vsub X (srcX c)).
  change (t - vnorm d / nc)%num with (t - vnorm d / nc). set (st := t - vnorm d / nc).
  rewrite Z.max_r by lia.
  change (nleb (tr_t0 (srcA c)) st) with (Rleb (tr_t0 (srcA c)) st). change (nleb st ?x) with (Rleb st x).
  destruct (Rleb_spec (tr_t0 (srcA c)) st) as [L1|L1]; cbn [andb]; [|eauto].
  destruct (Rleb_spec st (sample_time (srcA c) (tr_N (srcA c) - 1))) as [L2|L2]; [|eauto].
  destruct (at_inside (srcA c) st Hd HN (conj L1 L2)) as [f ->]. cbn [bind].
  destruct (at_inside (srcAt c) st) as [g ->].
  - rewrite <- S2. exact Hd.
  - unfold tr_N in *. lia.
  - unfold sample_time in *. rewrite <- S1, <- S2. replace (tr_N (srcAt c)) with (tr_N (srcA c)) by (unfold tr_N in *; lia). auto.
  - cbn [bind]. eauto.
Qed.
Lemma local_total s t X cs : Forall2 (screen_cell s) (pairs (ssNx s) (ssNy s)) cs ->
  (forall c, In c cs -> 0 < tr_dt (srcA c) /\ (1 <= tr_N (srcA c) <= int_max)%Z /\ same_sampling (srcA c) (srcAt c)) -> exists f, ss_local s t X = Ok f.
Proof.
  intros HF HC. unfold ss_local. generalize (@ezero R NumR). revert HF HC. generalize (pairs (ssNx s) (ssNy s)). intros ps HF.
  assert (G : (forall c, In c cs -> 0 < tr_dt (srcA c) /\ (1 <= tr_N (srcA c) <= int_max)%Z /\ same_sampling (srcA c) (srcAt c)) -> forall z, exists tot,
     fold_res (fun tot p =>
           bind (ss_pos s (fst p) (snd p)) (fun pos =>
           bind (cell_get (ssTr s) (fst p) (snd p)) (fun tr =>
           bind (cell_get (ssDt s) (fst p) (snd p)) (fun dtr =>
           bind (ss_term X pos (ssN s) t tr dtr) (fun o =>
           Ok (match o with Some f => eadd tot f | None => tot end)))))) ps z = Ok tot).
  { induction HF as [|p c ps cs (Q1 & Q2 & Q3 & Q4 & Q5 & Q6) HF IH]; intros HC z; cbn [fold_res]; [eauto|].
    rewrite Q1, Q4, Q5. cbn [bind]. destruct (HC c (or_introl eq_refl)) as (C1 & C2 & C3).
    destruct (term_total X c (ssN s) t C1 C2 C3) as (o & ->). cbn [bind]. apply IH. intros e I. apply HC. right. exact I. }
  intros HC z. destruct (G HC z) as (tot & ->). cbn [bind]. eauto.
Qed.

Lemma forall2_choose {A B} (P : A -> B -> Prop) l : (forall a, In a l -> exists b, P a b) -> exists l', Forall2 P l l'.
Proof.
  induction l as [|a l IH]; intros H; [exists []; constructor|]. destruct (H a (or_introl eq_refl)) as (b & Hb).
  destruct IH as (l' & Hl); [intros x I; apply H; right; exact I|]. exists (b :: l'). constructor; assumption.
Qed.

Lemma replay (TT : Trans R) (s : screen R) (f : h5file R) (fs : string -> option (h5file R)) fn :
  shaped (OScreen s) -> small (OScreen s) -> positions_fit (scNx s) (scNy s) -> (2 <= scN s <= int_max)%Z -> 0 < scdt s ->
  scdX s <> vzero -> scdY s <> vzero -> vdot (scdX s) (scdY s) = 0 -> scNormal s = vnormalize (vmul (vcross (scdX s) (scdY s)) (-1)) ->
  screen_file s = Ok f -> fs fn = Some f ->
  exists e cs, screen_source fs fn (scO s) (sct0 s) = Ok e /\ Forall2 (recorded_cell s) (pairs (scNx s) (scNy s)) cs /\
    forall t X, (forall c, In c cs -> X <> srcX c) -> element_field e t X = Ok (kirchhoff_sum (filter (lit X t) cs) X t).
Proof.
  intros Sh Sm Pf HN Hdt NX NY Or No F E.
  destruct (screen_as_source s f Sh Sm Pf (proj1 HN) NX NY Or No F) as (ss & R & Nx & Ny & N & dx & dy & C).
  pose proof (read_derivatives f ss R) as D.
  assert (H : exists cs, Forall2 (fun p c => screen_cell ss p c /\ recorded_cell s p (moved (scO s) (sct0 s) c)) (pairs (scNx s) (scNy s)) cs).
  { apply forall2_choose. intros [ix iy] I. apply pairs_in in I. destruct I as [I1 I2].
    destruct (C ix iy I1 I2) as ((p & P1 & P2) & tr & T1 & T2 & T3 & T4 & T5).
    destruct (derivative_cell _ _ _ _ _ D T1) as (d & D1 & D2).
    exists (SRC p (ssdx ss * ssdy ss) (ssN ss) tr d (tr_mul d (1 / nc))). split.
    - unfold screen_cell. cbn [fst snd srcX srcArea srcN srcA srcAt srcAn]. repeat split; assumption.
    - unfold recorded_cell, moved. cbv zeta. cbn [fst snd srcX srcArea srcN srcA srcAt srcAn tr_t0 tr_dt].
      split; [exact P2|]. split; [rewrite dx, dy; reflexivity|]. split; [exact N|]. split; [rewrite T2; f_equal; ring|]. split; [exact T3|]. split; [exact T4|].
      split; [exact T5|]. split; [apply derivative_moved; exact D2|reflexivity]. }
  destruct H as (cs & H). exists (Localized (sct0 s) (scO s) (LOther (ss_local ss))), (map (moved (scO s) (sct0 s)) cs).
  split; [unfold screen_source; rewrite E, R; reflexivity|]. split.
  { clear -H. induction H as [|p c l l' [_ H1] H IH]; [constructor|]. cbn [map]. constructor; assumption. }
  assert (SC : Forall2 (screen_cell ss) (pairs (ssNx ss) (ssNy ss)) cs).
  { rewrite Nx, Ny. clear -H. induction H as [|p c l l' [H1 _] H IH]; [constructor|]. constructor; assumption. }
  intros t X HX. cbn [element_field local_field]. change (t - sct0 s)%num with (t - sct0 s).
  destruct (local_total ss (t - sct0 s) (vsub X (scO s)) cs SC) as (g & G).
  { clear -H HN Hdt. induction H as [|p c l l' [_ Q] H IH]; intros e; [intros []|]. intros [<-|I]; [|apply IH; exact I].
    destruct Q as (_ & _ & _ & _ & Q1 & Q2 & _ & Q3 & _). unfold moved in Q1, Q2, Q3. cbn [srcA srcAt tr_dt] in *. 
    change (tr_N (FT (tr_t0 (srcA c) + sct0 s) (tr_dt (srcA c)) (tr_f (srcA c)))) with (tr_N (srcA c)) in Q2.
    split; [rewrite Q1; exact Hdt|]. split; [lia|].
    destruct (derivative_samples (FT (tr_t0 (srcA c) + sct0 s) (tr_dt (srcA c)) (tr_f (srcA c)))) as (d & E & (S3 & S1 & S2) & _).
    - unfold tr_N in Q2. cbn [tr_f]. lia.
    - rewrite Q3 in E. apply Ok_inj in E. subst d. cbn [tr_t0 tr_dt tr_f] in *. unfold same_sampling, tr_N in *. cbn [tr_f] in *. repeat split; [exact S3|lra|exact S2]. }
  rewrite G. f_equal. rewrite sum_moved. apply (screen_field ss _ _ cs); [exact SC| |exact G].
  intros c I V0. apply (HX (moved (scO s) (sct0 s) c)); [apply in_map; exact I|]. unfold moved. cbn [srcX].
  destruct X as [x1 x2 x3], (scO s) as [o1 o2 o3], (srcX c) as [p1 p2 p3]. unfold vsub, vzero, vadd in *. cbn [vx vy vz] in *.
  injection V0 as A1 A2 A3. revert A1 A2 A3. unnum. intros A1 A2 A3. f_equal; lra.
Qed.
