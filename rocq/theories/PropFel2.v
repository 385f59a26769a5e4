(* The FEL interaction: out-of-step use is refused (C79), the deposited current (C80). *)
From Coq Require Import ZArith Reals List Bool Lia Lra Permutation.
From Flocq Require Import Core.Raux Core.Round_NE Core.Generic_fmt.
From Verif Require Import Base BaseFacts Num VecModel VecFacts ParticleModel BunchModel ElementModel DriverModel
  FelModel FelSpec FelProofs FelProofs2 FelProofs3 FelProofs4 FelProofs5 ObserverSpec2 PropFel.
Import ListNotations.
Local Open Scope Z_scope.

(* ==== specification ==== *)
(* two times differ by at most a quarter of the time step *)
Definition in_step (dt t u : R) : Prop := (Rabs (t - u) <= dt / 4)%R.
(* position inside the grid *)
Definition on_grid (f : fel R) (X : vec R) : Prop := (0 <= behind f X <= IZR (feN f) * feDs f)%R.

(* a particle in the last cells of the largest grids, for which the code is undefined (C52) *)
Definition last_cells (f : fel R) (X : vec R) : Prop := int_max - 11 < ZnearestE (behind f X / feDs f).
(* area of a Gaussian mode at the distance z from the start *)
Definition gauss_area (w0 zR zw z : R) : R := (PI / 2 * (w0 * sqrt (1 + ((z - zw) / zR) * ((z - zw) / zR))) ^ 2)%R.
(* Gaussian of width sigma, times a cell width *)
Definition bell (ds sigma d : R) : R := (ds / (sigma * sqrt (2 * PI)) * exp (- (d * d) / (2 * (sigma * sigma))))%R.
(* source of the wave equation (without the factor dt^2) given by one particle in cell number i *)
Definition source_of (f : fel R) (p : particle R) (i : Z) : R :=
  let dz := behind f (pX p) in
  let gamma := sqrt (vabs2 (pP p) + 1) in
  if Z.abs (i - ZnearestE (dz / feDs f)) <=? 10 then
    (nmu0 * nc ^ 2 * getCharge p * (vdot (pA p) (feEx f) / gamma) /
     (gauss_area (feW0 f) (feZR f) (feZw f) (IZR (feNst f) * feDs f) * feDt f) * bell (feDs f) (2 * feDs f) (dz - IZR i * feDs f))%R
  else 0%R.

(* ==== proofs ==== *)
Lemma off_spec (f : fel R) t : time_off f t = false <-> in_step (feDt f) t (feTime f).
Proof.
  unfold time_off, quarter, in_step. unnum. destruct (Rltb_spec (1 / 4 * feDt f) (Rabs (t - feTime f))); split; intros; try discriminate; try lra; reflexivity.
Qed.
Lemma off_true (f : fel R) t : ~ in_step (feDt f) t (feTime f) -> time_off f t = true.
Proof. intros H. destruct (time_off f t) eqn:E; [reflexivity|]. apply off_spec in E. contradiction. Qed.
Lemma late_spec (f : fel R) n : beam_late f n = false <-> in_step (feDt f) (IZR n * feDt f) (feTime f).
Proof.
  unfold beam_late, quarter, in_step. unnum. destruct (Rltb_spec (1 / 4 * feDt f) (Rabs (IZR n * feDt f - feTime f))); split; intros; try discriminate; try lra; reflexivity.
Qed.
Lemma deposits_late (TT : Trans R) (f : fel R) : (0 < feDs f)%R -> 0 <= feN f <= int_max -> forall ps J, Z.of_nat (length J) = feN f ->
  Exists (fun p => ~ in_step (feDt f) (pt p) (feTime f) \/ ~ on_grid f (pX p)) ps ->
  fold_res (deposit f) ps J = Throw IOexc \/ fold_res (deposit f) ps J = UB /\ Exists (fun p => last_cells f (pX p)) ps.
Proof.
  intros Hs HN. induction ps as [|p ps IH]; intros J LJ HE; [inversion HE|]. cbn [fold_res].
  unfold deposit at 1 3. destruct (time_off f (pt p)) eqn:E; [left; reflexivity|]. apply off_spec in E.
  destruct (deposit_near f J p Hs HN LJ) as [D1 D2].
  destruct (Rlt_le_dec (behind f (pX p)) 0) as [K|K]; [rewrite D1 by (left; exact K); left; reflexivity|].
  destruct (Rlt_le_dec (IZR (feN f) * feDs f) (behind f (pX p))) as [K'|K']; [rewrite D1 by (right; exact K'); left; reflexivity|].
  assert (NR : ZnearestE (behind f (pX p) / feDs f) <= feN f).
  { apply nearest_range. split; [apply Rmult_le_pos; [exact K|left; apply Rinv_0_lt_compat; exact Hs]|].
    apply Rmult_le_reg_r with (feDs f); [exact Hs|]. unfold Rdiv. rewrite Rmult_assoc, Rinv_l by lra. lra. }
  destruct (Z_lt_le_dec (int_max - 11) (ZnearestE (behind f (pX p) / feDs f))) as [L|L].
  - rewrite deposit_large; [right; split; [reflexivity|apply Exists_cons_hd; exact L]|exact Hs|lia|lra].
  - destruct (D2 (conj K K') L) as (J1 & -> & L1 & _). cbn [bind].
    apply Exists_cons in HE. destruct HE as [[HE|HE]|HE]; [contradiction|unfold on_grid in HE; lra|].
    destruct (IH J1 ltac:(lia) HE) as [Q|[Q1 Q2]]; [left; exact Q|right; split; [exact Q1|apply Exists_cons_tl; exact Q2]].
Qed.

Definition contribution (f : fel R) (p : particle R) (i : Z) : R :=
  (vdot (vdiv (pA p) (sqrt (vabs2 (pP p) + 1))) (feEx f) * getCharge p / mode_area f / feDt f * nmu0 * nc * nc *
   exp (- ((behind f (pX p) - IZR i * feDs f) * (behind f (pX p) - IZR i * feDs f)) / (2 * (2 * feDs f * (2 * feDs f)))) / (2 * sqrt (2 * PI)))%R.
Lemma contribution_source f p i : (0 < feDs f)%R -> (Z.abs (i - ZnearestE (behind f (pX p) / feDs f)) <=? 10) = true ->
  contribution f p i = source_of f p i.
Proof.
  intros Hs Hi. unfold source_of, contribution. rewrite Hi. unfold bell.
  assert (MA : mode_area f = gauss_area (feW0 f) (feZR f) (feZw f) (IZR (feNst f) * feDs f)).
  { unfold mode_area, gauss_area, nhalf. cbn [pow]. unnum. change (@nPi R _) with PI. field. }
  rewrite MA. generalize (gauss_area (feW0 f) (feZR f) (feZw f) (IZR (feNst f) * feDs f)). intros A.
  assert (S : (sqrt (2 * PI) <> 0)%R) by (apply Rgt_not_eq, sqrt_lt_R0; pose proof PI_RGT_0; lra).
  generalize dependent (sqrt (2 * PI)%R). intros q Hq.
  generalize (sqrt (vabs2 (pP p) + 1)). intros g. unfold vdot, vdiv. cbn [vx vy vz]. unnum.
  set (e := exp _). clearbody e. generalize (@nmu0 R _), (@nc R _), (getCharge p), (behind f (pX p)). intros m c Q b.
  cbn [pow]. unfold Rdiv. rewrite !Rinv_mult. generalize (/ A)%R (/ g)%R (/ q)%R (/ feDt f)%R. intros A' g' q' t'. field. lra.
Qed.

Lemma deposit_exact (f : fel R) J p J' : (0 < feDs f)%R -> 0 <= feN f <= int_max -> Z.of_nat (length J) = feN f ->
  deposit_at f J p = Ok J' -> on_grid f (pX p) /\ ~ last_cells f (pX p) /\ length J' = length J /\
  forall i, 0 <= i < feN f -> cell J' i = (cell J i + source_of f p i)%R.
Proof.
  intros Hs HN HJ H. pose proof (deposit_len _ _ _ _ H) as LE.
  assert (G : on_grid f (pX p)).
  { destruct (deposit_near f J p Hs HN HJ) as [D _]. unfold on_grid. destruct (Rlt_dec (behind f (pX p)) 0); [rewrite D in H by lra; discriminate H|].
    destruct (Rlt_dec (IZR (feN f) * feDs f) (behind f (pX p))); [rewrite D in H by lra; discriminate H|]. lra. }
  split; [exact G|].
  assert (NR : 0 <= ZnearestE (behind f (pX p) / feDs f) <= feN f).
  { apply nearest_range. destruct G as [G1 G2]. split; [apply Rmult_le_pos; [exact G1|left; apply Rinv_0_lt_compat; exact Hs]|].
    apply Rmult_le_reg_r with (feDs f); [exact Hs|]. unfold Rdiv. rewrite Rmult_assoc, Rinv_l by lra. lra. }
  assert (NL : ~ last_cells f (pX p)).
  { intros L. rewrite deposit_large in H; [discriminate H|exact Hs|unfold last_cells in L; lia|exact G]. }
  split; [exact NL|]. split; [exact LE|]. unfold last_cells in NL.
  remember (ZnearestE (behind f (pX p) / feDs f)) as c eqn:Ec.
  unfold deposit_at in H. fold (behind f (pX p)) in H. destruct (_ || _); [discriminate H|].
  change (nrint (ndiv (behind f (pX p)) (feDs f))) with (Some (ZnearestE (behind f (pX p) / feDs f))) in H. rewrite <- Ec in H.
  rewrite to_int_in in H by (unfold int_min, int_max in *; lia). cbn [bind] in H.
  rewrite !iadd_in in H by (unfold int_min, int_max in *; lia). cbn [bind] in H.
  set (a := if c + -10 <? 0 then 0 else c + -10) in H. set (b := if feN f <? c + 11 then feN f else c + 11) in H.
  assert (Ha : 0 <= a /\ c - 10 <= a /\ (a = 0 \/ a = c - 10)) by (unfold a; destruct (Z.ltb_spec (c + -10) 0); lia).
  assert (Hb : b <= feN f /\ b <= c + 11 /\ (b = feN f \/ b = c + 11)) by (unfold b; destruct (Z.ltb_spec (feN f) (c + 11)); lia).
  clearbody a b. match type of H with fold_res ?B _ J = _ => set (body := B) in H end.
  assert (ab : a <= b) by lia.
  destruct (upd_loop body (fun i v => (v + contribution f p i)%R) 0 (length J) (Z.to_nat (b - a)) a J) as (r & R1 & R2 & R3); [reflexivity|lia|lia| |].
  - intros l' i Hl' Hi v Hv. rewrite Z.add_0_r in *. unfold body.
    destruct (zget_in l' i ltac:(lia)) as (v' & V1 & ->). rewrite V1 in Hv. injection Hv as ->. cbn [bind]. rewrite zset_ok by lia. reflexivity.
  - rewrite H in R1. apply Ok_inj in R1. subst r. intros i Hi.
    apply cell_nth; [lia|]. rewrite R3, Z.add_0_r, Z.sub_0_r. rewrite !Z2Nat.id by lia. rewrite nth_cell by lia.
    destruct (Z.leb_spec (Z.abs (i - c)) 10) as [W|W].
    + replace (_ && _) with true by (symmetry; apply andb_true_intro; split; [apply Z.leb_le|apply Z.ltb_lt]; lia).
      cbn [option_map]. rewrite contribution_source; [reflexivity|exact Hs|]. rewrite <- Ec. apply Z.leb_le. exact W.
    + replace (_ && _) with false.
      * f_equal. unfold source_of. rewrite <- Ec. destruct (Z.leb_spec (Z.abs (i - c)) 10); [lia|]. ring.
      * symmetry. apply andb_false_iff. destruct (Z.leb_spec a i); [right|left; reflexivity]. apply Z.ltb_ge. lia.
Qed.
Lemma deposits_exact (f : fel R) : (0 < feDs f)%R -> 0 <= feN f <= int_max -> forall ps J J', Z.of_nat (length J) = feN f ->
  fold_res (deposit f) ps J = Ok J' ->
  Forall (fun p => in_step (feDt f) (pt p) (feTime f) /\ on_grid f (pX p) /\ ~ last_cells f (pX p)) ps /\
  forall i, 0 <= i < feN f -> cell J' i = (cell J i + rsum (map (fun p => source_of f p i) ps))%R.
Proof.
  intros Hs HN. induction ps as [|p ps IH]; intros J J' LJ H; cbn [fold_res] in H.
  - apply Ok_inj in H. subst. split; [constructor|]. intros i _. cbn. ring.
  - bget H as J1 H1. unfold deposit in H1. destruct (time_off f (pt p)) eqn:E; [discriminate H1|]. apply off_spec in E.
    destruct (deposit_exact f J p J1 Hs HN LJ H1) as (G & NL & L1 & C1). destruct (IH J1 J' ltac:(lia) H) as [F C].
    split; [constructor; auto|]. intros i Hi. rewrite C, C1 by exact Hi. cbn [map rsum fold_right]. unfold rsum. ring.
Qed.

Lemma zeros_cells N (z : list R) : zeros N = Ok z -> Z.of_nat (length z) = N /\ forall i, cell z i = 0%R.
Proof.
  unfold zeros. destruct (Z.ltb_spec N 0); [discriminate|]. intros H1. apply Ok_inj in H1. subst z. split; [rewrite repeat_length; lia|].
  intros i. unfold cell. destruct (i <? 0); [reflexivity|].
  generalize (Z.to_nat i). induction (Z.to_nat N) as [|n IH]; intros [|k]; cbn; auto.
Qed.
Lemma rsum_perm l l' : Permutation l l' -> rsum l = rsum l'.
Proof. unfold rsum. induction 1; cbn; [reflexivity|rewrite IHPermutation; reflexivity|ring|congruence]. Qed.
Lemma deposits_good (f : fel R) : (0 < feDs f)%R -> 0 <= feN f <= int_max -> forall ps J, Z.of_nat (length J) = feN f ->
  Forall (fun p => in_step (feDt f) (pt p) (feTime f) /\ on_grid f (pX p) /\ ~ last_cells f (pX p)) ps -> exists J', fold_res (deposit f) ps J = Ok J'.
Proof.
  intros Hs HN. induction ps as [|p ps IH]; intros J LJ HF; [exists J; reflexivity|]. inversion HF as [|? ? (Q1 & Q2 & Q3) HF' EE]; subst. cbn [fold_res].
  unfold deposit at 1. apply off_spec in Q1. rewrite Q1. destruct (deposit_near f J p Hs HN LJ) as [_ D]. destruct (D Q2) as (J1 & D1 & L1 & _); [unfold last_cells in Q3; lia|].
  rewrite D1. cbn [bind]. apply IH; [lia|exact HF'].
Qed.
Lemma not_good (f : fel R) ps : ~ Forall (fun p => in_step (feDt f) (pt p) (feTime f) /\ on_grid f (pX p)) ps ->
  Exists (fun p => ~ in_step (feDt f) (pt p) (feTime f) \/ ~ on_grid f (pX p)) ps.
Proof.
  intros H. apply neg_Forall_Exists_neg in H.
  - apply (Exists_impl _ (P := fun p => ~ (in_step (feDt f) (pt p) (feTime f) /\ on_grid f (pX p)))); [|exact H].
    intros p Hp. unfold in_step, on_grid in *. lra.
  - intros p. unfold in_step, on_grid.
    destruct (Rle_dec (Rabs (pt p - feTime f)) (feDt f / 4)); [|right; tauto].
    destruct (Rle_dec 0 (behind f (pX p))); [|right; tauto].
    destruct (Rle_dec (behind f (pX p)) (IZR (feN f) * feDs f)); [left|right]; tauto.
Qed.

Lemma deposits_thrown (f : fel R) : (0 < feDs f)%R -> 0 <= feN f <= int_max - 11 -> forall ps J, Z.of_nat (length J) = feN f ->
  Exists (fun p => ~ in_step (feDt f) (pt p) (feTime f) \/ ~ on_grid f (pX p)) ps -> fold_res (deposit f) ps J = Throw IOexc.
Proof.
  intros Hs HN ps J LJ H. destruct (deposits_late TransR f Hs ltac:(lia) ps J LJ H) as [Q|[Q _]]; [exact Q|].
  destruct (deposits_R f Hs HN ps J LJ) as [E|(J' & E & _)]; congruence.
Qed.

(* ==== C79 ==== *)
(* A query is refused if its time differs from the time of the field by more than a quarter
   of the time step; otherwise the time is ignored. *)
Theorem C79_field : forall (f : fel R) t X,
  (~ in_step (feDt f) t (feTime f) -> fel_field f t X = Throw IOexc) /\
  (in_step (feDt f) t (feTime f) -> fel_field f t X = fel_field f (feTime f) X).
Proof.
  intros f t X. unfold fel_field. split; intros H; [rewrite off_true by exact H; reflexivity|].
  rewrite (proj2 (off_spec f t) H). destruct (time_off f (feTime f)) eqn:E; [|reflexivity].
  exfalso. unfold time_off, quarter in E. unnum_in E. destruct (Rltb_spec (1 / 4 * feDt f) (Rabs (feTime f - feTime f))) as [L|L]; [|discriminate E].
  unfold in_step in H. replace (feTime f - feTime f)%R with 0%R in L by ring. rewrite Rabs_R0 in L. pose proof (Rabs_pos (t - feTime f)). lra.
Qed.
Print Assumptions C79_field.
(* A step with a beam at another time is refused; one with a particle at another time or outside of the
   grid is refused too, unless the code is undefined for one of the particles (C52). *)
Theorem C79_step : forall (f : fel R) bm, (0 < feDs f)%R -> 0 <= feN f <= int_max ->
  (~ in_step (feDt f) (IZR (bmNOTS bm) * feDt f) (feTime f) -> fel_step bm f = Throw IOexc) /\
  (Exists (fun p => ~ in_step (feDt f) (pt p) (feTime f) \/ ~ on_grid f (pX p)) (concat (bmB bm)) ->
   fel_step bm f = Throw IOexc \/ fel_step bm f = UB /\ Exists (fun p => last_cells f (pX p)) (concat (bmB bm))).
Proof.
  intros f bm Hs HN. split; intros H; unfold fel_step.
  - destruct (beam_late f (bmNOTS bm)) eqn:E; [reflexivity|]. apply late_spec in E. contradiction.
  - destruct (beam_late f (bmNOTS bm)) eqn:E; [left; reflexivity|]. destruct (zeros (feN f)) as [z| | |] eqn:Ez.
    + cbn [bind]. destruct (zeros_cells _ _ Ez) as [L _]. destruct (deposits_late TransR f Hs HN _ z L H) as [Q|[Q1 Q2]]; [left; rewrite Q|right; rewrite Q1; split; [|exact Q2]]; reflexivity.
    + unfold zeros in Ez. destruct (Z.ltb_spec (feN f) 0); [lia|discriminate Ez].
    + unfold zeros in Ez. destruct (Z.ltb_spec (feN f) 0); [lia|discriminate Ez].
    + unfold zeros in Ez. destruct (Z.ltb_spec (feN f) 0); [lia|discriminate Ez].
Qed.
Print Assumptions C79_step.
(* with a grid of less than 2^31-12 cells it is always refused *)
Theorem C79_step_partial : forall (f : fel R) bm, (0 < feDs f)%R -> 0 <= feN f <= int_max - 11 ->
  ~ in_step (feDt f) (IZR (bmNOTS bm) * feDt f) (feTime f) \/
  Exists (fun p => ~ in_step (feDt f) (pt p) (feTime f) \/ ~ on_grid f (pX p)) (concat (bmB bm)) ->
  fel_step bm f = Throw IOexc.
Proof.
  intros f bm Hs HN H. destruct (C79_step f bm Hs ltac:(lia)) as [A B]. destruct H as [H|H]; [exact (A H)|].
  destruct (B H) as [Q|[U L]]; [exact Q|].
  exfalso. unfold fel_step in U. destruct (beam_late f (bmNOTS bm)); [discriminate U|].
  destruct (zeros (feN f)) as [z| | |] eqn:Ez; try (unfold zeros in Ez; destruct (Z.ltb_spec (feN f) 0); [lia|discriminate Ez]).
  cbn [bind] in U. destruct (zeros_cells _ _ Ez) as [LZ _].
  rewrite (deposits_thrown f Hs HN _ z LZ H) in U. discriminate U.
Qed.
Print Assumptions C79_step_partial.
(* refuted for larger grids: the particle which is outside of the grid follows one in the last cell *)
Theorem C79_large_grid_refuted : forall (f : fel R) p q, (0 < feDs f)%R -> 0 <= feN f <= int_max ->
  in_step (feDt f) (pt p) (feTime f) -> on_grid f (pX p) -> last_cells f (pX p) -> ~ on_grid f (pX q) ->
  let bm n dt := BM [[p; q]] n dt TRACKING_VAY in
  forall n dt, in_step (feDt f) (IZR n * feDt f) (feTime f) -> fel_step (bm n dt) f = UB.
Proof.
  intros f p q Hs HN Ht Hg Hl Hq bm n dt Hn. unfold fel_step, bm. cbn [bmNOTS bmB concat app].
  rewrite (proj2 (late_spec f n) Hn). destruct (zeros (feN f)) as [z| | |] eqn:Ez; try (unfold zeros in Ez; destruct (Z.ltb_spec (feN f) 0); [lia|discriminate Ez]).
  cbn [bind fold_res]. unfold deposit at 1. rewrite (proj2 (off_spec f _) Ht).
  assert (NR : ZnearestE (behind f (pX p) / feDs f) <= feN f).
  { apply nearest_range. destruct Hg as [G1 G2]. split; [apply Rmult_le_pos; [exact G1|left; apply Rinv_0_lt_compat; exact Hs]|].
    apply Rmult_le_reg_r with (feDs f); [exact Hs|]. unfold Rdiv. rewrite Rmult_assoc, Rinv_l by lra. lra. }
  rewrite deposit_large; [reflexivity|exact Hs|unfold last_cells in Hl; lia|exact Hg].
Qed.
Print Assumptions C79_large_grid_refuted.
Lemma behind_along (f : fel R) s : vabs2 (feProp f) = 1%R -> behind f (vsub (feHead f) (vmul (feProp f) s)) = s.
Proof.
  unfold behind. generalize (feHead f) (feProp f). intros [a b c] [d e g]. unfold vabs2, vdot, vsub, vmul. cbn [vx vy vz]. unnum. intros H.
  replace ((a - (a - d * s)) * d + (b - (b - e * s)) * e + (c - (c - g * s)) * g)%R with ((d * d + e * e + g * g) * s)%R by ring. rewrite H. ring.
Qed.
Example C79_large_grid_ex : exists (f : fel R) p q, fel_wf f /\ (0 < feDs f)%R /\ 0 <= feN f <= int_max /\
  in_step (feDt f) (pt p) (feTime f) /\ on_grid f (pX p) /\ last_cells f (pX p) /\ ~ on_grid f (pX q) /\ in_step (feDt f) (IZR 0 * feDt f) (feTime f).
Proof.
  destruct (new_exists (TT := TransR) (1 : R)%R int_max vzero (V 0 0 1)%R (V 1 0 0)%R (Some 1) 1%R 1%R 0%R None ltac:(unfold int_max; lia)) as [f Hf].
  apply new_wf in Hf; [|unfold int_max; lia]. destruct Hf as (W & N & D & T0 & _ & _ & P & DS & _).
  assert (DS1 : (0 < feDs f)%R) by (rewrite DS; apply ds_pos; lra).
  assert (U : vabs2 (feProp f) = 1%R).
  { rewrite P. unfold vnormalize, vabs2, vmul, vdiv, vnorm, vabs2, vdot. cbn [vx vy vz]. unnum.
    replace (0 * 0 + 0 * 0 + 1 * 1)%R with 1%R by ring. rewrite sqrt_1. field. }
  set (at_ := fun s => mkP (1 : R)%R 1%R 1%R 1%R 1%R 0 None 0%R (vsub (feHead f) (vmul (feProp f) s)) vzero (V 1 0 0)%R vzero vzero [] [] [] [] vzero 1%R).
  exists f, (at_ (IZR int_max * feDs f)%R), (at_ (-1)%R).
  assert (B : forall s, behind f (pX (at_ s)) = s) by (intros s; unfold at_; cbn [pX]; apply behind_along, U).
  assert (I : forall t, t = 0%R -> in_step (feDt f) t (feTime f)).
  { intros t ->. unfold in_step. rewrite T0, D. unnum. replace (0 - 0)%R with 0%R by ring. rewrite Rabs_R0. lra. }
  split; [exact W|]. split; [exact DS1|]. split; [rewrite N; unfold int_max; lia|]. split; [apply I; reflexivity|].
  unfold on_grid, last_cells. rewrite !B, N. unfold Rdiv. rewrite Rmult_assoc, Rinv_r, Rmult_1_r by lra.
  split; [split; [apply Rmult_le_pos; [apply IZR_le; unfold int_max; lia|lra]|lra]|]. split; [rewrite (Zrnd_IZR ZnearestE); lia|].
  split; [lra|]. apply I. ring.
Qed.
(* the beam must use the same time step *)
Theorem C79_init : forall (f : fel R) bm, (0 < feDt f)%R -> (feDt f / 1000000000 < Rabs (bmdt bm - feDt f))%R -> fel_init bm f = Throw IOexc.
Proof.
  intros f bm Hd H. unfold fel_init. unnum. destruct (Rltb_spec (1 / 1000000000) (Rabs (bmdt bm - feDt f) / feDt f)) as [L|L]; [reflexivity|].
  exfalso. apply L. apply Rmult_lt_reg_r with (feDt f); [exact Hd|].
  replace (Rabs (bmdt bm - feDt f) / feDt f * feDt f)%R with (Rabs (bmdt bm - feDt f)) by (field; lra). lra.
Qed.
Print Assumptions C79_init.
Example C79_ex : exists f : fel R, ~ in_step (feDt f) (feTime f + feDt f) (feTime f) /\ in_step (feDt f) (feTime f + feDt f / 5) (feTime f) /\
  (0 < feDs f)%R /\ 0 <= feN f <= int_max - 11 /\ (0 < feDt f)%R.
Proof.
  exists mid_grid. unfold mid_grid, in_step. cbn [feDt feTime feDs feN]. unfold int_max.
  repeat split; try lra; try lia.
  - intros H. apply Rabs_le_inv in H. lra.
  - apply Rabs_le. lra.
Qed.

(* ==== C80 ==== *)
(* The field after a step with any beam: the field of the two cells in front minus the
   previous one plus the source of all particles.  Every particle gives a Gaussian with a
   width of two cells, cut after ten cells, times mu0 c^2 q beta' / (mode area dt).
   For every step which completes (see C52, C79 for the others). *)
Theorem C80_step : forall (f g : fel R) bm, fel_wf f -> (0 < feDs f)%R -> fel_step bm f = Ok g ->
  let S i := (feDt f ^ 2 * rsum (map (fun p => source_of f p i) (concat (bmB bm))))%R in
  Forall (fun p => in_step (feDt f) (pt p) (feTime f) /\ on_grid f (pX p)) (concat (bmB bm)) /\
  cell (feE g) 0 = 0%R /\ cell (feE g) 1 = cell (feE f) 0 /\
  (forall j, 2 <= j < feN f -> cell (feE g) j = (cell (feE f) (j - 2)%Z + cell (feE f) j - cell (fePrev f) (j - 2)%Z + S (j - 1)%Z)%R) /\
  (forall j, 1 <= j < feN f - 1 -> cell (fePrev g) j = (cell (feE f) j + S j)%R) /\
  (forall s, feEvery f = Some s -> Z.rem (feNst f + 1) s = 0 ->
     exists J, feJst g = feJst f ++ [J] /\ Z.of_nat (length J) = feN f /\
     forall i, 0 <= i < feN f -> cell J i = rsum (map (fun p => source_of f p i) (concat (bmB bm)))).
Proof.
  intros f g bm W Hs H S. pose proof W as (W0 & W1 & W2 & _). apply step_inv in H; [|exact W]. destruct H as (_ & J & (z & Z1 & Z2) & LJ & H).
  destruct (zeros_cells _ _ Z1) as [LZ CZ]. destruct (deposits_exact f Hs W0 _ z J LZ Z2) as [F C].
  assert (C' : forall i, 0 <= i < feN f -> cell J i = rsum (map (fun p => source_of f p i) (concat (bmB bm)))).
  { intros i Hi. rewrite C, CZ by exact Hi. ring. }
  apply advance_inv in H; [|exact W|exact LJ]. destruct H as (N2 & _ & s & r & e & Es & _ & -> & Lr & Hr & Le & He).
  destruct (next_cells f (Some J) r N2 W1 W2 LJ Hr) as (A0 & A1 & A2).
  pose proof (corr_cells f J e W1 LJ He) as B. split; [eapply Forall_impl; [|exact F]; intros p (Q1 & Q2 & _); split; assumption|]. unfold advanced. cbn [feE fePrev feJst].
  split; [exact A0|]. split; [exact A1|]. split; [|split].
  - intros j Hj. rewrite A2 by exact Hj. unfold S, source. rewrite C' by lia.
    destruct (Z.leb_spec 1 (j - 1)); [|lia]. destruct (Z.leb_spec (j - 1) (feN f - 2)); [|lia]. cbn [andb]. cbn [pow]. unnum. ring.
  - intros j Hj. rewrite B by lia. unfold S, source. rewrite C' by lia.
    destruct (Z.leb_spec 1 j); [|lia]. destruct (Z.leb_spec j (feN f - 2)); [|lia]. cbn [andb]. cbn [pow]. unnum. ring.
  - intros s' Es' Hs'. rewrite Es in Es'. injection Es' as <-. rewrite Hs'. exists J. split; [reflexivity|]. split; [exact LJ|exact C'].
Qed.
Print Assumptions C80_step.
(* neither the order of the particles nor their distribution over bunches matters *)
Theorem C80_order : forall (f g : fel R) bm bm', (0 < feDs f)%R -> 0 <= feN f <= int_max ->
  bmNOTS bm = bmNOTS bm' -> Permutation (concat (bmB bm)) (concat (bmB bm')) -> fel_step bm f = Ok g -> fel_step bm' f = Ok g.
Proof.
  intros f g bm bm' Hs HN HT HP H. unfold fel_step in *. rewrite <- HT. destruct (beam_late f (bmNOTS bm)); [discriminate H|].
  bget H as z Ez. rewrite Ez. cbn [bind]. bget H as J HJ. destruct (zeros_cells _ _ Ez) as [L CZ].
  destruct (deposits_exact f Hs HN _ z J L HJ) as [F C].
  destruct (deposits_good f Hs HN (concat (bmB bm')) z L) as [J' HJ']; [eapply Permutation_Forall; [exact HP|exact F]|].
  destruct (deposits_exact f Hs HN _ z J' L HJ') as [_ C']. rewrite HJ'. cbn [bind].
  pose proof (deposits_len _ _ _ _ HJ) as LJ. pose proof (deposits_len _ _ _ _ HJ') as LJ'.
  replace J' with J; [exact H|]. apply cells_eq; [lia|]. intros j Hj. rewrite C, C' by lia. f_equal.
  apply rsum_perm, Permutation_map, HP.
Qed.
Print Assumptions C80_order.
Example C80_ex : exists (bm : beam R) (g : fel R), fel_wf mid_grid /\ (0 < feDs mid_grid)%R /\
  concat (bmB bm) <> [] /\ fel_step bm mid_grid = Ok g.
Proof.
  set (p := mkP (1 : R)%R 1%R 1%R 1%R 1%R 0 None 0%R vzero vzero (V 1 0 0)%R vzero vzero [] [] [] [] vzero 1%R).
  assert (W : fel_wf mid_grid).
  { unfold fel_wf, mid_grid. cbn [feN feE fePrev feSt feJst length]. unfold int_max. repeat split; try lia; repeat constructor. }
  assert (Q : Forall (fun p => in_step (feDt mid_grid) (pt p) (feTime mid_grid) /\ on_grid mid_grid (pX p) /\ ~ last_cells mid_grid (pX p)) [p]).
  { constructor; [|constructor].
    assert (G : on_grid mid_grid (pX p)) by (unfold on_grid, behind, mid_grid, p, vdot, vsub, vzero; cbn [pX feHead feProp feN feDs vx vy vz]; unnum; lra).
    split; [|split; [exact G|]].
    - unfold in_step, mid_grid, p. cbn [pt feDt feTime]. replace (0 - 0)%R with 0%R by ring. rewrite Rabs_R0. lra.
    - unfold last_cells. enough (ZnearestE (behind mid_grid (pX p) / feDs mid_grid) <= 4) by (unfold int_max; lia). apply nearest_range.
      destruct G as [G1 G2]. change (feDs mid_grid) with 1%R in *. change (feN mid_grid) with 4 in *. lra. }
  destruct (zeros_ok (T := R) 4 ltac:(lia)) as (z & Z1 & Z2 & _).
  destruct (deposits_good mid_grid ltac:(cbn; lra) ltac:(cbn [mid_grid feN]; unfold int_max; lia) [p] z Z2 Q) as [J HJ].
  pose proof (deposits_len _ _ _ _ HJ) as LJ.
  destruct (advance_ok mid_grid J 1 W ltac:(cbn; lia) ltac:(cbn [mid_grid feN]; lia) ltac:(cbn [mid_grid feNst]; unfold int_min, int_max; lia) eq_refl ltac:(lia))
    as (r & e & A & _).
  exists (BM [[p]] 0 1%R TRACKING_VAY). eexists. split; [exact W|]. split; [cbn; lra|]. split; [discriminate|].
  unfold fel_step. cbn [bmNOTS bmB concat app].
  assert (B : beam_late mid_grid 0 = false).
  { apply late_spec. unfold in_step, mid_grid. cbn [feDt feTime]. replace (0 * 1 - 0)%R with 0%R by ring. rewrite Rabs_R0. lra. }
  rewrite B. change (feN mid_grid) with 4. rewrite Z1. cbn [bind]. rewrite HJ. cbn [bind]. exact A.
Qed.

(* ==== C52 ==== *)
(* grids of all sizes: a particle is refused outside of the grid, gives an undefined outcome in the last
   cells of the largest grids, and is accepted otherwise *)
Theorem C52_deposit : forall (f : fel R) J p, (0 < feDs f)%R -> 0 <= feN f <= int_max -> Z.of_nat (length J) = feN f ->
  (~ on_grid f (pX p) -> deposit_at f J p = Throw IOexc) /\
  (on_grid f (pX p) -> last_cells f (pX p) -> deposit_at f J p = UB) /\
  (on_grid f (pX p) -> ~ last_cells f (pX p) -> exists J', deposit_at f J p = Ok J' /\ length J' = length J /\
     forall i, 10 < Z.abs (Z.of_nat i - ZnearestE (behind f (pX p) / feDs f)) -> nth_error J' i = nth_error J i).
Proof.
  intros f J p Hs HN HJ. destruct (deposit_near f J p Hs HN HJ) as [D1 D2]. unfold on_grid, last_cells. split; [|split].
  - intros H. apply D1. lra.
  - intros H L. apply deposit_large; [exact Hs| |exact H]. split; [exact L|].
    enough (ZnearestE (behind f (pX p) / feDs f) <= feN f) by lia. apply nearest_range.
    split; [apply Rmult_le_pos; [lra|left; apply Rinv_0_lt_compat; exact Hs]|].
    apply Rmult_le_reg_r with (feDs f); [exact Hs|]. unfold Rdiv. rewrite Rmult_assoc, Rinv_l by lra. lra.
  - intros H L. apply D2; [exact H|lia].
Qed.
Print Assumptions C52_deposit.
(* exactly the steps which complete *)
Theorem C52_step_iff : forall (f : fel R) bm s, fel_wf f -> 2 <= feN f -> (0 < feDs f)%R -> int_min <= feNst f < int_max -> feEvery f = Some s -> s <> 0 ->
  (exists g, fel_step bm f = Ok g) <->
  in_step (feDt f) (IZR (bmNOTS bm) * feDt f) (feTime f) /\
  Forall (fun p => in_step (feDt f) (pt p) (feTime f) /\ on_grid f (pX p) /\ ~ last_cells f (pX p)) (concat (bmB bm)).
Proof.
  intros f bm s W HN Hs HT HE H0. pose proof W as (W0 & _). unfold fel_step. split.
  - intros [g H]. destruct (beam_late f (bmNOTS bm)) eqn:E; [discriminate H|]. apply late_spec in E. split; [exact E|].
    bget H as z Ez. bget H as J HJ. destruct (zeros_cells _ _ Ez) as [L _]. exact (proj1 (deposits_exact f Hs W0 _ z J L HJ)).
  - intros [E F]. rewrite (proj2 (late_spec f _) E). destruct (zeros_ok (T := R) (feN f) ltac:(lia)) as (z & Z1 & Z2 & _). rewrite Z1. cbn [bind].
    destruct (deposits_good f Hs W0 _ z Z2 F) as [J HJ]. rewrite HJ. cbn [bind]. pose proof (deposits_len _ _ _ _ HJ) as LJ.
    destruct (advance_ok f J s W HN ltac:(lia) HT HE ltac:(lia)) as (r & e & A & _). eexists. exact A.
Qed.
Print Assumptions C52_step_iff.
Example C52_step_iff_ex : fel_wf mid_grid /\ 2 <= feN mid_grid /\ (0 < feDs mid_grid)%R /\ int_min <= feNst mid_grid < int_max /\ feEvery mid_grid = Some 1 /\
  exists bm g, concat (bmB bm) <> [] /\ fel_step bm mid_grid = Ok g.
Proof.
  destruct C80_ex as (bm & g & W & D & N & G). split; [exact W|]. split; [cbn; lia|]. split; [exact D|].
  split; [cbn [mid_grid feNst]; unfold int_min, int_max; lia|]. split; [reflexivity|]. exists bm, g. auto.
Qed.
