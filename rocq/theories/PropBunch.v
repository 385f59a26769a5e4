(* Bunches: C24 (bunches), C26, C27, C63. *)
From Coq Require Import ZArith Reals List Lia Lra Bool.
From Coq Require Floats.
From Verif Require Import Base BaseFacts Num NumFloat NumChecked VecModel VecFacts ParticleModel ParticleSpec
  ParticleProofs ParticleSpec2 ParticleProofs2 PropSerial BunchModel BunchModelR DistSpec DistProofs DistProofs3 BunchSpec BunchProofs BunchProofs2.
Import ListNotations.
Local Open Scope R_scope.

(* ==== C24, bunches ==== *)
Theorem C24_bunch_copy_equivalent : forall (T : Type) (NT : Num T) (b : bunch T),
  Forall (fun p => exists c m history, run_ops history (new_particle c m) = Ok p) b ->
  exists b', bunch_copy b = Ok b' /\
    Forall2 (fun p q => trajectory q = trajectory p /\ current q = current p /\
      pCharge q = pCharge p /\ pMass q = pMass p /\
      forall ops, res_rel (fun p' q' => trajectory q' = trajectory p' /\ same_state p' q')
                          (run_ops ops p) (run_ops ops q)) b b'.
Proof.
  intros T NT b H. unfold bunch_copy. induction H as [|p b (c & m & h & Hp) Hb IH].
  - exists []. split; [reflexivity|constructor].
  - destruct IH as (b' & E & F). destruct (C24_copy_equivalent T NT c m h p Hp) as (q & Eq & G).
    exists (q :: b'). cbn [map_res]. rewrite Eq. cbn [bind]. rewrite E. split; [reflexivity|].
    constructor; assumption.
Qed.
Print Assumptions C24_bunch_copy_equivalent.
Example C24_bunch_ex : Forall (fun p : particle R => exists c m history, run_ops history (new_particle c m) = Ok p)
  [new_particle (-1) 1; initTrajectory 0 vzero (V 0 0 5) vzero (new_particle (-2) 2)].
Proof.
  repeat constructor.
  - exists (-1), 1, []. reflexivity.
  - exists (-2), 2, [OpInitTraj 0 vzero (V 0 0 5) vzero]. reflexivity.
Qed.

(* ==== C26 ==== *)
(* Each particle is restarted from its first trajectory point; f times the deviation
   of the independent coordinate from its mean is added to the dependent coordinate,
   nothing else is changed, and the sum of every coordinate is kept. *)
Theorem C26_correlation : forall (b : bunch R) ind dep f,
  (ind < 6)%nat -> (dep < 6)%nat -> ind <> dep -> Forall has_start b ->
  exists b', bunch_correlate (Z.of_nat ind) (Z.of_nat dep) f b = Ok b' /\
    Forall2 (fun p p' => correlated dep (f * (start6 ind p - mean (map (start6 ind) b))) p p') b b' /\
    forall k, (k < 6)%nat -> mean (map (start6 k) b') = mean (map (start6 k) b).
Proof.
  intros b ind dep f Hi Hd Hn Hb. destruct (correlate_bunch b ind dep f Hi Hd Hn Hb) as (b' & E & F).
  exists b'. split; [exact E|]. split; [exact F|]. intros k Hk. unfold mean. rewrite !map_length.
  assert (L : length b' = length b) by (clear -F; induction F; cbn; auto).
  rewrite L. destruct b as [|p b]; [inversion F; reflexivity|]. f_equal.
  apply (correlate_sums (p :: b) b' ind dep f Hi Hd); [discriminate|exact F|exact Hk].
Qed.
Print Assumptions C26_correlation.
Definition ex_bunch : bunch R :=
  [initTrajectory 0 (V 1 2 3) (V 0 0 5) vzero (new_particle (-1) 1);
   initTrajectory 7 (V 3 2 3) (V 0 1 5) vzero (new_particle (-1) 1)].
Example ex_bunch_start : Forall has_start ex_bunch.
Proof. repeat constructor; cbn; try lia. Qed.
Example C26_ex : exists b', bunch_correlate 0 4 2 ex_bunch = Ok b' /\ map (start6 4) b' = [0 + 2 * (1 - (0 + 1 + 3) / 2); 1 + 2 * (3 - (0 + 1 + 3) / 2)].
Proof. eexists. split; reflexivity. Qed.

(* coordinates which do not exist, or the same coordinate twice: nothing happens *)
Theorem C26_out_of_range : forall (T : Type) (NT : Num T) (b : bunch T) ind dep f,
  ~ (0 <= ind < 6)%Z \/ ~ (0 <= dep < 6)%Z \/ ind = dep -> bunch_correlate ind dep f b = Ok b.
Proof.
  intros T NT b ind dep f H. unfold bunch_correlate.
  destruct ((0 <=? ind) && (ind <? 6) && (0 <=? dep) && (dep <? 6) && negb (dep =? ind))%Z eqn:E; [|reflexivity].
  exfalso. rewrite !andb_true_iff, negb_true_iff, Z.eqb_neq, !Z.leb_le, !Z.ltb_lt in E. lia.
Qed.
Print Assumptions C26_out_of_range.
Example C26_out_of_range_ex : bunch_correlate 6 0 2 ex_bunch = Ok ex_bunch.
Proof. apply C26_out_of_range. lia. Qed.

(* a particle without trajectory is refused *)
Theorem C26_no_trajectory : forall (T : Type) (NT : Num T) (b : bunch T) ind dep f p,
  (0 <= ind < 6)%Z -> (0 <= dep < 6)%Z -> ind <> dep -> Forall wf b -> In p b -> trajectory p = [] ->
  bunch_correlate ind dep f b = Throw IOexc.
Proof.
  intros T NT b ind dep f p Hi Hd Hn Hw Hp He. unfold bunch_correlate.
  replace ((0 <=? ind) && (ind <? 6) && (0 <=? dep) && (dep <? 6) && negb (dep =? ind))%Z with true.
  2:{ symmetry. rewrite !andb_true_iff, negb_true_iff, Z.eqb_neq, !Z.leb_le, !Z.ltb_lt. lia. }
  match goal with |- bind ?m _ = _ => assert (E : m = Throw IOexc) end; [|rewrite E; reflexivity].
  generalize (nZ 0 : T). induction Hw as [|q b Hq Hb IH]; intros s; [destruct Hp|].
  cbn [fold_res]. destruct Hp as [->|Hp].
  - destruct (ParticleProofs2.access_outside p 0) as (A & B & C & D).
    + right. pose proof (trajectory_length p Hq) as L. rewrite He in L. cbn in L. lia.
    + rewrite B. reflexivity.
  - destruct (Z_lt_dec 0 (pNP q)).
    + destruct (ParticleProofs2.access_inside q 0 Hq) as (a & _ & _ & B & C & _); [lia|].
      rewrite B, C. cbn [bind]. apply IH. exact Hp.
    + destruct (ParticleProofs2.access_outside q 0) as (A & B & C & D); [lia|]. rewrite B. reflexivity.
Qed.
Print Assumptions C26_no_trajectory.
Example C26_no_trajectory_ex : trajectory (new_particle (-1) 1 : particle R) = [].
Proof. reflexivity. Qed.

(* ==== C27 ==== *)
(* averages lie within the bounds of the values *)
Theorem C27_average_time : forall (b : bunch R) lo hi, b <> [] ->
  (forall p, In p b -> lo <= pt p <= hi) -> lo <= bunch_avgTime b <= hi.
Proof. intros b lo hi Hb H. rewrite avgTime_mean. apply (mean_bounds pt); assumption. Qed.
Print Assumptions C27_average_time.
Theorem C27_average_position : forall (b : bunch R) (lo hi : vec R), b <> [] ->
  (forall p, In p b -> vx lo <= vx (pX p) <= vx hi /\ vy lo <= vy (pX p) <= vy hi /\ vz lo <= vz (pX p) <= vz hi) ->
  vx lo <= vx (bunch_avgPosition b) <= vx hi /\ vy lo <= vy (bunch_avgPosition b) <= vy hi /\
  vz lo <= vz (bunch_avgPosition b) <= vz hi.
Proof.
  intros b lo hi Hb H. rewrite avgPosition_mean by exact Hb. cbn [vx vy vz].
  split; [|split]; apply mean_bounds; auto; intros p Hp; apply (H p Hp).
Qed.
Print Assumptions C27_average_position.
Theorem C27_average_momentum : forall (b : bunch R) (lo hi : vec R), b <> [] ->
  (forall p, In p b -> vx lo <= vx (pP p) <= vx hi /\ vy lo <= vy (pP p) <= vy hi /\ vz lo <= vz (pP p) <= vz hi) ->
  vx lo <= vx (bunch_avgMomentum b) <= vx hi /\ vy lo <= vy (bunch_avgMomentum b) <= vy hi /\
  vz lo <= vz (bunch_avgMomentum b) <= vz hi.
Proof.
  intros b lo hi Hb H. rewrite avgMomentum_mean by exact Hb. cbn [vx vy vz].
  split; [|split]; apply mean_bounds; auto; intros p Hp; apply (H p Hp).
Qed.
Print Assumptions C27_average_momentum.
Example C27_average_ex : ex_bunch <> [] /\ forall p, In p ex_bunch -> 0 <= pt p <= 7.
Proof. split; [discriminate|]. intros p [<-|[<-|[]]]; cbn; lra. Qed.

(* rms values are nonnegative and zero only for identical values *)
Theorem C27_rms_position : forall (b : bunch R), b <> [] ->
  (0 <= vx (bunch_rmsPosition b) /\ 0 <= vy (bunch_rmsPosition b) /\ 0 <= vz (bunch_rmsPosition b)) /\
  (vx (bunch_rmsPosition b) = 0 <-> forall p q, In p b -> In q b -> vx (pX p) = vx (pX q)) /\
  (vy (bunch_rmsPosition b) = 0 <-> forall p q, In p b -> In q b -> vy (pX p) = vy (pX q)) /\
  (vz (bunch_rmsPosition b) = 0 <-> forall p q, In p b -> In q b -> vz (pX p) = vz (pX q)).
Proof.
  intros b Hb. rewrite rmsPosition_rms by exact Hb. cbn [vx vy vz].
  assert (G : forall f : particle R -> R, rms (map f b) = 0 <-> forall p q, In p b -> In q b -> f p = f q).
  { intros f. rewrite rms_zero by (destruct b; [contradiction|discriminate]). split.
    - intros H p q Hp Hq. apply H; apply in_map; assumption.
    - intros H x y Hx Hy. apply in_map_iff in Hx, Hy. destruct Hx as (p & <- & Hp). destruct Hy as (q & <- & Hq). auto. }
  split; [split; [|split]; apply rms_nonneg|]. split; [|split]; apply G.
Qed.
Print Assumptions C27_rms_position.
(* they are the standard deviations *)
Theorem C27_rms_is_standard_deviation : forall (b : bunch R), b <> [] ->
  bunch_rmsPosition b = V (rms (map (fun p => vx (pX p)) b)) (rms (map (fun p => vy (pX p)) b)) (rms (map (fun p => vz (pX p)) b)).
Proof. exact rmsPosition_rms. Qed.
Print Assumptions C27_rms_is_standard_deviation.
Example C27_rms_ex : ex_bunch <> [].
Proof. discriminate. Qed.

(* the average relativistic factor is at least one, and one only at rest *)
Theorem C27_average_gamma : forall (b : bunch R), b <> [] ->
  1 <= bunch_avgGamma b /\ (bunch_avgGamma b = 1 <-> forall p, In p b -> pP p = vzero).
Proof.
  intros b Hb. rewrite avgGamma_mean. pose proof (INR_length_pos b Hb) as Hp.
  assert (G1 : forall p : particle R, 1 <= sqrt (vabs2 (pP p) + 1)).
  { intros p. rewrite <- sqrt_1 at 1. apply sqrt_le_1_alt. pose proof (vabs2_nonneg (pP p)). lra. }
  assert (H1 : 1 <= mean (map (fun p => sqrt (vabs2 (pP p) + 1)) b)).
  { unfold mean. rewrite map_length. apply Rmult_le_reg_r with (INR (length b)); [exact Hp|].
    unfold Rdiv. rewrite Rmult_assoc, Rinv_l by lra. rewrite Rmult_1_l, Rmult_1_r.
    rewrite <- (Rmult_1_r (INR (length b))), <- sum_const. apply sum_le. intros; apply G1. }
  split; [exact H1|]. split.
  - intros E p Hpb. apply vabs2_zero_iff.
    assert (S0 : sum (map (fun p => sqrt (vabs2 (pP p) + 1) - 1) b) = 0).
    { unfold Rminus. rewrite sum_plus, sum_const. unfold mean in E. rewrite map_length in E.
      apply (f_equal (fun x => x * INR (length b))) in E. unfold Rdiv in E. rewrite Rmult_assoc, Rinv_l in E by lra. lra. }
    assert (Z0 : sqrt (vabs2 (pP p) + 1) - 1 = 0).
    { clear -S0 G1 Hpb. revert S0 Hpb. induction b as [|q b IH]; intros S0 Hpb; [destruct Hpb|].
      cbn [map] in S0. unfold sum in S0. cbn [fold_right] in S0. fold (sum (map (fun p => sqrt (vabs2 (pP p) + 1) - 1) b)) in S0.
      assert (0 <= sum (map (fun p => sqrt (vabs2 (pP p) + 1) - 1) b)).
      { replace 0 with (sum (map (fun _ : particle R => 0) b)) by (rewrite sum_const; lra). apply sum_le. intros x _. specialize (G1 x). lra. }
      pose proof (G1 q). destruct Hpb as [->|Hpb]; [lra|]. apply IH; [lra|exact Hpb]. }
    pose proof (vabs2_nonneg (pP p)). assert (E2 : sqrt (vabs2 (pP p) + 1) * sqrt (vabs2 (pP p) + 1) = vabs2 (pP p) + 1) by (apply sqrt_sqrt; lra).
    nra.
  - intros H. rewrite (map_ext_in _ (fun _ => 1)).
    + unfold mean. rewrite map_length, sum_const. field. lra.
    + intros p Hpb. rewrite (H p Hpb). replace (vabs2 vzero + 1) with 1; [apply sqrt_1|]. unfold vabs2; cbn. ring.
Qed.
Print Assumptions C27_average_gamma.

(* relative momentum spread of a bunch which is not at rest *)
Theorem C27_momentum_spread_partial : forall (b : bunch R), (exists p, In p b /\ pP p <> vzero) ->
  0 <= bunch_delta b /\
  (bunch_delta b = 0 <-> forall p q, In p b -> In q b -> vnorm (pP p) = vnorm (pP q)).
Proof.
  intros b (p0 & Hp0 & Hnz). assert (Hb : b <> []) by (destruct b; [destruct Hp0|discriminate]).
  rewrite delta_rms by exact Hb. pose proof (INR_length_pos b Hb) as Hl.
  assert (M : 0 < mean (map (fun p => vnorm (pP p)) b)).
  { unfold mean. rewrite map_length. apply Rdiv_lt_0_compat; [|exact Hl].
    clear -Hp0 Hnz. induction b as [|q b IH]; [destruct Hp0|]. cbn [map]. unfold sum. cbn [fold_right].
    fold (sum (map (fun p => vnorm (pP p)) b)).
    assert (0 <= sum (map (fun p => vnorm (pP p)) b)).
    { replace 0 with (sum (map (fun _ : particle R => 0) b)) by (rewrite sum_const; lra). apply sum_le. intros x _. apply vnorm_nonneg. }
    pose proof (vnorm_nonneg (pP q)). destruct Hp0 as [->|Hp0].
    - pose proof (vnorm_pos _ Hnz). lra.
    - specialize (IH Hp0). lra. }
  pose proof (rms_nonneg (map (fun p => vnorm (pP p)) b)) as Hr. split.
  - apply Rmult_le_pos; [exact Hr|left; apply Rinv_0_lt_compat; exact M].
  - transitivity (rms (map (fun p => vnorm (pP p)) b) = 0).
    + split; intros H.
      * apply Rmult_integral in H. destruct H as [H|H]; [exact H|]. apply Rinv_neq_0_compat in H; [destruct H|lra].
      * rewrite H. unfold Rdiv. ring.
    + rewrite rms_zero by (destruct b; [contradiction|discriminate]). split.
      * intros H p q Hp Hq. apply H; apply (in_map (fun p => vnorm (pP p))); assumption.
      * intros H x y Hx Hy. apply in_map_iff in Hx, Hy. destruct Hx as (p & <- & Hp). destruct Hy as (q & <- & Hq). auto.
Qed.
Print Assumptions C27_momentum_spread_partial.
(* the values themselves *)
Theorem C27_values : forall (b : bunch R), b <> [] ->
  bunch_avgTime b = mean (map pt b) /\
  bunch_avgPosition b =
    V (mean (map (fun p => vx (pX p)) b)) (mean (map (fun p => vy (pX p)) b)) (mean (map (fun p => vz (pX p)) b)) /\
  bunch_avgMomentum b =
    V (mean (map (fun p => vx (pP p)) b)) (mean (map (fun p => vy (pP p)) b)) (mean (map (fun p => vz (pP p)) b)) /\
  bunch_avgGamma b =
    mean (map (fun p => sqrt (vx (pP p) * vx (pP p) + vy (pP p) * vy (pP p) + vz (pP p) * vz (pP p) + 1)) b) /\
  let m := map (fun p => sqrt (vx (pP p) * vx (pP p) + vy (pP p) * vy (pP p) + vz (pP p) * vz (pP p))) b in
  bunch_delta b = rms m / mean m.
Proof.
  intros b Hb. split; [apply avgTime_mean|]. split; [now apply avgPosition_mean|]. split; [now apply avgMomentum_mean|].
  split; [rewrite avgGamma_mean; reflexivity|]. rewrite delta_rms by exact Hb. reflexivity.
Qed.
Print Assumptions C27_values.
Example C27_spread_ex : exists p, In p ex_bunch /\ pP p <> vzero.
Proof. eexists. split; [left; reflexivity|]. cbn. intros E. apply (f_equal vz) in E. cbn in E. lra. Qed.

(* its value: real and imaginary part are the means of cosine and sine of the phases
   2 pi f z / c of the particles *)
Theorem C27_bunching_value : forall (b : bunch R) freq, b <> [] ->
  bunch_BunchingFactor b freq =
  (mean (map (fun p => cos (2 * PI * freq * vz (pX p) / nc)) b),
   mean (map (fun p => sin (2 * PI * freq * vz (pX p) / nc)) b)).
Proof. intros b f Hb. apply BunchingFactor_mean. exact Hb. Qed.
Print Assumptions C27_bunching_value.
(* bunching factor: modulus at most one, one for coinciding positions *)
Theorem C27_bunching_factor : forall (b : bunch R) freq re im, b <> [] ->
  bunch_BunchingFactor b freq = (re, im) ->
  re * re + im * im <= 1 /\
  ((forall p q, In p b -> In q b -> vz (pX p) = vz (pX q)) -> re * re + im * im = 1).
Proof.
  intros b f re im Hb H. rewrite BunchingFactor_mean in H by exact Hb. pose proof (INR_length_pos b Hb) as Hl.
  injection H as <- <-. unfold mean. rewrite !map_length. split.
  - pose proof (phasor_sum (fun p => bunching_arg f (vz (pX p))) b) as P. cbv beta in P.
    set (n := INR (length b)) in *. set (C := sum _) in *. set (D := sum (map (fun p => sin _) b)) in *.
    replace (C / n * (C / n) + D / n * (D / n)) with ((C * C + D * D) / (n * n)) by (field; lra).
    apply Rmult_le_reg_r with (n * n); [nra|]. unfold Rdiv. rewrite Rmult_assoc, Rinv_l by nra. lra.
  - intros E. destruct b as [|p b]; [contradiction|]. set (l := p :: b) in *.
    rewrite (sum_ext (fun q => cos (bunching_arg f (vz (pX q)))) (fun _ => cos (bunching_arg f (vz (pX p))))).
    2:{ intros q Hq. rewrite (E q p Hq (or_introl eq_refl)). reflexivity. }
    rewrite (sum_ext (fun q => sin (bunching_arg f (vz (pX q)))) (fun _ => sin (bunching_arg f (vz (pX p))))).
    2:{ intros q Hq. rewrite (E q p Hq (or_introl eq_refl)). reflexivity. }
    rewrite !sum_const. pose proof (sin2_cos2 (bunching_arg f (vz (pX p)))) as Q. unfold Rsqr in Q. 
    set (n := INR (length l)) in *.
    replace (n * cos (bunching_arg f (vz (pX p))) / n) with (cos (bunching_arg f (vz (pX p)))) by (field; lra).
    replace (n * sin (bunching_arg f (vz (pX p))) / n) with (sin (bunching_arg f (vz (pX p)))) by (field; lra).
    lra.
Qed.
Print Assumptions C27_bunching_factor.
Example C27_bunching_ex : ex_bunch <> [] /\ forall p q, In p ex_bunch -> In q ex_bunch -> vz (pX p) = vz (pX q).
Proof. split; [discriminate|]. intros p q [<-|[<-|[]]] [<-|[<-|[]]]; reflexivity. Qed.

(* The empty bunch: every average divides by zero.  (With checked reals no value is
   computed, in double precision the result is not a number.) *)
Theorem C27_empty_bunch_refuted :
  @bunch_avgTime _ NumChk [] = None /\ vx (@bunch_avgPosition _ NumChk []) = None /\
  vx (@bunch_rmsPosition _ NumChk []) = None /\ vx (@bunch_avgMomentum _ NumChk []) = None /\
  @bunch_avgGamma _ NumChk [] = None /\ @bunch_delta _ NumChk [] = None /\
  PrimFloat.is_nan (@bunch_avgTime PrimFloat.float NumF []) = true /\ PrimFloat.is_nan (@bunch_avgGamma PrimFloat.float NumF []) = true.
Proof.
  assert (Z0 : Reqb' 0 0 = true) by (destruct (Reqb_spec 0 0); [reflexivity|contradiction]).
  assert (D : @ndiv _ NumChk (@nZ _ NumChk 0) (@nNOP _ NumChk []) = None).
  { cbn. rewrite Z0. reflexivity. }
  assert (D1 : @ndiv _ NumChk (@nZ _ NumChk 1) (@nNOP _ NumChk []) = None).
  { cbn. rewrite Z0. reflexivity. }
  assert (M0 : forall x, @nmul _ NumChk x None = None) by (intros [x|]; reflexivity).
  split; [exact D|]. split; [|split; [|split; [|split; [exact D|split]]]].
  - unfold bunch_avgPosition. cbn [fold_left]. rewrite D1. reflexivity.
  - unfold bunch_rmsPosition. cbn [fold_left]. unfold vroot, vdiv. cbn [vx vzero]. rewrite D. reflexivity.
  - unfold bunch_avgMomentum. cbn [fold_left]. rewrite D1. reflexivity.
  - unfold bunch_delta. cbn [fold_left]. rewrite D. reflexivity.
  - split; vm_compute; reflexivity.
Qed.
Print Assumptions C27_empty_bunch_refuted.

(* A bunch at rest: the momentum spread divides by zero, for every number of
   particles. *)
Theorem C27_spread_at_rest_refuted : forall b : list (particle (option R)),
  (forall p, In p b -> pP p = V (Some 0) (Some 0) (Some 0)) -> @bunch_delta _ NumChk b = None.
Proof.
  intros b H. unfold bunch_delta.
  assert (N : @vnorm _ NumChk (V (Some 0) (Some 0) (Some 0)) = Some 0).
  { unfold vnorm. cbn [vx vy vz]. change (@nmul _ NumChk (Some 0) (Some 0)) with (Some (0 * 0)).
    change (@nadd _ NumChk (@nadd _ NumChk (Some (0 * 0)) (Some (0 * 0))) (Some (0 * 0))) with (Some (0 * 0 + 0 * 0 + 0 * 0)).
    replace (0 * 0 + 0 * 0 + 0 * 0) with 0 by ring. cbn. destruct (Rltb_spec 0 0); [lra|].
    rewrite sqrt_0. reflexivity. }
  assert (S0 : fold_left (fun s p => @nadd _ NumChk s (@vnorm _ NumChk (pP p))) b (@nZ _ NumChk 0) = Some 0).
  { clear -H N. change (@nZ _ NumChk 0) with (Some 0).
    assert (G : forall l, (forall p, In p l -> pP p = V (Some 0) (Some 0) (Some 0)) ->
       fold_left (fun s p => @nadd _ NumChk s (@vnorm _ NumChk (pP p))) l (Some 0) = Some 0).
    { induction l as [|p l IH]; intros Hl; [reflexivity|]. cbn [fold_left]. rewrite (Hl p (or_introl eq_refl)), N.
      change (@nadd _ NumChk (Some 0) (Some 0)) with (Some (0 + 0)). rewrite Rplus_0_l. apply IH. intros; apply Hl; right; assumption. }
    apply G. exact H. }
  rewrite S0. clear S0 N.
  assert (A : @ndiv _ NumChk (Some 0) (@nNOP _ NumChk b) = None \/ @ndiv _ NumChk (Some 0) (@nNOP _ NumChk b) = Some 0).
  { unfold nNOP. cbn. destruct (Reqb' (IZR (bunch_NOP b)) 0) eqn:E; [left; reflexivity|right].
    f_equal. unfold Rdiv. ring. }
  destruct A as [A|A]; rewrite A.
  - cbv zeta. match goal with |- @ndiv _ NumChk ?x _ = _ => destruct x end; reflexivity.
  - cbv zeta. assert (Z0 : Reqb' 0 0 = true) by (destruct (Reqb_spec 0 0); [reflexivity|contradiction]).
    match goal with |- @ndiv _ NumChk ?x _ = _ => destruct x end; [|reflexivity].
    cbn. rewrite Z0. reflexivity.
Qed.
Print Assumptions C27_spread_at_rest_refuted.
Example C27_spread_at_rest_ex : forall p, In p [lp (initTrajectory 0 vzero vzero vzero (new_particle (-1) 1))] ->
  pP p = V (Some 0) (Some 0) (Some 0).
Proof. intros p [<-|[]]. reflexivity. Qed.

(* ==== C63: bunches from distributions ==== *)
(* Particle i of a bunch made from a distribution starts at the reference point plus
   its coordinates in the distribution, with coordinate 6 as start time. *)
Theorem C63_bunch_from_distribution : forall (T : Type) (NT : Num T) (d : dist T) t0 x0 p0 charge mass,
  wf_dist d -> dDIM d = 7%Z ->
  exists b, bunch_from_dist d t0 x0 p0 charge mass = Ok b /\ bunch_NOP b = dNOP d /\
    forall i, (0 <= i < dNOP d)%Z -> exists p x y z px py pz t,
      bunch_particle b i = Some p /\
      coordinate d i 0 = Some x /\ coordinate d i 1 = Some y /\ coordinate d i 2 = Some z /\
      coordinate d i 3 = Some px /\ coordinate d i 4 = Some py /\ coordinate d i 5 = Some pz /\
      coordinate d i 6 = Some t /\ pCharge p = charge /\ pMass p = mass /\
      trajectory p = [current p] /\
      current p = TP (nadd t0 t) (vadd x0 (V x y z)) (vadd p0 (V px py pz)) vzero.
Proof.
  intros T NT d t0 x0 p0 charge mass Hw Hd.
  set (mk := fun i => initTrajectory (nadd t0 (the_coord d i 6)) (vadd x0 (V (the_coord d i 0) (the_coord d i 1) (the_coord d i 2)))
       (vadd p0 (V (the_coord d i 3) (the_coord d i 4) (the_coord d i 5))) (V (nZ 0) (nZ 0) (nZ 0)) (new_particle charge mass)).
  pose proof Hw as ((_ & HN & _) & _).
  assert (G : forall i k, (0 <= i < dNOP d)%Z -> (0 <= k < 7)%Z -> d_coordinate d i k = Ok (the_coord d i k) /\ coordinate d i k = Some (the_coord d i k)).
  { intros i k Hi Hk. assert (Hin : in_dist d i k) by (split; lia). split; [|apply the_coord_some; assumption].
    apply getCoordinate_ok; auto. apply the_coord_some; assumption. }
  assert (E : bunch_from_dist d t0 x0 p0 charge mass = Ok (map mk (zseq 0 (Z.to_nat (dNOP d))))).
  { unfold bunch_from_dist. apply TraceProofs2.map_res_ext. intros i Hi. apply TraceProofs2.zseq_in in Hi.
    assert (0 <= i < dNOP d)%Z by lia.
    rewrite (proj1 (G i 6%Z ltac:(lia) ltac:(lia))), (proj1 (G i 0%Z ltac:(lia) ltac:(lia))), (proj1 (G i 1%Z ltac:(lia) ltac:(lia))),
      (proj1 (G i 2%Z ltac:(lia) ltac:(lia))), (proj1 (G i 3%Z ltac:(lia) ltac:(lia))), (proj1 (G i 4%Z ltac:(lia) ltac:(lia))),
      (proj1 (G i 5%Z ltac:(lia) ltac:(lia))). reflexivity. }
  eexists. split; [exact E|].
  assert (L : bunch_NOP (map mk (zseq 0 (Z.to_nat (dNOP d)))) = dNOP d).
  { unfold bunch_NOP. rewrite map_length, TraceProofs2.zseq_length. lia. }
  split; [exact L|]. intros i Hi. exists (mk i), (the_coord d i 0), (the_coord d i 1), (the_coord d i 2), (the_coord d i 3), (the_coord d i 4), (the_coord d i 5), (the_coord d i 6).
  split.
  { unfold bunch_particle. rewrite L. destruct (Z.leb_spec 0 i); [|lia]. destruct (Z.ltb_spec i (dNOP d)); [|lia]. cbn [andb].
    rewrite nth_error_map, TraceProofs2.zseq_nth by lia. cbn. rewrite ?Z2Nat.id by lia. reflexivity. }
  repeat (split; [apply G; lia|]). repeat split; reflexivity.
Qed.
Print Assumptions C63_bunch_from_distribution.
Example C63_ex : wf_dist (DI 7 1 [1;2;3;4;5;6;7]).
Proof. split; [|reflexivity]. cbn. unfold int_max. lia. Qed.
(* a distribution of any dimension: coordinates it does not have are taken as zero *)
Theorem C63_dimension : forall (T : Type) (NT : Num T) (d : dist T) t0 x0 p0 charge mass, wf_dist d ->
  exists b, bunch_from_dist d t0 x0 p0 charge mass = Ok b /\ bunch_NOP b = dNOP d /\
    forall i, (0 <= i < dNOP d)%Z -> exists p (c : Z -> T), bunch_particle b i = Some p /\
      (forall k, (0 <= k < 7)%Z -> if (k <? dDIM d)%Z then coordinate d i k = Some (c k) else c k = nZ 0) /\
      pCharge p = charge /\ pMass p = mass /\ trajectory p = [current p] /\
      current p = TP (nadd t0 (c 6%Z)) (vadd x0 (V (c 0%Z) (c 1%Z) (c 2%Z))) (vadd p0 (V (c 3%Z) (c 4%Z) (c 5%Z))) vzero.
Proof.
  intros T NT d t0 x0 p0 charge mass Hw. rewrite (from_dist d t0 x0 p0 charge mass Hw).
  match goal with |- context [Ok (map ?f _)] => set (mk := f) end.
  eexists. split; [reflexivity|]. assert (0 <= dNOP d)%Z by (destruct Hw; lia).
  assert (L : bunch_NOP (map mk (zseq 0 (Z.to_nat (dNOP d)))) = dNOP d).
  { unfold bunch_NOP. rewrite map_length, TraceProofs2.zseq_length. lia. }
  split; [exact L|]. intros i Hi. exists (mk i), (coord0 d i). split.
  { unfold bunch_particle. rewrite L. destruct (Z.leb_spec 0 i); [|lia]. destruct (Z.ltb_spec i (dNOP d)); [|lia]. cbn [andb].
    rewrite nth_error_map, TraceProofs2.zseq_nth by lia. cbn. rewrite ?Z2Nat.id by lia. reflexivity. }
  split; [|repeat split; reflexivity]. intros k Hk. unfold coord0. destruct (Z.ltb_spec k (dDIM d)); [|reflexivity].
  apply the_coord_some; [exact Hw|split; lia].
Qed.
Print Assumptions C63_dimension.
Example C63_dimension_ex : wf_dist (DI 6 1 [1;2;3;4;5;6]).
Proof. split; [|reflexivity]. cbn. unfold int_max. lia. Qed.

