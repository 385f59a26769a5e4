(* Integration of a trajectory into a field trace: bucket averages. *)
From Coq Require Import ZArith Reals Lra Lia Psatz List Bool.
From Flocq Require Import Core.Raux.
From Coquelicot Require Import Coquelicot.
From Verif Require Import Base BaseFacts Num VecModel VecFacts ParticleModel ParticleSpec
  ParticleSpec2 ParticleProofs ParticleProofs2 VaySpec TraceModel RetardModel RetardSpec
  RetardProofs TraceIntSpec.
Import ListNotations.
Local Open Scope R_scope.

(* ---- integrals of piecewise linear functions ---- *)
Lemma is_RInt_affine al be a b :
  is_RInt (fun t => al + be * t) a b ((al + be * a + (al + be * b)) / 2 * (b - a)).
Proof.
  assert (H : is_RInt (fun t => al + be * t) a b
     (minus ((fun t => al * t + be * (t * t) / 2) b) ((fun t => al * t + be * (t * t) / 2) a))).
  { apply (is_RInt_derive (fun t => al * t + be * (t * t) / 2) (fun t => al + be * t)).
    - intros x _. auto_derive; [trivial|]. field.
    - intros x _. apply (continuous_plus (fun _ => al)); [apply continuous_const|].
      apply (continuous_mult (fun _ => be)); [apply continuous_const|apply continuous_id]. }
  replace ((al + be * a + (al + be * b)) / 2 * (b - a))
    with (minus ((fun t => al * t + be * (t * t) / 2) b) ((fun t => al * t + be * (t * t) / 2) a));
    [exact H|]. unfold minus, plus, opp; cbn. field.
Qed.

Definition clip (lo hi x : R) : R := Rmax lo (Rmin hi x).

(* a function which is affine on [t1,t2) and zero elsewhere *)
Lemma is_RInt_segment (g : R -> R) al be t1 t2 lo hi :
  t1 < t2 -> lo <= hi ->
  (forall t, t1 <= t -> t < t2 -> g t = al + be * t) ->
  (forall t, t < t1 -> g t = 0) -> (forall t, t2 <= t -> g t = 0) ->
  let a := clip lo hi t1 in let b := clip lo hi t2 in
  is_RInt g lo hi ((al + be * a + (al + be * b)) / 2 * (b - a)).
Proof.
  intros H12 Hlh Hin Hlo Hhi a b.
  assert (Ha : lo <= a <= hi).
  { unfold a, clip. split; [apply Rmax_l|]. apply Rmax_lub; [exact Hlh|apply Rmin_l]. }
  assert (Hb : lo <= b <= hi).
  { unfold b, clip. split; [apply Rmax_l|]. apply Rmax_lub; [exact Hlh|apply Rmin_l]. }
  assert (Hab : a <= b).
  { unfold a, b, clip. apply Rmax_lub; [apply Rmax_l|]. eapply Rle_trans; [|apply Rmax_r].
    apply Rle_min_compat_l. lra. }
  assert (I1 : is_RInt g lo a 0).
  { apply is_RInt_ext with (f := fun _ => 0).
    - rewrite Rmin_left, Rmax_right by lra. intros x Hx. symmetry. apply Hlo.
      unfold a, clip in Hx. destruct Hx as [Hx1 Hx2].
      unfold Rmax in Hx2. destruct (Rle_dec lo (Rmin hi t1)); [|lra].
      eapply Rlt_le_trans; [exact Hx2|apply Rmin_r].
    - pose proof (is_RInt_const lo a 0) as H. unfold scal in H; cbn in H. unfold mult in H; cbn in H.
      rewrite Rmult_0_r in H. exact H. }
  assert (I2 : is_RInt g a b ((al + be * a + (al + be * b)) / 2 * (b - a))).
  { apply is_RInt_ext with (f := fun t => al + be * t); [|apply is_RInt_affine].
    rewrite Rmin_left, Rmax_right by lra. intros x Hx. symmetry. apply Hin.
    - unfold a, clip in Hx. destruct Hx as [Hx1 Hx2].
      destruct (Rle_dec t1 hi) as [L|L].
      + rewrite Rmin_right in Hx1 by lra. pose proof (Rmax_r lo t1). lra.
      + rewrite Rmin_left in Hx1 by lra. pose proof (Rmax_r lo hi). lra.
    - unfold b, clip in Hx. destruct Hx as [Hx1 Hx2].
      unfold Rmax in Hx2. destruct (Rle_dec lo (Rmin hi t2)).
      + eapply Rlt_le_trans; [exact Hx2|apply Rmin_r].
      + lra. }
  assert (I3 : is_RInt g b hi 0).
  { apply is_RInt_ext with (f := fun _ => 0).
    - rewrite Rmin_left, Rmax_right by lra. intros x Hx. symmetry. apply Hhi.
      unfold b, clip in Hx. destruct Hx as [Hx1 Hx2].
      destruct (Rle_dec t2 hi) as [L|L].
      + rewrite Rmin_right in Hx1 by lra. pose proof (Rmax_r lo t2). lra.
      + rewrite Rmin_left in Hx1 by lra. pose proof (Rmax_r lo hi). lra.
    - pose proof (is_RInt_const b hi 0) as H. unfold scal in H; cbn in H. unfold mult in H; cbn in H.
      rewrite Rmult_0_r in H. exact H. }
  pose proof (is_RInt_Chasles _ _ _ _ _ _ (is_RInt_Chasles _ _ _ _ _ _ I1 I2) I3) as H.
  unfold plus in H; cbn in H. rewrite Rplus_0_l, Rplus_0_r in H. exact H.
Qed.

(* ---- components ---- *)
Definition linear (c : emf R -> R) : Prop :=
  (forall a b, c (eadd a b) = c a + c b) /\ (forall a k, c (emul a k) = c a * k) /\ c ezero = 0.
Lemma components_linear c : In c components -> linear c.
Proof.
  intros H. repeat (destruct H as [<-|H]; [repeat split; intros; vdestr; vunfold; unnum; ring|]).
  destruct H.
Qed.
Lemma linear_sub c a b : linear c -> c (esub a b) = c a - c b.
Proof.
  intros (Ha & Hm & _). replace (esub a b) with (eadd a (emul b (-1))) by vring.
  rewrite Ha, Hm. ring.
Qed.
Lemma linear_interp c ta tb fa fb t : linear c ->
  c (interp_field ta tb fa fb t) = c fa + (c fb - c fa) * ((t - ta) / (tb - ta)).
Proof.
  intros Hc. pose proof Hc as (Ha & Hm & _). unfold interp_field.
  rewrite Ha, Hm, (linear_sub c _ _ Hc). reflexivity.
Qed.
Lemma linear_lin c ta tb fa fb t : linear c -> ta <> tb ->
  c (lin_field ta tb fa fb t) = c fa + (c fb - c fa) * ((t - ta) / (tb - ta)).
Proof.
  intros Hc Hne. pose proof Hc as (Ha & Hm & _). unfold lin_field. cbv zeta.
  rewrite Ha, !Hm. unnum. field. lra.
Qed.

(* ---- rounding ---- *)
Lemma round_bounds x : IZR (Zround_away x) - / 2 <= x <= IZR (Zround_away x) + / 2.
Proof.
  unfold Zround_away. destruct (Rle_dec 0 x).
  - pose proof (Zfloor_lb (x + / 2)). pose proof (Zfloor_ub (x + / 2)). lra.
  - pose proof (Zceil_ub (x - / 2)) as H. pose proof (Zceil_lb (x - / 2)). lra.
Qed.

(* the time covered by bucket k *)
Definition bucket_lo (t0 dt : R) (k : Z) : R := t0 + (IZR k - / 2) * dt.
Definition bucket_hi (t0 dt : R) (k : Z) : R := t0 + (IZR k + / 2) * dt.
(* ---- accumulation ---- *)
(* tr' has the same timing as tr and sample k changed by an amount given by d *)
Definition changed (tr tr' : ftrace R) (c : emf R -> R) (d : Z -> R) : Prop :=
  forall k f, nth_error (tr_f tr) k = Some f ->
    exists f', nth_error (tr_f tr') k = Some f' /\ c f' = c f + d (Z.of_nat k).
Definition same_timing (tr tr' : ftrace R) : Prop :=
  tr_t0 tr' = tr_t0 tr /\ tr_dt tr' = tr_dt tr /\ length (tr_f tr') = length (tr_f tr).

Lemma same_timing_refl tr : same_timing tr tr.
Proof. repeat split. Qed.
Lemma same_timing_trans a b c : same_timing a b -> same_timing b c -> same_timing a c.
Proof. intros (A & B & C) (D & E & F). unfold same_timing. rewrite D, E, F. auto. Qed.
Lemma changed_refl tr c : changed tr tr c (fun _ => 0).
Proof. intros k f H. exists f. split; [exact H|ring]. Qed.
Lemma changed_trans a b d c u v :
  changed a b c u -> changed b d c v -> changed a d c (fun k => u k + v k).
Proof.
  intros H1 H2 k f Hf. destruct (H1 k f Hf) as (g & Hg & Eg). destruct (H2 k g Hg) as (h & Hh & Eh).
  exists h. split; [exact Hh|]. rewrite Eh, Eg. ring.
Qed.
Lemma changed_ext a b c u v :
  (forall k, (0 <= k < tr_N a)%Z -> u k = v k) -> changed a b c u -> changed a b c v.
Proof.
  intros E H k f Hf. destruct (H k f Hf) as (g & Hg & Eg). exists g. split; [exact Hg|].
  rewrite <- E; [exact Eg|].
  assert (k < length (tr_f a))%nat by (apply nth_error_Some; congruence). unfold tr_N. lia.
Qed.

Lemma tr_acc_ok (tr : ftrace R) i f : (0 <= i < tr_N tr)%Z ->
  exists tr', tr_acc tr i f = Ok tr' /\ same_timing tr tr' /\
    forall c, linear c -> changed tr tr' c (fun k => if (k =? i)%Z then c f else 0).
Proof.
  intros Hi. unfold tr_acc, tr_in.
  destruct (Z.leb_spec 0 i); [|lia]. destruct (Z.ltb_spec i (tr_N tr)); [|lia]. cbn [andb].
  unfold tr_N in Hi. destruct (zget_ok (tr_f tr) i) as (g & -> & Hg); [lia|]. cbn [bind].
  unfold zset. destruct (Z.ltb_spec i 0); [lia|].
  destruct (Z.leb_spec (Z.of_nat (length (tr_f tr))) i); [lia|]. cbn [orb bind].
  eexists. split; [reflexivity|]. split.
  - unfold same_timing. cbn. rewrite lset_length. auto.
  - intros c (Ha & _ & _) k h Hh. cbn [tr_f].
    destruct (Z.eqb_spec (Z.of_nat k) i) as [E|E].
    + subst i. rewrite Nat2Z.id in *. rewrite Hh in Hg. injection Hg as <-.
      rewrite lset_nth_eq by lia. eexists. split; [reflexivity|]. apply Ha.
    + rewrite lset_nth_neq by lia. exists h. split; [exact Hh|ring].
Qed.

Lemma add_full_ok t0 dt ts1 ts2 f1 f2 k : forall a (tr : ftrace R), (0 <= a)%Z -> (a + Z.of_nat k <= tr_N tr)%Z ->
  exists tr', add_full t0 dt ts1 ts2 f1 f2 a k tr = Ok tr' /\ same_timing tr tr' /\
    forall c, linear c -> changed tr tr' c
      (fun j => if ((a <=? j) && (j <? a + Z.of_nat k))%Z
                then c (lin_field ts1 ts2 f1 f2 (t0 + IZR j * dt)) else 0).
Proof.
  unfold add_full. induction k as [|k IH]; intros a tr Ha Hk.
  - exists tr. split; [reflexivity|]. split; [apply same_timing_refl|]. intros c Hc.
    eapply changed_ext; [|apply changed_refl]. intros j Hj. cbn beta.
    destruct (Z.leb_spec a j); destruct (Z.ltb_spec j (a + Z.of_nat 0)); cbn [andb]; auto; lia.
  - cbn [zseq fold_res].
    destruct (tr_acc_ok tr a (lin_field ts1 ts2 f1 f2 (t0 + nZ a * dt)%num)) as (tr1 & E & S1 & C1); [lia|].
    rewrite E. cbn [bind].
    assert (HN : tr_N tr1 = tr_N tr) by (unfold tr_N; destruct S1 as (_ & _ & ->); reflexivity).
    destruct (IH (a + 1)%Z tr1) as (tr2 & E2 & S2 & C2); [lia|lia|].
    exists tr2. split; [exact E2|]. split; [eapply same_timing_trans; eauto|].
    intros c Hc. eapply changed_ext; [|eapply changed_trans; [apply C1; exact Hc|apply C2; exact Hc]].
    intros j Hj. cbn beta.
    destruct (Z.eqb_spec j a) as [->|Hne].
    + destruct (Z.leb_spec (a + 1) a); [lia|]. cbn [andb]. destruct (Z.leb_spec a a); [|lia].
      destruct (Z.ltb_spec a (a + Z.of_nat (S k))); [|lia]. cbn [andb]. rewrite Rplus_0_r. reflexivity.
    + rewrite Rplus_0_l.
      destruct (Z.leb_spec (a + 1) j); destruct (Z.leb_spec a j); try lia; cbn [andb]; auto.
      destruct (Z.ltb_spec j (a + 1 + Z.of_nat k)); destruct (Z.ltb_spec j (a + Z.of_nat (S k))); auto; lia.
Qed.

Lemma add_last_ok t0 dt ts1 ts2 f1 f2 idx2 nots (tr : ftrace R) :
  (0 <= idx2)%Z -> nots = tr_N tr ->
  exists tr', add_last t0 dt ts1 ts2 f1 f2 idx2 nots tr = Ok tr' /\ same_timing tr tr' /\
    forall c, linear c -> changed tr tr' c
      (fun j => if (j =? idx2)%Z
                then (c (lin_field ts1 ts2 f1 f2 (bucket_lo t0 dt idx2)) + c f2) * / 2
                     * ((ts2 - bucket_lo t0 dt idx2) / dt) else 0).
Proof.
  intros H0 Hn. unfold add_last. destruct (Z.ltb_spec idx2 nots).
  - replace (t0 + (nZ idx2 - nhalf) * dt)%num with (t0 + (IZR idx2 - / 2) * dt)
      by (unfold nhalf; unnum; lra).
    fold (bucket_lo t0 dt idx2).
    match goal with |- exists tr', tr_acc tr idx2 ?f = _ /\ _ => destruct (tr_acc_ok tr idx2 f) as (tr1 & E & S1 & C1) end; [lia|].
    exists tr1. split; [exact E|]. split; [exact S1|]. intros c Hc.
    eapply changed_ext; [|apply C1; exact Hc]. intros j Hj. cbn beta.
    destruct (Z.eqb_spec j idx2); [|reflexivity].
    destruct Hc as (Ha & Hm & _). rewrite !Hm, Ha. unfold nhalf. unnum. lra.
  - exists tr. split; [reflexivity|]. split; [apply same_timing_refl|]. intros c Hc.
    eapply changed_ext; [|apply changed_refl]. intros j Hj. cbn beta.
    destruct (Z.eqb_spec j idx2); [lia|reflexivity].
Qed.

(* what one trajectory step must add to bucket k (times dt) *)
Definition share (t0 dt ts1 ts2 v1 v2 : R) (k : Z) : R :=
  let l t := v1 + (v2 - v1) * ((t - ts1) / (ts2 - ts1)) in
  let a := clip (bucket_lo t0 dt k) (bucket_hi t0 dt k) ts1 in
  let b := clip (bucket_lo t0 dt k) (bucket_hi t0 dt k) ts2 in
  (l a + l b) / 2 * (b - a).

Lemma bucket_order t0 dt j k : 0 < dt -> (j < k)%Z -> bucket_hi t0 dt j <= bucket_lo t0 dt k.
Proof.
  intros Hd H. unfold bucket_hi, bucket_lo.
  assert (IZR j + 1 <= IZR k) by (rewrite <- plus_IZR; apply IZR_le; lia).
  nra.
Qed.
Lemma bucket_width t0 dt k : bucket_hi t0 dt k = bucket_lo t0 dt k + dt.
Proof. unfold bucket_hi, bucket_lo. lra. Qed.
Lemma clip_in lo hi x : lo <= x <= hi -> clip lo hi x = x.
Proof. intros H. unfold clip. rewrite Rmin_right, Rmax_right; lra. Qed.
Lemma clip_below lo hi x : lo <= hi -> x <= lo -> clip lo hi x = lo.
Proof. intros H H1. unfold clip. rewrite Rmin_right, Rmax_left; lra. Qed.
Lemma clip_above lo hi x : lo <= hi -> hi <= x -> clip lo hi x = hi.
Proof. intros H H1. unfold clip. rewrite Rmin_left, Rmax_right; lra. Qed.

Lemma share_none_before t0 dt ts1 ts2 v1 v2 k :
  0 < dt -> ts1 <= ts2 -> ts2 <= bucket_lo t0 dt k -> share t0 dt ts1 ts2 v1 v2 k = 0.
Proof.
  intros Hd H12 H. unfold share. cbv zeta. pose proof (bucket_width t0 dt k).
  rewrite !clip_below by lra. lra.
Qed.
Lemma share_none_after t0 dt ts1 ts2 v1 v2 k :
  0 < dt -> ts1 <= ts2 -> bucket_hi t0 dt k <= ts1 -> share t0 dt ts1 ts2 v1 v2 k = 0.
Proof.
  intros Hd H12 H. unfold share. cbv zeta. pose proof (bucket_width t0 dt k).
  rewrite !clip_above by lra. lra.
Qed.
