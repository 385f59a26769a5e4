(* Kirchhoff sums and the field of a source screen *)
From Coq Require Import ZArith List Bool Lia Reals Lra Psatz.
From Coquelicot Require Import Coquelicot.
From Verif Require Import Base BaseFacts Num VecModel VecFacts ParticleModel TraceModel TraceSpec TraceProofs TraceProofs2
  BunchModel ObserverModel ObserverSpec2 ElementProofs ElementProofs2 PropagateModel PropagateSpec PropagateProofs PropagateProofs2.
Import ListNotations.
Local Open Scope R_scope.

(* ---- one term ---- *)
Lemma poynting_zero (tr : ftrace R) : (forall f, In f (tr_f tr) -> f = ezero) -> tr_poynting tr = vzero.
Proof.
  intros H. unfold tr_poynting.
  assert (E : fold_left (fun s f => vadd s (epoynting f)) (tr_f tr) vzero = vzero).
  { induction (tr_f tr) as [|f l IH]; [reflexivity|]. cbn [fold_left]. rewrite (H f (or_introl eq_refl)).
    replace (vadd vzero (epoynting ezero)) with (@vzero R NumR).
    - apply IH. intros g Hg. apply H. now right.
    - unfold epoynting. generalize (@nmu0 R NumR). intros m. vunfold; unnum; vsplit; unfold Rdiv; ring. }
  rewrite E. vunfold; unnum; vsplit; ring.
Qed.
Lemma term_ok (target tr acc : ftrace R) delay w dA : carries tr target delay -> same_sampling target acc ->
  exists out, prop_term target tr delay w dA acc = Ok out /\ same_sampling target out /\
    forall k a, nth_error (tr_f acc) k = Some a ->
      nth_error (tr_f out) k = Some (eadd a (emul (emul (value tr (sample_time target (Z.of_nat k) - delay)) w) dA)).
Proof.
  intros HC HS. unfold prop_term. destruct HC as [[comp Hc]|Hz].
  - rewrite Hc. destruct (retard_samples tr target comp delay Hc) as (S1 & V1 & _).
    assert (SM : same_sampling acc (tr_mul (tr_mul comp w) dA)).
    { destruct HS as (A1 & A2 & A3), S1 as (B1 & B2 & B3). unfold same_sampling, tr_mul. cbn [tr_f tr_t0 tr_dt].
      rewrite !map_length. repeat split; congruence. }
    unfold tr_add. rewrite (proj2 (tr_match_spec _ _) SM).
    eexists. split; [reflexivity|]. split.
    + destruct HS as (A1 & A2 & A3), SM as (B1 & B2 & B3). unfold same_sampling. cbn [tr_f tr_t0 tr_dt].
      unfold tr_mul in B1 |- *. cbn [tr_f] in B1 |- *. rewrite zip_with_length by lia. auto.
    + intros k a Hk. cbn [tr_f]. unfold tr_mul. cbn [tr_f].
      assert (Lk : (k < length (tr_f comp))%nat).
      { pose proof (in_range _ _ _ Hk). destruct HS as (A1 & _), S1 as (B1 & _). lia. }
      destruct (nth_some _ _ Lk) as [f Hf]. rewrite (zip_with_nth _ _ _ _ a (emul (emul f w) dA) Hk).
      * unfold value. rewrite (V1 k f Hf). reflexivity.
      * rewrite !nth_error_map, Hf. reflexivity.
  - destruct (retard_total tr target delay (map (fun _ => ezero) (tr_f target))) as [_ RT].
    { now rewrite map_length. }
    { intros k f Hf. rewrite nth_error_map in Hf. destruct (nth_error (tr_f target) k) eqn:E; [|discriminate]. cbn in Hf. injection Hf as <-.
      apply Hz. pose proof (in_range _ _ _ E). unfold tr_N. lia. }
    rewrite RT.
    + exists acc. split; [reflexivity|]. split; [exact HS|]. intros k a Hk. rewrite Hk. f_equal.
      unfold value. rewrite Hz.
      * clear. vdestr; vunfold; unnum; vsplit; ring.
      * pose proof (in_range _ _ _ Hk). destruct HS as (A1 & _). unfold tr_N. lia.
    + apply poynting_zero. cbn [tr_f]. intros f Hf. apply in_map_iff in Hf. destruct Hf as (? & <- & _). reflexivity.
Qed.
Lemma source_ok (target acc : ftrace R) pos c : cell_carries target pos c -> same_sampling target acc ->
  exists out, prop_source target pos acc c = Ok out /\ same_sampling target out /\
    forall k a, nth_error (tr_f acc) k = Some a ->
      nth_error (tr_f out) k = Some (eadd a (kirchhoff pos (sample_time target (Z.of_nat k)) c)).
Proof.
  intros (C1 & C2 & C3) HS. unfold prop_source. cbv zeta.
  set (d := vsub pos (srcX c)) in *. set (r := vnorm d) in *.
  change (r / nc)%num with (r / nc).
  destruct (term_ok target (srcA c) acc (r / nc) (- vdot d (srcN c) / (r * r * r))%num (srcArea c / (nZ 4 * nPi))%num C1 HS) as (a1 & E1 & S1 & V1).
  rewrite E1. cbn [bind].
  destruct (term_ok target (srcAt c) a1 (r / nc) (- vdot d (srcN c) / (r * r * nc))%num (srcArea c / (nZ 4 * nPi))%num C2 S1) as (a2 & E2 & S2 & V2).
  rewrite E2. cbn [bind].
  destruct (term_ok target (srcAn c) a2 (r / nc) (nZ 1 / r)%num (srcArea c / (nZ 4 * nPi))%num C3 S2) as (a3 & E3 & S3 & V3).
  exists a3. split; [exact E3|]. split; [exact S3|].
  intros k a Hk. rewrite (V3 k _ (V2 k _ (V1 k _ Hk))). f_equal.
  unfold kirchhoff. cbv zeta. fold d r. unfold weight, weight_t. fold r.
  generalize (value (srcA c) (sample_time target (Z.of_nat k) - r / nc)) (value (srcAt c) (sample_time target (Z.of_nat k) - r / nc))
    (value (srcAn c) (sample_time target (Z.of_nat k) - r / nc)). intros f g h.
  change (srcArea c / (nZ 4 * nPi))%num with (srcArea c / (4 * PI)).
  change (- vdot d (srcN c) / (r * r * r))%num with (- vdot d (srcN c) / (r * r * r)).
  change (- vdot d (srcN c) / (r * r * nc))%num with (- vdot d (srcN c) / (r * r * nc)).
  change (nZ 1 / r)%num with (1 / r).
  generalize (srcArea c / (4 * PI)) (- vdot d (srcN c) / (r * r * r)) (- vdot d (srcN c) / (r * r * nc)) (1 / r). intros u v w x.
  clear. vdestr; vunfold; unnum; vsplit; ring.
Qed.
Lemma cell_from (target : ftrace R) pos srcs : forall acc, same_sampling target acc ->
  (forall c, In c srcs -> cell_carries target pos c) ->
  exists out, fold_res (prop_source target pos) srcs acc = Ok out /\ same_sampling target out /\
    forall k a, nth_error (tr_f acc) k = Some a ->
      nth_error (tr_f out) k = Some (eadd a (kirchhoff_sum srcs pos (sample_time target (Z.of_nat k)))).
Proof.
  induction srcs as [|c srcs IH]; intros acc HS HC.
  - exists acc. split; [reflexivity|]. split; [exact HS|]. intros k a Hk. unfold kirchhoff_sum. cbn [map fold_right]. now rewrite eadd_0_r.
  - destruct (source_ok target acc pos c (HC c (or_introl eq_refl)) HS) as (a1 & E1 & S1 & V1).
    destruct (IH a1 S1 (fun c Hc => HC c (or_intror Hc))) as (out & E2 & S2 & V2).
    exists out. cbn [fold_res]. rewrite E1. cbn [bind]. split; [exact E2|]. split; [exact S2|].
    intros k a Hk. rewrite (V2 k _ (V1 k a Hk)). f_equal. unfold kirchhoff_sum. cbn [map fold_right]. now rewrite eadd_assoc.
Qed.
Lemma carries_sampling tr a b delay : same_sampling a b -> carries tr a delay -> carries tr b delay.
Proof.
  intros (L & T0 & DT) [[out H]|H].
  - left. exists out. rewrite <- H. unfold tr_retard, tr_time, tr_in, tr_N. rewrite L, T0, DT. reflexivity.
  - right. intros k Hk. unfold sample_time. rewrite <- T0, <- DT. apply H. unfold tr_N in *. lia.
Qed.
Lemma propagated (target : ftrace R) pos srcs : (forall c, In c srcs -> cell_carries target pos c) ->
  exists out, prop_cell srcs pos target = Ok out /\ same_sampling target out /\
    forall k, (k < length (tr_f target))%nat ->
      nth_error (tr_f out) k = Some (kirchhoff_sum srcs pos (sample_time target (Z.of_nat k))).
Proof.
  intros HC. assert (SZ : same_sampling target (tr_zero target)).
  { unfold same_sampling, tr_zero. cbn [tr_f tr_t0 tr_dt]. rewrite map_length. auto. }
  assert (HC' : forall c, In c srcs -> cell_carries (tr_zero target) pos c).
  { intros c Hc. destruct (HC c Hc) as (A & B & C). split; [|split]; eapply carries_sampling; eauto. }
  destruct (cell_from (tr_zero target) pos srcs (tr_zero target)) as (out & E & S & V); [repeat split|exact HC'|].
  exists out. split; [exact E|]. split.
  - destruct SZ as (A & B & C), S as (D & F & G). repeat split; congruence.
  - intros k Hk. destruct (nth_some _ _ Hk) as [f Hf].
    rewrite (V k ezero); [rewrite eadd_0_l; reflexivity|]. unfold tr_zero. cbn [tr_f]. rewrite nth_error_map, Hf. reflexivity.
Qed.
Lemma kirchhoff_reversed pos t c :
  kirchhoff pos t (SRC (srcX c) (srcArea c) (vopp (srcN c)) (srcA c) (srcAt c) (tr_mul (srcAn c) (-1)))
  = emul (kirchhoff pos t c) (-1).
Proof.
  unfold kirchhoff. cbv zeta. cbn [srcX srcArea srcN srcA srcAt srcAn]. rewrite value_mul. unfold weight, weight_t.
  set (d := vsub pos (srcX c)). set (r := vnorm d).
  replace (vdot d (vopp (srcN c))) with (- vdot d (srcN c)) by (symmetry; clear; vring).
  generalize (value (srcA c) (t - r / nc)) (value (srcAt c) (t - r / nc)) (value (srcAn c) (t - r / nc)). intros f g h.
  generalize (vdot d (srcN c)) (srcArea c / (4 * PI)) (1 / r). intros s u v.
  replace (- - s / (r * r * r)) with (- (- s / (r * r * r))) by (unfold Rdiv; ring).
  replace (- - s / (r * r * nc)) with (- (- s / (r * r * nc))) by (unfold Rdiv; ring).
  generalize (- s / (r * r * r)) (- s / (r * r * nc)). intros w x. clear. vdestr; vunfold; unnum; vsplit; ring.
Qed.

(* ---- the weights are normal derivatives of the retarded wave ---- *)
Lemma distance_derive (P S n : vec R) : vsub P S <> vzero ->
  is_derive (fun e => vnorm (vsub P (displace S n e))) 0 (- vdot (vsub P S) n / vnorm (vsub P S)).
Proof.
  intros H. assert (Hp : 0 < vabs2 (vsub P S)).
  { destruct (Rle_lt_or_eq_dec 0 (vabs2 (vsub P S))) as [L|E]; [apply vabs2_nonneg|exact L|].
    exfalso. apply H. apply vnorm_zero_iff. rewrite vnorm_sqrt, <- E. apply sqrt_0. }
  rewrite vnorm_sqrt.
  apply (is_derive_ext (fun e => sqrt (vabs2 (vsub P (displace S n e))))).
  { intros e. symmetry. apply vnorm_sqrt. }
  assert (E0 : vabs2 (vsub P (displace S n 0)) = vabs2 (vsub P S)).
  { f_equal. unfold displace. clear. vdestr; vunfold; unnum; vsplit; ring. }
  rewrite <- E0. rewrite <- E0 in Hp. 
  destruct P as [a b c], S as [d e f], n as [x y z]. revert Hp. unfold displace. vunfold. unnum. intros Hp.
  auto_derive.
  - eapply Rlt_le_trans; [exact Hp|]. right. ring.
  - unfold Rminus in Hp |- *. revert Hp. match goal with |- context [sqrt ?u] => generalize u end. intros q Hp.
    pose proof (sqrt_lt_R0 q Hp) as Hs. field. lra.
Qed.
Lemma weights_derive (f : R -> R) (f' t : R) (P S n : vec R) : vsub P S <> vzero ->
  is_derive f (t - vnorm (vsub P S) / nc) f' ->
  is_derive (fun e => f (t - vnorm (vsub P (displace S n e)) / nc) / vnorm (vsub P (displace S n e))) 0
    (- (weight (vsub P S) n * f (t - vnorm (vsub P S) / nc) + weight_t (vsub P S) n * f')).
Proof.
  intros H Hf. pose proof (distance_derive P S n H) as D.
  assert (Hc : @nc R NumR <> 0) by (cbn; lra).
  assert (D0 : displace S n 0 = S) by (unfold displace; clear; vdestr; vunfold; unnum; vsplit; ring).
  assert (Hr : vnorm (vsub P S) <> 0) by (intros E; apply H; now apply vnorm_zero_iff).
  unfold weight, weight_t.
  set (r := fun e => vnorm (vsub P (displace S n e))) in *.
  assert (R0 : r 0 = vnorm (vsub P S)) by (unfold r; now rewrite D0).
  change (is_derive (fun e => f (t - r e / nc) / r e) 0
    (- (- vdot (vsub P S) n / (vnorm (vsub P S) * vnorm (vsub P S) * vnorm (vsub P S)) * f (t - vnorm (vsub P S) / nc)
      + - vdot (vsub P S) n / (vnorm (vsub P S) * vnorm (vsub P S) * nc) * f'))).
  change (is_derive r 0 (- vdot (vsub P S) n / vnorm (vsub P S))) in D.
  rewrite <- R0 in *. clearbody r. clear R0 D0 H. set (s := vdot (vsub P S) n) in *. clearbody s.
  revert Hf Hc. generalize (@nc R NumR). intros c Hf Hc.
  pose proof (is_derive_unique _ _ _ D) as UD. pose proof (is_derive_unique _ _ _ Hf) as UF.
  auto_derive.
  - split; [now exists f'|]. split; [now exists (- s / r 0)|]. split; [now exists (- s / r 0)|]. auto.
  - change (fun x => f x) with f. change (fun x => r x) with r.
    rewrite UD. unfold Rminus, Rdiv in UF |- *. rewrite UF. field. auto.
Qed.
