(* The field of a source screen *)
From Coq Require Import ZArith List Bool Lia Reals Lra Psatz.
From Coquelicot Require Import Coquelicot.
From Verif Require Import Base BaseFacts Num VecModel VecFacts ParticleModel TraceModel TraceSpec TraceProofs TraceProofs2
  BunchModel ObserverModel ObserverSpec2 ElementProofs ElementProofs2 PropagateModel PropagateSpec PropagateProofs PropagateProofs2 PropagateProofs3.
Import ListNotations.
Local Open Scope R_scope.

Lemma last_time_real (tr : ftrace R) : tr_last_time tr = Ok (sample_time tr (Z.max 0 (tr_N tr - 1))).
Proof.
  unfold tr_last_time. destruct (Z.ltb_spec 0 (tr_N tr)) as [H|H].
  - rewrite tr_time_real by lia. rewrite Z.max_r by lia. reflexivity.
  - rewrite Z.max_l by (unfold tr_N in *; lia). f_equal. unfold sample_time. ring.
Qed.
Lemma ss_term_ok s p c X t : screen_cell s p c -> vsub X (srcX c) <> vzero ->
  forall o, ss_term X (srcX c) (ssN s) t (srcA c) (srcAt c) = Ok o ->
  (lit X t c = true -> exists f, o = Some f /\ emul f (srcArea c / (4 * PI)) = kirchhoff X t c) /\
  (lit X t c = false -> o = None).
Proof.
  intros (_ & _ & HN & _ & _ & HAn) HX o H. unfold ss_term in H. cbv zeta in H. rewrite last_time_real in H. cbn [bind] in H.
  unfold lit. cbv zeta. set (d := vsub X (srcX c)) in *. unfold kirchhoff. cbv zeta. fold d. clearbody d.
  change (nleb (tr_t0 (srcA c)) (t - vnorm d / nc)%num) with (Rleb (tr_t0 (srcA c)) (t - vnorm d / nc)) in H.
  change (nleb (t - vnorm d / nc)%num (sample_time (srcA c) (Z.max 0 (tr_N (srcA c) - 1))))
    with (Rleb (t - vnorm d / nc) (sample_time (srcA c) (Z.max 0 (tr_N (srcA c) - 1)))) in H.
  destruct (Rleb_spec (tr_t0 (srcA c)) (t - vnorm d / nc)) as [L1|L1]; destruct (Rle_dec (tr_t0 (srcA c)) (t - vnorm d / nc)); try contradiction;
    destruct (Rleb_spec (t - vnorm d / nc) (sample_time (srcA c) (Z.max 0 (tr_N (srcA c) - 1)))) as [L2|L2];
    destruct (Rle_dec (t - vnorm d / nc) (sample_time (srcA c) (Z.max 0 (tr_N (srcA c) - 1)))); try contradiction;
    cbn [andb] in H; try (injection H as <-; split; [discriminate|reflexivity]).
  split; [|discriminate]. intros _.
  change (t - vnorm d / nc)%num with (t - vnorm d / nc) in H.
  destruct (tr_at (srcA c) (t - vnorm d / nc)) as [f| | |] eqn:E1; cbn [bind] in H; try discriminate.
  destruct (tr_at (srcAt c) (t - vnorm d / nc)) as [g| | |] eqn:E2; cbn [bind] in H; try discriminate.
  apply Ok_inj in H. subst o. eexists. split; [reflexivity|].
  rewrite HAn, value_mul. unfold value. rewrite E1, E2, <- HN. unfold weight, weight_t.
  assert (Hr : vnorm d <> 0) by (intros E; apply HX; now apply vnorm_zero_iff).
  assert (Hc : @nc R NumR <> 0) by (cbn; lra). clear - Hr Hc.
  revert Hr Hc. generalize (vnorm d) (vdot d (srcN c)) (srcArea c / (4 * PI)) (@nc R NumR). intros r s a v Hr Hv.
  vdestr; vunfold; unnum; vsplit; field; auto.
Qed.
Lemma screen_sum s t X ps : forall cs tot out, Forall2 (screen_cell s) ps cs -> (forall c, In c cs -> vsub X (srcX c) <> vzero) ->
  fold_res (fun tot p =>
           bind (ss_pos s (fst p) (snd p)) (fun pos =>
           bind (cell_get (ssTr s) (fst p) (snd p)) (fun tr =>
           bind (cell_get (ssDt s) (fst p) (snd p)) (fun dtr =>
           bind (ss_term X pos (ssN s) t tr dtr) (fun o =>
           Ok (match o with Some f => eadd tot f | None => tot end)))))) ps tot = Ok out ->
  emul out (ssdx s * ssdy s / (4 * PI)) = eadd (emul tot (ssdx s * ssdy s / (4 * PI))) (kirchhoff_sum (filter (lit X t) cs) X t).
Proof.
  induction ps as [|p ps IH]; intros cs tot out HF HX H; inversion HF; subst.
  - cbn in H. injection H as <-. cbn [filter]. unfold kirchhoff_sum. cbn [map fold_right]. now rewrite eadd_0_r.
  - rename y into c. rename l' into cs'. cbn [fold_res] in H.
    match goal with Hq : screen_cell s p c |- _ => pose proof Hq as SC; destruct Hq as (Q1 & Q2 & Q3 & Q4 & Q5 & Q6) end.
    rewrite Q1, Q4, Q5 in H. cbn [bind] in H.
    destruct (ss_term X (srcX c) (ssN s) t (srcA c) (srcAt c)) as [o| | |] eqn:E; cbn [bind] in H; try discriminate.
    destruct (ss_term_ok s p c X t SC (HX c (or_introl eq_refl)) o E) as [T1 T2].
    rewrite (IH cs' _ out ltac:(assumption) (fun c Hc => HX c (or_intror Hc)) H). cbn [filter].
    destruct (lit X t c).
    + destruct (T1 eq_refl) as (f & -> & Ef). unfold kirchhoff_sum. cbn [map fold_right]. rewrite <- Ef, Q2.
      rewrite <- eadd_assoc. f_equal. generalize (ssdx s * ssdy s / (4 * PI)). intros a. clear. vdestr; vunfold; unnum; vsplit; ring.
    + rewrite (T2 eq_refl). reflexivity.
Qed.
Lemma screen_field s t X cs f : Forall2 (screen_cell s) (pairs (ssNx s) (ssNy s)) cs ->
  (forall c, In c cs -> vsub X (srcX c) <> vzero) -> ss_local s t X = Ok f ->
  f = kirchhoff_sum (filter (lit X t) cs) X t.
Proof.
  intros HF HX H. unfold ss_local in H.
  match type of H with bind ?m _ = _ => destruct m as [tot| | |] eqn:E end; cbn [bind] in H; try discriminate.
  pose proof (screen_sum s t X _ cs _ tot HF HX E) as S. apply Ok_inj in H. subst f.
  replace (ediv (emul (emul tot (ssdx s)) (ssdy s)) (@nmul R NumR (nZ 4) nPi)) with (emul tot (ssdx s * ssdy s / (4 * PI))).
  - rewrite S. replace (emul ezero (ssdx s * ssdy s / (4 * PI))) with (@ezero R NumR); [apply eadd_0_l|].
    generalize (ssdx s * ssdy s / (4 * PI)). intros. vunfold; unnum; vsplit; ring.
  - clear. change (@nmul R NumR (nZ 4) nPi) with (4 * PI). assert (4 * PI <> 0) by (pose proof PI_RGT_0; lra).
    revert H. generalize (4 * PI) (ssdx s) (ssdy s). intros q a b Hq. vdestr; vunfold; unnum; vsplit; field; auto.
Qed.
Lemma screen_dark s t X f : (forall p c, screen_cell s p c -> lit X t c = false) ->
  ss_local s t X = Ok f -> f = ezero.
Proof.
  intros HD H. unfold ss_local in H.
  match type of H with bind ?m _ = _ => destruct m as [tot| | |] eqn:E end; cbn [bind] in H; try discriminate.
  assert (ET : tot = ezero).
  { revert E. generalize (@ezero R NumR). generalize (pairs (ssNx s) (ssNy s)). induction l as [|p l IH]; intros z E; cbn [fold_res] in E.
    - now injection E as <-.
    - destruct (ss_pos s (fst p) (snd p)) as [pos| | |] eqn:E1; cbn [bind] in E; try discriminate.
      destruct (cell_get (ssTr s) (fst p) (snd p)) as [tr| | |] eqn:E2; cbn [bind] in E; try discriminate.
      destruct (cell_get (ssDt s) (fst p) (snd p)) as [dtr| | |] eqn:E3; cbn [bind] in E; try discriminate.
      destruct (ss_term X pos (ssN s) t tr dtr) as [o| | |] eqn:E4; cbn [bind] in E; try discriminate.
      set (c := SRC pos (ssdx s * ssdy s) (ssN s) tr dtr (tr_mul dtr (1 / nc))).
      assert (SC : screen_cell s p c) by (unfold screen_cell, c; cbn [srcX srcArea srcN srcA srcAt srcAn]; repeat split; assumption).
      specialize (HD p c SC). unfold ss_term in E4. cbv zeta in E4. rewrite last_time_real in E4. cbn [bind] in E4.
      unfold lit, c in HD. cbv zeta in HD. cbn [srcX srcA] in HD.
      change (nleb (tr_t0 tr) (t - vnorm (vsub X pos) / nc)%num) with (Rleb (tr_t0 tr) (t - vnorm (vsub X pos) / nc)) in E4.
      change (nleb (t - vnorm (vsub X pos) / nc)%num (sample_time tr (Z.max 0 (tr_N tr - 1))))
        with (Rleb (t - vnorm (vsub X pos) / nc) (sample_time tr (Z.max 0 (tr_N tr - 1)))) in E4.
      destruct (Rleb_spec (tr_t0 tr) (t - vnorm (vsub X pos) / nc)) as [L1|L1]; destruct (Rle_dec (tr_t0 tr) (t - vnorm (vsub X pos) / nc)); try contradiction;
      destruct (Rleb_spec (t - vnorm (vsub X pos) / nc) (sample_time tr (Z.max 0 (tr_N tr - 1)))) as [L2|L2];
      destruct (Rle_dec (t - vnorm (vsub X pos) / nc) (sample_time tr (Z.max 0 (tr_N tr - 1)))); try contradiction; try discriminate;
      cbn [andb] in E4; injection E4 as <-; apply IH; exact E. }
  subst tot. apply Ok_inj in H. subst f. change (@nmul R NumR (nZ 4) nPi) with (4 * PI). generalize (4 * PI) (ssdx s) (ssdy s). intros.
  vunfold; unnum; vsplit; unfold Rdiv; ring.
Qed.
