(* C14: a trace as a whole.  What all samples together record is the integral of the signal over the time
   covered by the trace; of a signal within this time nothing is lost. *)
From Coq Require Import ZArith Reals List Lra Lia Bool.
From Coquelicot Require Import Coquelicot.
From Verif Require Import Base BaseFacts Num VecModel VecFacts ParticleModel ParticleSpec ParticleSpec2 TraceModel RetardModel RetardSpec RetardProofs RetardProofs3
  TraceIntSpec TraceIntProofs TraceIntProofs2 TraceSpec PropTrace.
Import ListNotations.
Local Open Scope R_scope.

Definition total (c : emf R -> R) (fs : list (emf R)) : R := fold_right Rplus 0 (map c fs).
(* the trapezoidal rule over the observed points *)
Fixpoint trapezoids (c : emf R -> R) (pts : list (R * emf R)) : R :=
  match pts with
  | (ta, fa) :: (((tb, fb) :: _) as r) => (c fa + c fb) / 2 * (tb - ta) + trapezoids c r
  | _ => 0
  end.

Lemma chain (g : R -> R) (c : emf R -> R) t0 dt : forall fs fs', length fs = length fs' -> forall n,
  (forall k f f', nth_error fs k = Some f -> nth_error fs' k = Some f' ->
     is_RInt g (t0 + (IZR (Z.of_nat (n + k)) - / 2) * dt) (t0 + (IZR (Z.of_nat (n + k)) + / 2) * dt) (dt * (c f' - c f))) ->
  is_RInt g (t0 + (IZR (Z.of_nat n) - / 2) * dt) (t0 + (IZR (Z.of_nat (n + length fs)) - / 2) * dt) (dt * (total c fs' - total c fs)).
Proof.
  induction fs as [|f fs IH]; intros [|f' fs'] L n H; try discriminate L.
  - cbn [length]. rewrite Nat.add_0_r. replace (dt * (total c [] - total c [])) with (@zero R_AbelianGroup) by (unfold total, zero; cbn; ring). apply (is_RInt_point g).
  - injection L as L. pose proof (H 0%nat f f' eq_refl eq_refl) as H0. rewrite Nat.add_0_r in H0.
    specialize (IH fs' L (S n)). 
    replace (dt * (total c (f' :: fs') - total c (f :: fs))) with (plus (dt * (c f' - c f)) (dt * (total c fs' - total c fs))).
    2:{ unfold total. cbn [map fold_right]. unfold plus. cbn. ring. }
    apply (is_RInt_Chasles g _ (t0 + (IZR (Z.of_nat n) + / 2) * dt)); [exact H0|].
    replace (t0 + (IZR (Z.of_nat n) + / 2) * dt) with (t0 + (IZR (Z.of_nat (S n)) - / 2) * dt).
    2:{ rewrite Nat2Z.inj_succ, succ_IZR. lra. }
    cbn [length]. replace (n + S (length fs))%nat with (S n + length fs)%nat by lia. apply IH.
    intros k g0 g' E E'. replace (S n + k)%nat with (n + S k)%nat by lia. apply H; assumption.
Qed.
Lemma shares_inside t0 dt c : forall pts, inc_pts pts -> (forall q, In q pts -> bucket_lo t0 dt 0 <= fst q <= bucket_hi t0 dt 0) ->
  shares t0 dt c pts 0 = trapezoids c pts.
Proof.
  induction pts as [|[ta fa] [|[tb fb] r] IH]; intros I H; try reflexivity. cbn [shares trapezoids]. cbn [shares trapezoids] in IH.
  assert (Hab : ta < tb) by (unfold inc_pts in I; cbn in I; exact (I 0%nat 1%nat ta tb ltac:(lia) eq_refl eq_refl)).
  f_equal.
  - unfold share. cbv zeta. pose proof (H _ (or_introl eq_refl)) as Ha. pose proof (H _ (or_intror (or_introl eq_refl))) as Hb. cbn [fst] in Ha, Hb.
    rewrite !clip_in by assumption. field. lra.
  - apply IH; [exact (inc_tail _ _ I)|]. intros q Hq. apply H. right. exact Hq.
Qed.

Theorem C14_total_partial : forall (p : particle R) obs (tr : ftrace R),
  wf p -> 0 < tr_dt tr -> (2 <= tr_N tr <= int_max)%Z -> increasing (map (arrival obs) (trajectory p)) ->
  (forall a, In a (trajectory p) -> (arrival obs a - tr_t0 tr) / tr_dt tr < 2147483647) ->
  exists tr', integrateFieldTrace p obs tr = Ok tr' /\ same_sampling tr tr' /\
    forall c, In c components ->
      let first := tr_t0 tr - tr_dt tr / 2 in let last := tr_t0 tr + (IZR (tr_N tr) - / 2) * tr_dt tr in
      is_RInt (fun t => c (signal (signal_points p obs) t)) first last (tr_dt tr * (total c (tr_f tr') - total c (tr_f tr))) /\
      ((forall a, In a (trajectory p) -> first <= arrival obs a <= last) ->
       tr_dt tr * (total c (tr_f tr') - total c (tr_f tr)) = trapezoids c (signal_points p obs)).
Proof.
  intros p obs tr Hw Hd HN Hinc Hmax. destruct (C14_bucket_average_partial p obs tr Hw Hd HN Hinc Hmax) as (tr' & E & Sm & B).
  exists tr'. split; [exact E|]. split; [exact Sm|]. intros c Hc first last.
  assert (Q : is_RInt (fun t => c (signal (signal_points p obs) t)) first last (tr_dt tr * (total c (tr_f tr') - total c (tr_f tr)))).
  { pose proof (chain (fun t => c (signal (signal_points p obs) t)) c (tr_t0 tr) (tr_dt tr) (tr_f tr) (tr_f tr') (proj1 Sm) 0%nat) as C.
    unfold first, last, tr_N. cbn [Nat.add] in C. replace (tr_t0 tr - tr_dt tr / 2) with (tr_t0 tr + (IZR (Z.of_nat 0) - / 2) * tr_dt tr) by (cbn; lra).
    apply C. intros k f f' Hf Hf'. exact (B k f f' Hf Hf' c Hc). }
  split; [exact Q|]. intros A.
  set (w := IZR (tr_N tr) * tr_dt tr). set (m := first + w / 2).
  assert (Hw0 : 0 < w) by (unfold w; apply Rmult_lt_0_compat; [apply IZR_lt; lia|exact Hd]).
  assert (E1 : bucket_lo m w 0 = first) by (unfold bucket_lo, m; lra).
  assert (E2 : bucket_hi m w 0 = last) by (unfold bucket_hi, m, first, last, w; lra).
  pose proof (signal_integral m w c (signal_points p obs) 0 (components_linear c Hc) Hw0 (signal_points_inc p obs Hinc)) as S1. rewrite E1, E2 in S1.
  rewrite <- (shares_inside m w c _ (signal_points_inc p obs Hinc)).
  - rewrite <- (is_RInt_unique _ _ _ _ Q). exact (is_RInt_unique _ _ _ _ S1).
  - rewrite E1, E2. intros q Hq. unfold signal_points in Hq. apply in_map_iff in Hq. destruct Hq as (a & <- & Ha). exact (A a Ha).
Qed.
Print Assumptions C14_total_partial.

(* two traces which cover the signal record the same, however they are sampled *)
Theorem C14_sampling_partial : forall (p : particle R) obs (tr1 tr2 tr1' tr2' : ftrace R),
  let covering (tr : ftrace R) := 0 < tr_dt tr /\ (2 <= tr_N tr <= int_max)%Z /\
    forall a, In a (trajectory p) -> tr_t0 tr - tr_dt tr / 2 <= arrival obs a <= tr_t0 tr + (IZR (tr_N tr) - / 2) * tr_dt tr in
  wf p -> increasing (map (arrival obs) (trajectory p)) -> covering tr1 -> covering tr2 ->
  integrateFieldTrace p obs tr1 = Ok tr1' -> integrateFieldTrace p obs tr2 = Ok tr2' ->
  forall c, In c components ->
    tr_dt tr1 * (total c (tr_f tr1') - total c (tr_f tr1)) = tr_dt tr2 * (total c (tr_f tr2') - total c (tr_f tr2)).
Proof.
  intros p obs tr1 tr2 tr1' tr2' covering Hw Hinc C1 C2 E1 E2 c Hc.
  assert (K : forall tr tr', covering tr -> integrateFieldTrace p obs tr = Ok tr' ->
    tr_dt tr * (total c (tr_f tr') - total c (tr_f tr)) = trapezoids c (signal_points p obs)).
  { intros tr tr' (Hd & HN & A) E. destruct (C14_total_partial p obs tr Hw Hd HN Hinc) as (t & Et & _ & Q).
    - intros a Ha. destruct (A a Ha) as [_ U]. apply Rmult_lt_reg_r with (tr_dt tr); [exact Hd|]. unfold Rdiv. rewrite Rmult_assoc, Rinv_l by lra.
      assert (IZR (tr_N tr) <= 2147483647) by (apply IZR_le; unfold int_max in HN; lia). nra.
    - rewrite E in Et. apply Ok_inj in Et. subst t. exact (proj2 (Q c Hc) A). }
  rewrite (K tr1 tr1' C1 E1), (K tr2 tr2' C2 E2). reflexivity.
Qed.
Print Assumptions C14_sampling_partial.
Example C14_total_ex : wf ex_particle /\ subluminal (trajectory ex_particle) /\ 0 < tr_dt ex_trace /\ (2 <= tr_N ex_trace <= int_max)%Z /\
  forall a, In a (trajectory ex_particle) ->
    tr_t0 ex_trace - tr_dt ex_trace / 2 <= arrival (V 0 0 1) a <= tr_t0 ex_trace + (IZR (tr_N ex_trace) - / 2) * tr_dt ex_trace.
Proof.
  destruct C14_ex as (A & B & _ & _ & C & D & _). split; [exact A|]. split; [exact B|]. split; [exact C|]. split; [exact D|].
  intros a [<-|[<-|[]]]; unfold arrival; rewrite vnorm_sqrt; change (tr_t0 ex_trace) with 0; change (tr_dt ex_trace) with 1; change (tr_N ex_trace) with 5%Z; cbn [tpx tpt].
  - replace (vabs2 _) with (1 * 1) by (cbn; ring). rewrite sqrt_square by lra. cbn. lra.
  - replace (vabs2 _) with 0 by (cbn; ring). rewrite sqrt_0. cbn. lra.
Qed.
