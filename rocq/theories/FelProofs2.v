(* C52, C55: the grid accesses and the records. *)
From Coq Require Import ZArith Reals List Bool Lia Lra.
From Flocq Require Import Core.Raux Core.Round_NE Core.Generic_fmt.
From Verif Require Import Base BaseFacts Num VecModel VecFacts ParticleModel BunchModel ElementModel DriverModel FelModel FelSpec FelProofs.
Import ListNotations.
Local Open Scope Z_scope.

Lemma to_int_in z : int_min <= z <= int_max -> to_int (Some z) = Ok z.
Proof. intros H. unfold to_int, in_int. destruct (Z.leb_spec int_min z); [|lia]. destruct (Z.leb_spec z int_max); [reflexivity|lia]. Qed.
Lemma to_int_out z : z < int_min \/ int_max < z -> to_int (Some z) = UB.
Proof. intros H. unfold to_int, in_int. destruct (Z.leb_spec int_min z); [|reflexivity]. destruct (Z.leb_spec z int_max); [lia|reflexivity]. Qed.
Lemma iadd_in a b : int_min <= a + b <= int_max -> iadd a b = Ok (a + b).
Proof. apply to_int_in. Qed.

Section Gen.
Context {T : Type} {NT : Num T} {TT : Trans T}.

Lemma setup_wf (f g : fel T) zR w0 zw : feN f <= int_max -> fel_setup f zR w0 zw = Ok g ->
  fel_wf g /\ feN g = feN f /\ feDt g = feDt f /\ feTime g = nZ 0 /\ feNst g = 0 /\ feHead g = feHead f /\ feProp g = feProp f /\ feDs g = feDs f /\
  feEx g = feEx f /\ feEy g = feEy f /\ feSt g = [feE g] /\ length (feJst g) = 1%nat /\ feEvery g = feEvery f /\ feOut g = feOut f /\ fePrev g = feE g /\
  0 <= feN f.
Proof.
  intros HM H. unfold fel_setup in H. bget H as z Hz. okinj H. destruct f as [N dt tm ns dz hd og pr ds ex ey a b c e pv st js ou ev].
  cbn [feN feDt feTime feNst feHead feProp feDs feEx feEy feSt feE feJst feEvery feOut fePrev] in *.
  unfold zeros in Hz. destruct (Z.ltb_spec N 0); [discriminate Hz|]. okinj Hz.
  assert (L : Z.of_nat (length (repeat (nZ 0 : T) (Z.to_nat N))) = N) by (rewrite repeat_length; lia).
  split; [|auto 20]. unfold fel_wf. cbn [feN feE fePrev feSt feJst]. split; [lia|]. repeat split; auto.
Qed.
Lemma seed_wf (f g : fel T) a b c d : fel_wf f -> fel_seed f a b c d = Ok g ->
  fel_wf g /\ feN g = feN f /\ feDt g = feDt f /\ feTime g = feTime f /\ feNst g = 0 /\ feHead g = feHead f /\ feProp g = feProp f /\ feDs g = feDs f /\
  feEx g = feEx f /\ feEy g = feEy f /\ feSt g = [feE g] /\ length (feJst g) = 1%nat /\ feEvery g = feEvery f /\ feOut g = feOut f /\ fePrev g = feE g /\
  forall i, 0 <= i < feN f -> nth_error (feE g) (Z.to_nat i) = Some (seed_value f a b c d i).
Proof.
  intros W H. unfold fel_seed in H. destruct W as (W1 & W2 & W3 & W4 & W5).
  destruct (upd_loop (fun E i => zset E i (seed_value f a b c d i)) (fun i _ => seed_value f a b c d i) 0 (length (feE f))
    (Z.to_nat (feN f)) 0 (feE f)) as (r & R1 & R2 & R3); [reflexivity|lia|lia| |].
  { intros l' i Hl' Hi v Hv. rewrite Z.add_0_r. apply zset_ok. lia. }
  rewrite R1 in H. cbn [bind] in H. bget H as z Hz. okinj H.
  unfold zeros in Hz. destruct (Z.ltb_spec (feN f) 0); [discriminate Hz|]. okinj Hz.
  assert (L : Z.of_nat (length (repeat (nZ 0 : T) (Z.to_nat (feN f)))) = feN f) by (rewrite repeat_length; lia).
  cbn [feN feDt feTime feNst feHead feProp feDs feEx feEy feSt feE feJst feEvery feOut fePrev].
  split; [|]. { unfold fel_wf. cbn [feN feE fePrev feSt feJst]. rewrite R2. repeat split; auto; try lia; repeat constructor; lia. }
  do 14 (split; [reflexivity|]). intros i Hi. rewrite R3. destruct (Z.leb_spec (0 + 0) (Z.of_nat (Z.to_nat i))); [|lia].
  destruct (Z.ltb_spec (Z.of_nat (Z.to_nat i)) (0 + 0 + Z.of_nat (Z.to_nat (feN f)))); [|lia]. cbn [andb].
  destruct (nth_error (feE f) (Z.to_nat i)) eqn:E; [|exfalso; apply nth_error_None in E; lia].
  cbn [option_map]. f_equal. f_equal. lia.
Qed.
Lemma new_wf dt N pos prop pol log zR w0 zw sd (f : fel T) : N <= int_max ->
  fel_new dt N pos prop pol log zR w0 zw sd = Ok f ->
  fel_wf f /\ feN f = N /\ feDt f = dt /\ feTime f = nZ 0 /\ feNst f = 0 /\ feHead f = pos /\ feProp f = vnormalize prop /\ feDs f = nmul dt nc /\
  feEx f = vnormalize (vsub pol (vmul (vnormalize prop) (vdot pol (vnormalize prop)))) /\ feEy f = vcross (feProp f) (feEx f) /\
  feSt f = [feE f] /\ length (feJst f) = 1%nat /\ feEvery f = log /\ feOut f = (match log with Some _ => true | None => false end) /\ fePrev f = feE f.
Proof.
  intros HM H. unfold fel_new in H. bget H as g Hg. apply setup_wf in Hg; [|exact HM].
  cbn [feN feDt feTime feNst feHead feProp feDs feEx feEy feSt feE feJst feEvery feOut fePrev] in Hg.
  destruct Hg as (G0 & G1 & G2 & G3 & G4 & G5 & G6 & G7 & G8 & G9 & G10 & G11 & G12 & G13 & G14 & G15).
  destruct sd as [[[[a b] c] d]|].
  - apply seed_wf in H; [|exact G0]. destruct H as (S0 & S1 & S2 & S3 & S4 & S5 & S6 & S7 & S8 & S9 & S10 & S11 & S12 & S13 & S14 & S15).
    split; [exact S0|]. rewrite S1, S2, S3, S4, S5, S6, S7, S8, S9, S12, S13, G6, G8. auto 20.
  - okinj H. rewrite G6, G8. split; [exact G0|]. do 8 (split; [solve [auto]|]). rewrite G9. auto 20.
Qed.
Lemma new_neg dt N pos prop pol log zR w0 zw sd : N < 0 -> fel_new dt N pos prop pol log zR w0 zw sd = (Throw STDexc : res (fel T)).
Proof. intros H. unfold fel_new, fel_setup. cbn [feN]. rewrite zeros_neg by exact H. reflexivity. Qed.
Lemma new_exists dt N pos prop pol log zR w0 zw sd : 0 <= N <= int_max -> exists f : fel T, fel_new dt N pos prop pol log zR w0 zw sd = Ok f.
Proof.
  intros H. unfold fel_new. match goal with |- exists f, bind (fel_setup ?f0 _ _ _) _ = _ => set (f1 := f0) end.
  assert (S : exists g, fel_setup f1 zR w0 zw = Ok g).
  { unfold fel_setup. destruct (zeros_ok (feN f1)) as (z & -> & _); [cbn [f1 feN]; lia|]. eexists. reflexivity. }
  destruct S as [g Hg]. rewrite Hg. cbn [bind]. apply setup_wf in Hg; [|cbn [f1 feN]; lia].
  destruct sd as [[[[a b] c] d]|]; [|eauto]. destruct Hg as ((W1 & W2 & _) & _). unfold fel_seed.
  destruct (upd_loop (fun E i => zset E i (seed_value g a b c d i)) (fun i _ => seed_value g a b c d i) 0 (length (feE g))
    (Z.to_nat (feN g)) 0 (feE g)) as (r & -> & _); [reflexivity|lia|lia| |].
  { intros l' i Hl' Hi v Hv. rewrite Z.add_0_r. apply zset_ok. lia. }
  cbn [bind]. destruct (zeros_ok (feN g) ltac:(lia)) as (z & -> & _). eexists. reflexivity.
Qed.

(* what init and the advancing part of step do *)
Lemma init_ok (f : fel T) bm : fel_wf f -> 2 <= feN f -> int_min <= feNst f < int_max ->
  nltb (ndiv (nZ 1) (nZ 1000000000)) (ndiv (nabs (nsub (bmdt bm) (feDt f))) (feDt f)) = false ->
  exists r, fel_init bm f = Ok (FEL (feN f) (feDt f) (nadd (feTime f) (feDt f)) (feNst f + 1) (feDz f) (vadd (feHead f) (vmul (feProp f) (feDs f)))
    (feOrig f) (feProp f) (feDs f) (feEx f) (feEy f) (feZR f) (feW0 f) (feZw f) r (feE f) (feSt f) (feJst f) (feOut f) (feEvery f)) /\
    Z.of_nat (length r) = feN f /\ forall k, Z.of_nat k < feN f -> nth_error r k = next_cell f None k.
Proof.
  intros (W1 & W2 & W3 & _) HN HS Hc. destruct (next_field_ok f None HN W2 W3 I) as (r & R1 & R2 & R3).
  exists r. split; [|auto]. unfold fel_init. rewrite Hc, R1. cbn [bind]. rewrite iadd_in by lia. reflexivity.
Qed.
Lemma init_inv (f g : fel T) bm : fel_wf f -> fel_init bm f = Ok g -> 2 <= feN f /\
  nltb (ndiv (nZ 1) (nZ 1000000000)) (ndiv (nabs (nsub (bmdt bm) (feDt f))) (feDt f)) = false /\
  int_min <= feNst f + 1 <= int_max /\
  exists r, g = (FEL (feN f) (feDt f) (nadd (feTime f) (feDt f)) (feNst f + 1) (feDz f) (vadd (feHead f) (vmul (feProp f) (feDs f)))
    (feOrig f) (feProp f) (feDs f) (feEx f) (feEy f) (feZR f) (feW0 f) (feZw f) r (feE f) (feSt f) (feJst f) (feOut f) (feEvery f)) /\
    Z.of_nat (length r) = feN f /\ forall k, Z.of_nat k < feN f -> nth_error r k = next_cell f None k.
Proof.
  intros (W1 & W2 & W3 & _) H. unfold fel_init in H. destruct (nltb _ _) eqn:Ec; [discriminate H|].
  destruct (Z_lt_le_dec (feN f) 2) as [S|S].
  - rewrite next_field_small in H by lia. discriminate H.
  - destruct (next_field_ok f None S W2 W3 I) as (r & R1 & R2 & R3). rewrite R1 in H. cbn [bind] in H.
    bget H as n Hn. okinj H. unfold iadd, to_int, in_int in Hn.
    destruct (Z.leb_spec int_min (feNst f + 1)); [|discriminate Hn]. destruct (Z.leb_spec (feNst f + 1) int_max); [|discriminate Hn]. okinj Hn.
    split; [exact S|]. split; [reflexivity|]. split; [lia|]. exists r. auto.
Qed.
Lemma init_wf (f g : fel T) bm : fel_wf f -> fel_init bm f = Ok g -> fel_wf g.
Proof.
  intros W H. apply init_inv in H; [|exact W]. destruct H as (_ & _ & _ & r & -> & R & _). destruct W as (W1 & W2 & W3 & W4 & W5).
  unfold fel_wf. cbn [feN feE fePrev feSt feJst]. auto.
Qed.
Definition advanced (f : fel T) (J r e : list T) (due : bool) : fel T :=
  FEL (feN f) (feDt f) (nadd (feTime f) (feDt f)) (feNst f + 1) (feDz f) (vadd (feHead f) (vmul (feProp f) (feDs f)))
    (feOrig f) (feProp f) (feDs f) (feEx f) (feEy f) (feZR f) (feW0 f) (feZw f) r e
    (if due then feSt f ++ [r] else feSt f) (if due then feJst f ++ [J] else feJst f) (feOut f) (feEvery f).
Lemma advance_ok (f : fel T) J s : fel_wf f -> 2 <= feN f -> Z.of_nat (length J) = feN f -> int_min <= feNst f < int_max ->
  feEvery f = Some s -> s <> 0 ->
  exists r e, fel_advance J f = Ok (advanced f J r e (Z.rem (feNst f + 1) s =? 0)) /\
    Z.of_nat (length r) = feN f /\ (forall k, Z.of_nat k < feN f -> nth_error r k = next_cell f (Some J) k) /\
    Z.of_nat (length e) = feN f /\ (forall k, nth_error e k = corr_cell f J k).
Proof.
  intros (W1 & W2 & W3 & _) HN HJ HS Hs Hs0. destruct (next_field_ok f (Some J) HN W2 W3 HJ) as (r & R1 & R2 & R3).
  destruct (corrected_ok f J HN W2 HJ) as (e & E1 & E2 & E3). exists r, e. split; [|auto 10].
  unfold fel_advance. rewrite R1, E1. cbn [bind]. rewrite iadd_in by lia. cbn [bind]. rewrite Hs. unfold record_due.
  destruct (Z.eqb_spec s 0); [contradiction|]. cbn [bind]. unfold advanced. rewrite Hs. reflexivity.
Qed.
Lemma advance_inv (f g : fel T) J : fel_wf f -> Z.of_nat (length J) = feN f -> fel_advance J f = Ok g ->
  2 <= feN f /\ int_min <= feNst f + 1 <= int_max /\ exists s r e, feEvery f = Some s /\ s <> 0 /\ g = advanced f J r e (Z.rem (feNst f + 1) s =? 0) /\
    Z.of_nat (length r) = feN f /\ (forall k, Z.of_nat k < feN f -> nth_error r k = next_cell f (Some J) k) /\
    Z.of_nat (length e) = feN f /\ (forall k, nth_error e k = corr_cell f J k).
Proof.
  intros (W1 & W2 & W3 & W4) HJ H. destruct (Z_lt_le_dec (feN f) 2) as [S|S].
  - unfold fel_advance in H. rewrite next_field_small in H by lia. discriminate H.
  - unfold fel_advance in H. destruct (next_field_ok f (Some J) S W2 W3 HJ) as (r & R1 & R2 & R3).
    destruct (corrected_ok f J S W2 HJ) as (e & E1 & E2 & E3). rewrite R1, E1 in H. cbn [bind] in H.
    bget H as n Hn. unfold iadd, to_int, in_int in Hn.
    destruct (Z.leb_spec int_min (feNst f + 1)); [|discriminate Hn]. destruct (Z.leb_spec (feNst f + 1) int_max); [|discriminate Hn]. okinj Hn.
    bget H as due Hd. okinj H. unfold record_due in Hd. destruct (feEvery f) as [s|] eqn:Es; [|discriminate Hd].
    destruct (Z.eqb_spec s 0); [discriminate Hd|]. okinj Hd. split; [exact S|]. split; [lia|]. exists s, r, e.
    split; [reflexivity|]. split; [assumption|]. split; [unfold advanced; rewrite Es; reflexivity|]. auto 10.
Qed.
Lemma advanced_wf (f : fel T) J r e due : fel_wf f -> Z.of_nat (length J) = feN f -> Z.of_nat (length r) = feN f -> Z.of_nat (length e) = feN f ->
  fel_wf (advanced f J r e due).
Proof.
  intros (W1 & W2 & W3 & W4 & W5) HJ Hr He. unfold fel_wf, advanced. cbn [feN feE fePrev feSt feJst].
  split; [exact W1|]. split; [exact Hr|]. split; [exact He|].
  destruct due; split; auto; apply Forall_app; auto.
Qed.
Lemma deposit_len (f : fel T) J J' p : deposit_at f J p = Ok J' -> length J' = length J.
Proof.
  unfold deposit_at. destruct (_ || _); [discriminate|]. intros H. bget H as c Hc. bget H as a Ha. bget H as b Hb.
  revert H. generalize (zseq (if a <? 0 then 0 else a) (Z.to_nat ((if feN f <? b then feN f else b) - (if a <? 0 then 0 else a)))) as l.
  intros l. revert J. induction l as [|i l IH]; intros J H; cbn [fold_res] in H.
  - okinj H. reflexivity.
  - bget H as J1 H1. apply IH in H. rewrite H. bget H1 as v Hv. unfold zset in H1. destruct (_ || _)%bool; [discriminate H1|].
    okinj H1. apply lset_length.
Qed.
Lemma deposits_len (f : fel T) : forall ps J J', fold_res (deposit f) ps J = Ok J' -> length J' = length J.
Proof.
  induction ps as [|p r IH]; intros J J' H; cbn [fold_res] in H; [okinj H; reflexivity|].
  bget H as J1 H1. apply IH in H. rewrite H. unfold deposit in H1. destruct (time_off f (pt p)); [discriminate H1|].
  apply deposit_len in H1. exact H1.
Qed.
Lemma step_inv (f g : fel T) bm : fel_wf f -> fel_step bm f = Ok g ->
  beam_late f (bmNOTS bm) = false /\ exists J, (exists z, zeros (feN f) = Ok z /\ fold_res (deposit f) (concat (bmB bm)) z = Ok J) /\
  Z.of_nat (length J) = feN f /\ fel_advance J f = Ok g.
Proof.
  intros W H. unfold fel_step in H. destruct (beam_late f (bmNOTS bm)); [discriminate H|]. split; [reflexivity|].
  bget H as z Hz. bget H as J HJ. exists J. split; [eauto|]. split; [|exact H]. apply deposits_len in HJ. rewrite HJ.
  unfold zeros in Hz. destruct (Z.ltb_spec (feN f) 0); [discriminate Hz|]. okinj Hz. rewrite repeat_length. lia.
Qed.
Lemma step_wf (f g : fel T) bm : fel_wf f -> fel_step bm f = Ok g -> fel_wf g.
Proof.
  intros W H. apply step_inv in H; [|exact W]. destruct H as (_ & J & _ & LJ & H). apply advance_inv in H; [|exact W|exact LJ].
  destruct H as (_ & _ & s & r & e & _ & _ & -> & R & _ & E & _). apply advanced_wf; assumption.
Qed.

(* no undefined behaviour: steps in which all positions can be converted *)
Lemma deposits_safe (f : fel T) : feN f <= int_max -> forall ps J, Z.of_nat (length J) = feN f ->
  Forall (fun p => exists c, nrint (ndiv (behind f (pX p)) (feDs f)) = Some c /\ int_min + 10 <= c <= int_max - 11) ps ->
  fold_res (deposit f) ps J = Throw IOexc \/ exists J', fold_res (deposit f) ps J = Ok J' /\ Z.of_nat (length J') = feN f.
Proof.
  intros HN. induction ps as [|p r IH]; intros J HJ HF; cbn [fold_res]; [right; eauto|].
  inversion HF as [|p' r' (c & C1 & C2) HF']; subst. unfold deposit at 1 3. destruct (time_off f (pt p)); [left; reflexivity|].
  destruct (deposit_window f J p c HJ HN C1 C2) as [-> | (J1 & add & -> & L1 & _)]; cbn [bind]; [left; reflexivity|].
  apply IH; [lia|exact HF'].
Qed.
Lemma step_safe (f : fel T) bm s : fel_wf f -> 2 <= feN f -> int_min <= feNst f < int_max -> feEvery f = Some s -> s <> 0 ->
  Forall (fun p => exists c, nrint (ndiv (behind f (pX p)) (feDs f)) = Some c /\ int_min + 10 <= c <= int_max - 11) (concat (bmB bm)) ->
  fel_step bm f = Throw IOexc \/ exists f', fel_step bm f = Ok f'.
Proof.
  intros W HN HS Hs Hs0 HF. unfold fel_step. destruct (beam_late f (bmNOTS bm)); [left; reflexivity|].
  destruct (zeros_ok (feN f) ltac:(lia)) as (z & -> & Lz & _). cbn [bind].
  destruct (deposits_safe f ltac:(destruct W; lia) (concat (bmB bm)) z Lz HF) as [-> | (J & -> & LJ)]; cbn [bind]; [left; reflexivity|].
  right. destruct (advance_ok f J s W HN LJ HS Hs Hs0) as (r & e & -> & _). eauto.
Qed.

(* ---- records ---- *)
Lemma step_record (f g : fel T) bm s : fel_wf f -> 0 <= feNst f -> feEvery f = Some s -> fel_step bm f = Ok g ->
  s <> 0 /\ feNst g = feNst f + 1 /\ feEvery g = Some s /\ feN g = feN f /\ feOut g = feOut f /\
  feSt g = feSt f ++ (if due_by s g then [feE g] else []) /\ (length (feJst g) - length (feSt g) = length (feJst f) - length (feSt f))%nat /\
  (length (feJst f) = length (feSt f) -> length (feJst g) = length (feSt g)) /\ feDt g = feDt f.
Proof.
  intros W HS Hs H. apply step_inv in H; [|exact W]. destruct H as (_ & J & _ & LJ & H). apply advance_inv in H; [|exact W|exact LJ].
  destruct H as (_ & _ & s' & r & e & Hs' & Hs0 & -> & _). rewrite Hs in Hs'. injection Hs' as <-.
  split; [exact Hs0|]. unfold advanced, due_by. cbn [feNst feEvery feN feSt feE feOut feJst feDt].
  assert (E : ((feNst f + 1) mod s =? 0) = (Z.rem (feNst f + 1) s =? 0)).
  { apply eq_true_iff_eq. rewrite !Z.eqb_eq. rewrite Z.rem_divide, Z.mod_divide by exact Hs0. reflexivity. }
  rewrite E. split; [reflexivity|]. split; [exact Hs|]. split; [reflexivity|]. split; [reflexivity|].
  destruct (Z.rem (feNst f + 1) s =? 0); rewrite ?app_length, ?app_nil_r; cbn [length];
    (split; [reflexivity|]; split; [lia|]; split; [lia|reflexivity]).
Qed.
Lemma states_record s : forall bms (f : fel T) gs, fel_wf f -> 0 <= feNst f -> feEvery f = Some s -> length (feJst f) = length (feSt f) ->
  fel_states bms f = Ok gs ->
  (forall i g, nth_error gs i = Some g -> feNst g = feNst f + Z.of_nat i + 1 /\ fel_wf g /\ feN g = feN f /\ feOut g = feOut f) /\
  length gs = length bms /\
  fel_steps bms f = Ok (last gs f) /\
  feSt (last gs f) = feSt f ++ map feE (filter (due_by s) gs) /\ length (feJst (last gs f)) = length (feSt (last gs f)) /\ fel_wf (last gs f) /\
  feN (last gs f) = feN f /\ feOut (last gs f) = feOut f.
Proof.
  induction bms as [|bm r IH]; intros f gs W HS Hs HL H; cbn [fel_states] in H.
  - okinj H. cbn [last map filter]. rewrite app_nil_r. split; [intros [|i] g E; discriminate E|]. auto 10.
  - bget H as f' Hf. bget H as l Hl. okinj H. pose proof (step_wf _ _ _ W Hf) as W'.
    destruct (step_record f f' bm s W HS Hs Hf) as (S0 & S1 & S2 & S3 & S4 & S5 & S6 & S7 & S8).
    destruct (IH f' l W' ltac:(lia) S2 (S7 HL) Hl) as (I1 & I2 & I3 & I4 & I5 & I6 & I7 & I8).
    assert (LE : last (f' :: l) f = last l f').
    { destruct l as [|x l]; [reflexivity|]. transitivity (last (x :: l) f); [reflexivity|]. clear. revert x. induction l as [|y l IHl]; intros x; [reflexivity|].
      transitivity (last (y :: l) f); [reflexivity|]. rewrite IHl. reflexivity. }
    rewrite LE. split; [|split; [cbn [length]; lia|split; [|split; [|auto 10]]]].
    + intros [|i] g E; cbn [nth_error] in E.
      * injection E as <-. split; [lia|]. auto.
      * destruct (I1 i g E) as (A & B & C & D). split; [lia|]. split; [exact B|]. split; congruence.
    + unfold fel_steps. cbn [fold_res]. rewrite Hf. exact I3.
    + rewrite I4, S5, <- app_assoc. f_equal. cbn [filter]. destruct (due_by s f'); reflexivity.
    + split; [exact I5|]. split; [exact I6|]. split; congruence.
Qed.
Lemma no_log (f : fel T) bm g : fel_wf f -> feEvery f = None -> fel_step bm f <> Ok g.
Proof.
  intros W E H. apply step_inv in H; [|exact W]. destruct H as (_ & J & _ & LJ & H). apply advance_inv in H; [|exact W|exact LJ].
  destruct H as (_ & _ & s & r & e & Hs & _). congruence.
Qed.
Lemma advance_no_log (f : fel T) J : fel_wf f -> 2 <= feN f -> Z.of_nat (length J) = feN f -> int_min <= feNst f < int_max ->
  feEvery f = None \/ feEvery f = Some 0 -> fel_advance J f = UB.
Proof.
  intros (W1 & W2 & W3 & _) HN HJ HS Hs. destruct (next_field_ok f (Some J) HN W2 W3 HJ) as (r & R1 & R2 & R3).
  destruct (corrected_ok f J HN W2 HJ) as (e & E1 & E2 & E3).
  unfold fel_advance. rewrite R1, E1. cbn [bind]. rewrite iadd_in by lia. cbn [bind]. destruct Hs as [-> | ->]; reflexivity.
Qed.

(* the output *)
Lemma map_zget {A} (l : list A) : map_res (zget l) (zseq 0 (length l)) = Ok l.
Proof.
  enough (H : forall r d, l = d ++ r -> map_res (zget l) (zseq (Z.of_nat (length d)) (length r)) = Ok r) by (apply (H l []); reflexivity).
  induction r as [|x r IH]; intros d E; [reflexivity|]. cbn [length zseq map_res].
  rewrite (zget_nth l (length d) x) by (rewrite E, nth_error_app2 by lia; rewrite Nat.sub_diag; reflexivity). cbn [bind].
  specialize (IH (d ++ [x])). rewrite app_length in IH. cbn [length] in IH.
  replace (Z.of_nat (length d) + 1) with (Z.of_nat (length d + 1)) by lia. rewrite IH; [reflexivity|]. rewrite <- app_assoc. exact E.
Qed.
Lemma rows_ok N (st : list (list T)) : Forall (fun l => Z.of_nat (length l) = N) st ->
  map_res (fun ix => bind (zget st ix) (fun l => map_res (zget l) (zseq 0 (Z.to_nat N)))) (zseq 0 (length st)) = Ok st.
Proof.
  intros HF. enough (H : forall r d, st = d ++ r ->
    map_res (fun ix => bind (zget st ix) (fun l => map_res (zget l) (zseq 0 (Z.to_nat N)))) (zseq (Z.of_nat (length d)) (length r)) = Ok r)
    by (apply (H st []); reflexivity).
  induction r as [|x r IH]; intros d E; [reflexivity|]. cbn [length zseq map_res].
  assert (X : nth_error st (length d) = Some x) by (rewrite E, nth_error_app2 by lia; rewrite Nat.sub_diag; reflexivity).
  rewrite (zget_nth st (length d) x X). cbn [bind].
  assert (LX : Z.of_nat (length x) = N) by (rewrite Forall_forall in HF; apply HF; apply nth_error_In with (length d); exact X).
  replace (Z.to_nat N) with (length x) by lia. rewrite map_zget. cbn [bind].
  specialize (IH (d ++ [x])). rewrite app_length in IH. cbn [length] in IH.
  replace (Z.of_nat (length d) + 1) with (Z.of_nat (length d + 1)) by lia.
  replace (length x) with (Z.to_nat N) by lia. rewrite IH; [reflexivity|]. rewrite <- app_assoc. exact E.
Qed.
Lemma concat_len N (st : list (list T)) : Forall (fun l => Z.of_nat (length l) = N) st -> Z.of_nat (length (concat st)) = N * Z.of_nat (length st).
Proof. induction 1 as [|x r Hx Hr IH]; cbn [concat length]; [lia|]. rewrite app_length. lia. Qed.
Lemma buf_all (vs : list T) : buf_read (length vs) (map Some vs) = Ok vs.
Proof. induction vs as [|v r IH]; cbn [length map buf_read]; [reflexivity|]. rewrite IH. reflexivity. Qed.
Lemma table_ok (f : fel T) (st : list (list T)) : 0 <= feN f -> Forall (fun l => Z.of_nat (length l) = feN f) st ->
  fel_table f (Z.of_nat (length st)) (feN f * Z.of_nat (length st)) st = Ok (concat st).
Proof.
  intros HN HF. unfold fel_table. rewrite Nat2Z.id. rewrite (rows_ok (feN f)) by exact HF. cbn [bind].
  pose proof (concat_len _ _ HF) as L. unfold buf_write, buf_new. rewrite repeat_length.
  destruct (Nat.leb_spec (length (concat st)) (Z.to_nat (feN f * Z.of_nat (length st)))); [|lia]. cbn [bind].
  rewrite skipn_all2 by (rewrite repeat_length; lia). rewrite app_nil_r.
  replace (Z.to_nat (Z.of_nat (length st) * feN f)) with (length (concat st)) by lia. apply buf_all.
Qed.
Lemma i32_small z : 0 <= z <= int_max -> i32 z = z.
Proof. intros H. unfold i32. unfold int_max in H. rewrite Z.mod_small by lia. lia. Qed.
Lemma output_ok (f : fel T) : fel_wf f -> feOut f = true -> length (feJst f) = length (feSt f) ->
  Z.of_nat (length (feSt f)) <= int_max -> feN f * Z.of_nat (length (feSt f)) <= int_max ->
  fel_output f = Ok (Some (Z.of_nat (length (feSt f)), feN f, concat (feSt f), concat (feJst f))).
Proof.
  intros (W1 & W2 & W3 & W4 & W5) HO HL H1 H2. unfold fel_output. rewrite HO, i32_small by lia.
  unfold imul. rewrite to_int_in by (unfold int_min; lia). cbn [bind].
  rewrite (table_ok f (feSt f)) by (auto; lia). cbn [bind]. rewrite <- HL. rewrite (table_ok f (feJst f)) by (auto; lia). reflexivity.
Qed.
Lemma output_overflow (f : fel T) : feOut f = true -> 0 <= feN f -> Z.of_nat (length (feSt f)) <= int_max ->
  int_max < feN f * Z.of_nat (length (feSt f)) -> fel_output f = UB.
Proof.
  intros HO HN H1 H2. unfold fel_output. rewrite HO, i32_small by lia. unfold imul. rewrite to_int_out by lia. reflexivity.
Qed.
End Gen.

(* ---- over the reals: which positions are accepted ---- *)
Lemma nearest_range x n : (0 <= x <= IZR n)%R -> 0 <= ZnearestE x <= n.
Proof.
  intros [H1 H2]. split.
  - rewrite <- (Zrnd_IZR ZnearestE 0). apply Zrnd_le; [apply valid_rnd_N|]. exact H1.
  - rewrite <- (Zrnd_IZR ZnearestE n). apply Zrnd_le; [apply valid_rnd_N|]. exact H2.
Qed.
Section R.
Context {TT : Trans R}.
Local Open Scope R_scope.
Lemma deposit_near (f : fel R) J p : 0 < feDs f -> (0 <= feN f <= int_max)%Z -> Z.of_nat (length J) = feN f ->
  let dz := behind f (pX p) in
  ((dz < 0 \/ IZR (feN f) * feDs f < dz) -> deposit_at f J p = Throw IOexc) /\
  (0 <= dz <= IZR (feN f) * feDs f -> (ZnearestE (dz / feDs f) <= int_max - 11)%Z -> exists J', deposit_at f J p = Ok J' /\ length J' = length J /\
     forall i, (10 < Z.abs (Z.of_nat i - ZnearestE (dz / feDs f)))%Z -> nth_error J' i = nth_error J i).
Proof.
  intros Hd HN HJ dz. split; [intros H|intros H HM].
  - unfold deposit_at. fold (behind f (pX p)). fold dz. unnum.
    destruct (Rltb_spec dz 0); cbn [orb]; [reflexivity|]. destruct (Rltb_spec (IZR (feN f) * feDs f) dz); [reflexivity|lra].
  - assert (Hc : (0 <= ZnearestE (dz / feDs f) <= feN f)%Z).
    { apply nearest_range. split; [apply Rmult_le_pos; [lra|left; apply Rinv_0_lt_compat; exact Hd]|]. apply Rmult_le_reg_r with (feDs f); [exact Hd|]. unfold Rdiv.
      rewrite Rmult_assoc, Rinv_l, Rmult_1_r by lra. lra. }
    assert (C1 : nrint (ndiv (behind f (pX p)) (feDs f)) = Some (ZnearestE (dz / feDs f))) by reflexivity.
    destruct (deposit_window f J p (ZnearestE (dz / feDs f)) HJ ltac:(unfold int_max in *; lia) C1) as [E | (J' & add & E1 & E2 & E3)].
    + unfold int_min, int_max in *. lia.
    + exfalso. revert E. unfold deposit_at. fold (behind f (pX p)). fold dz.
      assert (C : (nltb dz (nZ 0) || nltb (nmul (nZ (feN f)) (feDs f)) dz)%bool = false).
      { unnum. destruct (Rltb_spec dz 0); cbn [orb]; [lra|]. destruct (Rltb_spec (IZR (feN f) * feDs f) dz); [lra|reflexivity]. }
      rewrite C. change (nrint (ndiv dz (feDs f))) with (Some (ZnearestE (dz / feDs f))).
      rewrite to_int_in by (unfold int_min, int_max in *; lia). cbn [bind].
      rewrite !iadd_in by (unfold int_min, int_max in *; lia). cbn [bind].
      match goal with |- fold_res ?B ?l J = _ -> _ => generalize l as ls; set (body := B) end. intros ls. revert J HJ. clear.
      induction ls as [|i ls IH]; intros J HJ; cbn [fold_res]; [discriminate|]. unfold body at 1.
      destruct (zget J i) as [v| | |] eqn:Ez; cbn [bind]; try discriminate.
      * destruct (zset J i _) as [J1| | |] eqn:Es; cbn [bind]; try discriminate.
        -- apply IH. unfold zset in Es. destruct (_ || _)%bool; [discriminate Es|]. apply Ok_inj in Es. subst J1. rewrite lset_length. exact HJ.
        -- unfold zset in Es. destruct (_ || _)%bool; discriminate Es.
      * unfold zget in Ez. destruct (i <? 0)%Z; [discriminate Ez|]. destruct (nth_error _ _); discriminate Ez.
    + exists J'. split; [exact E1|]. split; [exact E2|]. intros i Hi. rewrite E3.
      destruct (Z.leb_spec (Z.abs (Z.of_nat i - ZnearestE (dz / feDs f))) 10); [lia|reflexivity].
Qed.
Lemma deposit_R (f : fel R) J p : 0 < feDs f -> (0 <= feN f <= int_max - 11)%Z -> Z.of_nat (length J) = feN f ->
  let dz := behind f (pX p) in
  ((dz < 0 \/ IZR (feN f) * feDs f < dz) -> deposit_at f J p = Throw IOexc) /\
  (0 <= dz <= IZR (feN f) * feDs f -> exists J', deposit_at f J p = Ok J' /\ length J' = length J /\
     forall i, (10 < Z.abs (Z.of_nat i - ZnearestE (dz / feDs f)))%Z -> nth_error J' i = nth_error J i).
Proof.
  intros Hd HN HJ dz. destruct (deposit_near f J p Hd ltac:(lia) HJ) as [A B]. split; [exact A|]. intros H. apply B; [exact H|].
  enough (ZnearestE (behind f (pX p) / feDs f) <= feN f)%Z by lia. apply nearest_range. fold dz.
  split; [apply Rmult_le_pos; [lra|left; apply Rinv_0_lt_compat; exact Hd]|]. apply Rmult_le_reg_r with (feDs f); [exact Hd|]. unfold Rdiv.
  rewrite Rmult_assoc, Rinv_l, Rmult_1_r by lra. lra.
Qed.
Lemma deposit_large (f : fel R) J p : 0 < feDs f ->
  (int_max - 11 < ZnearestE (behind f (pX p) / feDs f) <= int_max)%Z -> 0 <= behind f (pX p) <= IZR (feN f) * feDs f -> deposit_at f J p = UB.
Proof.
  intros Hd Hc H. unfold deposit_at. fold (behind f (pX p)). set (dz := behind f (pX p)) in *.
  assert (C : (nltb dz (nZ 0) || nltb (nmul (nZ (feN f)) (feDs f)) dz)%bool = false).
  { unnum. destruct (Rltb_spec dz 0); cbn [orb]; [lra|]. destruct (Rltb_spec (IZR (feN f) * feDs f) dz); [lra|reflexivity]. }
  rewrite C. change (nrint (ndiv dz (feDs f))) with (Some (ZnearestE (dz / feDs f))).
  rewrite to_int_in by (unfold int_min, int_max in *; lia). cbn [bind].
  rewrite iadd_in by (unfold int_min, int_max in *; lia). cbn [bind].
  unfold iadd at 1. rewrite to_int_out by (unfold int_min, int_max in *; lia). reflexivity.
Qed.
Lemma deposits_R (f : fel R) : 0 < feDs f -> (0 <= feN f <= int_max - 11)%Z -> forall ps J, Z.of_nat (length J) = feN f ->
  fold_res (deposit f) ps J = Throw IOexc \/ exists J', fold_res (deposit f) ps J = Ok J' /\ Z.of_nat (length J') = feN f.
Proof.
  intros Hd HN. induction ps as [|p r IH]; intros J HJ; cbn [fold_res]; [right; eauto|].
  unfold deposit at 1 3. destruct (time_off f (pt p)); [left; reflexivity|].
  destruct (deposit_R f J p Hd HN HJ) as [D1 D2].
  destruct (Rlt_le_dec (behind f (pX p)) 0) as [K|K]; [rewrite D1 by (left; exact K); left; reflexivity|].
  destruct (Rlt_le_dec (IZR (feN f) * feDs f) (behind f (pX p))) as [K'|K']; [rewrite D1 by (right; exact K'); left; reflexivity|].
  destruct (D2 (conj K K')) as (J1 & -> & L1 & _). cbn [bind]. apply IH. lia.
Qed.
Lemma step_R (f : fel R) bm s : fel_wf f -> (2 <= feN f <= int_max - 11)%Z -> 0 < feDs f -> (int_min <= feNst f < int_max)%Z -> feEvery f = Some s -> s <> 0%Z ->
  fel_step bm f = Throw IOexc \/ exists f', fel_step bm f = Ok f'.
Proof.
  intros W HN Hd HS Hs Hs0. unfold fel_step. destruct (beam_late f (bmNOTS bm)); [left; reflexivity|].
  destruct (zeros_ok (feN f) ltac:(lia)) as (z & -> & Lz & _). cbn [bind].
  destruct (deposits_R f Hd ltac:(lia) (concat (bmB bm)) z Lz) as [-> | (J & -> & LJ)]; cbn [bind]; [left; reflexivity|].
  right. destruct (advance_ok f J s W ltac:(lia) LJ HS Hs Hs0) as (r & e & -> & _). eauto.
Qed.
End R.
Section G2.
Context {T : Type} {NT : Num T} {TT : Trans T}.
Lemma field_cases (f : fel T) X : fel_wf f ->
  match nrint (ndiv (behind f X) (feDs f)) with
  | Some c => if (int_min <=? c) && (c <=? int_max) then
                if (0 <=? c) && (c <? feN f) then exists e, nth_error (feE f) (Z.to_nat c) = Some e /\
                  fel_field_at f X = Ok (EB (vmul (feEx f) e) (vdiv (vmul (feEy f) e) nc))
                else fel_field_at f X = Throw IOexc
              else fel_field_at f X = UB
  | None => fel_field_at f X = UB
  end.
Proof.
  intros (W1 & W2 & _). unfold fel_field_at. fold (behind f X). destruct (nrint _) as [c|]; [|reflexivity].
  unfold to_int, in_int. destruct ((int_min <=? c) && (c <=? int_max)); [|reflexivity]. cbn [bind].
  destruct (Z.ltb_spec c 0); cbn [orb].
  - destruct (Z.leb_spec 0 c); [lia|]. reflexivity.
  - destruct (Z.leb_spec 0 c); [|lia]. destruct (Z.leb_spec (feN f) c); destruct (Z.ltb_spec c (feN f)); try lia; cbn [andb]; [reflexivity|].
    destruct (zget_in (feE f) c ltac:(lia)) as (e & E1 & ->). exists e. split; [exact E1|]. reflexivity.
Qed.
End G2.
