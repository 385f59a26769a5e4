(* C53, C70: the solution of the field equation on the grid. *)
From Coq Require Import ZArith Reals List Bool Lia Lra.
From Flocq Require Import Core.Raux Core.Round_NE Core.Generic_fmt.
From Verif Require Import Base BaseFacts Num VecModel VecFacts ParticleModel BunchModel ElementModel DriverModel FelModel FelSpec FelProofs FelProofs2.
Import ListNotations.
Local Open Scope R_scope.

Lemma cell_nth l j v : (0 <= j)%Z -> nth_error l (Z.to_nat j) = Some v -> cell l j = v.
Proof. intros H E. unfold cell. destruct (Z.ltb_spec j 0); [lia|]. apply nth_error_nth. exact E. Qed.
Lemma nth_cell l j : (0 <= j < Z.of_nat (length l))%Z -> nth_error l (Z.to_nat j) = Some (cell l j).
Proof. intros H. destruct (zget_in l j H) as (a & A & _). rewrite A. f_equal. symmetry. apply cell_nth; [lia|exact A]. Qed.
Lemma cells_eq l l' : length l = length l' -> (forall j, (0 <= j < Z.of_nat (length l))%Z -> cell l j = cell l' j) -> l = l'.
Proof.
  intros L H. apply nth_error_combine_ext. intros n. destruct (Nat.lt_ge_cases n (length l)) as [C|C].
  - specialize (H (Z.of_nat n) ltac:(lia)). pose proof (nth_cell l (Z.of_nat n) ltac:(lia)) as A. pose proof (nth_cell l' (Z.of_nat n) ltac:(lia)) as B.
    rewrite Nat2Z.id in A, B. rewrite A, B, H. reflexivity.
  - rewrite (proj2 (nth_error_None l n)), (proj2 (nth_error_None l' n)) by lia. reflexivity.
Qed.

(* the undriven solution *)
Lemma undriven_0 a j : (0 <= j)%Z -> undriven a 0 j = a j.
Proof.
  intros H. unfold undriven. assert (0 <= j / 2)%Z by (apply Z.div_pos; lia).
  destruct (Z.ltb_spec (j / 2) 0); [lia|]. destruct (Z.ltb_spec (j / 2 + 1) 0); [lia|]. destruct (Z.even j); lra.
Qed.
Lemma undriven_head a n : (1 <= n)%Z -> undriven a n 0 = 0.
Proof. intros H. unfold undriven. cbn [Z.even]. change (0 / 2)%Z with 0%Z. destruct (Z.ltb_spec 0 n); [lra|lia]. Qed.
Lemma undriven_1_1 a : undriven a 1 1 = a 0%Z.
Proof. unfold undriven. cbn. lra. Qed.
Lemma undriven_one a n : (2 <= n)%Z -> undriven a n 1 = 0.
Proof.
  intros H. unfold undriven. cbn [Z.even]. change (1 / 2)%Z with 0%Z. destruct (Z.ltb_spec 0 n); [|lia].
  change (0 + 1)%Z with 1%Z. destruct (Z.ltb_spec 1 n); [lra|lia].
Qed.
Lemma undriven_step a n j : (0 <= n)%Z -> (2 <= j)%Z -> undriven a (n + 2) j = undriven a (n + 1) (j - 2) + undriven a (n + 1) j - undriven a n (j - 2).
Proof.
  intros Hn Hj. unfold undriven. replace (j - 2)%Z with (j + (-1) * 2)%Z by lia. rewrite Z.div_add by lia.
  replace (Z.even (j + -1 * 2)) with (Z.even j) by (rewrite Z.even_add; destruct (Z.even j); reflexivity). set (m := (j / 2)%Z).
  destruct (Z.ltb_spec (m + -1) (n + 1)), (Z.ltb_spec (m + -1) n), (Z.ltb_spec m (n + 2)), (Z.ltb_spec m (n + 1)),
    (Z.ltb_spec (m + -1 + 1) (n + 1)), (Z.ltb_spec (m + -1 + 1) n), (Z.ltb_spec (m + 1) (n + 2)), (Z.ltb_spec (m + 1) (n + 1)); try lia;
  destruct (Z.even j); lra.
Qed.
Lemma undriven_first a j : (2 <= j)%Z -> undriven a 1 j = a j.
Proof.
  intros H. unfold undriven. assert (1 <= j / 2)%Z by (apply Z.div_le_lower_bound; lia).
  destruct (Z.ltb_spec (j / 2) 1); [lia|]. destruct (Z.ltb_spec (j / 2 + 1) 1); [lia|]. destruct (Z.even j); lra.
Qed.

(* the driven part *)
Definition still (q : Z -> R) : Prop := forall i, (i <= 0)%Z -> q i = 0.
Lemma gain_head qs : Forall still qs -> forall j, (j <= 1)%Z -> gain qs j = 0.
Proof.
  induction 1 as [|q r Hq Hr IH]; intros j Hj; cbn [gain]; [reflexivity|]. rewrite (Hq (j - 1)%Z) by lia. rewrite IH by lia.
  destruct Hr as [|q' r' Hq' _]; [lra|]. rewrite (Hq' (j - 2)%Z) by lia. lra.
Qed.
Lemma driven_head qs : Forall still qs -> forall j, (j <= 1)%Z -> driven qs j = 0.
Proof.
  induction 1 as [|q r Hq Hr IH]; intros j Hj; cbn [driven]; [reflexivity|]. rewrite IH by lia.
  rewrite gain_head; [lra|constructor; assumption|lia].
Qed.
Lemma gain_zero qs : Forall (fun q : Z -> R => forall i, q i = 0) qs -> forall j, gain qs j = 0.
Proof.
  induction 1 as [|q r Hq Hr IH]; intros j; cbn [gain]; [reflexivity|]. rewrite Hq, IH. destruct Hr as [|q' r' Hq' _]; [lra|]. rewrite Hq'. lra.
Qed.
Lemma driven_zero qs : Forall (fun q : Z -> R => forall i, q i = 0) qs -> forall j, driven qs j = 0.
Proof.
  induction 1 as [|q r Hq Hr IH]; intros j; cbn [driven]; [reflexivity|]. rewrite IH. rewrite gain_zero; [lra|constructor; assumption].
Qed.
Lemma gain_causal k : forall qs qs', Forall2 (fun q q' : Z -> R => forall i, (i < k)%Z -> q i = q' i) qs qs' ->
  forall j, (j <= k)%Z -> gain qs j = gain qs' j.
Proof.
  induction 1 as [|q q' r r' Hq Hr IH]; intros j Hj; cbn [gain]; [reflexivity|]. rewrite (Hq (j - 1)%Z) by lia. rewrite (IH (j - 2)%Z) by lia.
  f_equal. f_equal. destruct Hr as [|p p' s s' Hp _]; [reflexivity|]. apply Hp. lia.
Qed.
Lemma driven_causal k qs qs' : Forall2 (fun q q' : Z -> R => forall i, (i < k)%Z -> q i = q' i) qs qs' ->
  forall j, (j <= k)%Z -> driven qs j = driven qs' j.
Proof.
  induction 1 as [|q q' r r' Hq Hr IH]; intros j Hj; cbn [driven]; [reflexivity|]. rewrite IH by exact Hj. f_equal.
  apply (gain_causal k); [constructor; assumption|exact Hj].
Qed.
Lemma gain_linear x y : forall ps qs, length ps = length qs -> forall j,
  gain (map (fun pq i => x * fst pq i + y * snd pq i) (combine ps qs)) j = x * gain ps j + y * gain qs j.
Proof.
  induction ps as [|p ps IH]; intros [|q qs] L j; try discriminate L; cbn [combine map gain fst snd]; [lra|].
  rewrite IH by (injection L as L; exact L). destruct ps as [|p' ps], qs as [|q' qs]; try discriminate L; cbn [combine map fst snd]; lra.
Qed.
Lemma driven_linear x y : forall ps qs, length ps = length qs -> forall j,
  driven (map (fun pq i => x * fst pq i + y * snd pq i) (combine ps qs)) j = x * driven ps j + y * driven qs j.
Proof.
  induction ps as [|p ps IH]; intros [|q qs] L j; try discriminate L.
  - cbn. lra.
  - pose proof (gain_linear x y (p :: ps) (q :: qs) L j) as G. cbn [combine map fst snd] in G |- *.
    change (driven ((fun i => x * p i + y * q i) :: map (fun pq i => x * fst pq i + y * snd pq i) (combine ps qs)) j) with
      (driven (map (fun pq i => x * fst pq i + y * snd pq i) (combine ps qs)) j +
       gain ((fun i => x * p i + y * q i) :: map (fun pq i => x * fst pq i + y * snd pq i) (combine ps qs)) j).
    rewrite IH by (injection L as L; exact L). rewrite G. cbn [driven]. lra.
Qed.

Section R.
Context {TT : Trans R}.
Lemma next_cells (f : fel R) J r : (2 <= feN f)%Z -> Z.of_nat (length (feE f)) = feN f -> Z.of_nat (length (fePrev f)) = feN f ->
  match J with Some J => Z.of_nat (length J) = feN f | None => True end ->
  (forall k, (Z.of_nat k < feN f)%Z -> nth_error r k = next_cell f J k) ->
  cell r 0 = 0 /\ cell r 1 = cell (feE f) 0 /\
  forall j, (2 <= j < feN f)%Z -> cell r j = cell (feE f) (j - 2) + cell (feE f) j - cell (fePrev f) (j - 2) +
    match J with Some J => source f J (j - 1) | None => 0 end.
Proof.
  intros HN H1 H2 HJ H. split; [|split].
  - apply cell_nth; [lia|]. rewrite H by lia. reflexivity.
  - apply cell_nth; [lia|]. rewrite H by lia. exact (nth_cell (feE f) 0 ltac:(lia)).
  - intros j Hj. apply cell_nth; [lia|]. rewrite H by lia.
    destruct (Z.to_nat j) as [|[|m]] eqn:E; [lia|lia|]. unfold next_cell. rewrite <- E.
    rewrite (nth_cell (feE f) j) by lia. replace m with (Z.to_nat (j - 2)) by lia.
    rewrite (nth_cell (feE f) (j - 2)), (nth_cell (fePrev f) (j - 2)) by lia. destruct J as [J|].
    + replace (S (Z.to_nat (j - 2))) with (Z.to_nat (j - 1)) by lia. rewrite (nth_cell J (j - 1)) by lia.
      unfold source. destruct (Z.leb_spec 1 (j - 1)); [|lia]. destruct (Z.leb_spec (j - 1) (feN f - 2)); [|lia]. reflexivity.
    + unnum. f_equal. lra.
Qed.
Lemma corr_cells (f : fel R) J e : Z.of_nat (length (feE f)) = feN f -> Z.of_nat (length J) = feN f ->
  (forall k, nth_error e k = corr_cell f J k) -> forall j, (0 <= j < feN f)%Z -> cell e j = cell (feE f) j + source f J j.
Proof.
  intros H1 HJ H j Hj. apply cell_nth; [lia|]. rewrite H. unfold corr_cell, source. rewrite (nth_cell (feE f) j) by lia.
  rewrite Z2Nat.id by lia. destruct ((1 <=? j) && (j <=? feN f - 2))%Z.
  - rewrite (nth_cell J j) by lia. reflexivity.
  - f_equal. lra.
Qed.

Definition solved (a : Z -> R) (n : nat) (qs : list (Z -> R)) (f : fel R) : Prop :=
  length qs = n /\ Forall still qs /\
  (forall j, (0 <= j < feN f)%Z -> cell (feE f) j = undriven a (Z.of_nat n + 1) j + driven qs j) /\
  (forall j, (0 <= j < feN f)%Z -> cell (fePrev f) j = undriven a (Z.of_nat n) j +
      match qs with [] => 0 | q :: older => driven older j + q j end).

Lemma solved_init (f g : fel R) bm : fel_wf f -> fePrev f = feE f -> fel_init bm f = Ok g -> solved (cell (feE f)) 0 [] g.
Proof.
  intros W HP H. apply init_inv in H; [|exact W]. destruct H as (HN & _ & _ & r & -> & R1 & R2). destruct W as (W1 & W2 & W3 & _).
  destruct (next_cells f None r HN W2 W3 I R2) as (N0 & N1 & N2). unfold solved. cbn [feN feE fePrev driven length].
  split; [reflexivity|]. split; [constructor|]. split; intros j Hj.
  - change (Z.of_nat 0 + 1)%Z with 1%Z. destruct (Z.eq_dec j 0) as [->|J0]; [rewrite N0, undriven_head by lia; lra|].
    destruct (Z.eq_dec j 1) as [->|J1]; [rewrite N1, undriven_1_1; lra|]. rewrite N2 by lia. rewrite undriven_first by lia. rewrite HP. lra.
  - change (Z.of_nat 0) with 0%Z. rewrite undriven_0 by lia. lra.
Qed.
Lemma solved_step a n qs (f g : fel R) J : fel_wf f -> Z.of_nat (length J) = feN f -> fel_advance J f = Ok g ->
  solved a n qs f -> solved a (S n) (source f J :: qs) g.
Proof.
  intros W LJ H (S1 & S2 & S3 & S4). apply advance_inv in H; [|exact W|exact LJ].
  destruct H as (HN & _ & s & r & e & _ & _ & -> & R1 & R2 & E1 & E2). destruct W as (W1 & W2 & W3 & _).
  destruct (next_cells f (Some J) r HN W2 W3 LJ R2) as (N0 & N1 & N2). pose proof (corr_cells f J e W2 LJ E2) as C.
  unfold solved, advanced. cbn [feN feE fePrev].
  assert (ST : Forall still (source f J :: qs)).
  { constructor; [|exact S2]. intros i Hi. unfold source. destruct (Z.leb_spec 1 i); [lia|]. reflexivity. }
  split; [cbn [length]; lia|]. split; [exact ST|]. split; intros j Hj.
  - replace (Z.of_nat (S n) + 1)%Z with (Z.of_nat n + 2)%Z by lia.
    destruct (Z.eq_dec j 0) as [->|J0]; [rewrite N0, undriven_head by lia; rewrite (driven_head _ ST) by lia; lra|].
    destruct (Z.eq_dec j 1) as [->|J1].
    { rewrite N1, S3 by lia. rewrite undriven_head, undriven_one by lia. rewrite (driven_head _ ST), (driven_head _ S2) by lia. lra. }
    rewrite N2 by lia. rewrite !S3, S4 by lia. rewrite undriven_step by lia. cbn [driven gain].
    destruct qs as [|q older]; cbn [driven gain]; [lra|]. fold (gain older (j - 2)). cbn [gain]. lra.
  - rewrite C by lia. rewrite S3 by lia. replace (Z.of_nat (S n)) with (Z.of_nat n + 1)%Z by lia. lra.
Qed.
Lemma advance_const (f g : fel R) J : fel_wf f -> Z.of_nat (length J) = feN f -> fel_advance J f = Ok g ->
  fel_wf g /\ feN g = feN f /\ feDt g = feDt f /\ feProp g = feProp f /\ feDs g = feDs f /\ feEx g = feEx f /\ feEy g = feEy f /\
  feHead g = vadd (feHead f) (vmul (feProp f) (feDs f)) /\ feTime g = feTime f + feDt f.
Proof.
  intros W LJ H. apply advance_inv in H; [|exact W|exact LJ]. destruct H as (HN & _ & s & r & e & _ & _ & -> & R1 & R2 & E1 & E2).
  split; [apply advanced_wf; assumption|]. unfold advanced. cbn. auto 10.
Qed.
Lemma init_const (f g : fel R) bm : fel_wf f -> fel_init bm f = Ok g ->
  fel_wf g /\ feN g = feN f /\ feDt g = feDt f /\ feProp g = feProp f /\ feDs g = feDs f /\ feEx g = feEx f /\ feEy g = feEy f /\
  feHead g = vadd (feHead f) (vmul (feProp f) (feDs f)) /\ feTime g = feTime f + feDt f.
Proof.
  intros W H. split; [apply init_wf in H; assumption|]. apply init_inv in H; [|exact W]. destruct H as (_ & _ & _ & r & -> & _).
  cbn. auto 10.
Qed.
Lemma source_ext (f g : fel R) J : feN g = feN f -> feDt g = feDt f -> source g J = source f J.
Proof. intros H1 H2. unfold source. rewrite H1, H2. reflexivity. Qed.
Lemma vadd_shift (a d : vec R) x y : vadd (vadd a (vmul d x)) (vmul d y) = vadd a (vmul d (x + y)).
Proof. apply vec_eq; cbn; ring. Qed.
Lemma drive_solved a : forall Js (f g : fel R) n qs, fel_wf f -> Forall (fun J => Z.of_nat (length J) = feN f) Js -> fel_drive Js f = Ok g -> solved a n qs f ->
  solved a (n + length Js) (rev (map (source f) Js) ++ qs) g /\ fel_wf g /\ feN g = feN f /\ feDt g = feDt f /\ feProp g = feProp f /\ feDs g = feDs f /\
  feEx g = feEx f /\ feEy g = feEy f /\ feHead g = vadd (feHead f) (vmul (feProp f) (INR (length Js) * feDs f)).
Proof.
  unfold fel_drive. induction Js as [|J r IH]; intros f g n qs W HF H S; cbn [fold_res] in H.
  - okinj H. cbn [length map rev app]. rewrite Nat.add_0_r. split; [exact S|]. do 7 (split; [solve [auto]|]).
    apply vec_eq; cbn; ring.
  - bget H as f' Hf. inversion HF as [|J' r' LJ HF']; subst. destruct (advance_const _ _ _ W LJ Hf) as (A0 & A1 & A2 & A3 & A4 & A5 & A6 & A7 & _).
    pose proof (solved_step _ _ _ _ _ _ W LJ Hf S) as S'.
    destruct (IH f' g (Datatypes.S n) (source f J :: qs) A0) as (B & B0 & B1 & B2 & B3 & B4 & B5 & B6 & B7); [rewrite A1; exact HF'|exact H|exact S'|].
    split; [|split; [exact B0|]].
    + cbn [length map rev]. rewrite <- app_assoc. cbn [app]. replace (n + Datatypes.S (length r))%nat with (Datatypes.S n + length r)%nat by lia.
      assert (EQ : map (source f') r = map (source f) r) by (apply map_ext; intros l; apply source_ext; assumption). rewrite EQ in B. exact B.
    + split; [congruence|]. split; [congruence|]. split; [congruence|]. split; [congruence|]. split; [congruence|]. split; [congruence|].
      rewrite B7, A3, A4, A7, vadd_shift. f_equal. f_equal. cbn [length]. rewrite S_INR. ring.
Qed.

(* ---- a quiet beam ---- *)
Lemma lset_same {A} (l : list A) n v : nth_error l n = Some v -> lset l n v = l.
Proof. revert n. induction l as [|x r IH]; intros [|n] H; cbn in *; try discriminate; [congruence|]. f_equal. auto. Qed.
Lemma deposit_quiet (f : fel R) J J' p : vdot (pA p) (feEx f) = 0 \/ pCharge p = 0 -> deposit_at f J p = Ok J' -> J' = J.
Proof.
  intros Hq H. unfold deposit_at in H. destruct (_ || _); [discriminate H|].
  assert (Z0 : nmul (nmul (nmul (ndiv (ndiv (nmul (vdot (vdiv (pA p) (nsqrt (nadd (vabs2 (pP p)) (nZ 1)))) (feEx f)) (getCharge p)) (mode_area f)) (feDt f)) nmu0) nc) nc = 0).
  { destruct Hq as [Hq|Hq]; [rewrite vdot_div_l, Hq|unfold getCharge; rewrite Hq]; generalize (mode_area f), (@nmu0 R _), (@nc R _); intros; unnum; unfold Rdiv; ring. }
  revert H. rewrite Z0. intros H. bget H as c Hc. bget H as a Ha. bget H as b Hb.
  revert H. generalize (zseq (if (a <? 0)%Z then 0%Z else a) (Z.to_nat ((if (feN f <? b)%Z then feN f else b) - (if (a <? 0)%Z then 0%Z else a)))) as l.
  intros l. revert J. induction l as [|i l IH]; intros J H; cbn [fold_res] in H; [okinj H; reflexivity|].
  bget H as J1 H1. apply IH in H. subst J'. bget H1 as v Hv. apply zget_inv in Hv. destruct Hv as [Hi Hv].
  unfold zset in H1. destruct (_ || _)%bool; [discriminate H1|]. apply Ok_inj in H1. subst J1.
  match goal with |- lset _ _ ?x = _ => replace x with v by (unnum; unfold Rdiv; ring) end. apply lset_same. exact Hv.
Qed.
Lemma deposits_quiet (f : fel R) : forall ps J J', Forall (fun p => vdot (pA p) (feEx f) = 0 \/ pCharge p = 0) ps ->
  fold_res (deposit f) ps J = Ok J' -> J' = J.
Proof.
  induction ps as [|p r IH]; intros J J' HF H; cbn [fold_res] in H; [okinj H; reflexivity|].
  inversion HF as [|p' r' Hp HF']; subst. bget H as J1 H1. apply IH in H; [|exact HF']. subst J'.
  unfold deposit in H1. destruct (time_off f (pt p)); [discriminate H1|]. apply deposit_quiet in H1; assumption.
Qed.
Lemma zeros_source (f : fel R) z : zeros (feN f) = Ok z -> forall i, source f z i = 0.
Proof.
  unfold zeros. destruct (Z.ltb_spec (feN f) 0); [discriminate|]. intros H0 i. okinj H0. unfold source.
  destruct (Z.leb_spec 1 i); [|reflexivity]. destruct (Z.leb_spec i (feN f - 2)); [|reflexivity]. cbn [andb].
  rewrite (cell_nth _ i 0); [ring|lia|]. apply nth_error_repeat. lia.
Qed.
Lemma steps_drive : forall bms (f g : fel R), fel_wf f -> fel_steps bms f = Ok g -> Forall (quiet f) bms ->
  exists Js, length Js = length bms /\ Forall (fun J => Z.of_nat (length J) = feN f /\ forall i, source f J i = 0) Js /\ fel_drive Js f = Ok g.
Proof.
  unfold fel_steps, fel_drive. induction bms as [|bm r IH]; intros f g W H HF; cbn [fold_res] in H.
  - okinj H. exists []. split; [reflexivity|]. split; [constructor|reflexivity].
  - bget H as f' Hf. inversion HF as [|b' r' Hq HF']; subst. pose proof (step_wf _ _ _ W Hf) as W'.
    apply step_inv in Hf; [|exact W]. destruct Hf as (_ & J & (z & Hz & HJ) & LJ & Hf).
    apply deposits_quiet in HJ; [|exact Hq]. subst J. destruct (advance_const _ _ _ W LJ Hf) as (A0 & A1 & A2 & A3 & A4 & A5 & _).
    destruct (IH f' g W' H) as (Js & L & HJs & D).
    { eapply Forall_impl; [|exact HF']. intros b Hb. unfold quiet in *. rewrite A5. exact Hb. }
    exists (z :: Js). split; [cbn [length]; lia|]. split.
    + constructor; [split; [exact LJ|apply zeros_source; exact Hz]|]. eapply Forall_impl; [|exact HJs]. cbn. intros J [J1 J2].
      split; [congruence|]. intros i. rewrite <- (source_ext f f' J) by assumption. apply J2.
    + cbn [fold_res]. rewrite Hf. exact D.
Qed.
Lemma undriven_run (f0 f1 f : fel R) bm0 bms : fel_wf f0 -> fePrev f0 = feE f0 -> fel_init bm0 f0 = Ok f1 -> Forall (quiet f0) bms -> fel_steps bms f1 = Ok f ->
  (forall j, (0 <= j < feN f0)%Z -> cell (feE f) j = undriven (cell (feE f0)) (Z.of_nat (length bms) + 1) j) /\
  fel_wf f /\ feN f = feN f0 /\ feProp f = feProp f0 /\ feDs f = feDs f0 /\ feEx f = feEx f0 /\ feEy f = feEy f0 /\
  feHead f = vadd (feHead f0) (vmul (feProp f0) ((INR (length bms) + 1) * feDs f0)).
Proof.
  intros W HP H1 HF H. destruct (init_const _ _ _ W H1) as (W1 & A1 & A2 & A3 & A4 & A5 & A6 & A7 & _).
  pose proof (solved_init _ _ _ W HP H1) as S.
  destruct (steps_drive bms f1 f W1 H) as (Js & L & HJ & D).
  { eapply Forall_impl; [|exact HF]. intros b Hb. unfold quiet in *. rewrite A5. exact Hb. }
  destruct (drive_solved (cell (feE f0)) Js f1 f 0 [] W1) as ((_ & _ & S3 & _) & B0 & B1 & B2 & B3 & B4 & B5 & B6 & B7); [|exact D|exact S|].
  { eapply Forall_impl; [|exact HJ]. intros J [X _]. exact X. }
  split; [|split; [exact B0|]].
  - intros j Hj. rewrite S3 by lia. rewrite app_nil_r, driven_zero.
    + rewrite L. cbn [Nat.add]. lra.
    + apply Forall_rev. apply Forall_map. eapply Forall_impl; [|exact HJ]. intros J [_ X]. exact X.
  - do 5 (split; [congruence|]). rewrite B7, A3, A4, A7, vadd_shift, L. f_equal. f_equal. ring.
Qed.
End R.
