(* C54: times of the field and of the beam. *)
From Coq Require Import ZArith Reals List Bool Lia Lra.
From Verif Require Import Base BaseFacts Num VecModel VecFacts ParticleModel ParticleSpec BunchModel BeamSpec ElementModel DriverModel DriverSpec DriverProofs
  FelModel FelSpec FelProofs FelProofs2.
Import ListNotations.
Local Open Scope Z_scope.

Lemma forall_firstn {A} (Q : A -> Prop) n l : Forall Q l -> Forall Q (firstn n l).
Proof. rewrite !Forall_forall. intros H x Hx. apply H. rewrite <- (firstn_skipn n l). apply in_or_app. left. exact Hx. Qed.
Lemma forall_skipn {A} (Q : A -> Prop) n l : Forall Q l -> Forall Q (skipn n l).
Proof. rewrite !Forall_forall. intros H x Hx. apply H. rewrite <- (firstn_skipn n l). apply in_or_app. right. exact Hx. Qed.
Lemma map_res_forall {A B} (Q : A -> Prop) (Q' : B -> Prop) (f : A -> res B) : (forall x y, Q x -> f x = Ok y -> Q' y) ->
  forall l r, Forall Q l -> map_res f l = Ok r -> Forall Q' r.
Proof.
  intros Hf. induction l as [|x l IH]; intros r HF H; cbn [map_res] in H; [okinj H; constructor|].
  inversion HF; subst. bget H as y Hy. bget H as ys Hys. okinj H. constructor; [apply (Hf x y); assumption|]. apply IH; assumption.
Qed.
Lemma map_res_cong {A B} (f g : A -> res B) l : Forall (fun x => f x = g x) l -> map_res f l = map_res g l.
Proof. induction 1 as [|x l Hx Hl IH]; cbn [map_res]; [reflexivity|]. rewrite Hx, IH. reflexivity. Qed.
Lemma fold_res_cong {A S} (f g : S -> A -> res S) l : Forall (fun x => forall s, f s x = g s x) l -> forall s, fold_res f l s = fold_res g l s.
Proof. induction 1 as [|x l Hx Hl IH]; intros s; cbn [fold_res]; [reflexivity|]. rewrite Hx. destruct (g s x); cbn [bind]; auto. Qed.

Section Gen.
Context {T : Type} {NT : Num T} {TT : Trans T}.

Lemma spread_forall {C} (Q : C -> Prop) (Q' : particle T -> Prop) (f : C -> particle T -> particle T) :
  (forall c p, Q c -> Q' (f c p)) -> forall bs cs, Forall Q cs -> Forall Q' (concat (spread f cs bs)).
Proof.
  intros Hf. assert (Z : forall cs (b : list (particle T)), Forall Q cs -> Forall Q' (zip_in f cs b)).
  { induction cs as [|c cs IH]; intros b HF; [constructor|]. destruct b as [|p b]; [constructor|]. inversion HF; subst. cbn [zip_in]. constructor; auto. }
  induction bs as [|b r IH]; intros cs HF; cbn [spread concat]; [constructor|]. apply Forall_app. split.
  - apply Z. apply forall_firstn. exact HF.
  - apply IH. apply forall_skipn. exact HF.
Qed.

Lemma init_time (f g : fel T) bm : fel_init bm f = Ok g -> feTime g = nadd (feTime f) (feDt f) /\ feDt g = feDt f.
Proof.
  unfold fel_init. destruct (nltb _ _); [discriminate|]. intros H. bget H as r Hr. bget H as n Hn. okinj H. split; reflexivity.
Qed.
Lemma step_time (f g : fel T) bm : fel_step bm f = Ok g -> feTime g = nadd (feTime f) (feDt f) /\ feDt g = feDt f.
Proof.
  unfold fel_step. destruct (beam_late _ _); [discriminate|]. intros H. bget H as z Hz. bget H as J HJ. unfold fel_advance in H.
  bget H as r Hr. bget H as e He. bget H as n Hn. bget H as d Hd. okinj H. split; reflexivity.
Qed.
Lemma vay_init_time dt F (p q : particle T) : InitVay dt F p = Ok q -> (exists t, lback (pTimes p) = Ok t /\ pt q = t) /\ pdt q = dt.
Proof.
  unfold InitVay. destruct (pNP p <? 1); [discriminate|]. intros H. bget H as t Ht. bget H as x Hx. bget H as m Hm. bget H as eb Heb.
  destruct (vay_half _ _ _ _) as [p1 g]. bget H as a Ha. okinj H. split; [eauto|reflexivity].
Qed.
Lemma vay_step_time F (p q : particle T) : StepVay F p = Ok q -> pt q = nadd (pt p) (pdt p) /\ pdt q = pdt p.
Proof.
  unfold StepVay. intros H. bget H as eb Heb. destruct (vay_half _ _ _ _) as [p1 g]. okinj H. split; reflexivity.
Qed.

(* the state after k steps *)
Definition in_time (dt : T) (k : nat) (s : sim (T:=T) (L:=lattice_T T)) : Prop :=
  Forall (fun f => feTime f = clock dt (S k) /\ feDt f = dt) (snd (sLat s)) /\
  Forall (fun p => pt p = clock dt k /\ pdt p = dt) (sTracked s) /\
  Forall (fun p => pt p = clock dt k) (concat (bmB (sMaster s))) /\
  bmNOTS (sMaster s) = Z.of_nat k /\ bmdt (sMaster s) = dt.

Lemma start_in_time dt NOTS lat (bm : beam T) s : bmdt bm = dt -> Forall (fun p => pt p = nZ 0) (concat (bmB bm)) ->
  Forall (fun f => feTime f = nZ 0 /\ feDt f = dt) (snd lat) ->
  sim_start full_field inter_init NOTS lat bm = Ok s -> in_time dt 0 s.
Proof.
  intros Hd HP HL H. unfold sim_start in H. destruct (bmTracker bm); try discriminate H.
  bget H as tr Htr. bget H as l' Hl. okinj H. unfold in_time. cbn [sLat sTracked sMaster bmB bmNOTS bmdt].
  assert (A : Forall (fun p => pt p = nZ 0 /\ pTimes p = [pt p]) (concat (spread (restarted (NOTS + 1)) (map current (concat (bmB bm))) (bmB bm)))).
  { apply (spread_forall (fun c => tpt c = nZ 0)); [|].
    - intros c p Hc. cbn. auto.
    - apply Forall_map. eapply Forall_impl; [|exact HP]. intros p Hp. exact Hp. }
  split; [|split; [|split; [|auto]]].
  - unfold inter_init in Hl. bget Hl as fs Hfs. okinj Hl. cbn [snd]. eapply map_res_forall; [|exact HL|exact Hfs].
    cbn beta. intros f g (F1 & F2) Hg. apply init_time in Hg. destruct Hg as (-> & ->). rewrite F1, F2. split; reflexivity.
  - cbn [bmB] in Htr. eapply map_res_forall; [|exact A|exact Htr]. cbn beta. intros p q (P1 & P2) Hq. apply vay_init_time in Hq.
    destruct Hq as ((t & Ht & ->) & ->). cbn [no_field pTimes] in Ht. rewrite P2 in Ht. apply Ok_inj in Ht. subst t. rewrite P1.
    split; [reflexivity|exact Hd].
  - eapply Forall_impl; [|exact A]. intros p [P1 _]. exact P1.
Qed.
Lemma step_in_time dt k s s' : in_time dt k s -> sim_step full_field inter_step s = Ok s' -> in_time dt (S k) s'.
Proof.
  intros (I1 & I2 & I3 & I4 & I5) H. unfold sim_step in H. bget H as tr Htr. bget H as l' Hl. okinj H.
  unfold in_time. cbn [sLat sTracked sMaster bmB bmNOTS bmdt].
  assert (B : Forall (fun p => pt p = clock dt (S k) /\ pdt p = dt) tr).
  { eapply map_res_forall; [|exact I2|exact Htr]. cbn beta. intros p q (P1 & P2) Hq. apply vay_step_time in Hq. destruct Hq as (-> & ->).
    rewrite P1, P2. split; reflexivity. }
  split; [|split; [exact B|split; [|split; [lia|exact I5]]]].
  - unfold inter_step in Hl. bget Hl as fs Hfs. okinj Hl. cbn [snd]. eapply map_res_forall; [|exact I1|exact Hfs].
    cbn beta. intros f g (F1 & F2) Hg. apply step_time in Hg. destruct Hg as (-> & ->). rewrite F1, F2. split; reflexivity.
  - apply (spread_forall (fun c => tpt c = clock dt (S k))); [intros c p Hc; exact Hc|].
    apply Forall_map. eapply Forall_impl; [|exact B]. intros p [P1 _]. exact P1.
Qed.
Lemma run_in_time dt NOTS lat (bm : beam T) : bmdt bm = dt -> Forall (fun p => pt p = nZ 0) (concat (bmB bm)) ->
  Forall (fun f => feTime f = nZ 0 /\ feDt f = dt) (snd lat) ->
  forall k s, sim_run full_field inter_init inter_step NOTS lat bm k = Ok s -> in_time dt k s.
Proof.
  intros Hd HP HL k s H. unfold sim_run in H. bget H as s0 H0. apply (start_in_time dt) in H0; try assumption.
  assert (G : forall n m s0 s, in_time dt m s0 -> iter_res (sim_step full_field inter_step) n s0 = Ok s -> in_time dt (m + n) s).
  { induction n as [|n IH]; intros m a b Ha Hb; cbn [iter_res] in Hb.
    - okinj Hb. rewrite Nat.add_0_r. exact Ha.
    - bget Hb as c Hc. apply (step_in_time dt m) in Hc; [|exact Ha]. replace (m + S n)%nat with (S m + n)%nat by lia. apply (IH (S m) c b Hc Hb). }
  exact (G k 0%nat s0 s H0 H).
Qed.

(* checks which pass may be left out *)
Lemma vay_init_cong dt F F' (p : particle T) : (forall t x, lback (pTimes p) = Ok t -> F t x = F' t x) -> InitVay dt F p = InitVay dt F' p.
Proof.
  intros H. unfold InitVay. destruct (pNP p <? 1); [reflexivity|]. destruct (lback (pTimes p)) as [t| | |]; cbn [bind]; try reflexivity.
  destruct (lback (pXs p)) as [x| | |]; cbn [bind]; try reflexivity. destruct (lback (pPs p)) as [m| | |]; cbn [bind]; try reflexivity.
  rewrite (H t x eq_refl). reflexivity.
Qed.
Lemma vay_step_cong F F' (p : particle T) : (forall x, F (nadd (pt p) (pdt p)) x = F' (nadd (pt p) (pdt p)) x) -> StepVay F p = StepVay F' p.
Proof. intros H. unfold StepVay. rewrite H. reflexivity. Qed.
Lemma field_cong (l : lattice_T T) t X : Forall (fun f => time_off f t = false) (snd l) -> full_field l t X = field_free l t X.
Proof.
  intros H. unfold full_field, field_free. destruct (lat_field (fst l) t X); cbn [bind]; try reflexivity.
  apply fold_res_cong. eapply Forall_impl; [|exact H]. intros f Hf s. unfold fel_field. rewrite Hf. reflexivity.
Qed.
Lemma step_cong bm (f : fel T) : beam_late f (bmNOTS bm) = false -> Forall (fun p => time_off f (pt p) = false) (concat (bmB bm)) ->
  fel_step bm f = step_free bm f.
Proof.
  intros H1 H2. unfold fel_step, step_free. rewrite H1. destruct (zeros (feN f)) as [z| | |]; cbn [bind]; try reflexivity.
  rewrite (fold_res_cong (deposit f) (deposit_at f)); [reflexivity|]. eapply Forall_impl; [|exact H2]. intros p Hp s. unfold deposit. rewrite Hp. reflexivity.
Qed.
End Gen.

Section R.
Context {TT : Trans R}.
Local Open Scope R_scope.
Lemma clock_R dt k : clock dt k = INR k * dt.
Proof. induction k as [|k IH]; [cbn; ring|]. change (clock dt (S k)) with (clock dt k + dt). rewrite IH, S_INR. ring. Qed.
Lemma late_R (f : fel R) dt k : 0 < dt -> feTime f = clock dt k -> feDt f = dt -> beam_late f (Z.of_nat k) = false.
Proof.
  intros Hd H1 H2. unfold beam_late, quarter. rewrite H1, H2, clock_R. unnum. rewrite <- INR_IZR_INZ.
  destruct (Rltb_spec (1 / 4 * dt) (Rabs (INR k * dt - INR k * dt))) as [A|A]; [|reflexivity].
  exfalso. revert A. replace (INR k * dt - INR k * dt) with 0 by ring. rewrite Rabs_R0. lra.
Qed.
Lemma off_R (f : fel R) dt t : 0 < dt -> feTime f = t -> feDt f = dt -> time_off f t = false.
Proof.
  intros Hd H1 H2. unfold time_off, quarter. rewrite H1, H2. unnum.
  destruct (Rltb_spec (1 / 4 * dt) (Rabs (t - t))) as [A|A]; [|reflexivity].
  exfalso. revert A. replace (t - t) with 0 by ring. rewrite Rabs_R0. lra.
Qed.
Lemma free_start dt NOTS lat (bm : beam R) : 0 < dt -> bmdt bm = dt -> Forall (fun p => pt p = 0) (concat (bmB bm)) ->
  Forall (fun f => feTime f = 0 /\ feDt f = dt) (snd lat) ->
  sim_start full_field inter_init NOTS lat bm = sim_start field_free inter_init_free NOTS lat bm.
Proof.
  intros Hd Hb HP HL. unfold sim_start. destruct (bmTracker bm); try reflexivity.
  assert (A : Forall (fun p => pt p = 0 /\ pTimes p = [pt p]) (concat (spread (restarted (NOTS + 1)) (map current (concat (bmB bm))) (bmB bm)))).
  { apply (spread_forall (fun c => tpt c = 0)); [|].
    - intros c p Hc. cbn. auto.
    - apply Forall_map. eapply Forall_impl; [|exact HP]. intros p Hp. exact Hp. }
  cbn [bmB]. rewrite (map_res_cong (fun p => InitVay (bmdt bm) (full_field lat) (no_field p)) (fun p => InitVay (bmdt bm) (field_free lat) (no_field p))).
  - destruct (map_res _ _) as [tr| | |]; cbn [bind]; try reflexivity.
    match goal with |- bind (inter_init ?r lat) _ = _ => set (rec := r) end.
    assert (E : inter_init rec lat = inter_init_free rec lat).
    { unfold inter_init, inter_init_free. rewrite (map_res_cong (fel_init rec) (init_free rec)); [reflexivity|].
      eapply Forall_impl; [|exact HL]. intros f (F1 & F2). unfold init_free. unfold fel_init. cbn [bmdt].
      rewrite F2. change (bmdt rec) with (bmdt bm). rewrite Hb. reflexivity. }
    rewrite E. reflexivity.
  - eapply Forall_impl; [|exact A]. intros p (P1 & P2). apply vay_init_cong. cbn [no_field pTimes]. rewrite P2, P1. intros t x Ht.
    apply Ok_inj in Ht. subst t. apply field_cong. eapply Forall_impl; [|exact HL]. intros f (F1 & F2). apply (off_R f dt); assumption.
Qed.
Lemma free_step dt k s : 0 < dt -> in_time dt k s -> sim_step full_field inter_step s = sim_step field_free inter_step_free s.
Proof.
  intros Hd (I1 & I2 & I3 & I4 & I5). unfold sim_step.
  assert (E : map_res (StepVay (full_field (sLat s))) (sTracked s) = map_res (StepVay (field_free (sLat s))) (sTracked s)).
  { apply map_res_cong. eapply Forall_impl; [|exact I2]. intros p (P1 & P2). apply vay_step_cong. intros x. apply field_cong.
    eapply Forall_impl; [|exact I1]. intros f (F1 & F2). apply (off_R f dt); [exact Hd| |exact F2]. rewrite F1, P1, P2. reflexivity. }
  rewrite <- E. destruct (map_res (StepVay (full_field (sLat s))) (sTracked s)) as [tr| | |] eqn:Htr; cbn [bind]; try reflexivity.
  assert (B : Forall (fun p => pt p = clock dt (S k)) tr).
  { eapply map_res_forall; [|exact I2|exact Htr]. cbn beta. intros p q (P1 & P2) Hq. apply vay_step_time in Hq. destruct Hq as (-> & _).
    rewrite P1, P2. reflexivity. }
  match goal with |- bind (inter_step ?r _) _ = _ => set (rec := r) end.
  assert (G : inter_step rec (sLat s) = inter_step_free rec (sLat s)).
  { unfold inter_step, inter_step_free. rewrite (map_res_cong (fel_step rec) (step_free rec)); [reflexivity|].
    eapply Forall_impl; [|exact I1]. intros f (F1 & F2). apply step_cong.
    - unfold rec. cbn [bmNOTS]. rewrite I4. replace (Z.of_nat k + 1)%Z with (Z.of_nat (S k)) by lia. apply (late_R f dt); assumption.
    - unfold rec. cbn [bmB]. apply (spread_forall (fun c => tpt c = clock dt (S k))).
      + intros c p Hc. cbn [append_point pt]. rewrite Hc. apply (off_R f dt); assumption.
      + apply Forall_map. eapply Forall_impl; [|exact B]. intros p Hp. exact Hp. }
  rewrite G. reflexivity.
Qed.
Lemma free_run dt NOTS lat (bm : beam R) k : 0 < dt -> bmdt bm = dt -> Forall (fun p => pt p = 0) (concat (bmB bm)) ->
  Forall (fun f => feTime f = 0 /\ feDt f = dt) (snd lat) ->
  sim_run full_field inter_init inter_step NOTS lat bm k = sim_run field_free inter_init_free inter_step_free NOTS lat bm k.
Proof.
  intros Hd Hb HP HL. unfold sim_run. rewrite <- (free_start dt) by assumption.
  destruct (sim_start full_field inter_init NOTS lat bm) as [s0| | |] eqn:H0; cbn [bind]; try reflexivity.
  apply (start_in_time dt) in H0; try assumption.
  enough (G : forall n m s, in_time dt m s -> iter_res (sim_step full_field inter_step) n s = iter_res (sim_step field_free inter_step_free) n s) by exact (G k 0%nat s0 H0).
  induction n as [|n IH]; intros m s Hs; cbn [iter_res]; [reflexivity|]. rewrite <- (free_step dt m) by assumption.
  destruct (sim_step full_field inter_step s) as [s'| | |] eqn:Hs'; cbn [bind]; try reflexivity. apply (IH (S m)). apply (step_in_time dt m s); assumption.
Qed.
End R.
