(* Trajectory bookkeeping, for every number type. *)
From Coq Require Import ZArith List Lia Bool.
From Verif Require Import Base BaseFacts Num VecModel ParticleModel ParticleSpec.
Import ListNotations.
Local Open Scope Z_scope.

Section P.
Context {T : Type} {NT : Num T}.
Implicit Types p q : particle T.

Lemma wf_new (c m : T) : wf (new_particle c m).
Proof. unfold wf, new_particle; cbn. lia. Qed.

Lemma set_back_length {A} (l l' : list A) (a : A) : set_back l a = Ok l' -> length l' = length l.
Proof.
  revert l'; induction l as [|x r IH]; intros l' H; [discriminate|].
  cbn [set_back] in H. destruct r as [|y r].
  - injection H as <-. reflexivity.
  - bstep H. injection H as <-. cbn. f_equal. apply IH in Ha. exact Ha.
Qed.
Lemma set_back_app {A} (i : list A) (b a : A) : set_back (i ++ [b]) a = Ok (i ++ [a]).
Proof.
  induction i as [|x r IH]; [reflexivity|].
  cbn [app set_back]. destruct (r ++ [b]) eqn:E; [destruct r; discriminate|].
  cbn [bind]. rewrite IH. reflexivity.
Qed.
Lemma set_back_inv {A} (l l' : list A) (a : A) :
  set_back l a = Ok l' -> exists i b, l = i ++ [b] /\ l' = i ++ [a].
Proof.
  intros H. destruct l as [|x r]; [discriminate|].
  destruct (@exists_last _ (x :: r)) as [i [b Hb]]; [discriminate|].
  exists i, b. split; [exact Hb|]. rewrite Hb, set_back_app in H. congruence.
Qed.
Lemma upd_first_length {A} (f : A -> A) k (l l' : list A) :
  upd_first f k l = Ok l' -> length l' = length l.
Proof.
  revert l l'; induction k as [|k IH]; intros l l' H; cbn in H.
  - injection H as <-; reflexivity.
  - destruct l as [|x r]; [discriminate|]. bstep H. injection H as <-. cbn. f_equal. eauto.
Qed.

Lemma wf_apply p q (o : pop) : wf p -> apply_op p o = Ok q -> wf q.
Proof.
  intros [H0 [Ht [Hx [Hp Ha]]]] H. destruct o; cbn [apply_op] in H.
  - injection H as <-. unfold wf; cbn; lia.
  - injection H as <-. unfold wf; cbn; lia.
  - unfold preAllocate in H. destruct (n <? 0); [discriminate|]. injection H as <-.
    unfold wf; cbn; lia.
  - injection H as <-. unfold wf; cbn. rewrite !app_length. cbn. lia.
  - unfold InitVay in H. destruct (pNP p <? 1); [discriminate|].
    bstep H. bstep H. bstep H. bstep H. destruct (vay_half _ _ _ _) as [p1 g].
    bstep H. injection H as <-. apply set_back_length in Ha4.
    unfold wf; cbn. lia.
  - unfold StepVay in H. bstep H. destruct (vay_half _ _ _ _) as [p1 g].
    injection H as <-. unfold wf; cbn. rewrite !app_length. cbn. lia.
  - unfold Shift in H. bstep H. injection H as <-. apply upd_first_length in Ha0.
    unfold wf; cbn. lia.
  - unfold Mirror in H. bstep H. bstep H. bstep H. injection H as <-.
    apply upd_first_length in Ha0, Ha1, Ha2. unfold wf; cbn. lia.
Qed.

Lemma wf_run (ops : list pop) p q : wf p -> run_ops ops p = Ok q -> wf q.
Proof.
  revert p; induction ops as [|o ops IH]; intros p Hp H; cbn in H.
  - injection H as <-; exact Hp.
  - bstep H. eapply IH; [|exact H]. eapply wf_apply; eauto.
Qed.

(* current values are those of the last stored point *)
Definition synced p : Prop :=
  pNP p = 0 \/
  (lback (pTimes p) = Ok (pt p) /\ lback (pXs p) = Ok (pX p) /\
   lback (pPs p) = Ok (pP p) /\ lback (pAs p) = Ok (pA p)).

Lemma synced_apply p q (o : pop) :
  is_move o = false -> synced p -> apply_op p o = Ok q -> synced q.
Proof.
  intros Hm Hs H. destruct o; cbn [apply_op is_move] in *; try discriminate.
  - injection H as <-. right. cbn. auto.
  - injection H as <-. left. reflexivity.
  - unfold preAllocate in H. destruct (n <? 0); [discriminate|]. injection H as <-. exact Hs.
  - injection H as <-. right. cbn. rewrite !lback_app. auto.
  - unfold InitVay in H. destruct (pNP p <? 1); [discriminate|].
    bstep H. bstep H. bstep H. bstep H. destruct (vay_half _ _ _ _) as [p1 g].
    bstep H. injection H as <-. right. cbn.
    apply set_back_inv in Ha3. destruct Ha3 as [i [b [Hi ->]]].
    rewrite lback_app. auto.
  - unfold StepVay in H. bstep H. destruct (vay_half _ _ _ _) as [p1 g].
    injection H as <-. right. cbn. rewrite !lback_app. auto.
Qed.

Lemma synced_run (ops : list pop) p q :
  forallb (fun o => negb (is_move o)) ops = true -> synced p -> run_ops ops p = Ok q -> synced q.
Proof.
  revert p; induction ops as [|o ops IH]; intros p Hm Hs H; cbn in H, Hm.
  - injection H as <-; exact Hs.
  - apply andb_prop in Hm. destruct Hm as [Hm Hms].
    bstep H. eapply IH; [exact Hms| |exact H]. eapply synced_apply; [|exact Hs|exact Ha].
    destruct (is_move o); [discriminate|reflexivity].
Qed.

(* zip4 *)
Lemma zip4_length (ts : list T) xs ms acs :
  length xs = length ts -> length ms = length ts -> length acs = length ts ->
  length (zip4 ts xs ms acs) = length ts.
Proof.
  revert xs ms acs; induction ts as [|t ts IH]; intros [|x xs] [|m ms] [|a acs]; cbn; try lia.
  intros. rewrite IH; lia.
Qed.
Lemma zip4_app (ts ts' : list T) xs xs' ms ms' acs acs' :
  length xs = length ts -> length ms = length ts -> length acs = length ts ->
  zip4 (ts ++ ts') (xs ++ xs') (ms ++ ms') (acs ++ acs') = zip4 ts xs ms acs ++ zip4 ts' xs' ms' acs'.
Proof.
  revert xs ms acs; induction ts as [|t ts IH]; intros [|x xs] [|m ms] [|a acs]; cbn; try lia; auto.
  intros. rewrite IH; auto; lia.
Qed.
Lemma zip4_nth (ts : list T) xs ms acs n t x m a :
  nth_error ts n = Some t -> nth_error xs n = Some x -> nth_error ms n = Some m ->
  nth_error acs n = Some a -> nth_error (zip4 ts xs ms acs) n = Some (TP t x m a).
Proof.
  revert xs ms acs n; induction ts as [|t0 ts IH]; intros [|x0 xs] [|m0 ms] [|a0 acs] [|n];
    cbn; try discriminate; try congruence.
  intros. eapply IH; eauto.
Qed.

Lemma trajectory_length p : wf p -> Z.of_nat (length (trajectory p)) = pNP p.
Proof. intros [H0 [Ht [Hx [Hp Ha]]]]. unfold trajectory. rewrite zip4_length; lia. Qed.

Lemma trajectory_store t x m a p :
  wf p -> trajectory (storeTrajectoryPoint t x m a p) = trajectory p ++ [TP t x m a].
Proof.
  intros [H0 [Ht [Hx [Hp Ha]]]]. unfold trajectory, storeTrajectoryPoint; cbn.
  rewrite zip4_app by lia. reflexivity.
Qed.

(* one tracking step appends exactly the new current point *)
Lemma StepVay_trajectory F p q :
  wf p -> StepVay F p = Ok q ->
  trajectory q = trajectory p ++ [current q] /\ pNP q = pNP p + 1 /\
  pdt q = pdt p /\ pqm q = pqm p /\ pqmt2 q = pqmt2 p /\ pCharge q = pCharge p /\ pMass q = pMass p /\
  pt q = nadd (pt p) (pdt p).
Proof.
  intros Hw H. unfold StepVay in H. bstep H. destruct (vay_half _ _ _ _) as [p1 g].
  injection H as <-. rewrite trajectory_store by exact Hw. cbn. auto 10.
Qed.

Lemma StepsVay_trajectory F n p q :
  wf p -> StepsVay F n p = Ok q ->
  wf q /\ exists pts, length pts = n /\ trajectory q = trajectory p ++ pts /\
    (n <> O -> lback pts = Ok (current q)) /\ pNP q = pNP p + Z.of_nat n.
Proof.
  intros Hw. revert q; induction n as [|n IH]; intros q H.
  - cbn in H. injection H as <-. split; [exact Hw|]. exists []. cbn. rewrite app_nil_r.
    repeat split; auto; try lia. 
  - unfold StepsVay in H. rewrite iter_res_S_r in H. bstep H.
    destruct (IH _ Ha) as [Hwa [pts [Hl [Ht [_ HN]]]]].
    assert (Hwq : wf q) by (apply (wf_apply a q (OpStep F)); assumption).
    destruct (StepVay_trajectory F a q Hwa H) as [Htq [HNq _]].
    split; [exact Hwq|]. exists (pts ++ [current q]).
    rewrite app_length, Htq, Ht, app_assoc, lback_app. cbn. repeat split; auto; lia.
Qed.

(* tracking set-up leaves time, position and momentum of all points and all
   but the last acceleration untouched *)
Lemma InitVay_trajectory dt F p q :
  wf p -> InitVay dt F p = Ok q ->
  exists init last a', trajectory p = init ++ [last] /\
    trajectory q = init ++ [TP (tpt last) (tpx last) (tpp last) a'] /\
    current q = TP (tpt last) (tpx last) (tpp last) a' /\
    pNP q = pNP p /\ pCharge q = pCharge p /\ pMass q = pMass p /\ pdt q = dt.
Proof.
  intros [H0 [Ht [Hx [Hp Ha]]]] H. unfold InitVay in H.
  destruct (Z.ltb_spec (pNP p) 1); [discriminate|].
  bget H as t Ht'. bget H as x Hx'. bget H as m Hm'. bget H as eb Heb.
  destruct (vay_half _ _ _ _) as [p1 g]. bget H as acs Hacs.
  injection H as <-.
  apply lback_inv in Ht', Hx', Hm'. destruct Ht' as [ti Hti], Hx' as [xi Hxi], Hm' as [mi Hmi].
  apply set_back_inv in Hacs. destruct Hacs as [ai [b [Hai ->]]].
  rewrite Hti, app_length in Ht. rewrite Hxi, app_length in Hx.
  rewrite Hmi, app_length in Hp. rewrite Hai, app_length in Ha. cbn [length] in *.
  exists (zip4 ti xi mi ai), (TP t x m b), (vay_accel (ndiv (pCharge p) (pMass p) * nirm)%num m (fE eb) (fB eb)).
  unfold trajectory, current; cbn. rewrite Hti, Hxi, Hmi, Hai.
  rewrite !zip4_app by lia. cbn. repeat split; auto.
Qed.
End P.
