(* Proofs about beams. *)
From Coq Require Import ZArith List Lia Bool Permutation.
From Verif Require Import Base BaseFacts Num VecModel ParticleModel ParticleSpec ParticleProofs ParticleSpec2
  ParticleProofs2 BunchModel BunchSpec BeamSpec DistProofs.
Import ListNotations.
Local Open Scope Z_scope.
Local Open Scope res_scope.

Section B.
Context {T : Type} {NT : Num T}.
Implicit Types (p q : particle T) (b : bunch T) (bm : beam T).

(* ---- each ---- *)
Lemma each_map {A C} (g : A -> C) (f : A -> res A) l :
  (forall a a', f a = Ok a' -> g a' = g a) -> map g (fst (each f l)) = map g l.
Proof.
  intros H. induction l as [|a l IH]; [reflexivity|]. cbn [each]. destruct (f a) as [a'| | |] eqn:E; auto.
  destruct (each f l) as [r o]. cbn [fst map] in *. rewrite (H a a' E). f_equal. exact IH.
Qed.
Lemma each_st_map {A C} (g : A -> C) (f : A -> A * res unit) l :
  (forall a, g (fst (f a)) = g a) -> map g (fst (each_st f l)) = map g l.
Proof.
  intros H. induction l as [|a l IH]; [reflexivity|]. cbn [each_st]. specialize (H a) as Ha.
  destruct (f a) as [a' [[]| | |]] eqn:E; cbn [fst] in *; cbn [map]; try (rewrite Ha; reflexivity).
  destruct (each_st f l) as [r o]. cbn [fst map] in *. rewrite Ha. f_equal. exact IH.
Qed.
Lemma each_ok {A} (f : A -> res A) l l' : each f l = (l', Ok tt) -> map_res f l = Ok l'.
Proof.
  revert l'. induction l as [|a l IH]; intros l' H; cbn [each] in H; [injection H as <-; reflexivity|].
  cbn [map_res]. destruct (f a) as [a'| | |]; try (injection H; discriminate).
  cbn [bind]. destruct (each f l) as [r o]. injection H as <- ->. rewrite (IH r eq_refl). reflexivity.
Qed.

(* ---- charges ---- *)
Lemma InitVay_charge dt F p q : InitVay dt F p = Ok q -> pCharge q = pCharge p.
Proof.
  unfold InitVay. destruct (pNP p <? 1); [discriminate|]. intros H. repeat bstep H.
  destruct (vay_half _ _ _ _). bstep H. injection H as <-. reflexivity.
Qed.
Lemma StepVay_charge F p q : StepVay F p = Ok q -> pCharge q = pCharge p.
Proof.
  unfold StepVay. intros H. repeat bstep H. destruct (vay_half _ _ _ _). injection H as <-. reflexivity.
Qed.
Lemma preAllocate_charge n p q : preAllocate n p = Ok q -> pCharge q = pCharge p.
Proof. unfold preAllocate. destruct (n <? 0); [discriminate|]. intros H. injection H as <-. reflexivity. Qed.
Lemma copy_charge p q : copy_particle p = Ok q -> pCharge q = pCharge p.
Proof.
  unfold copy_particle. destruct (pNpre p); [|discriminate]. destruct (pNP p <? z).
  - intros H. apply preAllocate_charge in H. exact H.
  - intros H. injection H as <-. reflexivity.
Qed.
Lemma map_res_map {A B C} (f : A -> res B) (g : A -> C) (h : B -> C) l l' :
  (forall a (y : B), f a = Ok y -> h y = g a) -> map_res f l = Ok l' -> map h l' = map g l.
Proof.
  intros H. revert l'. induction l as [|a l IH]; intros l' E; cbn [map_res] in E.
  - injection E as <-. reflexivity.
  - bget E as x Hx. bget E as xs Hxs. injection E as <-. cbn. rewrite (H a x Hx), (IH xs Hxs). reflexivity.
Qed.

Lemma setStep_charge b : forall buf b' r, bunch_setStep b buf = Ok (b', r) -> map pCharge b' = map pCharge b.
Proof.
  induction b as [|p b IH]; intros buf b' r H; cbn [bunch_setStep] in H.
  - injection H as <- _. reflexivity.
  - do 4 (match type of H with bind ?m _ = _ => destruct m as [[? ?]| | |]; cbn [bind] in H; try discriminate end).
    bget H as x Hx. destruct x as [r' buf']. injection H as <- _. cbn [map]. f_equal. apply IH in Hx. exact Hx.
Qed.
Lemma setBunches_charge (bs : list (bunch T)) : forall buf bs' r, beam_setBunches bs buf = Ok (bs', r) -> charges bs' = charges bs.
Proof.
  induction bs as [|b bs IH]; intros buf bs' r H; cbn [beam_setBunches] in H.
  - injection H as <- _. reflexivity.
  - bget H as x Hx. destruct x as [b' buf']. bget H as y Hy. destruct y as [r' buf'']. injection H as <- _.
    unfold charges in *. cbn [map]. apply setStep_charge in Hx. rewrite Hx. f_equal. apply (IH _ _ _ Hy).
Qed.

Lemma apply_beam_charges bm o : charges (bmB (fst (apply_beam bm o))) = charges (bmB bm).
Proof.
  destruct o as [F|F|buf| |n]; cbn [apply_beam].
  - unfold beam_setup. destruct (bmTracker bm); try reflexivity.
    pose proof (each_st_map (map pCharge) (bunch_InitVay (bmdt bm) F) (bmB bm)) as H.
    destruct (each_st _ _) as [bs o]. cbn [fst bmB] in *. apply H. intros b.
    apply each_map. apply InitVay_charge.
  - unfold beam_step. destruct (iadd _ _); try reflexivity. destruct (bmTracker bm); try reflexivity.
    pose proof (each_st_map (map pCharge) (bunch_StepVay F) (bmB bm)) as H.
    destruct (each_st _ _) as [bs o]. cbn [fst bmB] in *. apply H. intros b.
    apply each_map. apply StepVay_charge.
  - destruct (beam_setStep buf bm) as [[bm' r]| | |] eqn:E; try reflexivity. unfold beam_setStep in E.
    bget E as x Hx. destruct x as [bs rest]. bget E as n Hn. injection E as <- _. cbn [fst bmB].
    apply (setBunches_charge _ _ _ _ Hx).
  - unfold charges. cbn [fst beam_clearTrajectories bmB]. rewrite map_map. apply map_ext. intros b.
    unfold bunch_clear. rewrite map_map. reflexivity.
  - destruct (beam_preAllocate n bm) as [bm'| | |] eqn:E; try reflexivity. unfold beam_preAllocate in E.
    bget E as bs Hbs. injection E as <-. cbn [fst bmB]. unfold charges.
    apply (map_res_map _ (map pCharge) (map pCharge) _ _) in Hbs; [exact Hbs|].
    intros a c Ha. apply (map_res_map _ pCharge pCharge) in Ha; [exact Ha|]. apply preAllocate_charge.
Qed.
Lemma run_catch_charges ops bm : charges (bmB (run_beam_catch ops bm)) = charges (bmB bm).
Proof.
  revert bm. induction ops as [|o ops IH]; intros bm; [reflexivity|]. cbn [run_beam_catch].
  rewrite IH. apply apply_beam_charges.
Qed.
Lemma charges_lengths (l l' : list (bunch T)) : charges l = charges l' -> map (@length _) l = map (@length _) l'.
Proof.
  intros H. apply (f_equal (map (@length _))) in H. unfold charges in H. rewrite !map_map in H.
  erewrite map_ext in H by (intros; apply map_length). symmetry in H.
  erewrite map_ext in H by (intros; apply map_length). symmetry. exact H.
Qed.

(* ---- numbers ---- *)
Lemma fold_iadd (l : list (bunch T)) : forall s, 0 <= s ->
  fold_res (fun s b => iadd s (bunch_NOP b)) l s =
  if s + Z.of_nat (length (concat l)) <=? int_max then Ok (s + Z.of_nat (length (concat l)))
  else match l with [] => Ok s | _ => UB end.
Proof.
  pose proof dint as [Bm BM].
  induction l as [|b l IH]; intros s Hs; cbn [fold_res concat].
  - cbn [length]. rewrite Z.add_0_r. destruct (s <=? int_max); reflexivity.
  - unfold iadd at 1. unfold bunch_NOP at 1. rewrite app_length, Nat2Z.inj_add.
    destruct (Z_le_dec (s + Z.of_nat (length b)) int_max) as [L|L].
    + rewrite to_int_in by lia. cbn [bind]. rewrite IH by lia.
      destruct (Z.leb_spec (s + Z.of_nat (length b) + Z.of_nat (length (concat l))) int_max).
      * destruct (Z.leb_spec (s + (Z.of_nat (length b) + Z.of_nat (length (concat l)))) int_max); [|lia].
        f_equal. lia.
      * destruct (Z.leb_spec (s + (Z.of_nat (length b) + Z.of_nat (length (concat l)))) int_max); [lia|].
        destruct l; [cbn in *; lia|reflexivity].
    + destruct (Z.leb_spec (s + (Z.of_nat (length b) + Z.of_nat (length (concat l)))) int_max); [lia|].
      unfold to_int, in_int. destruct (Z.leb_spec (s + Z.of_nat (length b)) int_max); [lia|].
      rewrite andb_false_r. reflexivity.
Qed.
Lemma beam_NOP_ok bm : count bm <= int_max -> beam_NOP bm = Ok (count bm).
Proof.
  intros H. unfold beam_NOP. rewrite fold_iadd by lia. unfold count in *. rewrite Z.add_0_l.
  destruct (Z.leb_spec (Z.of_nat (length (concat (bmB bm)))) int_max); [reflexivity|lia].
Qed.

(* ---- step buffer ---- *)
Lemma step_length p : length (particle_step p) = 10%nat.
Proof. reflexivity. Qed.
Lemma bunch_step_length b : length (bunch_bufferStep b) = (10 * length b)%nat.
Proof.
  unfold bunch_bufferStep. induction b as [|p b IH]; [reflexivity|]. cbn [flat_map]. rewrite app_length, step_length, IH. cbn. lia.
Qed.
Lemma beam_step_length bm : Z.of_nat (length (beam_bufferStep bm)) = 10 * count bm.
Proof.
  unfold beam_bufferStep, count. induction (bmB bm) as [|b l IH]; [reflexivity|].
  cbn [flat_map concat]. rewrite !app_length, bunch_step_length. lia.
Qed.

Lemma setStep_ok : forall (src b : bunch T) rest, length src = length b -> Forall wf b ->
  exists b', bunch_setStep b (bunch_bufferStep src ++ rest) = Ok (b', rest) /\ Forall wf b' /\
    Forall2 (fun c pq => appended c (fst pq) (snd pq)) (map current src) (combine b b') /\ length b' = length b.
Proof.
  induction src as [|p src IH]; intros [|q b] rest HL HW; try discriminate.
  - exists []. split; [reflexivity|]. split; [constructor|]. split; [constructor|reflexivity].
  - inversion HW as [|? ? Wq Wb]. subst. injection HL as HL.
    destruct (IH b rest HL Wb) as (b' & E & W' & F & L).
    assert (R : bunch_setStep (q :: b) (bunch_bufferStep (p :: src) ++ rest) =
      bind (bunch_setStep b (bunch_bufferStep src ++ rest)) (fun '(r', buf) =>
         Ok (storeTrajectoryPoint (pt p) (pX p) (pP p) (pA p) (setCurrentPoint (pt p) (pX p) (pP p) (pA p) q) :: r', buf))).
    { unfold bunch_bufferStep. cbn [flat_map]. rewrite <- app_assoc. unfold particle_step at 1.
      cbn [app]. rewrite <- !app_assoc. cbn [bunch_setStep rd bind].
      rewrite rdv_wrv. cbn [bind]. rewrite rdv_wrv. cbn [bind]. rewrite rdv_wrv. reflexivity. }
    rewrite R, E. cbn [bind]. eexists. split; [reflexivity|]. split; [|split].
    + constructor; [|exact W'].
      exact (wf_apply q _ (OpFromBuffer (pt p) (pX p) (pP p) (pA p)) Wq eq_refl).
    + cbn [map combine]. constructor; [|exact F]. cbn [fst snd]. split; [|split].
      * rewrite trajectory_store; [reflexivity|]. exact Wq.
      * reflexivity.
      * repeat split; reflexivity.
    + cbn [length]. rewrite L. reflexivity.
Qed.

Lemma setBunches_ok : forall (src bs : list (bunch T)) rest,
  map (@length _) src = map (@length _) bs -> Forall (Forall wf) bs ->
  exists bs', beam_setBunches bs (flat_map bunch_bufferStep src ++ rest) = Ok (bs', rest) /\
    Forall (Forall wf) bs' /\ map (@length _) bs' = map (@length _) bs /\
    Forall2 (fun c pq => appended c (fst pq) (snd pq)) (map current (concat src)) (combine (concat bs) (concat bs')).
Proof.
  induction src as [|s src IH]; intros [|b bs] rest HL HW; try discriminate.
  - exists []. repeat split; constructor.
  - inversion HW as [|? ? Wb Wbs]. subst. injection HL as HL1 HL.
    destruct (IH bs rest HL Wbs) as (bs' & E & W' & L' & F').
    destruct (setStep_ok s b (flat_map bunch_bufferStep src ++ rest) HL1 Wb) as (b' & E1 & W1 & F1 & L1).
    cbn [flat_map beam_setBunches]. rewrite <- app_assoc, E1. cbn [bind]. rewrite E. cbn [bind].
    exists (b' :: bs'). split; [reflexivity|]. split; [constructor; assumption|].
    split; [cbn [map]; f_equal; assumption|].
    cbn [concat]. rewrite map_app.
    assert (C : combine (b ++ concat bs) (b' ++ concat bs') = combine b b' ++ combine (concat bs) (concat bs')).
    { revert L1. clear. revert b'. induction b as [|x b IH]; intros [|y b'] L; try discriminate; [reflexivity|].
      cbn [app combine]. f_equal. apply IH. injection L; auto. }
    rewrite C. apply Forall2_app; assumption.
Qed.

Lemma exchange_ok src bm rest : same_structure src bm -> wf_beam bm -> int_min <= bmNOTS bm < int_max ->
  exists bm', beam_setStep (beam_bufferStep src ++ rest) bm = Ok (bm', rest) /\ wf_beam bm' /\
    same_structure bm bm' /\
    Forall2 (fun c pq => appended c (fst pq) (snd pq)) (map current (concat (bmB src)))
      (combine (concat (bmB bm)) (concat (bmB bm'))) /\
    bmNOTS bm' = bmNOTS bm + 1 /\ bmdt bm' = bmdt bm /\ bmTracker bm' = bmTracker bm.
Proof.
  intros HS HW HN. destruct (setBunches_ok (bmB src) (bmB bm) rest HS HW) as (bs & E & W & L & F).
  unfold beam_setStep, beam_bufferStep. rewrite E. cbn [bind]. unfold iadd. rewrite to_int_in by lia. cbn [bind].
  eexists. split; [reflexivity|]. cbn. split; [exact W|]. split; [symmetry; exact L|]. auto.
Qed.

(* ---- state machine ---- *)
Lemma iadd_ok a z : iadd a 1 = Ok z -> z = a + 1.
Proof. unfold iadd, to_int. destruct (in_int (a + 1)); [|discriminate]. intros H. injection H as <-. reflexivity. Qed.

Lemma apply_beam_counter bm o bm' : apply_beam bm o = (bm', Ok tt) ->
  bmNOTS bm' = steps_since [o] (bmNOTS bm) /\ bmTracker bm' = bmTracker bm /\ bmdt bm' = bmdt bm.
Proof.
  destruct o as [F|F|buf| |n]; cbn [apply_beam steps_since]; intros H.
  - unfold beam_setup in H. destruct (bmTracker bm) eqn:ET; try discriminate H.
    destruct (each_st _ _) as [bs o]. injection H as <- _. cbn. auto.
  - unfold beam_step in H. destruct (iadd (bmNOTS bm) 1) as [z| | |] eqn:E; try discriminate H.
    apply iadd_ok in E. destruct (bmTracker bm) eqn:ET; try discriminate H.
    destruct (each_st _ _) as [bs o]. injection H as <- _. cbn. auto.
  - destruct (beam_setStep buf bm) as [[b2 r]| | |] eqn:E; try discriminate H. injection H as <-.
    unfold beam_setStep in E. bget E as x Hx. destruct x. bget E as z Hz. injection E as <- _.
    apply iadd_ok in Hz. cbn. auto.
  - injection H as <-. cbn. auto.
  - destruct (beam_preAllocate n bm) as [b2| | |] eqn:E; try discriminate H. injection H as <-.
    unfold beam_preAllocate in E. bget E as x Hx. injection E as <-. cbn. auto.
Qed.
Lemma steps_since_cons (o : @beam_op T) ops n : steps_since (o :: ops) n = steps_since ops (steps_since [o] n).
Proof. destruct o; reflexivity. Qed.
Lemma run_beam_counter (ops : list (@beam_op T)) : forall bm bm', run_beam ops bm = Some bm' ->
  bmNOTS bm' = steps_since ops (bmNOTS bm) /\ bmTracker bm' = bmTracker bm /\ bmdt bm' = bmdt bm.
Proof.
  induction ops as [|o ops IH]; intros bm bm' H; cbn [run_beam] in H; [injection H as <-; auto|].
  destruct (apply_beam bm o) as [b1 [[]| | |]] eqn:E; try discriminate.
  apply apply_beam_counter in E. destruct E as (E1 & E2 & E3). apply IH in H. destruct H as (H1 & H2 & H3).
  rewrite steps_since_cons, <- E1. split; [exact H1|]. split; congruence.
Qed.

Lemma not_vay bm F : bmTracker bm <> TRACKING_VAY ->
  beam_setup F bm = (bm, Throw IOexc) /\
  (int_min <= bmNOTS bm < int_max ->
   beam_step F bm = (BM (bmB bm) (bmNOTS bm + 1) (bmdt bm) (bmTracker bm), Throw IOexc)).
Proof.
  intros H. split.
  - unfold beam_setup. destruct (bmTracker bm); congruence.
  - intros HN. unfold beam_step, iadd. rewrite to_int_in by lia. destruct (bmTracker bm); congruence.
Qed.
End B.
