(* Access, copies and serialization of particles (any number type). *)
From Coq Require Import ZArith Lia List.
From Verif Require Import Base BaseFacts Num VecModel ParticleModel ParticleSpec ParticleSpec2
  ParticleProofs.
Import ListNotations.
Local Open Scope Z_scope.

Section P.
Context {T : Type} {NT : Num T}.
Implicit Types p q : particle T.

Lemma nth_trajectory p n a : nth_error (trajectory p) n = Some a ->
  nth_error (pTimes p) n = Some (tpt a) /\ nth_error (pXs p) n = Some (tpx a) /\
  nth_error (pPs p) n = Some (tpp a) /\ nth_error (pAs p) n = Some (tpa a).
Proof.
  unfold trajectory. generalize (pTimes p) (pXs p) (pPs p) (pAs p). intros ts.
  revert n; induction ts as [|t ts IH]; intros n [|x xs] [|m ms] [|c acs] H;
    try (destruct n; discriminate H).
  destruct n as [|n]; cbn in *.
  - injection H as <-. cbn. auto.
  - apply (IH n xs ms acs H).
Qed.
Lemma nth_trajectory_inv p n : wf p -> (n < length (trajectory p))%nat ->
  exists a, nth_error (trajectory p) n = Some a.
Proof.
  intros _ H. destruct (nth_error (trajectory p) n) as [a|] eqn:E; [exists a; reflexivity|].
  apply nth_error_None in E. lia.
Qed.

(* C07 *)
Lemma access_inside p i : wf p -> 0 <= i < pNP p ->
  exists a, nth_error (trajectory p) (Z.to_nat i) = Some a /\
    TrajTime p i = Ok (tpt a) /\ TrajPoint p i = Ok (tpx a) /\
    TrajMomentum p i = Ok (tpp a) /\ TrajAccel p i = Ok (tpa a).
Proof.
  intros Hw Hi. pose proof (trajectory_length p Hw) as HL.
  destruct (nth_trajectory_inv p (Z.to_nat i) Hw) as [a Ha]; [lia|].
  exists a. split; [exact Ha|]. destruct (nth_trajectory p _ a Ha) as (A & B & C & D).
  apply zget_nth in A, B, C, D. rewrite Z2Nat.id in A, B, C, D by lia.
  unfold TrajTime, TrajPoint, TrajMomentum, TrajAccel.
  destruct (Z.leb_spec 0 i); [|lia]. destruct (Z.ltb_spec i (pNP p)); [|lia]. cbn [andb]. auto.
Qed.
Lemma access_outside p i : (i < 0 \/ pNP p <= i) ->
  TrajTime p i = Throw IOexc /\ TrajPoint p i = Throw IOexc /\
  TrajMomentum p i = Throw IOexc /\ TrajAccel p i = Throw IOexc.
Proof.
  intros H. unfold TrajTime, TrajPoint, TrajMomentum, TrajAccel.
  destruct (Z.leb_spec 0 i); destruct (Z.ltb_spec i (pNP p)); cbn [andb]; auto; lia.
Qed.
Lemma setup_empty p dt F : wf p -> trajectory p = [] -> InitVay dt F p = Throw RANGEexc.
Proof.
  intros Hw H. pose proof (trajectory_length p Hw) as HL. rewrite H in HL. cbn in HL.
  unfold InitVay. rewrite <- HL. reflexivity.
Qed.
(* set-up of a particle with trajectory only fails if the field does *)
Lemma setup_nonempty p dt F t x m a i :
  wf p -> trajectory p = i ++ [TP t x m a] ->
  match F t x with
  | Ok _ => exists q, InitVay dt F p = Ok q
  | Throw e => InitVay dt F p = Throw e
  | UB => InitVay dt F p = UB
  | Loop => InitVay dt F p = Loop
  end.
Proof.
  intros Hw H. pose proof (trajectory_length p Hw) as HL.
  rewrite H, app_length in HL. cbn [length] in HL.
  assert (Hn : nth_error (trajectory p) (length i) = Some (TP t x m a)).
  { rewrite H, nth_error_app2, Nat.sub_diag by lia. reflexivity. }
  apply nth_trajectory in Hn. destruct Hn as (A & B & C & D). cbn in A, B, C, D.
  destruct Hw as (H0 & Lt & Lx & Lp & La).
  assert (Hb : forall (X : Type) (l : list X) (v : X),
     nth_error l (length i) = Some v -> length l = S (length i) -> lback l = Ok v /\ l <> []).
  { intros X l v Hv HlL. assert (l <> []) by (destruct l; [discriminate|congruence]).
    destruct (lback_ok l H1) as (i' & w & Hl & Hw). split; [|assumption]. rewrite Hw. f_equal.
    assert (length i' = length i) by (rewrite Hl, app_length in HlL; cbn in HlL; lia).
    rewrite Hl, nth_error_app2 in Hv by lia. rewrite H2, Nat.sub_diag in Hv. cbn in Hv. congruence. }
  destruct (Hb _ _ _ A) as [A' _]; [lia|]. destruct (Hb _ _ _ B) as [B' _]; [lia|].
  destruct (Hb _ _ _ C) as [C' _]; [lia|]. destruct (Hb _ _ _ D) as [_ D']; [lia|].
  unfold InitVay. destruct (Z.ltb_spec (pNP p) 1); [lia|]. rewrite A', B', C'. cbn [bind].
  destruct (F t x) as [eb|e| |]; cbn [bind]; try reflexivity.
  destruct (vay_half _ _ _ _). destruct (exists_last D') as (i' & b & Hb'). rewrite Hb', set_back_app.
  eexists; reflexivity.
Qed.

(* ---- equivalence of states is kept by every operation ---- *)
Lemma same_refl p : same_state p p.
Proof. unfold same_state; auto 20. Qed.

Lemma same_trajectory p q : same_state p q -> trajectory q = trajectory p /\ current q = current p.
Proof.
  intros H; unfold same_state in H.
  unfold trajectory, current.
  destruct H as (E1 & E2 & E3 & E4 & E5 & E6 & E7 & E8 & E9 & E10 & E11 & E12 & E13 & E14 & E15 & E16).
  rewrite E7, E8, E9, E10, E11, E12, E13, E14. auto.
Qed.

Lemma same_apply p q (o : pop) :
  same_state p q -> res_rel same_state (apply_op p o) (apply_op q o).
Proof.
  intros (E1 & E2 & E3 & E4 & E5 & E6 & E7 & E8 & E9 & E10 & E11 & E12 & E13 & E14 & E15 & E16).
  destruct o; cbn [apply_op].
  - unfold res_rel, same_state; cbn; auto 20.
  - unfold res_rel, same_state; cbn; auto 20.
  - unfold preAllocate. destruct (n <? 0); [reflexivity|]. unfold res_rel, same_state; cbn; auto 20.
  - unfold res_rel, same_state; cbn. rewrite E6, E11, E12, E13, E14. auto 20.
  - unfold InitVay. rewrite E1, E2, E6, E11, E12, E13, E14.
    destruct (pNP p <? 1); [reflexivity|].
    destruct (lback (pTimes p)); [|reflexivity||exact I..]. cbn [bind].
    destruct (lback (pXs p)); [|reflexivity||exact I..]. cbn [bind].
    destruct (lback (pPs p)); [|reflexivity||exact I..]. cbn [bind].
    destruct (F _ _); [|reflexivity||exact I..]. cbn [bind].
    destruct (vay_half _ _ _ _).
    destruct (set_back _ _); [|reflexivity||exact I..]. cbn [bind].
    unfold res_rel, same_state; cbn; auto 20.
  - unfold StepVay. rewrite E15, E16, E7, E8, E4, E5, E3.
    destruct (F _ _); [|reflexivity||exact I..]. cbn [bind].
    destruct (vay_half _ _ _ _). unfold res_rel, same_state; cbn.
    rewrite E1, E2, E6, E11, E12, E13, E14. auto 20.
  - unfold Shift. rewrite E6, E12. destruct (upd_first _ _ _); [|reflexivity||exact I..]. cbn [bind].
    unfold res_rel, same_state; cbn. rewrite E1, E2, E3, E5, E8. auto 20.
  - unfold Mirror. rewrite E6, E12, E13, E14.
    destruct (upd_first _ _ (pXs p)); [|reflexivity||exact I..]. cbn [bind].
    destruct (upd_first _ _ (pPs p)); [|reflexivity||exact I..]. cbn [bind].
    destruct (upd_first _ _ (pAs p)); [|reflexivity||exact I..]. cbn [bind].
    unfold res_rel, same_state; cbn. rewrite E1, E2, E3, E5, E8, E9, E10. auto 20.
Qed.

Lemma same_run (ops : list pop) p q :
  same_state p q -> res_rel same_state (run_ops ops p) (run_ops ops q).
Proof.
  revert p q; induction ops as [|o ops IH]; intros p q H; [exact H|].
  pose proof (same_apply p q o H) as Ho. unfold run_ops in *. cbn [fold_res].
  destruct (apply_op p o); destruct (apply_op q o); cbn [res_rel bind] in Ho |- *; try contradiction; try assumption.
  apply IH; exact Ho.
Qed.

(* ---- copies ---- *)
Lemma copy_same p n :
  wf p -> pNpre p = Some n -> exists q, copy_particle p = Ok q /\ same_state p q /\ wf q.
Proof.
  intros Hw Hn. pose proof Hw as (H0 & Lt & Lx & Lp & La). unfold copy_particle. rewrite Hn.
  assert (Hl : forall (X : Type) (l : list X), Z.of_nat (length l) = pNP p ->
               (if 0 <? pNP p then l else []) = l).
  { intros X l Hl. destruct (Z.ltb_spec 0 (pNP p)); [reflexivity|]. destruct l; [reflexivity|cbn in Hl; lia]. }
  rewrite !Hl by assumption.
  destruct (Z.ltb_spec (pNP p) n).
  - unfold preAllocate. destruct (Z.ltb_spec n 0); [lia|]. eexists. split; [reflexivity|].
    unfold same_state, wf; cbn. auto 25.
  - eexists. split; [reflexivity|]. unfold same_state, wf; cbn. auto 25.
Qed.

(* every particle built by a constructor of the class, except the one reading a
   trajectory without pre-allocation, has a definite capacity, and the operations
   keep it *)
Lemma npre_apply p q o n : pNpre p = Some n -> apply_op p o = Ok q -> exists m, pNpre q = Some m.
Proof.
  intros Hn H. destruct o; cbn [apply_op] in H.
  - okinj H; cbn; eauto.
  - okinj H; cbn; eauto.
  - unfold preAllocate in H. destruct (n0 <? 0); [discriminate|]. okinj H; cbn; eauto.
  - okinj H; cbn; eauto.
  - unfold InitVay in H. destruct (pNP p <? 1); [discriminate|].
    bget H as t Ht. bget H as x Hx. bget H as m Hm. bget H as eb Heb. destruct (vay_half _ _ _ _).
    bget H as acs Ha. okinj H; cbn; eauto.
  - unfold StepVay in H. bget H as eb Heb. destruct (vay_half _ _ _ _). okinj H; cbn; eauto.
  - unfold Shift in H. bget H as xs Hxs. okinj H; cbn; eauto.
  - unfold Mirror in H. bget H as xs Hxs. bget H as ps Hps. bget H as acs Hacs. okinj H; cbn; eauto.
Qed.
Lemma npre_run ops p q n : pNpre p = Some n -> run_ops ops p = Ok q -> exists m, pNpre q = Some m.
Proof.
  revert p n; induction ops as [|o ops IH]; intros p n Hn H; cbn in H.
  - okinj H. eauto.
  - bget H as r Hr. destruct (npre_apply p r o n Hn Hr) as [m Hm]. eapply IH; eauto.
Qed.

(* ---- serialization ---- *)
Lemma rdv_wrv (v : vec T) r : rdv (wrv v ++ r) = Ok (v, r).
Proof. destruct v; reflexivity. Qed.

Lemma serialize_round_trip p t x m a i :
  wf p -> trajectory p = i ++ [TP t x m a] ->
  exists b, serialize p = Ok b /\ length b = 12%nat /\
    forall rest, exists q, deserialize (b ++ rest) = Ok q /\
      pCharge q = pCharge p /\ pMass q = pMass p /\
      trajectory q = [TP t x m a] /\ current q = TP t x m a.
Proof.
  intros Hw H. pose proof (trajectory_length p Hw) as HL.
  rewrite H, app_length in HL. cbn [length] in HL.
  assert (Hn : nth_error (trajectory p) (length i) = Some (TP t x m a)).
  { rewrite H, nth_error_app2, Nat.sub_diag by lia. reflexivity. }
  apply nth_trajectory in Hn. destruct Hn as (A & B & C & D). cbn in A, B, C, D.
  destruct Hw as (H0 & Lt & Lx & Lp & La).
  assert (Hb : forall (X : Type) (l : list X) (v : X),
     nth_error l (length i) = Some v -> length l = S (length i) -> lback l = Ok v).
  { intros X l v Hv HlL. assert (l <> []) by (destruct l; [discriminate|congruence]).
    destruct (lback_ok l H1) as (i' & w & Hl & Hw). rewrite Hw. f_equal.
    assert (length i' = length i) by (rewrite Hl, app_length in HlL; cbn in HlL; lia).
    rewrite Hl, nth_error_app2 in Hv by lia. rewrite H2, Nat.sub_diag in Hv. cbn in Hv. congruence. }
  apply Hb in A; [|lia]. apply Hb in B; [|lia]. apply Hb in C; [|lia]. apply Hb in D; [|lia].
  unfold serialize. destruct (Z.ltb_spec 0 (pNP p)); [|lia]. rewrite A, B, C, D. cbn [bind].
  eexists. split; [reflexivity|]. split; [reflexivity|].
  intros rest. eexists. split; [|split; [|split; [|split]]].
  - unfold deserialize. rewrite <- !app_assoc. cbn [app rd bind].
    rewrite !rdv_wrv. cbn [bind]. rewrite rdv_wrv. cbn [bind]. rewrite rdv_wrv. reflexivity.
  - reflexivity.
  - reflexivity.
  - cbn. reflexivity.
  - cbn. reflexivity.
Qed.

(* trajectory serialization *)
Definition wpoint (a : tpoint T) : list T := [tpt a] ++ wrv (tpx a) ++ wrv (tpp a) ++ wrv (tpa a).
Lemma ser_points_spec p k i : wf p -> 0 <= i -> i + Z.of_nat k <= pNP p ->
  ser_points p i k = Ok (flat_map wpoint (firstn k (skipn (Z.to_nat i) (trajectory p)))).
Proof.
  intros Hw. pose proof (trajectory_length p Hw) as HL.
  revert i; induction k as [|k IH]; intros i Hi Hk; [reflexivity|].
  cbn [ser_points]. destruct (nth_trajectory_inv p (Z.to_nat i) Hw) as [a Ha]; [lia|].
  destruct (nth_trajectory p _ a Ha) as (A & B & C & D).
  apply zget_nth in A, B, C, D. rewrite Z2Nat.id in A, B, C, D by lia.
  rewrite A, B, C, D. cbn [bind]. rewrite IH by lia. cbn [bind].
  replace (skipn (Z.to_nat i) (trajectory p)) with (a :: skipn (Z.to_nat (i + 1)) (trajectory p)).
  - cbn [firstn flat_map]. unfold wpoint. rewrite <- !app_assoc. reflexivity.
  - replace (Z.to_nat (i + 1)) with (S (Z.to_nat i)) by lia. clear - Ha.
    revert Ha. generalize (trajectory p) (Z.to_nat i). intros l n. revert l.
    induction n as [|n IH]; intros [|b l] H; try discriminate; cbn in H.
    + injection H as <-. reflexivity.
    + cbn [skipn]. rewrite <- (IH l H). reflexivity.
Qed.

Lemma deser_points_spec (pts : list (tpoint T)) rest p :
  wf p ->
  exists q, deser_points (length pts) (flat_map wpoint pts ++ rest) p = Ok q /\
    trajectory q = trajectory p ++ pts /\ pNP q = pNP p + Z.of_nat (length pts) /\ wf q /\
    pTimes q = pTimes p ++ map tpt pts /\ pXs q = pXs p ++ map tpx pts /\
    pPs q = pPs p ++ map tpp pts /\ pAs q = pAs p ++ map tpa pts /\
    pCharge q = pCharge p /\ pMass q = pMass p /\ pqm q = pqm p /\ pdt q = pdt p /\
    pqmt2 q = pqmt2 p /\ pVp q = pVp p /\ pVg q = pVg p /\ pNpre q = pNpre p.
Proof.
  revert p; induction pts as [|a pts IH]; intros p Hw.
  - exists p. cbn. rewrite !app_nil_r, Z.add_0_r. auto 20.
  - cbn [length flat_map deser_points]. unfold wpoint at 1. rewrite <- !app_assoc. cbn [app rd bind].
    rewrite !rdv_wrv. cbn [bind].
    assert (Hw' : wf (storeTrajectoryPoint (tpt a) (tpx a) (tpp a) (tpa a) p)).
    { destruct Hw as (H0 & Lt & Lx & Lp & La). unfold wf. cbn. rewrite !app_length. cbn [length]. lia. }
    rewrite rdv_wrv. cbn [bind]. rewrite rdv_wrv. cbn [bind].
    destruct (IH _ Hw') as (q & Hq & Ht & HN & Hwq & E1 & E2 & E3 & E4 & E5 & E6 & E7 & E8 & E9 & E10 & E11 & E12).
    exists q. split; [exact Hq|]. rewrite trajectory_store in Ht by exact Hw.
    rewrite Ht, HN, E1, E2, E3, E4. cbn [storeTrajectoryPoint pTimes pXs pPs pAs pNP map].
    rewrite <- !app_assoc. destruct a as [a1 a2 a3 a4]; cbn [app tpt tpx tpp tpa] in *.
    repeat split; auto; try apply Hwq; try lia.
Qed.

Lemma map_trajectory p : wf p ->
  map tpt (trajectory p) = pTimes p /\ map tpx (trajectory p) = pXs p /\
  map tpp (trajectory p) = pPs p /\ map tpa (trajectory p) = pAs p.
Proof.
  intros (H0 & Lt & Lx & Lp & La). unfold trajectory.
  assert (Hx : length (pXs p) = length (pTimes p)) by lia.
  assert (Hp : length (pPs p) = length (pTimes p)) by lia.
  assert (Ha : length (pAs p) = length (pTimes p)) by lia.
  revert Hx Hp Ha. generalize (pTimes p) (pXs p) (pPs p) (pAs p). clear. intros ts.
  induction ts as [|t ts IH]; intros [|x xs] [|m ms] [|a acs]; cbn; intros; try lia; auto.
  destruct (IH xs ms acs) as (A & B & C & D); try lia. rewrite A, B, C, D. auto.
Qed.

Lemma traj_round_trip p nPre :
  wf p -> 0 < pNP p -> synced p ->
  exists b, serializeTraj p = Ok b /\ Z.of_nat (length b) = TrajBufSize p /\
    forall rest, exists q, deserializeTraj (b ++ rest) (pNP p) nPre = Ok q /\ same_state p q.
Proof.
  intros Hw Hn Hs. pose proof (trajectory_length p Hw) as HL.
  unfold serializeTraj. rewrite (ser_points_spec p _ 0 Hw) by lia. cbn [bind].
  rewrite (firstn_all2 (n := Z.to_nat (pNP p))) by (cbn [skipn]; rewrite skipn_O; lia).
  rewrite skipn_O.
  eexists. split; [reflexivity|]. split.
  { rewrite !app_length. cbn [length wrv].
    replace (length (flat_map wpoint (trajectory p))) with (10 * length (trajectory p))%nat.
    - unfold TrajBufSize. lia.
    - clear. induction (trajectory p) as [|a l IH]; [reflexivity|].
      cbn [flat_map length]. rewrite app_length. cbn [wpoint wrv app length]. lia. }
  intros rest. unfold deserializeTraj. rewrite <- !app_assoc. cbn [app rd bind].
  rewrite rdv_wrv. cbn [bind app rd].
  set (p0 := mkP _ _ _ _ _ _ _ _ _ _ _ _ _ _ _ _ _ _ _).
  assert (Hpre : exists p1, (if 0 <? nPre then preAllocate nPre p0 else Ok p0) = Ok p1 /\ same_state p0 p1).
  { destruct (Z.ltb_spec 0 nPre); [|exists p0; split; [reflexivity|apply same_refl]].
    unfold preAllocate. destruct (Z.ltb_spec nPre 0); [lia|]. eexists; split; [reflexivity|].
    unfold same_state; cbn; auto 20. }
  destruct Hpre as (p1 & Hp1 & S1). rewrite Hp1. cbn [bind].
  assert (Hw1 : wf p1).
  { destruct S1 as (_ & _ & _ & _ & _ & E6 & _ & _ & _ & _ & E11 & E12 & E13 & E14 & _).
    unfold wf. rewrite E6, E11, E12, E13, E14. cbn. lia. }
  destruct (deser_points_spec (trajectory p) rest p1 Hw1)
    as (q & Hq & Ht & HN & Hwq & E1 & E2 & E3 & E4 & E5 & E6 & E7 & E8 & E9 & E10 & E11 & E12).
  replace (Z.to_nat (pNP p)) with (length (trajectory p)) by lia.
  rewrite Hq. cbn [bind].
  destruct S1 as (F1 & F2 & F3 & F4 & F5 & F6 & F7 & F8 & F9 & F10 & F11 & F12 & F13 & F14 & F15 & F16).
  destruct (map_trajectory p Hw) as (M1 & M2 & M3 & M4).
  rewrite F11, M1 in E1. rewrite F12, M2 in E2. rewrite F13, M3 in E3. rewrite F14, M4 in E4.
  cbn [p0 pTimes pXs pPs pAs app] in E1, E2, E3, E4.
  destruct Hs as [Hs|(S1 & S2 & S3 & S4)]; [lia|].
  rewrite E1, E2, E3, E4, S1, S2, S3, S4. cbn [bind]. eexists. split; [reflexivity|].
  unfold same_state. cbn.
  rewrite E5, E6, E7, E8, E9, E10, E11, HN, F1, F2, F3, F4, F5, F6, F15, F16, HL.
  cbn. auto 20.
Qed.
End P.
