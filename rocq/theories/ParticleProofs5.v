(* Lengths of the serialization buffers, and steps of a particle which was not set up. *)
From Coq Require Import ZArith Reals Lra Lia List.
From Verif Require Import Base BaseFacts Num VecModel VecFacts ParticleModel ParticleSpec ParticleProofs.
Import ListNotations.

Section Any.
Context {T : Type} {NT : Num T}.

Lemma rd_cases (b : list T) : (b = [] /\ rd b = UB) \/ (exists x r, b = x :: r /\ rd b = Ok (x, r)).
Proof. destruct b; [left; auto|right; eauto]. Qed.
Lemma rdv_cases (b : list T) : ((length b < 3)%nat /\ rdv b = UB) \/ (exists v r, length b = (3 + length r)%nat /\ rdv b = Ok (v, r)).
Proof.
  destruct b as [|x [|y [|z r]]]; try (left; split; [cbn; lia|reflexivity]).
  right. exists (V x y z), r. split; reflexivity.
Qed.

Lemma deserialize_length (b : list T) :
  if (length b <? 12)%nat then deserialize b = UB else exists p, deserialize b = Ok p.
Proof.
  destruct (Nat.ltb_spec (length b) 12) as [L|L].
  - unfold deserialize.
    destruct (rd_cases b) as [[_ H]|[x0 [b0 [-> H]]]]; rewrite H; [reflexivity|]. cbn [bind length] in *.
    destruct (rd_cases b0) as [[_ H1]|[x1 [b1 [-> H1]]]]; rewrite H1; [reflexivity|]. cbn [bind length] in *.
    destruct (rd_cases b1) as [[_ H2]|[x2 [b2 [-> H2]]]]; rewrite H2; [reflexivity|]. cbn [bind length] in *.
    destruct (rdv_cases b2) as [[_ H3]|[v3 [b3 [E3 H3]]]]; rewrite H3; [reflexivity|]. cbn [bind].
    destruct (rdv_cases b3) as [[_ H4]|[v4 [b4 [E4 H4]]]]; rewrite H4; [reflexivity|]. cbn [bind].
    destruct (rdv_cases b4) as [[_ H5]|[v5 [b5 [E5 H5]]]]; rewrite H5; [reflexivity|]. lia.
  - do 12 (destruct b as [|? b]; [cbn in L; lia|]). eexists. reflexivity.
Qed.

Lemma deser_points_length : forall k (b : list T) p,
  if (length b <? 10 * k)%nat then deser_points k b p = UB
  else exists q, deser_points k b p = Ok q /\ (pTimes q <> [] \/ k = O) /\
    (pXs q <> [] \/ k = O) /\ (pPs q <> [] \/ k = O) /\ (pAs q <> [] \/ k = O).
Proof.
  assert (G : forall k (b : list T) p, (length b < 10 * k)%nat -> deser_points k b p = UB).
  { induction k as [|k IH]; intros b p L; [lia|]. cbn [deser_points].
    destruct (rd_cases b) as [[_ H]|[x0 [b0 [-> H]]]]; rewrite H; [reflexivity|]. cbn [bind length] in *.
    destruct (rdv_cases b0) as [[_ H3]|[v3 [b3 [E3 H3]]]]; rewrite H3; [reflexivity|]. cbn [bind].
    destruct (rdv_cases b3) as [[_ H4]|[v4 [b4 [E4 H4]]]]; rewrite H4; [reflexivity|]. cbn [bind].
    destruct (rdv_cases b4) as [[_ H5]|[v5 [b5 [E5 H5]]]]; rewrite H5; [reflexivity|]. cbn [bind].
    apply IH. lia. }
  assert (K : forall k (b : list T) p, (10 * k <= length b)%nat -> exists q, deser_points k b p = Ok q /\
    (exists l, pTimes q = pTimes p ++ l /\ length l = k) /\ (exists l, pXs q = pXs p ++ l /\ length l = k) /\
    (exists l, pPs q = pPs p ++ l /\ length l = k) /\ (exists l, pAs q = pAs p ++ l /\ length l = k)).
  { induction k as [|k IH]; intros b p L.
    - exists p. split; [reflexivity|]. repeat split; exists []; rewrite app_nil_r; auto.
    - do 10 (destruct b as [|? b]; [cbn in L; lia|]). cbn [deser_points rd rdv bind].
      destruct (IH b (storeTrajectoryPoint t (V t0 t1 t2) (V t3 t4 t5) (V t6 t7 t8) p)) as
        [q [Hq [[l1 [E1 L1]] [[l2 [E2 L2]] [[l3 [E3 L3]] [l4 [E4 L4]]]]]]]; [cbn [length] in L; lia|].
      exists q. split; [exact Hq|]. cbn [storeTrajectoryPoint pTimes pXs pPs pAs] in *.
      rewrite <- app_assoc in E1, E2, E3, E4.
      split; [exists (t :: l1)|split; [eexists (_ :: l2)|split; [eexists (_ :: l3)|eexists (_ :: l4)]]];
        (split; [eassumption|cbn; congruence]). }
  intros k b p. destruct (Nat.ltb_spec (length b) (10 * k)); [apply G; assumption|].
  destruct (K k b p) as [q [Hq [[l1 [E1 L1]] [[l2 [E2 L2]] [[l3 [E3 L3]] [l4 [E4 L4]]]]]]]; [lia|].
  exists q. split; [exact Hq|].
  assert (N : forall A (l0 l : list A) , length l = k -> l0 ++ l <> [] \/ k = O).
  { intros A l0 l L. destruct k; [right; reflexivity|left]. destruct l; [discriminate|]. destruct l0; discriminate. }
  rewrite E1, E2, E3, E4. repeat split; apply N; assumption.
Qed.

Lemma lback_some {A} (l : list A) : l <> [] -> exists a, lback l = Ok a.
Proof.
  intros H. destruct (exists_last H) as [i [a ->]]. exists a. apply lback_app.
Qed.

Lemma deserializeTraj_length (b : list T) nTraj nPre : (1 <= nTraj)%Z ->
  if (Z.of_nat (length b) <? 9 + 10 * nTraj)%Z then deserializeTraj b nTraj nPre = UB
  else exists p, deserializeTraj b nTraj nPre = Ok p.
Proof.
  intros HN. unfold deserializeTraj.
  assert (PA : forall p0 : particle T, exists p1, (if (0 <? nPre)%Z then preAllocate nPre p0 else Ok p0) = Ok p1).
  { intros p0. destruct (Z.ltb_spec 0 nPre); [|eauto]. unfold preAllocate. destruct (Z.ltb_spec nPre 0); [lia|eauto]. }
  destruct (Z.ltb_spec (Z.of_nat (length b)) (9 + 10 * nTraj)) as [L|L].
  - destruct (rd_cases b) as [[_ H]|[x0 [b0 [-> H]]]]; rewrite H; [reflexivity|]. cbn [bind length] in *.
    destruct (rd_cases b0) as [[_ H1]|[x1 [b1 [-> H1]]]]; rewrite H1; [reflexivity|]. cbn [bind length] in *.
    destruct (rd_cases b1) as [[_ H2]|[x2 [b2 [-> H2]]]]; rewrite H2; [reflexivity|]. cbn [bind length] in *.
    destruct (rd_cases b2) as [[_ H3]|[x3 [b3 [-> H3]]]]; rewrite H3; [reflexivity|]. cbn [bind length] in *.
    destruct (rd_cases b3) as [[_ H4]|[x4 [b4 [-> H4]]]]; rewrite H4; [reflexivity|]. cbn [bind length] in *.
    destruct (rdv_cases b4) as [[_ H5]|[v5 [b5 [E5 H5]]]]; rewrite H5; [reflexivity|]. cbn [bind].
    destruct (rd_cases b5) as [[_ H6]|[x6 [b6 [-> H6]]]]; rewrite H6; [reflexivity|]. cbn [bind length] in *.
    match goal with |- context [if (0 <? nPre)%Z then preAllocate nPre ?p else _] => destruct (PA p) as [p1 ->] end.
    cbn [bind]. pose proof (deser_points_length (Z.to_nat nTraj) b6 p1) as D.
    destruct (Nat.ltb_spec (length b6) (10 * Z.to_nat nTraj)); [rewrite D; reflexivity|].
    exfalso. clear D. rewrite E5 in L. lia.
  - do 9 (destruct b as [|? b]; [cbn [length] in L; lia|]). cbn [rd rdv bind].
    match goal with |- context [if (0 <? nPre)%Z then preAllocate nPre ?p else _] => destruct (PA p) as [p1 ->] end.
    cbn [bind]. pose proof (deser_points_length (Z.to_nat nTraj) b p1) as D.
    destruct (Nat.ltb_spec (length b) (10 * Z.to_nat nTraj)); [cbn [length] in L; lia|].
    destruct D as [q [-> [D1 [D2 [D3 D4]]]]]. cbn [bind].
    destruct (lback_some (pTimes q)) as [a1 ->]; [destruct D1; [assumption|lia]|].
    destruct (lback_some (pXs q)) as [a2 ->]; [destruct D2; [assumption|lia]|].
    destruct (lback_some (pPs q)) as [a3 ->]; [destruct D3; [assumption|lia]|].
    destruct (lback_some (pAs q)) as [a4 ->]; [destruct D4; [assumption|lia]|].
    eexists. reflexivity.
Qed.
End Any.

(* a step of a particle with one given point and no set-up *)
Lemma step_without_setup charge mass t x m a (F : field_fn R) e b :
  F t x = Ok (EB e b) ->
  exists q a', StepVay F (initTrajectory t x m a (new_particle charge mass)) = Ok q /\
    trajectory q = [TP t x m a; TP t x (V 0 0 0)%R a'] /\ pNP q = 2%Z.
Proof.
  intros HF. unfold StepVay. cbn [initTrajectory new_particle pVp pVg pt pX pdt pqmt2 pqm pNP pNpre pCharge pMass].
  replace (nadd t (nZ 0)) with t by (cbn; ring).
  assert (E : vadd x (vmul (vmul (vdiv vzero (nZ 1)) nc) (nZ 0)) = x).
  { destruct x as [x1 x2 x3]. unfold vadd, vmul, vdiv, vzero. cbn [vx vy vz]. generalize (nc : R). intros k. cbn. f_equal; field. }
  rewrite E, HF. cbn [bind fE fB].
  destruct (vay_half _ _ _ _) as [p1 g]. eexists. eexists. split; [reflexivity|]. split; [|reflexivity].
  unfold trajectory. cbn [storeTrajectoryPoint pTimes pXs pPs pAs initTrajectory app zip4].
  do 2 f_equal. f_equal.
  destruct e as [e1 e2 e3], b as [b1 b2 b3]. unfold vadd, vmul, vdiv, vzero, vcross. cbn [vx vy vz].
  generalize (nc : R). intros k. f_equal; cbn; unfold Rdiv; rewrite ?Rinv_1; ring.
Qed.
