(* What the checks of teufel.RadPush.cpp and teufel.undulator.cpp accept. *)
From Coq Require Import ZArith Reals Lra Lia List Bool.
From Verif Require Import Base BaseFacts Num VecModel VecFacts ParticleModel ParticleSpec ParticleProofs ElementModel TestModel TestProofs.
Import ListNotations.
Local Open Scope R_scope.

Definition smallest (m : R) (l : list R) : Prop := In m l /\ forall x, In x l -> m <= x.
Definition largest (m : R) (l : list R) : Prop := In m l /\ forall x, In x l -> x <= m.
Lemma smallest_unique l a b : smallest a l -> smallest b l -> a = b.
Proof. intros [A1 A2] [B1 B2]. apply Rle_antisym; auto. Qed.
Lemma largest_unique l a b : largest a l -> largest b l -> a = b.
Proof. intros [A1 A2] [B1 B2]. apply Rle_antisym; auto. Qed.
Lemma smallest_snoc l m x : smallest m l -> smallest (if Rltb x m then x else m) (l ++ [x]).
Proof.
  intros [A B]. unfold Rltb. destruct (Rlt_dec x m) as [H|H].
  - split; [apply in_app_iff; right; left; reflexivity|]. intros y Hy. apply in_app_iff in Hy. destruct Hy as [Hy|[<-|[]]]; [specialize (B y Hy)|]; lra.
  - split; [apply in_app_iff; left; exact A|]. intros y Hy. apply in_app_iff in Hy. destruct Hy as [Hy|[<-|[]]]; [exact (B y Hy)|lra].
Qed.
Lemma largest_snoc l m x : largest m l -> largest (if Rltb m x then x else m) (l ++ [x]).
Proof.
  intros [A B]. unfold Rltb. destruct (Rlt_dec m x) as [H|H].
  - split; [apply in_app_iff; right; left; reflexivity|]. intros y Hy. apply in_app_iff in Hy. destruct Hy as [Hy|[<-|[]]]; [specialize (B y Hy)|]; lra.
  - split; [apply in_app_iff; left; exact A|]. intros y Hy. apply in_app_iff in Hy. destruct Hy as [Hy|[<-|[]]]; [exact (B y Hy)|lra].
Qed.

Definition xs (p : particle R) : list R := map (fun q => vx (tpx q)) (trajectory p).
Definition bxs (p : particle R) : list R := map (fun q => vx (tpp q)) (trajectory p).
Definition bzs (p : particle R) : list R := map (fun q => vz (tpp q)) (trajectory p).
Definition extreme (p : particle R) (e : extremes) : Prop :=
  smallest (xmin e) (xs p) /\ largest (xmax e) (xs p) /\ smallest (bgxmin e) (bxs p) /\ largest (bgxmax e) (bxs p) /\ largest (bgzmax e) (bzs p).

Lemma rad_steps F : forall n p q e, wf p -> extreme p e -> StepsVay F n p = Ok q ->
  exists e', iter_res (rad_step F) n (p, e) = Ok (q, e') /\ extreme q e'.
Proof.
  induction n as [|n IH]; intros p q e Hw He H.
  - cbn in H. apply Ok_inj in H. subst q. exists e. split; [reflexivity|exact He].
  - unfold StepsVay in H. rewrite iter_res_S_r in H. bget H as r Hr. destruct (IH p r e Hw He Hr) as (e1 & E1 & X1).
    destruct (StepsVay_trajectory F n p r Hw Hr) as (Hwr & _). destruct (StepVay_trajectory F r q Hwr H) as (Tq & _).
    rewrite iter_res_S_r, E1. cbn [bind]. unfold rad_step. cbn [fst snd]. rewrite H. cbn [bind]. eexists. split; [reflexivity|].
    destruct X1 as (A & B & C & D & G). unfold extreme, xs, bxs, bzs in *. rewrite Tq, !map_app. cbn [map current tpx tpp xmin xmax bgxmin bgxmax bgzmax].
    refine (conj _ (conj _ (conj _ (conj _ _)))); [apply (smallest_snoc _ _ (vx (pX q)))|apply (largest_snoc _ _ (vx (pX q)))|apply (smallest_snoc _ _ (vx (pP q)))|
      apply (largest_snoc _ _ (vx (pP q)))|apply (largest_snoc _ _ (vz (pP q)))]; assumption.
Qed.
Lemma fails_iff a b : fails (gtb a b) = 0%Z <-> a <= b.
Proof. unfold fails, gtb. cbn. unfold Rltb. destruct (Rlt_dec b a); split; intros; try lra; try discriminate; reflexivity. Qed.
Lemma fails_or a b c d : fails (gtb a b || gtb c d) = 0%Z <-> a <= b /\ c <= d.
Proof. unfold fails, gtb. cbn. unfold Rltb. destruct (Rlt_dec b a), (Rlt_dec d c); cbn; split; intros; try lra; try discriminate; try reflexivity. Qed.
Lemma fails_01 b : (0 <= fails b <= 1)%Z.
Proof. destruct b; cbn; lia. Qed.

(* the points more than one period inside the undulator *)
Definition inside (lambda L : R) (q : tpoint R) : bool := Rltb lambda (vz (tpx q)) && Rltb (vz (tpx q)) (L - lambda).
Definition inner_xs (lambda L : R) (p : particle R) : list R := 0 :: map (fun q => vx (tpx q)) (filter (inside lambda L) (trajectory p)).
Lemma und_steps F lambda N : forall n p q m, wf p -> largest m (inner_xs lambda (N * lambda) p) -> StepsVay F n p = Ok q ->
  exists m', iter_res (und_step F lambda N) n (p, m) = Ok (q, m') /\ largest m' (inner_xs lambda (N * lambda) q).
Proof.
  induction n as [|n IH]; intros p q e Hw He H.
  - cbn in H. apply Ok_inj in H. subst q. exists e. split; [reflexivity|exact He].
  - unfold StepsVay in H. rewrite iter_res_S_r in H. bget H as r Hr. destruct (IH p r e Hw He Hr) as (e1 & E1 & X1).
    destruct (StepsVay_trajectory F n p r Hw Hr) as (Hwr & _). destruct (StepVay_trajectory F r q Hwr H) as (Tq & _).
    rewrite iter_res_S_r, E1. cbn [bind]. unfold und_step. cbn [fst snd]. rewrite H. cbn [bind]. eexists. split; [reflexivity|].
    unfold inner_xs in *. rewrite Tq, filter_app, map_app. cbn [filter].
    change (inside lambda (N * lambda) (current q)) with (Rltb lambda (vz (pX q)) && Rltb (vz (pX q)) (N * lambda - lambda)).
    change (nltb lambda (vz (pX q)) && nltb (vz (pX q)) (nsub (nmul N lambda) lambda)) with (Rltb lambda (vz (pX q)) && Rltb (vz (pX q)) (N * lambda - lambda)).
    destruct (Rltb lambda (vz (pX q)) && Rltb (vz (pX q)) (N * lambda - lambda)); cbn [andb map].
    + exact (largest_snoc _ _ (vx (pX q)) X1).
    + rewrite app_nil_r. exact X1.
Qed.

Section Programs.
Context {TT : Trans R}.

Lemma rad_checks lambda A zR N e p F0 :
  element_field (Localized 0 vzero (LWave (GW lambda A 0 zR))) 0 vzero = Ok F0 ->
  let F := lat_field [Localized 0 vzero (LWave (GW lambda A 0 zR))] in
  InitVay (10 * (lambda / nc) / INR N) F (start (-1) 1 vzero vzero) = Ok e -> StepsVay F N e = Ok p ->
  exists n, @RadPush R NumR TT lambda A zR N = Ok n /\ (0 <= n <= 3)%Z /\
    forall xlo xhi plo phi zhi, smallest xlo (xs p) -> largest xhi (xs p) -> smallest plo (bxs p) -> largest phi (bxs p) -> largest zhi (bzs p) ->
      let omega := 2 * PI * nc / lambda in let a0_k := nc * (vx (fE F0) / (5109989461 / 10000 / nc * omega)) / omega in
      (n = 0%Z <-> Rabs (xhi - xlo - 2 * a0_k) / a0_k <= 1 / 1000 /\ Rabs (plo + 1) <= 1 / 1000 /\ Rabs (phi - 1) <= 1 / 1000 /\
                   Rabs (zhi - 5 / 10) <= 1 / 1000).
Proof.
  intros E0 F E1 E2.
  assert (X0 : extreme e (XT 0 0 0 0 0)).
  { destruct (InitVay_trajectory _ _ _ _ (start_wf _ _ _ _) E1) as (i & l & a' & T1 & T2 & _). rewrite start_traj in T1. apply app_inj_tail in T1. destruct T1 as [<- <-].
    unfold extreme, xs, bxs, bzs. rewrite T2. cbn. unfold smallest, largest. repeat split; try (left; reflexivity); intros x [<-|[]]; lra. }
  assert (We : wf e) by (apply (wf_apply (start (-1) 1 vzero vzero) e (OpSetup (10 * (lambda / nc) / INR N) F)); [apply start_wf|exact E1]).
  destruct (rad_steps F N e p _ We X0 E2) as (x & Ex & Xx).
  unfold RadPush. cbv zeta. rewrite NOTS_INR.
  change (nZ 0) with 0. change (nZ (-1)) with (-1). change (nZ 1) with 1. change (lat_add [] ?w) with [w]. rewrite E0. cbn [bind].
  change (initTrajectory 0 vzero vzero vzero (new_particle (-1) 1)) with (start (-1) 1 vzero vzero).
  change (ndiv (nmul (nZ 10) (ndiv lambda nc)) (INR N)) with (10 * (lambda / nc) / INR N). fold F. rewrite E1. cbn [bind]. rewrite Ex. cbn [bind snd].
  eexists. split; [reflexivity|]. split.
  { match goal with |- (0 <= fails ?a + fails ?b + fails ?c <= 3)%Z => pose proof (fails_01 a); pose proof (fails_01 b); pose proof (fails_01 c); lia end. }
  intros xlo xhi plo phi zhi A1 A2 A3 A4 A5. destruct Xx as (B1 & B2 & B3 & B4 & B5). cbv zeta.
  rewrite (smallest_unique _ _ _ A1 B1), (largest_unique _ _ _ A2 B2), (smallest_unique _ _ _ A3 B3), (largest_unique _ _ _ A4 B4), (largest_unique _ _ _ A5 B5).
  match goal with |- (fails ?a + fails ?b + fails ?c)%Z = 0%Z <-> _ => 
    assert (K : (fails a + fails b + fails c)%Z = 0%Z <-> fails a = 0%Z /\ fails b = 0%Z /\ fails c = 0%Z)
      by (pose proof (fails_01 a); pose proof (fails_01 b); pose proof (fails_01 c); lia) end.
  rewrite K. clear K. rewrite fails_or, !fails_iff. split.
  - intros (C1 & (C2 & C3) & C4). exact (conj C1 (conj C2 (conj C3 C4))).
  - intros (C1 & C2 & C3 & C4). exact (conj C1 (conj (conj C2 C3) C4)).
Qed.

Lemma und_checks me B lambda gamma N K e p : 0 < lambda ->
  let F := lat_field [Localized 0 (V 0 0 (15 / 10)) (LPlanar (PU B lambda N))] in
  let bg := sqrt (gamma * gamma - 1) in let beta := sqrt (1 - 1 / (gamma * gamma)) in
  let Ku := 934 / 1000 * 100 * lambda * B in let lambdar := lambda / (2 * gamma * gamma) * (1 + Ku * Ku / 2) in
  let ku := 2 * PI / lambda in let amplitude := nqe * B * nc / (bg * me * nc * nc * ku * ku) in
  let tau := IZR N * (lambda + lambdar) / nc + (3 - IZR N * lambda) / (beta * nc) in
  InitVay (tau / INR K) F (start (-1) 1 vzero (V 0 0 bg)) = Ok e -> StepsVay F K e = Ok p ->
  exists n, @undulator R NumR TT me B lambda gamma N K = Ok n /\ (0 <= n <= 4)%Z /\
    forall xhi, largest xhi (inner_xs lambda (IZR N * lambda) p) ->
      (n = 0%Z <-> Rabs (vz (pX p) - 3) <= 1 / 100000 /\ Rabs (xhi - amplitude) <= 1 / 100000 /\ Rabs (pt p - tau) <= tau / INR K /\
                   Rabs (vx (pX p)) <= 1 / 100000).
Proof.
  intros HL F bg beta Ku lambdar ku amplitude tau E1 E2.
  assert (X0 : largest 0 (inner_xs lambda (IZR N * lambda) e)).
  { destruct (InitVay_trajectory _ _ _ _ (start_wf _ _ _ _) E1) as (i & l & a' & T1 & T2 & _). rewrite start_traj in T1. apply app_inj_tail in T1. destruct T1 as [<- <-].
    unfold inner_xs. rewrite T2. cbn [app filter]. unfold inside. cbn [tpx vz vzero]. unfold Rltb at 1.
    destruct (Rlt_dec lambda _) as [Q|Q]; [exfalso; change (lambda < 0) in Q; lra|]. cbn. split; [left; reflexivity|]. intros x [<-|[]]; lra. }
  assert (We : wf e) by (apply (wf_apply (start (-1) 1 vzero (V 0 0 bg)) e (OpSetup (tau / INR K) F)); [apply start_wf|exact E1]).
  destruct (und_steps F lambda (IZR N) K e p _ We X0 E2) as (x & Ex & Xx).
  unfold undulator. cbv zeta. rewrite NOTS_INR.
  match goal with |- context [InitVay ?d ?f ?q] => change (InitVay d f q) with (InitVay (tau / INR K) F (start (-1) 1 vzero (V 0 0 bg))) end.
  rewrite E1. cbn [bind].
  match goal with |- context [iter_res ?f K ?a] => change (iter_res f K a) with (iter_res (und_step F lambda (IZR N)) K (e, 0)) end.
  rewrite Ex. cbn [bind].
  eexists. split; [reflexivity|]. split.
  { match goal with |- (0 <= fails ?a + fails ?b + fails ?c + fails ?d <= 4)%Z => pose proof (fails_01 a); pose proof (fails_01 b); pose proof (fails_01 c); pose proof (fails_01 d); lia end. }
  intros xhi A1. rewrite (largest_unique _ _ _ A1 Xx).
  match goal with |- (fails ?a + fails ?b + fails ?c + fails ?d)%Z = 0%Z <-> _ => 
    assert (Z4 : (fails a + fails b + fails c + fails d)%Z = 0%Z <-> fails a = 0%Z /\ fails b = 0%Z /\ fails c = 0%Z /\ fails d = 0%Z)
      by (pose proof (fails_01 a); pose proof (fails_01 b); pose proof (fails_01 c); pose proof (fails_01 d); lia) end.
  rewrite Z4. clear Z4. rewrite !fails_iff. reflexivity.
Qed.
End Programs.
