(* What the checks of the programs magnet, EcrossB, electrostatic, loop and integrate_field accept. *)
From Coq Require Import ZArith Reals Lra Lia List Bool.
From Verif Require Import Base BaseFacts Num VecModel VecFacts ParticleModel ParticleSpec ParticleProofs TraceModel TraceProofs2 RetardModel ElementModel BunchModel HybridProofs TestModel TestProofs TestProofs3.
Import ListNotations.
Local Open Scope R_scope.

Lemma below_iff (a b : R) : fails (negb (nltb a b)) = 0%Z <-> a < b.
Proof. unfold fails. cbn. unfold Rltb. destruct (Rlt_dec a b); cbn; split; intros; try lra; try discriminate; reflexivity. Qed.
Lemma and3_iff (a b c d e f : R) : fails (gtb a b && gtb c d && gtb e f) = 0%Z <-> a <= b \/ c <= d \/ e <= f.
Proof. unfold fails, gtb. cbn. unfold Rltb. destruct (Rlt_dec b a), (Rlt_dec d c), (Rlt_dec f e); cbn; split; intros; try lra; try discriminate; reflexivity. Qed.
Lemma sum_zero : forall l, List.Forall (fun e => 0 <= e <= 1)%Z l -> forall z, (0 <= z)%Z ->
  (0 <= fold_left Z.add l z <= z + Z.of_nat (length l))%Z /\ (fold_left Z.add l z = 0%Z <-> z = 0%Z /\ List.Forall (fun e => e = 0%Z) l).
Proof.
  induction l as [|a l IH]; intros H z Hz.
  - cbn. split; [lia|]. split; [auto|tauto].
  - pose proof (Forall_inv H) as Ha. cbn beta in Ha. destruct (IH (Forall_inv_tail H) (z + a)%Z ltac:(lia)) as [A B]. cbn [fold_left length]. split; [lia|].
    rewrite B. split.
    + intros [C D]. split; [lia|]. constructor; [lia|exact D].
    + intros [C D]. split; [pose proof (Forall_inv D); cbn in *; lia|exact (Forall_inv_tail D)].
Qed.
Lemma lists_iff (a b : list R) : length a = length b ->
  (0 <= lists_check a b <= Z.of_nat (length a))%Z /\ (lists_check a b = 0%Z <-> Forall2 (fun x y => (x - y) / y <= 1 / 100000) a b).
Proof.
  intros L. unfold lists_check. set (fl := map _ _).
  assert (F : List.Forall (fun e => 0 <= e <= 1)%Z fl) by (apply Forall_forall; intros e I; apply in_map_iff in I; destruct I as (? & <- & _); apply fails_01).
  destruct (sum_zero fl F 0%Z ltac:(lia)) as [A B]. assert (LF : length fl = length a) by (unfold fl; rewrite map_length, combine_length; lia).
  split; [lia|]. rewrite B. clear A B F LF. unfold fl. clear fl. revert b L. induction a as [|x a IH]; intros [|y b] L; try discriminate.
  - split; [constructor|]. intros _. split; [reflexivity|constructor].
  - injection L as L. specialize (IH b L). cbn [combine map fst snd]. split.
    + intros [_ H]. pose proof (Forall_inv H) as H1. pose proof (Forall_inv_tail H) as H2. cbn beta in H1. rewrite fails_iff in H1. rewrite lit_R in H1 by lia.
      constructor; [exact H1|]. apply IH. auto.
    + intros H. split; [reflexivity|]. inversion H as [|? ? ? ? H1 H2]; subst. constructor; [|apply IH; exact H2]. apply fails_iff. rewrite lit_R by lia. exact H1.
Qed.

Lemma magnet_checks {TT : Trans R} (B n : vec R) gamma N e mid fin :
  let F := lat_field [Homogeneous (EB vzero B)] in
  let rg := R_sqrt.sqrt (gamma * gamma - 1) * (5109989461 / 10000) / 299792458 / vnorm B in
  let tau := 2 * PI * rg / (R_sqrt.sqrt (1 - 1 / (gamma * gamma)) * 299792458) in
  InitVay (5 / 10 * tau / INR N) F (initTrajectory 0 vzero (vdiv (vmul (vcross n B) (R_sqrt.sqrt (gamma * gamma - 1))) (vnorm (vcross n B))) vzero (new_particle (-1) 1)) = Ok e ->
  StepsVay F N e = Ok mid -> StepsVay F N mid = Ok fin ->
  exists k, @magnet R NumR TT B n gamma N = Ok k /\ (0 <= k <= 4)%Z /\
    (k = 0%Z <-> Rabs (5 / 10 * vnorm (pX mid) - rg) <= 1 / 100000 /\ 1000000000000 * Rabs (pt fin - tau) <= 1 / 100 /\
                 vnorm (pX fin) <= 1 / 100000 /\ Rabs (vnorm (pP fin) - R_sqrt.sqrt (gamma * gamma - 1)) <= 1 / 10000).
Proof.
  intros F rg tau H1 H2 H3. unfold magnet. cbv zeta. rewrite NOTS_INR.
  match goal with |- context [bind ?x _] => replace x with (Ok (A:=particle R) e) by (symmetry; exact H1) end.
  cbn [bind]. match goal with |- context [bind ?x _] => replace x with (Ok (A:=particle R) mid) by (symmetry; exact H2) end. cbn [bind].
  match goal with |- context [bind ?x _] => replace x with (Ok (A:=particle R) fin) by (symmetry; exact H3) end. cbn [bind].
  eexists. split; [reflexivity|].
  match goal with |- context [Z.add (Z.add (Z.add (fails ?a) (fails ?b)) (fails ?c)) (fails ?d)] =>
    pose proof (fails_01 a); pose proof (fails_01 b); pose proof (fails_01 c); pose proof (fails_01 d);
    assert (E : (fails a + fails b + fails c + fails d = 0)%Z <-> (fails a = 0 /\ fails b = 0 /\ fails c = 0 /\ fails d = 0)%Z) by lia end.
  split; [lia|]. rewrite E. rewrite !fails_iff, !lit_R by lia. reflexivity.
Qed.
Lemma EcrossB_accepts (tau dT t : R) (Xe X P0 P : vec R) :
  (0 <= EcrossB_checks tau dT t Xe X P0 P <= 3)%Z /\
  (EcrossB_checks tau dT t Xe X P0 P = 0%Z <-> Rabs (t - tau) <= dT /\
    (Rabs (vx X - vx Xe) <= 2 / 1000000 \/ Rabs (vy X - vy Xe) <= 2 / 1000000 \/ Rabs (vz X - vz Xe) <= 2 / 1000000) /\
    vnorm P0 - vnorm P <= 15 / 10000).
Proof.
  unfold EcrossB_checks. cbv zeta.
  match goal with |- context [Z.add (Z.add (fails ?a) (fails ?b)) (fails ?c)] =>
    pose proof (fails_01 a); pose proof (fails_01 b); pose proof (fails_01 c);
    assert (E : (fails a + fails b + fails c = 0)%Z <-> (fails a = 0 /\ fails b = 0 /\ fails c = 0)%Z) by lia end.
  split; [lia|]. rewrite E. rewrite and3_iff, !fails_iff, !lit_R by lia. reflexivity.
Qed.
Lemma trace_checks (b : list (special (T:=R))) t0 dt expected tr : fold_res special_integrate b (tr_new t0 dt (length expected)) = Ok tr -> length (tr_f tr) = length expected ->
  exists n, trace_test b t0 dt expected = Ok n /\ (0 <= n <= Z.of_nat (length expected))%Z /\
    (n = 0%Z <-> Forall2 (fun f x => Rabs (vx (fE f) - x) <= 1 / 1000000) (tr_f tr) expected).
Proof.
  intros H L. unfold trace_test. rewrite H. cbn [bind].
  assert (G : forall l fs k, (forall j f, nth_error fs j = Some f -> tr_get tr (k + Z.of_nat j)%Z = Ok f) -> length fs = length l ->
    map_res (fun i => bind (tr_get tr (fst i)) (fun f => Ok (fails (gtb (nabs (nsub (vx (fE f)) (snd i))) (lit 1 6))))) (combine (zseq k (length l)) l) =
    Ok (map (fun fx => fails (gtb (Rabs (vx (fE (fst fx)) - snd fx)) (lit 1 6))) (combine fs l))).
  { induction l as [|x l IH]; intros [|f fs] k G E; try discriminate; [reflexivity|]. cbn [length zseq combine map_res map fst snd].
    pose proof (G 0%nat f eq_refl) as G0. rewrite Z.add_0_r in G0. rewrite G0. cbn [bind]. injection E as E. rewrite (IH fs (k + 1)%Z); [reflexivity| |exact E].
    intros j f' Hj. rewrite <- (G (S j) f' Hj). f_equal. lia. }
  rewrite (G expected (tr_f tr) 0%Z); [|intros j f Hj; rewrite Z.add_0_l; apply tr_get_inside; exact Hj|exact L]. cbn [bind]. eexists. split; [reflexivity|].
  set (fl := map _ _). assert (F : List.Forall (fun e => 0 <= e <= 1)%Z fl) by (apply Forall_forall; intros e I; apply in_map_iff in I; destruct I as (? & <- & _); apply fails_01).
  destruct (sum_zero fl F 0%Z ltac:(lia)) as [A B]. assert (LF : length fl = length expected) by (unfold fl; rewrite map_length, combine_length; lia).
  split; [lia|]. rewrite B. clear A B F LF G H. unfold fl. clear fl. revert L. generalize (tr_f tr). intros fs. revert expected.
  induction fs as [|f fs IH]; intros [|x l] L; try discriminate.
  - split; [constructor|]. intros _. split; [reflexivity|constructor].
  - injection L as L. specialize (IH l L). cbn [combine map fst snd]. split.
    + intros [_ H]. pose proof (Forall_inv H) as H1. pose proof (Forall_inv_tail H) as H2. cbn beta in H1. rewrite fails_iff in H1. rewrite lit_R in H1 by lia.
      constructor; [exact H1|]. apply IH. auto.
    + intros H. split; [reflexivity|]. inversion H as [|? ? ? ? H1 H2]; subst. constructor; [|apply IH; exact H2]. apply fails_iff. rewrite lit_R by lia. exact H1.
Qed.

Lemma loop_checks {TT : Trans R} B0 gamma charge N e half full snap tr field :
  let c := 299792458 in let B := V 0 B0 0 in let F := lat_field [Homogeneous (EB vzero B)] in
  let bg := R_sqrt.sqrt (gamma * gamma - 1) in let radius := bg * 511000 / (vnorm B * c) in
  let tau := 2 * PI / (vnorm B / (gamma * (5109989461 / 10000)) * c * c) in
  let Bref := nmu0 * charge / tau / (2 * radius) in
  InitVay (5 / 10 * tau / INR N) F (initTrajectory 0 vzero (V 0 0 bg) vzero (new_particle (charge / nqe) (charge / nqe))) = Ok e ->
  StepsVay F N e = Ok half -> StepsVay F N half = Ok full -> RetardedField_time full tau (V (- radius) 0 0) = Ok snap ->
  bunch_integrate [full] (V (- radius) 0 0) (tr_new (tau - 1 / 1000000000000000) (2 / 1000000000000000) 2) = Ok tr -> nth_error (tr_f tr) 0 = Some field ->
  exists n, @loop R NumR TT B0 gamma charge N = Ok n /\ (0 <= n <= 5)%Z /\
    (n = 0%Z <-> vnorm (vsub (pX half) (V (- 2 * radius) 0 0)) <= 1 / 1000 /\ vnorm (vsub (pX full) vzero) <= 1 / 10000 /\
      Rabs (vnorm (pP full) - vnorm (V 0 0 bg)) <= 1 / 1000 /\ Rabs (vnorm (fB snap) - Bref) / Bref <= 1 / 1000 /\ Rabs (vnorm (fB field) - Bref) / Bref <= 1 / 1000).
Proof.
  intros c B F bg radius tau Bref H1 H2 H3 H4 H5 H6. unfold loop. cbv zeta. rewrite NOTS_INR.
  match goal with |- context [bind ?x _] => replace x with (Ok (A:=particle R) e) by (symmetry; exact H1) end. cbn [bind].
  match goal with |- context [bind ?x _] => replace x with (Ok (A:=particle R) half) by (symmetry; exact H2) end. cbn [bind].
  match goal with |- context [bind ?x _] => replace x with (Ok (A:=particle R) full) by (symmetry; exact H3) end. cbn [bind].
  match goal with |- context [bind ?x _] => replace x with (Ok (A:=emf R) snap) by (symmetry; exact H4) end. cbn [bind].
  match goal with |- context [bind ?x _] => replace x with (Ok (A:=ftrace R) tr) by (symmetry; exact H5) end. cbn [bind].
  pose proof (tr_get_inside tr 0 field H6) as H7. change (Z.of_nat 0) with 0%Z in H7. rewrite H7. cbn [bind].
  eexists. split; [reflexivity|].
  match goal with |- context [Z.add (Z.add (Z.add (Z.add (fails ?a) (fails ?b)) (fails ?c)) (fails ?d)) (fails ?f)] =>
    pose proof (fails_01 a); pose proof (fails_01 b); pose proof (fails_01 c); pose proof (fails_01 d); pose proof (fails_01 f);
    assert (E : (fails a + fails b + fails c + fails d + fails f = 0)%Z <-> (fails a = 0 /\ fails b = 0 /\ fails c = 0 /\ fails d = 0 /\ fails f = 0)%Z) by lia end.
  split; [lia|]. rewrite E. rewrite !fails_iff, !lit_R by lia. reflexivity.
Qed.

Lemma len2 {A B} (P : A -> B -> Prop) a b : Forall2 P a b -> length a = length b.
Proof. induction 1; cbn; congruence. Qed.
Section Static.
Context {TT : Trans R} (Dir : vec R) (gamma tau ObsTime : R) (N : nat).
Let c := 299792458.
Let u := vnormalize Dir.
Let perp := vnormalize (vcross u (V 1 0 0)).
Let beta := R_sqrt.sqrt (1 - 1 / (gamma * gamma)).
Let E0 := 1 / 1000000000000 / (4 * PI * neps0 * (1 / 1000) * (1 / 1000)).
Let Ev := vmul (vmul (vmul perp E0) (-1)) gamma.
Let Bv := vmul (vdiv (vdiv (vmul (vmul (vcross (vmul (vmul u beta) c) perp) (- (1 / 1000000000000))) nmu0) (4 * PI)) (1 / 1000 * (1 / 1000))) gamma.
Let place := vmul (vmul (vmul u ObsTime) beta) c.
Let F := element_field (Homogeneous ezero).
Let rest := initTrajectory 0 vzero vzero vzero (new_particle (- (1 / 1000000000000) / nqe) 1).

Lemma electrostatic_checks e p f1 f2 f3 f4 f5 xp En Et :
  RetardedField_time rest 0 (V (1 / 1000) 0 0) = Ok f1 -> RetardedField_time rest 0 (V (- (1 / 1000)) 0 0) = Ok f2 -> RetardedField_time rest 0 (V 0 0 (1 / 1000)) = Ok f3 ->
  InitVay (tau / INR N) F (initTrajectory 0 vzero (vmul u (R_sqrt.sqrt (gamma * gamma - 1))) vzero rest) = Ok e -> StepsVay F N e = Ok p ->
  RetardedField_time p 0 (vmul perp (1 / 1000)) = Ok f4 -> CoordinatesAtTime p ObsTime = Ok xp ->
  RetardedField_time p ObsTime (vadd place (vmul perp (1 / 1000))) = Ok f5 ->
  let along t pos i E := exists f, RetardedField_time p t (vadd pos (vmul u (- (5 / 1000) + IZR i * (1 / 1000)))) = Ok f /\ vdot (fE f) perp = E in
  Forall2 (along 0 (vmul perp (1 / 1000))) (zseq 0 11) En -> Forall2 (along ObsTime (vadd place (vmul perp (1 / 1000)))) (zseq 0 11) Et ->
  exists n, @electrostatic R NumR TT Dir gamma tau ObsTime N = Ok n /\ (0 <= n <= 19)%Z /\
    (n = 0%Z <-> vnorm (vsub (vmul (V (-1) 0 0) E0) (fE f1)) < 1 / 1000 /\ vnorm (vsub (vmul (V 1 0 0) E0) (fE f2)) < 1 / 1000 /\
      vnorm (vsub (vmul (V 0 0 (-1)) E0) (fE f3)) / E0 < 1 / 1000000 /\
      vnorm (vsub Ev (fE f4)) / vnorm Ev < 1 / 100000 /\ vnorm (vsub Bv (fB f4)) / vnorm Bv < 1 / 100000 /\
      vnorm (vsub place (fst xp)) < 1 / 1000000 /\
      vnorm (vsub Ev (fE f5)) / vnorm Ev < 1 / 1000 /\ vnorm (vsub Bv (fB f5)) / vnorm Bv < 1 / 1000 /\
      Forall2 (fun x y => (x - y) / y <= 1 / 100000) Et En).
Proof.
  intros H1 H2 H3 H4 H5 H6 H7 H8 along HN HT. unfold electrostatic. cbv zeta. rewrite NOTS_INR.
  match goal with |- context [bind ?x _] => replace x with (Ok (A:=emf R) f1) by (symmetry; exact H1) end. cbn [bind].
  match goal with |- context [bind ?x _] => replace x with (Ok (A:=emf R) f2) by (symmetry; exact H2) end. cbn [bind].
  match goal with |- context [bind ?x _] => replace x with (Ok (A:=emf R) f3) by (symmetry; exact H3) end. cbn [bind].
  match goal with |- context [bind ?x _] => replace x with (Ok (A:=particle R) e) by (symmetry; exact H4) end. cbn [bind].
  match goal with |- context [bind ?x _] => replace x with (Ok (A:=particle R) p) by (symmetry; exact H5) end. cbn [bind].
  match goal with |- context [bind ?x _] => replace x with (Ok (A:=emf R) f4) by (symmetry; exact H6) end. cbn [bind].
  assert (G : forall t pos E, Forall2 (along t pos) (zseq 0 11) E ->
    map_res (fun i => bind (RetardedField_time p t (vadd pos (vmul u (nadd (nopp (lit 5 3)) (nmul (nZ i) (lit 1 3)))))) (fun eb => Ok (vdot (fE eb) perp))) trace_points = Ok E).
  { clear HN HT. intros t pos E H. unfold trace_points. induction H as [|i x l l' (f & Hf & HE) _ IH]; [reflexivity|]. cbn [map_res].
    match goal with |- context [RetardedField_time p t ?q] => replace (RetardedField_time p t q) with (Ok f) by (symmetry; exact Hf) end. cbn [bind]. rewrite HE, IH. reflexivity. }
  pose proof (G _ _ _ HN) as GN. pose proof (G _ _ _ HT) as GT. clear G.
  match goal with |- context [bind ?x _] => replace x with (Ok (A:=list R) En) by (symmetry; exact GN) end. cbn [bind].
  rewrite H7. cbn [bind].
  match goal with |- context [bind ?x _] => replace x with (Ok (A:=emf R) f5) by (symmetry; exact H8) end. cbn [bind].
  match goal with |- context [bind ?x _] => replace x with (Ok (A:=list R) Et) by (symmetry; exact GT) end. cbn [bind].
  eexists. split; [reflexivity|].
  assert (LL : length Et = length En) by (transitivity (length (zseq 0 11)); [symmetry|]; eapply len2; eassumption).
  assert (LE : length Et = 11%nat) by (symmetry; exact (len2 _ _ _ HT)).
  destruct (lists_iff Et En LL) as [A B]. rewrite LE in A.
  match goal with |- context [Z.add (Z.add (Z.add (Z.add (Z.add (Z.add (Z.add (Z.add (fails ?a) (fails ?b)) (fails ?c)) (fails ?d)) (fails ?f)) (fails ?g)) (fails ?h)) (fails ?i)) ?l] =>
    pose proof (fails_01 a); pose proof (fails_01 b); pose proof (fails_01 c); pose proof (fails_01 d); pose proof (fails_01 f);
    pose proof (fails_01 g); pose proof (fails_01 h); pose proof (fails_01 i);
    assert (E : (fails a + fails b + fails c + fails d + fails f + fails g + fails h + fails i + l = 0)%Z <->
      (fails a = 0 /\ fails b = 0 /\ fails c = 0 /\ fails d = 0 /\ fails f = 0 /\ fails g = 0 /\ fails h = 0 /\ fails i = 0 /\ l = 0)%Z) by lia end.
  split; [lia|]. rewrite E, B. rewrite !below_iff, !lit_R by lia. reflexivity.
Qed.
End Static.
