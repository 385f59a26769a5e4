(* Shift, Mirror and CoordinatesAtTime. *)
From Coq Require Import ZArith Reals Lra Lia Psatz List Bool.
From Verif Require Import Base BaseFacts Num VecModel VecFacts ParticleModel ParticleSpec
  ParticleSpec2 ParticleProofs ParticleProofs2 VaySpec.
Import ListNotations.
Local Open Scope Z_scope.

Section U.
Context {T : Type} {NT : Num T}.
Implicit Types p q : particle T.

Lemma upd_first_ok {A} (f : A -> A) k (l : list A) :
  (k <= length l)%nat ->
  upd_first f k l = Ok (map f (firstn k l) ++ skipn k l).
Proof.
  revert l; induction k as [|k IH]; intros l H; [destruct l; reflexivity|].
  destruct l as [|x l]; [cbn in H; lia|]. cbn [upd_first]. rewrite IH by (cbn in H; lia). reflexivity.
Qed.
Lemma upd_first_nth {A} (f : A -> A) k (l l' : list A) n a :
  upd_first f k l = Ok l' -> nth_error l n = Some a ->
  nth_error l' n = Some (if (n <? k)%nat then f a else a).
Proof.
  revert l l' n; induction k as [|k IH]; intros l l' n H Hn.
  - cbn in H. okinj H. exact Hn.
  - destruct l as [|x l]; [discriminate|]. cbn [upd_first] in H. bget H as r Hr. okinj H.
    destruct n as [|n]; cbn [nth_error] in *.
    + injection Hn as <-. reflexivity.
    + rewrite (IH l r n Hr Hn). reflexivity.
Qed.

Lemma Shift_defined d f p : wf p -> exists q, Shift d f p = Ok q.
Proof.
  intros (H0 & Lt & Lx & Lp & La). unfold Shift. rewrite upd_first_ok by lia. eexists; reflexivity.
Qed.
Lemma Mirror_defined o n f p : wf p -> exists q, Mirror o n f p = Ok q.
Proof.
  intros (H0 & Lt & Lx & Lp & La). unfold Mirror. rewrite !upd_first_ok by lia. eexists; reflexivity.
Qed.

Lemma nth_Some_of_length {A} (l : list A) n : (n < length l)%nat -> exists a, nth_error l n = Some a.
Proof. intros H. destruct (nth_error l n) eqn:E; [eauto|]. apply nth_error_None in E. lia. Qed.

(* point by point effect *)
Lemma Shift_points d f p q : wf p -> Shift d f p = Ok q ->
  pCharge q = nmul (pCharge p) f /\ pX q = vadd (pX p) d /\ pNP q = pNP p /\
  forall i a, nth_error (trajectory p) i = Some a ->
    nth_error (trajectory q) i =
      Some (if (Z.of_nat i <? pNP p - 1) then TP (tpt a) (vadd (tpx a) d) (tpp a) (tpa a) else a).
Proof.
  intros Hw H. unfold Shift in H. bget H as xs Hxs. okinj H. cbn [pCharge pX pNP].
  repeat split. intros i a Ha. destruct (nth_trajectory p i a Ha) as (A & B & C & D).
  pose proof (upd_first_nth _ _ _ _ _ _ Hxs B) as B'.
  unfold trajectory. cbn [pTimes pXs pPs pAs].
  erewrite zip4_nth; eauto.
  destruct (Nat.ltb_spec i (Z.to_nat (pNP p - 1))); destruct (Z.ltb_spec (Z.of_nat i) (pNP p - 1)); try lia.
  - reflexivity.
  - destruct a; reflexivity.
Qed.
Lemma Mirror_points o n f p q : wf p -> Mirror o n f p = Ok q ->
  pCharge q = nmul (pCharge p) f /\ pNP q = pNP p /\
  pX q = mirror_pos o (vnormalize n) (pX p) /\
  forall i a, nth_error (trajectory p) i = Some a ->
    nth_error (trajectory q) i =
      Some (if (Z.of_nat i <? pNP p - 1)
            then TP (tpt a) (mirror_pos o (vnormalize n) (tpx a))
                    (mirror_dir (vnormalize n) (tpp a)) (mirror_dir (vnormalize n) (tpa a))
            else a).
Proof.
  intros Hw H. unfold Mirror in H. bget H as xs Hxs. bget H as ps Hps. bget H as acs Hacs. okinj H.
  cbn [pCharge pNP pX]. repeat split. intros i a Ha. destruct (nth_trajectory p i a Ha) as (A & B & C & D).
  pose proof (upd_first_nth _ _ _ _ _ _ Hxs B) as B'.
  pose proof (upd_first_nth _ _ _ _ _ _ Hps C) as C'.
  pose proof (upd_first_nth _ _ _ _ _ _ Hacs D) as D'.
  unfold trajectory. cbn [pTimes pXs pPs pAs].
  erewrite zip4_nth; eauto.
  destruct (Nat.ltb_spec i (Z.to_nat (pNP p - 1))); destruct (Z.ltb_spec (Z.of_nat i) (pNP p - 1)); try lia.
  - reflexivity.
  - destruct a; reflexivity.
Qed.
End U.

Local Open Scope R_scope.

Lemma mirror_pos_image (o n x : vec R) :
  n <> vzero -> mirror_image o n x (mirror_pos o (vnormalize n) x).
Proof.
  intros Hn. pose proof (vnorm_pos n Hn) as Hp. pose proof (vnorm_sq n) as Hs.
  unfold mirror_image, mirror_pos, vnormalize. revert Hp Hs. generalize (vnorm n). intros r Hp Hs.
  split.
  - exists (2 * vdot (vsub o x) (vdiv n r) / r). vdestr; vunfold; unnum; vsplit; field; lra.
  - match goal with |- ?l = 0 => replace l with (vdot (vsub x o) n * (1 - vabs2 n / (r * r))) end.
    + rewrite <- Hs. field. lra.
    + unfold vmean. vdestr; vunfold; unnum; field; lra.
Qed.
Lemma mirror_dir_image (n v : vec R) :
  n <> vzero -> mirror_direction n v (mirror_dir (vnormalize n) v).
Proof.
  intros Hn. pose proof (vnorm_pos n Hn) as Hp. pose proof (vnorm_sq n) as Hs.
  unfold mirror_direction, mirror_dir, vnormalize. revert Hp Hs. generalize (vnorm n). intros r Hp Hs.
  split.
  - exists (- 2 * vdot v (vdiv n r) / r). vdestr; vunfold; unnum; vsplit; field; lra.
  - match goal with |- ?l = _ => replace l with (vdot v n * (1 - 2 * (vabs2 n / (r * r)))) end.
    + rewrite <- Hs. field. lra.
    + vdestr; vunfold; unnum; field; lra.
Qed.

(* ---- CoordinatesAtTime ---- *)
Lemma bisect_time_spec fuel (l : list R) time i1 i2 t1 t2 :
  (0 <= i1)%Z -> (i1 < i2)%Z -> (i2 < Z.of_nat (length l))%Z ->
  zget l i1 = Ok t1 -> zget l i2 = Ok t2 -> t1 <= time <= t2 ->
  (i2 - i1 <= Z.of_nat fuel)%Z ->
  exists j u1 u2, bisect_time fuel l time i1 i2 t1 t2 = Ok (j, (j + 1)%Z, u1, u2) /\
    (0 <= j)%Z /\ (j + 1 < Z.of_nat (length l))%Z /\
    zget l j = Ok u1 /\ zget l (j + 1) = Ok u2 /\ u1 <= time <= u2.
Proof.
  revert i1 i2 t1 t2; induction fuel as [|fuel IH]; intros i1 i2 t1 t2 H1 H12 H2 E1 E2 Ht Hf.
  - lia.
  - cbn [bisect_time]. destruct (Z.ltb_spec 1 (i2 - i1)) as [Hlt|Hge].
    + assert (Hm : (i1 < (i2 + i1) / 2 < i2)%Z).
      { split; [apply Z.lt_le_trans with (i1 + 1)%Z; [lia|apply Z.div_le_lower_bound; lia]|].
        apply Z.div_lt_upper_bound; lia. }
      destruct (zget_ok l ((i2 + i1) / 2)) as (t & Et & _); [lia|]. rewrite Et. cbn [bind].
      change (nltb t time) with (Rltb t time). destruct (Rltb_spec t time) as [Hlt'|Hge'].
      * apply IH; auto; try lia. lra.
      * apply IH; auto; try lia. lra.
    + replace i2 with (i1 + 1)%Z in * by lia. exists i1, t1, t2. repeat split; auto; try lia; lra.
Qed.

Lemma increasing_zget (l : list R) i j a b :
  increasing l -> (i < j)%Z -> zget l i = Ok a -> zget l j = Ok b -> a < b.
Proof.
  intros Hi Hij Ha Hb. apply zget_inv in Ha, Hb. destruct Ha as [Ha1 Ha], Hb as [Hb1 Hb].
  apply (Hi (Z.to_nat i) (Z.to_nat j)); auto. lia.
Qed.

Lemma CoordinatesAtTime_spec (p : particle R) time :
  wf p -> increasing (pTimes p) ->
  (* no trajectory, or outside the covered time *)
  ((forall a, In a (trajectory p) -> time < tpt a) -> CoordinatesAtTime p time = Ok (vzero, vzero)) /\
  ((forall a, In a (trajectory p) -> tpt a < time) -> CoordinatesAtTime p time = Ok (vzero, vzero)) /\
  (* at a stored time *)
  (forall i a, nth_error (trajectory p) i = Some a -> time = tpt a ->
     CoordinatesAtTime p time = Ok (tpx a, tpp a)) /\
  (* between two neighbouring points *)
  (forall i a b, nth_error (trajectory p) i = Some a -> nth_error (trajectory p) (S i) = Some b ->
     tpt a <= time <= tpt b ->
     CoordinatesAtTime p time = Ok (lin_interp (tpt a) (tpt b) (tpx a) (tpx b) time,
                                    lin_interp (tpt a) (tpt b) (tpp a) (tpp b) time)).
Proof.
  intros Hw Hinc. pose proof (trajectory_length p Hw) as HL.
  pose proof Hw as (H0 & Lt & Lx & Lp & La).
  destruct (Z_lt_le_dec (pNP p) 1) as [Hn|Hn].
  { assert (Hnil : trajectory p = []) by (destruct (trajectory p); [reflexivity|cbn in HL; lia]).
    assert (HC : CoordinatesAtTime p time = Ok (vzero, vzero)).
    { unfold CoordinatesAtTime. destruct (Z.ltb_spec (pNP p) 1); [reflexivity|lia]. }
    rewrite Hnil. repeat split; auto.
    - intros [|i] a Ha; discriminate.
    - intros [|i] a b Ha; discriminate. }
  destruct (zget_ok (pTimes p) 0) as (t1 & E1 & N1); [lia|].
  destruct (zget_ok (pTimes p) (pNP p - 1)) as (t2 & E2 & N2); [lia|].
  assert (Hpt : forall i, (0 <= i < pNP p)%Z -> exists a, nth_error (trajectory p) (Z.to_nat i) = Some a /\
     In a (trajectory p) /\ zget (pTimes p) i = Ok (tpt a) /\ zget (pXs p) i = Ok (tpx a) /\
     zget (pPs p) i = Ok (tpp a)).
  { intros i Hi. destruct (nth_trajectory_inv p (Z.to_nat i) Hw) as [a Ha]; [lia|].
    exists a. split; [exact Ha|]. split; [eapply nth_error_In; eauto|].
    destruct (nth_trajectory p _ a Ha) as (A & B & C & D).
    apply zget_nth in A, B, C. rewrite Z2Nat.id in A, B, C by lia. auto. }
  assert (Hcore : t1 <= time <= t2 ->
     (pNP p = 1%Z /\ time = t1 /\ exists a, nth_error (trajectory p) 0 = Some a /\
        CoordinatesAtTime p time = Ok (tpx a, tpp a)) \/
     exists j a b, (0 <= j)%Z /\ nth_error (trajectory p) (Z.to_nat j) = Some a /\
       nth_error (trajectory p) (S (Z.to_nat j)) = Some b /\ tpt a <= time <= tpt b /\ tpt a < tpt b /\
       CoordinatesAtTime p time = Ok (lin_interp (tpt a) (tpt b) (tpx a) (tpx b) time,
                                    lin_interp (tpt a) (tpt b) (tpp a) (tpp b) time)).
  { intros Ht. unfold CoordinatesAtTime. destruct (Z.ltb_spec (pNP p) 1); [lia|].
    rewrite E1, E2. cbn [bind].
    change (nleb t1 time) with (Rleb t1 time). change (nleb time t2) with (Rleb time t2).
    destruct (Rleb_spec t1 time); [|lra]. destruct (Rleb_spec time t2); [|lra]. cbn [andb].
    destruct (Z.eq_dec (pNP p) 1) as [H1|H1].
    - left. rewrite H1 in *. cbn [Z.sub Z.to_nat] in *.
      change (1 - 1)%Z with 0%Z in *. rewrite E1 in E2. apply Ok_inj in E2. subst t2.
      split; [reflexivity|]. split; [lra|].
      destruct (Hpt 0%Z) as (a & Ha & _ & _ & HX & HP); [lia|]. exists a. split; [exact Ha|].
      match goal with |- bind ?b _ = _ => replace b with (Ok (0%Z, 0%Z, t1, t1)) by reflexivity end.
      cbn [bind]. destruct (Z.eqb_spec 0 0); [|lia]. rewrite HX, HP. reflexivity.
    - right. destruct (bisect_time_spec (Z.to_nat (pNP p)) (pTimes p) time 0 (pNP p - 1) t1 t2)
        as (j & u1 & u2 & Hb & Hj0 & Hj1 & HU1 & HU2 & Hu); try lia; auto.
      rewrite Hb. cbn [bind].
      destruct (Z.eqb_spec (j + 1) j); [lia|].
      destruct (Hpt j) as (a & Ha & _ & HT & HX & HP); [lia|].
      destruct (Hpt (j + 1)%Z) as (b & Hb' & _ & HT' & HX' & HP'); [lia|].
      rewrite HX, HX', HP, HP'. cbn [bind].
      rewrite HU1 in HT. apply Ok_inj in HT. rewrite HU2 in HT'. apply Ok_inj in HT'. subst u1 u2.
      assert (Hlt : tpt a < tpt b) by (eapply increasing_zget; [exact Hinc| |exact HU1|exact HU2]; lia).
      exists j, a, b. split; [lia|]. split; [exact Ha|].
      replace (S (Z.to_nat j)) with (Z.to_nat (j + 1)) by lia. split; [exact Hb'|].
      split; [exact Hu|]. split; [exact Hlt|].
      unfold lin_interp. f_equal. f_equal.
      + generalize (tpx a) (tpx b). intros x y. vdestr; vunfold; unnum; vsplit; field; lra.
      + generalize (tpp a) (tpp b). intros x y. vdestr; vunfold; unnum; vsplit; field; lra. }
  assert (Hout : time < t1 \/ t2 < time -> CoordinatesAtTime p time = Ok (vzero, vzero)).
  { intros Ho. unfold CoordinatesAtTime. destruct (Z.ltb_spec (pNP p) 1); [lia|].
    rewrite E1, E2. cbn [bind].
    change (nleb t1 time) with (Rleb t1 time). change (nleb time t2) with (Rleb time t2).
    destruct (Rleb_spec t1 time); destruct (Rleb_spec time t2); cbn [andb]; try reflexivity; lra. }
  assert (Hle : forall i a, nth_error (trajectory p) i = Some a -> t1 <= tpt a <= t2).
  { intros i a Ha. assert (Hi : (i < length (trajectory p))%nat) by (apply nth_error_Some; congruence).
    destruct (nth_trajectory p i a Ha) as (A & _).
    split.
    - change (Z.to_nat 0) with 0%nat in N1.
      destruct i as [|i]; [rewrite A in N1; injection N1 as ->; lra|].
      left. apply (Hinc 0%nat (S i)); auto; lia.
    - destruct (Nat.eq_dec i (Z.to_nat (pNP p - 1))) as [->|Hne]; [rewrite A in N2; injection N2 as ->; lra|].
      left. apply (Hinc i (Z.to_nat (pNP p - 1))); auto; lia. }
  assert (Hmon : forall i j a b, nth_error (trajectory p) i = Some a -> nth_error (trajectory p) j = Some b ->
            (i < j)%nat -> tpt a < tpt b).
  { intros i j a b Ha Hb Hij. apply nth_trajectory in Ha, Hb. destruct Ha as [Ha _], Hb as [Hb _].
    eapply Hinc; eauto. }
  assert (Hstored : forall i a, nth_error (trajectory p) i = Some a -> time = tpt a ->
     CoordinatesAtTime p time = Ok (tpx a, tpp a)).
  { intros i a Ha ->. pose proof (Hle i a Ha) as Hr.
    destruct (Hcore Hr) as [(Hn1 & Ht & a' & Ha' & HC)|(j & a1 & b1 & Hj & Ha1 & Hb1 & Hu & Hlt & HC)].
    - assert (i = 0%nat) by (assert (i < length (trajectory p))%nat by (apply nth_error_Some; congruence); lia).
      subst i. rewrite Ha in Ha'. injection Ha' as <-. exact HC.
    - assert (Hcase : i = Z.to_nat j \/ i = S (Z.to_nat j)).
      { destruct (lt_eq_lt_dec i (Z.to_nat j)) as [[Hl|He]|Hg]; [|left; exact He|].
        - pose proof (Hmon _ _ _ _ Ha Ha1 Hl). lra.
        - destruct (Nat.eq_dec i (S (Z.to_nat j))) as [He|He]; [right; exact He|].
          pose proof (Hmon _ _ _ _ Hb1 Ha ltac:(lia)). lra. }
      rewrite HC. destruct Hcase as [->| ->].
      + rewrite Ha in Ha1. injection Ha1 as <-. unfold lin_interp.
        replace (tpt a - tpt a) with 0 by ring. unfold Rdiv. rewrite Rmult_0_l.
        f_equal. f_equal; [generalize (tpx a) (tpx b1)|generalize (tpp a) (tpp b1)]; vring.
      + rewrite Ha in Hb1. injection Hb1 as <-. unfold lin_interp.
        replace ((tpt a - tpt a1) / (tpt a - tpt a1)) with 1 by (field; lra).
        f_equal. f_equal; [generalize (tpx a) (tpx a1)|generalize (tpp a) (tpp a1)]; vring. }
  split; [|split; [|split; [exact Hstored|]]].
  - intros H. apply Hout. left. destruct (Hpt 0%Z) as (a & _ & Hin & HT & _); [lia|].
    rewrite E1 in HT. apply Ok_inj in HT. rewrite HT. apply H, Hin.
  - intros H. apply Hout. right. destruct (Hpt (pNP p - 1)%Z) as (a & _ & Hin & HT & _); [lia|].
    rewrite E2 in HT. apply Ok_inj in HT. rewrite HT. apply H, Hin.
  - intros i a b Ha Hb Ht. pose proof (Hle i a Ha). pose proof (Hle (S i) b Hb).
    pose proof (Hmon _ _ _ _ Ha Hb (le_n _)) as Hab.
    destruct (Req_dec time (tpt a)) as [Ea|Na].
    { rewrite (Hstored i a Ha Ea), Ea. unfold lin_interp.
      replace (tpt a - tpt a) with 0 by ring. unfold Rdiv. rewrite Rmult_0_l.
      f_equal. f_equal; [generalize (tpx a) (tpx b)|generalize (tpp a) (tpp b)]; vring. }
    destruct (Req_dec time (tpt b)) as [Eb|Nb].
    { rewrite (Hstored (S i) b Hb Eb), Eb. unfold lin_interp.
      replace ((tpt b - tpt a) / (tpt b - tpt a)) with 1 by (field; lra).
      f_equal. f_equal; [generalize (tpx a) (tpx b)|generalize (tpp a) (tpp b)]; vring. }
    destruct Hcore as [(Hn1 & Ht' & a' & Ha' & HC)|(j & a1 & b1 & Hj & Ha1 & Hb1 & Hu & Hlt & HC)]; [lra| |].
    + assert (S i < length (trajectory p))%nat by (apply nth_error_Some; congruence). lia.
    + assert (i = Z.to_nat j).
      { destruct (lt_eq_lt_dec i (Z.to_nat j)) as [[Hl|He]|Hg]; [|exact He|].
        - destruct (Nat.eq_dec (S i) (Z.to_nat j)) as [He|He].
          + rewrite He in Hb. rewrite Hb in Ha1. injection Ha1 as <-. lra.
          + pose proof (Hmon _ _ _ _ Hb Ha1 ltac:(lia)). lra.
        - destruct (Nat.eq_dec (S (Z.to_nat j)) i) as [He|He].
          + rewrite He in Hb1. rewrite Ha in Hb1. injection Hb1 as <-. lra.
          + pose proof (Hmon _ _ _ _ Hb1 Ha ltac:(lia)). lra. }
      subst i. rewrite Ha in Ha1. injection Ha1 as <-. rewrite Hb in Hb1. injection Hb1 as <-. exact HC.
Qed.
