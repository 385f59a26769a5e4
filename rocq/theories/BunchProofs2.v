(* Proofs about bunches: Bunch::addCorrelation. *)
From Coq Require Import ZArith Reals List Lia Lra Bool.
From Verif Require Import Base BaseFacts Num VecModel VecFacts ParticleModel ParticleSpec ParticleProofs
  ParticleProofs2 BunchModel BunchModelR BunchSpec TraceProofs2 BunchProofs.
Import ListNotations.
Local Open Scope R_scope.

Lemma start_access p : has_start p -> exists q r, trajectory p = q :: r /\
  TrajTime p 0 = Ok (tpt q) /\ TrajPoint p 0 = Ok (tpx q) /\ TrajMomentum p 0 = Ok (tpp q) /\ TrajAccel p 0 = Ok (tpa q).
Proof.
  intros [Hw Hn]. destruct (ParticleProofs2.access_inside p 0 Hw) as (a & A & B); [lia|].
  destruct (trajectory p) as [|q r] eqn:E; [discriminate|]. cbn in A. injection A as ->. exists a, r. auto.
Qed.

Lemma coord6_nth (k : nat) (q : tpoint R) : (k < 6)%nat ->
  coord6 (Z.of_nat k) (tpx q) (tpp q) = nth k (phase6 q) 0.
Proof. intros H. do 6 (destruct k as [|k]; [reflexivity|]). lia. Qed.

Lemma put6_nth (dep : nat) v x m k : (dep < 6)%nat -> (k < 6)%nat -> forall t a,
  let '(x', m') := put6 (Z.of_nat dep) v x m in
  nth k (phase6 (TP t x' m' a)) 0 = if Nat.eqb k dep then v else nth k (phase6 (TP t x m a)) 0.
Proof.
  intros Hd Hk t a. do 6 (destruct dep as [|dep]; [do 6 (destruct k as [|k]; [reflexivity|]); lia|]). lia.
Qed.

Lemma first_sum (ind : nat) (b : bunch R) : (ind < 6)%nat -> Forall has_start b -> forall s,
  fold_res (fun s p => bind (TrajPoint p 0) (fun x => bind (TrajMomentum p 0) (fun m =>
     Ok (nadd s (coord6 (Z.of_nat ind) x m))))) b s = Ok (s + sum (map (start6 ind) b)).
Proof.
  intros Hi H. induction H as [|p b Hp Hb IH]; intros s; cbn [fold_res map].
  - cbn. f_equal. lra.
  - destruct (start_access p Hp) as (q & r & E & A & B & C & D). rewrite B, C. cbn [bind].
    rewrite IH. f_equal. rewrite coord6_nth by exact Hi. unfold sum. cbn [fold_right map].
    unfold start6 at 2. rewrite E. cbn [nadd NumR]. lra.
Qed.

Lemma correlate_bunch (b : bunch R) ind dep f :
  (ind < 6)%nat -> (dep < 6)%nat -> ind <> dep -> Forall has_start b ->
  exists b', bunch_correlate (Z.of_nat ind) (Z.of_nat dep) f b = Ok b' /\
    Forall2 (fun p p' => correlated dep (f * (start6 ind p - mean (map (start6 ind) b))) p p') b b'.
Proof.
  intros Hi Hd Hne Hb. unfold bunch_correlate.
  replace ((0 <=? Z.of_nat ind) && (Z.of_nat ind <? 6) && (0 <=? Z.of_nat dep) && (Z.of_nat dep <? 6) && negb (Z.of_nat dep =? Z.of_nat ind))%Z with true.
  2:{ symmetry. rewrite !andb_true_iff, negb_true_iff, Z.eqb_neq, !Z.leb_le, !Z.ltb_lt. lia. }
  rewrite (first_sum ind b Hi Hb). cbn [bind].
  assert (M : ndiv (nZ 0 + sum (map (start6 ind) b)) (nZ (Z.of_nat (length b))) = mean (map (start6 ind) b)).
  { unfold mean. rewrite map_length. cbn [ndiv NumR nZ]. rewrite <- INR_IZR_INZ, Rplus_0_l. reflexivity. }
  rewrite M. set (mn := mean (map (start6 ind) b)). clearbody mn. clear M. cbv zeta.
  induction Hb as [|p b Hp Hb IH]; [exists []; split; [reflexivity|constructor]|].
  destruct (start_access p Hp) as (q & r & E & A & B & C & D). cbn [map_res].
  rewrite A, B, C, D. cbn [bind].
  pose proof (put6_nth dep (nadd (coord6 (Z.of_nat dep) (tpx q) (tpp q)) (nmul f (nsub (coord6 (Z.of_nat ind) (tpx q) (tpp q)) mn))) (tpx q) (tpp q)) as P.
  rewrite !coord6_nth in * by assumption.
  destruct (put6 _ _ _ _) as [x' m'].
  destruct IH as (b' & E' & F').
  rewrite E'. cbn [bind]. eexists. split; [reflexivity|]. constructor; [|exact F'].
  exists q, r, (TP (tpt q) x' m' (tpa q)). split; [exact E|]. split; [reflexivity|]. split; [reflexivity|].
  split; [reflexivity|]. split; [reflexivity|].
  assert (Q : forall k, nth k (phase6 (TP (tpt q) (tpx q) (tpp q) (tpa q))) 0 = nth k (phase6 q) 0) by (intros; destruct q; reflexivity).
  split; [|split].
  - rewrite (P dep Hd Hd). rewrite Nat.eqb_refl. unfold start6. rewrite E. reflexivity.
  - intros k Hk Hkd. rewrite (P k Hd Hk). destruct (Nat.eqb_spec k dep); [contradiction|]. apply Q.
  - repeat split; reflexivity.
Qed.

(* sums of all coordinates are kept *)
Lemma correlate_sums (b b' : bunch R) ind dep f :
  (ind < 6)%nat -> (dep < 6)%nat -> b <> [] ->
  Forall2 (fun p p' => correlated dep (f * (start6 ind p - mean (map (start6 ind) b))) p p') b b' ->
  forall k, (k < 6)%nat -> sum (map (start6 k) b') = sum (map (start6 k) b).
Proof.
  intros Hi Hd Hne H k Hk. pose proof (INR_length_pos b Hne) as Hp.
  assert (G : forall mn l l', Forall2 (fun p p' => correlated dep (f * (start6 ind p - mn)) p p') l l' ->
     sum (map (start6 k) l') = sum (map (start6 k) l) + (if Nat.eqb k dep then f * (sum (map (start6 ind) l) - INR (length l) * mn) else 0)).
  { intros mn l l' F. induction F as [|p p' l l' C F IH].
    - cbn. destruct (Nat.eqb k dep); lra.
    - cbn [map length]. rewrite S_INR. unfold sum at 1 2 3. cbn [fold_right].
      fold (sum (map (start6 k) l)). fold (sum (map (start6 k) l')). fold (sum (map (start6 ind) l)).
      rewrite IH. destruct C as (q & r & q' & E & E' & _ & _ & _ & Cd & Ck & _).
      assert (S' : start6 k p' = nth k (phase6 q') 0) by (unfold start6; rewrite E'; reflexivity).
      assert (S1 : start6 k p = nth k (phase6 q) 0) by (unfold start6; rewrite E; reflexivity).
      rewrite S', S1. destruct (Nat.eqb_spec k dep) as [->|N].
      + rewrite Cd. lra.
      + rewrite (Ck k Hk N). lra. }
  rewrite (G _ _ _ H). destruct (Nat.eqb k dep); [|lra].
  unfold mean. rewrite map_length. field. lra.
Qed.
