(* Proofs about field traces: buffers, derivative, retardation, transformation. *)
From Coq Require Import ZArith Reals List Lra Lia Bool Psatz.
From Flocq Require Import Core.Raux.
From Verif Require Import Base BaseFacts Num VecModel VecFacts ParticleModel TraceModel
  TraceIntSpec TraceIntProofs TraceIntProofs2 TraceSpec TraceProofs.
Import ListNotations.
Local Open Scope R_scope.
Local Open Scope res_scope.

Section Generic.
Context {T : Type} {NT : Num T}.

Lemma tr_in_spec (tr : ftrace T) i : tr_in tr i = true <-> (0 <= i < tr_N tr)%Z.
Proof.
  unfold tr_in. split.
  - intros H. apply andb_prop in H. destruct H as [A B]. apply Z.leb_le in A. apply Z.ltb_lt in B. lia.
  - intros [A B]. apply andb_true_intro. split; [apply Z.leb_le|apply Z.ltb_lt]; lia.
Qed.
Lemma tr_in_false (tr : ftrace T) i : ~ (0 <= i < tr_N tr)%Z -> tr_in tr i = false.
Proof. intros H. destruct (tr_in tr i) eqn:E; [|reflexivity]. apply tr_in_spec in E. contradiction. Qed.

Lemma zget_map_zseq (l : list (emf T)) (tr : ftrace T) : forall n a,
  (forall k, (k < n)%nat -> exists f, nth_error l k = Some f /\ tr_get tr (a + Z.of_nat k) = Ok f) ->
  length l = n -> map_res (tr_get tr) (zseq a n) = Ok l.
Proof.
  revert tr. induction l as [|x l IH]; intros tr n a H Hl; cbn in Hl; subst n.
  - reflexivity.
  - cbn [zseq map_res]. destruct (H 0%nat ltac:(lia)) as (f & F1 & F2). cbn in F1. injection F1 as ->.
    rewrite Z.add_0_r in F2. rewrite F2. cbn [bind].
    rewrite (IH tr (length l) (a + 1)%Z); [reflexivity| |reflexivity].
    intros k Hk. destruct (H (S k) ltac:(lia)) as (g & G1 & G2). exists g. split; [exact G1|].
    replace (a + 1 + Z.of_nat k)%Z with (a + Z.of_nat (S k))%Z by lia. exact G2.
Qed.

Lemma tr_get_inside (tr : ftrace T) k f :
  nth_error (tr_f tr) k = Some f -> tr_get tr (Z.of_nat k) = Ok f.
Proof.
  intros H. unfold tr_get. assert (tr_in tr (Z.of_nat k) = true) as ->.
  { apply tr_in_spec. apply in_range in H. unfold tr_N. lia. }
  apply zget_nth, H.
Qed.

Lemma export_all (tr : ftrace T) : tr_get_buffer tr (tr_N tr) = Ok (tr_f tr).
Proof.
  unfold tr_get_buffer. rewrite Z.eqb_refl. apply zget_map_zseq; [|reflexivity].
  intros k Hk. destruct (nth_error (tr_f tr) k) as [f|] eqn:E.
  - exists f. split; [reflexivity|]. apply tr_get_inside, E.
  - apply nth_error_None in E. lia.
Qed.

Lemma tr_set_inside (tr : ftrace T) i f : (0 <= i < tr_N tr)%Z ->
  tr_set tr i f = Ok (FT (tr_t0 tr) (tr_dt tr) (lset (tr_f tr) (Z.to_nat i) f)).
Proof.
  intros H. unfold tr_set. assert (tr_in tr i = true) as -> by (apply tr_in_spec; exact H).
  unfold zset. unfold tr_N in H. destruct (Z.ltb_spec i 0); [lia|].
  destruct (Z.leb_spec (Z.of_nat (length (tr_f tr))) i); [lia|]. reflexivity.
Qed.

Lemma lset_app {A} (a : list A) x y l : lset (a ++ x :: l) (length a) y = a ++ y :: l.
Proof. induction a as [|z a IH]; cbn; [reflexivity|]. f_equal. exact IH. Qed.

Lemma fill_all (buf : list (emf T)) : forall pre rest t0 dt,
  length buf = length rest ->
  tr_fill (length rest) (Z.of_nat (length pre)) buf (FT t0 dt (pre ++ rest)) = Ok (FT t0 dt (pre ++ buf)).
Proof.
  induction buf as [|f buf IH]; intros pre [|g rest] t0 dt H; cbn [length] in H; try lia.
  - reflexivity.
  - cbn [length tr_fill]. rewrite tr_set_inside.
    + cbn [bind tr_t0 tr_dt tr_f]. rewrite Nat2Z.id, lset_app.
      specialize (IH (pre ++ [f]) rest t0 dt ltac:(lia)).
      rewrite app_length, <- !app_assoc in IH. cbn [length app] in IH.
      replace (Z.of_nat (length pre) + 1)%Z with (Z.of_nat (length pre + 1)) by lia. exact IH.
    + unfold tr_N. cbn [tr_f]. rewrite app_length. cbn [length]. lia.
Qed.

Lemma import_all (tr : ftrace T) buf : length buf = length (tr_f tr) ->
  tr_set_buffer tr buf (tr_N tr) = Ok (FT (tr_t0 tr) (tr_dt tr) buf).
Proof.
  intros H. unfold tr_set_buffer. rewrite Z.eqb_refl. destruct tr as [t0 dt l]. cbn [tr_f tr_t0 tr_dt] in *.
  apply (fill_all buf [] l t0 dt H).
Qed.

Lemma buffer_mismatch (tr : ftrace T) buf Nb : Nb <> tr_N tr ->
  tr_get_buffer tr Nb = Throw IOexc /\ tr_set_buffer tr buf Nb = Throw IOexc.
Proof.
  intros H. unfold tr_get_buffer, tr_set_buffer. destruct (Z.eqb_spec Nb (tr_N tr)); [contradiction|]. auto.
Qed.

Lemma access_outside (tr : ftrace T) i f : ~ (0 <= i < tr_N tr)%Z ->
  tr_get tr i = Throw IOexc /\ tr_set tr i f = Throw IOexc /\ tr_acc tr i f = Throw IOexc /\
  tr_time tr i = Throw IOexc.
Proof. intros H. unfold tr_get, tr_set, tr_acc, tr_time. rewrite (tr_in_false tr i H). auto. Qed.

Lemma access_inside (tr : ftrace T) k f g :
  nth_error (tr_f tr) k = Some g ->
  tr_get tr (Z.of_nat k) = Ok g /\
  (exists tr', tr_set tr (Z.of_nat k) f = Ok tr' /\ same_sampling tr tr' /\
     nth_error (tr_f tr') k = Some f /\
     forall j, j <> k -> nth_error (tr_f tr') j = nth_error (tr_f tr) j) /\
  (exists tr', tr_acc tr (Z.of_nat k) f = Ok tr' /\ same_sampling tr tr' /\
     nth_error (tr_f tr') k = Some (eadd g f) /\
     forall j, j <> k -> nth_error (tr_f tr') j = nth_error (tr_f tr) j).
Proof.
  intros H. pose proof (in_range _ _ _ H) as Hk.
  assert (Hin : (0 <= Z.of_nat k < tr_N tr)%Z) by (unfold tr_N; lia).
  split; [apply tr_get_inside, H|]. split.
  - eexists. split; [apply tr_set_inside, Hin|]. rewrite Nat2Z.id. cbn [tr_f tr_t0 tr_dt].
    split; [repeat split; cbn; rewrite ?lset_length; auto|].
    split; [apply lset_nth_eq; exact Hk|]. intros j Hj. apply lset_nth_neq. auto.
  - unfold tr_acc. assert (tr_in tr (Z.of_nat k) = true) as -> by (apply tr_in_spec; exact Hin).
    rewrite (zget_nth _ _ _ H). cbn [bind]. unfold zset.
    destruct (Z.ltb_spec (Z.of_nat k) 0); [lia|].
    destruct (Z.leb_spec (Z.of_nat (length (tr_f tr))) (Z.of_nat k)); [lia|]. cbn [orb bind].
    eexists. split; [reflexivity|]. rewrite Nat2Z.id. cbn [tr_f tr_t0 tr_dt].
    split; [repeat split; cbn; rewrite ?lset_length; auto|].
    split; [apply lset_nth_eq; exact Hk|]. intros j Hj. apply lset_nth_neq. auto.
Qed.

Lemma time_inside (tr : ftrace T) i : (0 <= i < tr_N tr)%Z ->
  tr_time tr i = Ok (tr_t0 tr + nZ i * tr_dt tr)%num.
Proof. intros H. unfold tr_time. assert (tr_in tr i = true) as -> by (apply tr_in_spec; exact H). reflexivity. Qed.

(* a loop which writes consecutive samples *)
Lemma write_loop (g : Z -> res (emf T)) (v : nat -> emf T) n : forall a (s : ftrace T),
  (forall j, (a <= j < a + n)%nat -> g (Z.of_nat j) = Ok (v j)) ->
  (a + n <= length (tr_f s))%nat ->
  exists s', fold_res (fun s i => f <- g i;; tr_set s i f) (zseq (Z.of_nat a) n) s = Ok s' /\
    same_sampling s s' /\
    forall j, nth_error (tr_f s') j =
      if (a <=? j)%nat && (j <? a + n)%nat then Some (v j) else nth_error (tr_f s) j.
Proof.
  induction n as [|n IH]; intros a s Hg Hl.
  - exists s. split; [reflexivity|]. split; [repeat split|]. intros j.
    destruct (Nat.leb_spec a j); destruct (Nat.ltb_spec j (a + 0)); cbn [andb]; auto. lia.
  - cbn [zseq fold_res]. rewrite (Hg a) by lia. cbn [bind].
    rewrite tr_set_inside by (unfold tr_N; lia). cbn [bind]. rewrite Nat2Z.id.
    destruct (IH (S a) (FT (tr_t0 s) (tr_dt s) (lset (tr_f s) a (v a)))) as (s' & E & S' & N').
    + intros j Hj. apply Hg. lia.
    + cbn [tr_f]. rewrite lset_length. lia.
    + replace (Z.of_nat a + 1)%Z with (Z.of_nat (S a)) by lia. exists s'. split; [exact E|].
      cbn [tr_f tr_t0 tr_dt] in *. destruct S' as (L & S1 & S2). cbn in L, S1, S2. rewrite lset_length in L.
      split; [repeat split; auto|]. intros j. rewrite N'.
      destruct (Nat.eq_dec j a) as [->|Hne].
      * destruct (Nat.leb_spec (S a) a); [lia|]. cbn [andb].
        destruct (Nat.leb_spec a a); [|lia]. destruct (Nat.ltb_spec a (a + S n)); [|lia]. cbn [andb].
        apply lset_nth_eq. lia.
      * rewrite lset_nth_neq by auto.
        destruct (Nat.leb_spec (S a) j); destruct (Nat.ltb_spec j (S a + n));
        destruct (Nat.leb_spec a j); destruct (Nat.ltb_spec j (a + S n)); cbn [andb]; auto; lia.
Qed.

Lemma nth_some {A} (l : list A) k : (k < length l)%nat -> exists x, nth_error l k = Some x.
Proof. intros H. destruct (nth_error l k) eqn:E; eauto. apply nth_error_None in E. lia. Qed.

(* the derivative, sample by sample *)
Lemma derivative_samples (tr : ftrace T) : (2 <= length (tr_f tr))%nat ->
  exists d, tr_derivative tr = Ok d /\ same_sampling tr d /\
    forall k x, nth_error (tr_f d) k = Some x -> forall a b,
      nth_error (tr_f tr) (if (k =? length (tr_f tr) - 1)%nat then k else S k) = Some b ->
      nth_error (tr_f tr) (Nat.pred k) = Some a ->
      x = ediv (esub b a) (if ((k =? 0) || (k =? length (tr_f tr) - 1))%nat then tr_dt tr
                           else (nZ 2 * tr_dt tr)%num).
Proof.
  intros HN. unfold tr_derivative. cbv zeta.
  set (l := tr_f tr) in *. set (n := length l) in *.
  destruct (nth_some l 1) as [a1 E1]; [lia|]. destruct (nth_some l 0) as [a0 E0]; [lia|].
  rewrite (zget_nth l 1 a1 E1 : zget l 1 = Ok a1), (zget_nth l 0 a0 E0 : zget l 0 = Ok a0). cbn [bind].
  rewrite tr_set_inside by (unfold tr_N; fold l; fold n; lia). cbn [bind].
  change (Z.to_nat 0) with 0%nat. fold l.
  set (s0 := FT (tr_t0 tr) (tr_dt tr) (lset l 0 (ediv (esub a1 a0) (tr_dt tr)))).
  pose (w := fun j : nat => match nth_error l (j + 1), nth_error l (j - 1) with
             | Some u, Some d => ediv (esub u d) (nZ 2 * tr_dt tr)%num | _, _ => a0 end).
  destruct (write_loop (fun i => up <- zget l (i + 1);; dn <- zget l (i - 1);;
              Ok (ediv (esub up dn) (nZ 2 * tr_dt tr)%num)) w (Z.to_nat (tr_N tr - 2)) 1 s0) as (s1 & F1 & S1 & N1).
  { intros j Hj. unfold tr_N in Hj. fold l in Hj. fold n in Hj.
    destruct (nth_some l (j + 1)) as [u U]; [fold n; lia|]. destruct (nth_some l (j - 1)) as [d D]; [fold n; lia|].
    replace (Z.of_nat j + 1)%Z with (Z.of_nat (j + 1)) by lia.
    replace (Z.of_nat j - 1)%Z with (Z.of_nat (j - 1)) by lia.
    rewrite (zget_nth _ _ _ U), (zget_nth _ _ _ D). cbn [bind]. unfold w. rewrite U, D. reflexivity. }
  { unfold s0. cbn [tr_f]. rewrite lset_length. unfold tr_N. fold l. fold n. lia. }
  match type of F1 with ?x = _ => match goal with |- context [fold_res ?f ?z s0] =>
    assert (E : fold_res f z s0 = Ok s1) end end.
  { rewrite <- F1. clear. change (Z.of_nat 1) with 1%Z. generalize (zseq 1 (Z.to_nat (tr_N tr - 2))) s0.
    intros z; induction z as [|i z IH]; intros s; cbn [fold_res]; [reflexivity|].
    destruct (zget l (i + 1)); cbn [bind]; auto. destruct (zget l (i - 1)); cbn [bind]; auto.
    destruct (tr_set s i _); cbn [bind]; auto. }
  rewrite E. clear E F1. cbn [bind].
  destruct S1 as (L1 & T1 & D1). unfold s0 in L1, T1, D1. cbn in L1, T1, D1. rewrite lset_length in L1. fold n in L1.
  unfold tr_N in *. fold l. fold n. fold l in N1. fold n in N1.
  destruct (nth_some l (n - 1)) as [z1 Z1]; [fold n; lia|]. destruct (nth_some l (n - 2)) as [z2 Z2]; [fold n; lia|].
  replace (Z.of_nat n - 1)%Z with (Z.of_nat (n - 1)) by lia.
  replace (Z.of_nat n - 2)%Z with (Z.of_nat (n - 2)) by lia.
  rewrite (zget_nth _ _ _ Z1), (zget_nth _ _ _ Z2). cbn [bind].
  rewrite tr_set_inside by (unfold tr_N; lia).
  eexists. split; [reflexivity|]. rewrite Nat2Z.id. cbn [tr_f tr_t0 tr_dt].
  split. { repeat split; cbn; auto. rewrite lset_length. auto. }
  intros k x Hx a b Hb Ha.
  destruct (Nat.eqb_spec k (n - 1)) as [Ek|Ek].
  - subst k. rewrite lset_nth_eq in Hx by lia. injection Hx as <-. rewrite orb_true_r.
    replace (Nat.pred (n - 1)) with (n - 2)%nat in Ha by lia. congruence.
  - rewrite lset_nth_neq in Hx by auto. rewrite N1 in Hx. rewrite orb_false_r.
    assert (k < n)%nat.
    { assert (k < length (tr_f s1))%nat; [|lia]. apply nth_error_Some. rewrite N1.
      intros Habs. rewrite Habs in Hx. discriminate. }
    destruct (Nat.eqb_spec k 0) as [K0|K0].
    + subst k. cbn [Nat.leb andb] in Hx. unfold s0 in Hx. cbn [tr_f] in Hx.
      rewrite lset_nth_eq in Hx by (fold n; lia). injection Hx as <-. change (Nat.pred 0) with 0%nat in Ha. congruence.
    + destruct (Nat.leb_spec 1 k); [|lia]. destruct (Nat.ltb_spec k (1 + Z.to_nat (Z.of_nat n - 2))); [|lia].
      cbn [andb] in Hx. unfold w in Hx. replace (k + 1)%nat with (S k) in Hx by lia.
      replace (k - 1)%nat with (Nat.pred k) in Hx by lia. rewrite Hb, Ha in Hx. congruence.
Qed.

Lemma derivative_short (tr : ftrace T) : (length (tr_f tr) < 2)%nat -> tr_derivative tr = UB.
Proof.
  intros H. unfold tr_derivative. cbv zeta. unfold zget at 1.
  change (1 <? 0)%Z with false. cbv iota. change (Z.to_nat 1) with 1%nat.
  destruct (nth_error (tr_f tr) 1) eqn:E; [|reflexivity]. apply in_range in E. lia.
Qed.
End Generic.

Lemma derivative_linear (tr : ftrace R) a b : tr_dt tr <> 0 -> (2 <= length (tr_f tr))%nat ->
  samples_of tr (linear_signal a b) ->
  exists d, tr_derivative tr = Ok d /\ same_sampling tr d /\
    forall k x, nth_error (tr_f d) k = Some x -> x = b.
Proof.
  intros Hd HN Hs. destruct (derivative_samples tr HN) as (d & E & SS & H).
  exists d. split; [exact E|]. split; [exact SS|]. intros k x Hx.
  assert (Hk : (k < length (tr_f tr))%nat) by (rewrite (proj1 SS); eapply in_range; eauto).
  destruct (nth_some (tr_f tr) (Nat.pred k)) as [u U]; [lia|].
  destruct (nth_some (tr_f tr) (if (k =? length (tr_f tr) - 1)%nat then k else S k)) as [v V].
  { destruct (Nat.eqb_spec k (length (tr_f tr) - 1)); lia. }
  rewrite (H k x Hx u v V U). clear H. apply Hs in U, V. rewrite U, V. clear U V x Hx.
  destruct (Nat.eqb_spec k (length (tr_f tr) - 1)) as [E1|E1].
  - rewrite orb_true_r. unfold sample_time.
    replace (Z.of_nat (Nat.pred k)) with (Z.of_nat k - 1)%Z by lia. rewrite minus_IZR.
    generalize (IZR (Z.of_nat k)). intros z. revert Hd. generalize (tr_t0 tr) (tr_dt tr). clear.
    intros t0 dt Hd. revert a b. intros [[a1 a2 a3] [a4 a5 a6]] [[b1 b2 b3] [b4 b5 b6]].
    unfold linear_signal. apply emf_eq; apply vec_eq; cbn; field; auto.
  - rewrite orb_false_r. unfold sample_time. destruct (Nat.eqb_spec k 0) as [E0|E0].
    + subst k. cbn [Nat.pred]. change (Z.of_nat 0) with 0%Z. change (Z.of_nat 1) with 1%Z.
      revert Hd. generalize (tr_t0 tr) (tr_dt tr). clear.
      intros t0 dt Hd. revert a b. intros [[a1 a2 a3] [a4 a5 a6]] [[b1 b2 b3] [b4 b5 b6]].
      unfold linear_signal. apply emf_eq; apply vec_eq; cbn; field; auto.
    + replace (Z.of_nat (Nat.pred k)) with (Z.of_nat k - 1)%Z by lia.
      replace (Z.of_nat (S k)) with (Z.of_nat k + 1)%Z by lia. rewrite minus_IZR, plus_IZR.
      generalize (IZR (Z.of_nat k)). intros z. revert Hd. generalize (tr_t0 tr) (tr_dt tr). clear.
      intros t0 dt Hd. revert a b. intros [[a1 a2 a3] [a4 a5 a6]] [[b1 b2 b3] [b4 b5 b6]].
      unfold linear_signal. apply emf_eq; apply vec_eq; cbn; field; auto.
Qed.

Lemma derivative_quadratic (tr : ftrace R) a b c : tr_dt tr <> 0 -> (2 <= length (tr_f tr))%nat ->
  samples_of tr (quadratic_signal a b c) ->
  exists d, tr_derivative tr = Ok d /\ same_sampling tr d /\
    forall k x, (0 < k < length (tr_f tr) - 1)%nat -> nth_error (tr_f d) k = Some x ->
      x = linear_signal b (emul c 2) (sample_time tr (Z.of_nat k)).
Proof.
  intros Hd HN Hs. destruct (derivative_samples tr HN) as (d & E & SS & H).
  exists d. split; [exact E|]. split; [exact SS|]. intros k x Hkk Hx.
  destruct (nth_some (tr_f tr) (Nat.pred k)) as [u U]; [lia|].
  specialize (H k x Hx u). 
  destruct (Nat.eqb_spec k (length (tr_f tr) - 1)) as [E1|E1]; [lia|].
  destruct (Nat.eqb_spec k 0) as [E0|E0]; [lia|]. cbn [orb] in H.
  destruct (nth_some (tr_f tr) (S k)) as [v V]; [lia|].
  rewrite (H v V U). clear H. apply Hs in U, V. rewrite U, V. clear U V x Hx.
  unfold sample_time.
  replace (Z.of_nat (Nat.pred k)) with (Z.of_nat k - 1)%Z by lia.
  replace (Z.of_nat (S k)) with (Z.of_nat k + 1)%Z by lia. rewrite minus_IZR, plus_IZR.
  generalize (IZR (Z.of_nat k)). intros z. revert Hd. generalize (tr_t0 tr) (tr_dt tr). clear.
  intros t0 dt Hd. revert a b c. intros [[a1 a2 a3] [a4 a5 a6]] [[b1 b2 b3] [b4 b5 b6]] [[c1 c2 c3] [c4 c5 c6]].
  unfold quadratic_signal, linear_signal. apply emf_eq; apply vec_eq; cbn; field; auto.
Qed.

(* ---- retard ---- *)
Lemma nth_error_ext {A} (a : list A) : forall b, (forall k, nth_error a k = nth_error b k) -> a = b.
Proof.
  induction a as [|x a IH]; intros [|y b] H; auto.
  - specialize (H 0%nat). discriminate.
  - specialize (H 0%nat). discriminate.
  - pose proof (H 0%nat) as H0. cbn in H0. injection H0 as ->. f_equal. apply IH.
    intros k. exact (H (S k)).
Qed.
Lemma map_res_nth {A B} (f : A -> res B) l : forall out, map_res f l = Ok out ->
  length out = length l /\
  forall k x, nth_error l k = Some x -> exists y, nth_error out k = Some y /\ f x = Ok y.
Proof.
  induction l as [|a l IH]; intros out H; cbn in H.
  - assert (out = []) by congruence. subst. split; [reflexivity|]. intros [|k] x Hx; discriminate.
  - destruct (f a) as [b| | |] eqn:E; cbn in H; try discriminate.
    destruct (map_res f l) as [bs| | |] eqn:E2; cbn in H; try discriminate.
    assert (out = b :: bs) by congruence. subst. destruct (IH bs eq_refl) as [L Hn].
    split; [cbn; lia|]. intros [|k] x Hx; cbn in Hx.
    + assert (x = a) by congruence. subst x. exists b. auto.
    + destruct (Hn k x Hx) as (y & Y1 & Y2). exists y. auto.
Qed.
Lemma map_res_all {A B} (f : A -> res B) l : (forall x, In x l -> exists y, f x = Ok y) ->
  exists out, map_res f l = Ok out.
Proof.
  induction l as [|a l IH]; intros H; [exists []; reflexivity|]. cbn.
  destruct (H a (or_introl eq_refl)) as [b ->]. cbn.
  destruct IH as [bs ->]; [intros x Hx; apply H; right; exact Hx|]. cbn. eauto.
Qed.
Lemma map_res_ext {A B} (f : A -> res B) (g : A -> B) l :
  (forall x, In x l -> f x = Ok (g x)) -> map_res f l = Ok (map g l).
Proof.
  induction l as [|a l IH]; intros H; [reflexivity|]. cbn. rewrite (H a (or_introl eq_refl)). cbn.
  rewrite IH by (intros x Hx; apply H; right; exact Hx). reflexivity.
Qed.
Lemma zseq_nth n : forall a k, (k < n)%nat -> nth_error (zseq a n) k = Some (a + Z.of_nat k)%Z.
Proof.
  induction n as [|n IH]; intros a [|k] H; try lia.
  - cbn. f_equal. lia.
  - cbn [zseq nth_error]. rewrite IH by lia. f_equal. lia.
Qed.
Lemma zseq_length n : forall a, length (zseq a n) = n.
Proof. induction n as [|n IH]; intros a; cbn; auto. Qed.
Lemma zseq_in n : forall a z, In z (zseq a n) -> (a <= z < a + Z.of_nat n)%Z.
Proof. induction n as [|n IH]; intros a z H; cbn [zseq In] in H; [contradiction|]. destruct H as [<-|H]; [lia|]. apply IH in H. lia. Qed.

Lemma tr_time_real (tr : ftrace R) k : (0 <= k < tr_N tr)%Z -> tr_time tr k = Ok (sample_time tr k).
Proof. intros H. rewrite time_inside by exact H. reflexivity. Qed.

(* energy flow of a list of samples *)
Definition energy_flow (tr : ftrace R) : vec R := tr_poynting tr.

Lemma retard_samples (tr target out : ftrace R) delta :
  tr_retard tr delta target = Ok out ->
  same_sampling target out /\
  (forall k f, nth_error (tr_f out) k = Some f ->
     tr_at tr (sample_time target (Z.of_nat k) - delta) = Ok f) /\
  tr_poynting out <> vzero.
Proof.
  unfold tr_retard. intros H.
  match type of H with bind ?m _ = _ => destruct m as [l| | |] eqn:E end; cbn [bind] in H; try discriminate.
  set (o := FT (tr_t0 target) (tr_dt target) l) in *.
  change (neqb (vnorm (tr_poynting o)) (nZ 0)) with (Reqb' (vnorm (tr_poynting o)) 0) in H.
  destruct (Reqb_spec (vnorm (tr_poynting o)) 0) as [Ez|Ez]; [discriminate|].
  assert (out = o) by congruence. subst out. clear H.
  destruct (map_res_nth _ _ _ E) as [L Hn]. rewrite zseq_length in L.
  split; [repeat split; cbn; auto|]. split.
  - intros k f Hf. cbn in Hf. pose proof (in_range _ _ _ Hf) as Hk. rewrite L in Hk.
    destruct (Hn k _ (zseq_nth _ 0 k Hk)) as (y & Y1 & Y2). rewrite Z.add_0_l in Y2.
    rewrite tr_time_real in Y2 by (unfold tr_N; lia). cbn [bind] in Y2.
    assert (y = f) by congruence. subst y. exact Y2.
  - intros Hz. apply Ez. rewrite Hz. apply vnorm_zero_iff. reflexivity.
Qed.

Lemma retard_total (tr target : ftrace R) delta vals :
  length vals = length (tr_f target) ->
  (forall k f, nth_error vals k = Some f -> tr_at tr (sample_time target (Z.of_nat k) - delta) = Ok f) ->
  let out := FT (tr_t0 target) (tr_dt target) vals in
  (tr_poynting out <> vzero -> tr_retard tr delta target = Ok out) /\
  (tr_poynting out = vzero -> tr_retard tr delta target = Throw IOexc).
Proof.
  intros L H out.
  assert (E : map_res (fun i => t <- tr_time target i;; tr_at tr (t - delta)%num)
               (zseq 0 (length (tr_f target))) = Ok vals).
  { destruct (map_res_all (fun i => t <- tr_time target i;; tr_at tr (t - delta)%num) (zseq 0 (length (tr_f target)))) as [o O].
    - intros x Hx. apply zseq_in in Hx. rewrite tr_time_real by (unfold tr_N; lia). cbn [bind].
      destruct (nth_some vals (Z.to_nat x)) as [y Y]; [lia|]. exists y.
      specialize (H _ _ Y). rewrite Z2Nat.id in H by lia. exact H.
    - rewrite O. f_equal. destruct (map_res_nth _ _ _ O) as [Lo Ho]. rewrite zseq_length in Lo.
      apply nth_error_ext. intros k. destruct (Nat.lt_ge_cases k (length vals)) as [Hk|Hk].
      + destruct (Ho k _ (zseq_nth (length (tr_f target)) 0 k ltac:(lia))) as (y & Y1 & Y2). rewrite Z.add_0_l in Y2.
        rewrite tr_time_real in Y2 by (unfold tr_N; lia). cbn [bind] in Y2.
        destruct (nth_some vals k Hk) as [z Z]. specialize (H _ _ Z).
        change (tr_at tr (nsub (sample_time target (Z.of_nat k)) delta)) with
          (tr_at tr (sample_time target (Z.of_nat k) - delta)) in Y2.
        rewrite Y1, Z. congruence.
      + rewrite (proj2 (nth_error_None vals k)) by lia. apply nth_error_None. lia. }
  unfold tr_retard. rewrite E. cbn [bind]. fold out.
  change (neqb (vnorm (tr_poynting out)) (nZ 0)) with (Reqb' (vnorm (tr_poynting out)) 0).
  destruct (Reqb_spec (vnorm (tr_poynting out)) 0) as [Ez|Ez]; split; intros Hp; auto.
  - apply vnorm_zero_iff in Ez. contradiction.
  - exfalso. apply Ez, vnorm_zero_iff, Hp.
Qed.

(* shift by m samples (m of any sign): sample k of the target is sample k-m *)
Definition shifted (l : list (emf R)) (m : Z) : list (emf R) :=
  map (fun k => if (k - m <? 0)%Z then ezero else nth (Z.to_nat (k - m)) l ezero) (zseq 0 (length l)).

Lemma retard_shift (tr target : ftrace R) m :
  0 < tr_dt tr -> (tr_N tr <= int_max)%Z -> same_sampling tr target -> (- int_max < m < int_max)%Z ->
  (tr_N tr - m <= int_max)%Z ->
  let out := FT (tr_t0 target) (tr_dt target) (shifted (tr_f tr) m) in
  (tr_poynting out <> vzero -> tr_retard tr (IZR m * tr_dt tr) target = Ok out) /\
  (tr_poynting out = vzero -> tr_retard tr (IZR m * tr_dt tr) target = Throw IOexc).
Proof.
  intros Hd HN (SL & S0 & SD) Hm Hm2. apply retard_total.
  - unfold shifted. rewrite map_length, zseq_length. auto.
  - intros k f Hf. unfold shifted in Hf. rewrite nth_error_map in Hf.
    destruct (nth_error (zseq 0 (length (tr_f tr))) k) as [z|] eqn:Ez; [|discriminate].
    assert (Hk : (k < length (tr_f tr))%nat) by (apply in_range in Ez; rewrite zseq_length in Ez; exact Ez).
    rewrite zseq_nth in Ez by exact Hk. injection Ez as <-. cbn [option_map] in Hf. rewrite ?Z.add_0_l in Hf.
    replace (sample_time target (Z.of_nat k) - IZR m * tr_dt tr) with (sample_time tr (Z.of_nat k - m)).
    2:{ unfold sample_time. rewrite <- S0, <- SD, minus_IZR. ring. }
    destruct int_bounds as [Bm BM]. unfold tr_N in *.
    assert (Hdiv : forall z, (sample_time tr z - tr_t0 tr) / tr_dt tr = IZR z) by (intros z; unfold sample_time; field; lra).
    destruct (Z.ltb_spec (Z.of_nat k - m) 0) as [L|L].
    + assert (f = ezero) by congruence. subst f. apply trace_outside; auto.
      * rewrite Hdiv. split; [apply IZR_le|apply IZR_lt]; lia.
      * left. unfold sample_time. assert (IZR (Z.of_nat k - m) <= -1) by (apply IZR_le; lia). nra.
    + destruct (Z_lt_ge_dec (Z.of_nat k - m) (Z.of_nat (length (tr_f tr)))) as [L2|L2].
      * destruct (nth_some (tr_f tr) (Z.to_nat (Z.of_nat k - m))) as [g G]; [lia|].
        rewrite (nth_error_nth _ _ _ G) in Hf. assert (f = g) by congruence. subst g.
        replace (Z.of_nat k - m)%Z with (Z.of_nat (Z.to_nat (Z.of_nat k - m))) by lia.
        apply trace_at_sample; auto.
      * rewrite nth_overflow in Hf by lia. assert (f = ezero) by congruence. subst f.
        apply trace_outside; auto.
        -- rewrite Hdiv. split; [apply IZR_le|apply IZR_lt]; lia.
        -- right. unfold sample_time, tr_N. 
           assert (IZR (Z.of_nat (length (tr_f tr))) <= IZR (Z.of_nat k - m)) by (apply IZR_le; lia). nra.
Qed.

Lemma shifted_0 l : shifted l 0 = l.
Proof.
  unfold shifted. apply nth_error_ext. intros k. rewrite nth_error_map.
  destruct (Nat.lt_ge_cases k (length l)) as [Hk|Hk].
  - rewrite zseq_nth by exact Hk. cbn [option_map]. rewrite Z.add_0_l, Z.sub_0_r.
    destruct (Z.ltb_spec (Z.of_nat k) 0); [lia|]. rewrite Nat2Z.id.
    destruct (nth_some l k Hk) as [x X]. rewrite X. f_equal. apply nth_error_nth, X.
  - rewrite (proj2 (nth_error_None l k)) by lia.
    rewrite (proj2 (nth_error_None (zseq 0 (length l)) k)) by (rewrite zseq_length; lia). reflexivity.
Qed.

(* ---- transform, cancel ---- *)
Lemma gram3 (v w ex ey : vec R) :
  vdot v (vcross ex ey) * vdot w (vcross ex ey) =
  vdot v w * (vdot ex ex * vdot ey ey - vdot ex ey * vdot ex ey)
  - vdot v ex * (vdot w ex * vdot ey ey - vdot w ey * vdot ex ey)
  + vdot v ey * (vdot w ex * vdot ex ey - vdot w ey * vdot ex ex).
Proof. revert v w ex ey. vring. Qed.

Lemma transform_dot ex ey ez (v w : vec R) : right_handed ex ey ez ->
  vdot (vtransform v ex ey ez) (vtransform w ex ey ez) = vdot v w.
Proof.
  intros (X & Y & Z & XY & YZ & ZX & C).
  change (vdot v ex * vdot w ex + vdot v ey * vdot w ey + vdot v ez * vdot w ez = vdot v w).
  rewrite <- C. pose proof (gram3 v w ex ey) as G. rewrite X, Y, XY in G. rewrite G. ring.
Qed.

Lemma binet_cauchy (a b c d : vec R) :
  vdot (vcross a b) (vcross c d) = vdot a c * vdot b d - vdot a d * vdot b c.
Proof. revert a b c d. vring. Qed.
Lemma bac_cab (a b c : vec R) : vcross a (vcross b c) = vsub (vmul b (vdot a c)) (vmul c (vdot a b)).
Proof. revert a b c. vring. Qed.

Lemma right_handed_cyclic ex ey ez : right_handed ex ey ez -> vcross ey ez = ex /\ vcross ez ex = ey.
Proof.
  intros (X & Y & Z & XY & YZ & ZX & C). rewrite <- C. split.
  - rewrite bac_cab, Y, (vdot_comm ey ex), XY. clear. revert ex ey. vring.
  - rewrite vcross_anti, bac_cab, X, XY. clear. revert ex ey. vring.
Qed.

Lemma transform_cross ex ey ez (v w : vec R) : right_handed ex ey ez ->
  vcross (vtransform v ex ey ez) (vtransform w ex ey ez) = vtransform (vcross v w) ex ey ez.
Proof.
  intros H. destruct (right_handed_cyclic _ _ _ H) as [C1 C2]. destruct H as (_ & _ & _ & _ & _ & _ & C).
  apply vec_eq.
  - change (vdot v ey * vdot w ez - vdot v ez * vdot w ey = vdot (vcross v w) ex).
    rewrite <- C1, binet_cauchy. ring.
  - change (vdot v ez * vdot w ex - vdot v ex * vdot w ez = vdot (vcross v w) ey).
    rewrite <- C2, binet_cauchy. ring.
  - change (vdot v ex * vdot w ey - vdot v ey * vdot w ex = vdot (vcross v w) ez).
    rewrite <- C, binet_cauchy. ring.
Qed.

Lemma tr_transform_nth (tr : ftrace R) ex ey ez k f' :
  nth_error (tr_f (tr_transform tr ex ey ez)) k = Some f' ->
  exists f, nth_error (tr_f tr) k = Some f /\
    f' = EB (vtransform (fE f) ex ey ez) (vtransform (fB f) ex ey ez).
Proof.
  unfold tr_transform. cbn [tr_f]. rewrite nth_error_map.
  destruct (nth_error (tr_f tr) k) as [f|]; [|discriminate]. cbn [option_map]. intros H. exists f.
  split; [reflexivity|]. injection H as <-. reflexivity.
Qed.

Lemma transform_div ex ey ez (v : vec R) k : vtransform (vdiv v k) ex ey ez = vdiv (vtransform v ex ey ez) k.
Proof. unfold vtransform. rewrite !vdot_div_l. reflexivity. Qed.

Lemma transform_invariants ex ey ez (f : emf R) : right_handed ex ey ez ->
  let f' := EB (vtransform (fE f) ex ey ez) (vtransform (fB f) ex ey ez) in
  vnorm (fE f') = vnorm (fE f) /\ vnorm (fB f') = vnorm (fB f) /\
  vdot (fE f') (fB f') = vdot (fE f) (fB f) /\
  vnorm (epoynting f') = vnorm (epoynting f).
Proof.
  intros H f'. unfold f'. cbn [fE fB]. rewrite !vnorm_sqrt, !vabs2_dot, !transform_dot by exact H.
  repeat split. unfold epoynting. cbn [fE fB]. rewrite transform_cross by exact H.
  rewrite <- transform_div, transform_dot by exact H. reflexivity.
Qed.

Definition transverse_part (n v : vec R) : vec R := vsub v (vmul n (vdot v n)).

Lemma cancel_unit (n v : vec R) : vabs2 n = 1 ->
  vdot (transverse_part n v) n = 0 /\
  (forall u, vdot u n = 0 -> vdot (transverse_part n v) u = vdot v u) /\
  transverse_part n (transverse_part n v) = transverse_part n v.
Proof.
  intros H. rewrite vabs2_dot in H. unfold transverse_part.
  assert (P : vdot (vsub v (vmul n (vdot v n))) n = 0).
  { rewrite vdot_sub_l, vdot_mul_l, H. ring. }
  split; [exact P|]. split.
  - intros u Hu. rewrite vdot_sub_l, vdot_mul_l, (vdot_comm n u), Hu. ring.
  - rewrite P. generalize (vsub v (vmul n (vdot v n))) n. vring.
Qed.

Lemma tr_cancel_nth (tr : ftrace R) n k f' :
  nth_error (tr_f (tr_cancel tr n)) k = Some f' ->
  exists f, nth_error (tr_f tr) k = Some f /\
    f' = EB (transverse_part (vnormalize n) (fE f)) (transverse_part (vnormalize n) (fB f)).
Proof.
  unfold tr_cancel. cbn [tr_f]. rewrite nth_error_map.
  destruct (nth_error (tr_f tr) k) as [f|]; [|discriminate]. cbn [option_map]. intros H. exists f.
  split; [reflexivity|]. injection H as <-. reflexivity.
Qed.

Lemma cancel_idempotent (tr : ftrace R) n : n <> vzero -> tr_cancel (tr_cancel tr n) n = tr_cancel tr n.
Proof.
  intros Hn. unfold tr_cancel. cbn [tr_t0 tr_dt tr_f]. f_equal. rewrite map_map. apply map_ext.
  intros f. cbn [fE fB].
  pose proof (vnormalize_abs2 n Hn) as H1.
  destruct (cancel_unit (vnormalize n) (fE f) H1) as (_ & _ & IE).
  destruct (cancel_unit (vnormalize n) (fB f) H1) as (_ & _ & IB).
  unfold transverse_part in IE, IB. f_equal; assumption.
Qed.
