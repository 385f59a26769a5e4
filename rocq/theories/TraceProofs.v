(* Proofs about field traces. *)
From Coq Require Import ZArith Reals List Lra Lia Bool Psatz.
From Flocq Require Import Core.Raux.
From Verif Require Import Base BaseFacts Num VecModel VecFacts ParticleModel TraceModel
  TraceIntSpec TraceIntProofs TraceIntProofs2 TraceSpec.
Import ListNotations.
Local Open Scope R_scope.
Local Open Scope res_scope.

(* ---- interpolation ---- *)
Lemma floor_index (k : Z) (th : R) : 0 <= th < 1 -> Zfloor (IZR k + th) = k.
Proof. intros H. apply Zfloor_imp. rewrite plus_IZR. lra. Qed.

Lemma tr_at_unfold (tr : ftrace R) k th :
  0 < tr_dt tr -> 0 <= th < 1 -> (int_min <= k < int_max)%Z -> (tr_N tr <= int_max)%Z ->
  tr_at tr (tr_t0 tr + (IZR k + th) * tr_dt tr) =
  (f1 <- (if (0 <=? k)%Z && (k <? tr_N tr)%Z then zget (tr_f tr) k else Ok ezero);;
   f2 <- (if (0 <=? k + 1)%Z && (k + 1 <? tr_N tr)%Z then zget (tr_f tr) (k + 1) else Ok ezero);;
   Ok (eadd (emul f1 (1 - th)) (emul f2 th))).
Proof.
  intros Hd Ht Hk HN. unfold tr_at, tr_sample.
  replace (ndiv (nsub (tr_t0 tr + (IZR k + th) * tr_dt tr) (tr_t0 tr)) (tr_dt tr)) with (IZR k + th)
    by (unnum; field; lra).
  change (nfloor (IZR k + th)) with (Some (Zfloor (IZR k + th))).
  rewrite floor_index by exact Ht. rewrite to_int_ok by lia. cbn [bind].
  rewrite i32_small by (unfold tr_N in *; lia).
  rewrite to_int_ok by lia. cbn [bind].
  change (nsub (IZR k + th) (nZ k)) with (IZR k + th - IZR k).
  replace (IZR k + th - IZR k) with th by ring. reflexivity.
Qed.

Lemma tr_get_nth {T} (l : list (emf T)) k f n :
  nth_error l k = Some f -> n = Z.of_nat (length l) ->
  (0 <=? Z.of_nat k)%Z && (Z.of_nat k <? n)%Z = true /\ zget l (Z.of_nat k) = Ok f.
Proof.
  intros H ->. split.
  - assert (k < length l)%nat by (apply nth_error_Some; congruence).
    apply andb_true_intro. split; [apply Z.leb_le|apply Z.ltb_lt]; lia.
  - apply zget_nth. exact H.
Qed.

Lemma in_range {A} (l : list A) k f : nth_error l k = Some f -> (k < length l)%nat.
Proof. intros H. apply nth_error_Some. congruence. Qed.

Lemma trace_at_sample (tr : ftrace R) k f :
  0 < tr_dt tr -> (tr_N tr <= int_max)%Z -> nth_error (tr_f tr) k = Some f ->
  tr_at tr (sample_time tr (Z.of_nat k)) = Ok f.
Proof.
  intros Hd HN H. unfold sample_time. destruct int_bounds as [Bm BM].
  pose proof (in_range _ _ _ H) as Hk. unfold tr_N in *.
  replace (IZR (Z.of_nat k)) with (IZR (Z.of_nat k) + 0) by ring.
  rewrite tr_at_unfold; [|exact Hd|lra|lia|unfold tr_N; lia].
  destruct (tr_get_nth (tr_f tr) k f (tr_N tr) H eq_refl) as [-> ->]. cbn [bind].
  destruct ((0 <=? Z.of_nat k + 1)%Z && (Z.of_nat k + 1 <? tr_N tr)%Z) eqn:E.
  - destruct (nth_error (tr_f tr) (S k)) as [g|] eqn:G.
    + replace (Z.of_nat k + 1)%Z with (Z.of_nat (S k)) by lia. rewrite (zget_nth _ _ _ G). cbn [bind].
      f_equal. generalize f g. vring.
    + exfalso. apply nth_error_None in G. apply andb_prop in E. destruct E as [_ E].
      apply Z.ltb_lt in E. unfold tr_N in E. lia.
  - cbn [bind]. f_equal. generalize f. vring.
Qed.

Lemma trace_between (tr : ftrace R) k f g t :
  0 < tr_dt tr -> (tr_N tr <= int_max)%Z ->
  nth_error (tr_f tr) k = Some f -> nth_error (tr_f tr) (S k) = Some g ->
  sample_time tr (Z.of_nat k) <= t <= sample_time tr (Z.of_nat (S k)) ->
  tr_at tr t =
    Ok (interp_field (sample_time tr (Z.of_nat k)) (sample_time tr (Z.of_nat (S k))) f g t).
Proof.
  intros Hd HN Hf Hg Ht.
  destruct (Req_dec t (sample_time tr (Z.of_nat (S k)))) as [->|Hne].
  - rewrite (trace_at_sample tr (S k) g Hd HN Hg). f_equal. unfold interp_field.
    replace ((sample_time tr (Z.of_nat (S k)) - sample_time tr (Z.of_nat k)) /
             (sample_time tr (Z.of_nat (S k)) - sample_time tr (Z.of_nat k))) with 1.
    + generalize f g. vring.
    + field. unfold sample_time. rewrite Nat2Z.inj_succ, succ_IZR. nra.
  - unfold sample_time in *. rewrite Nat2Z.inj_succ, succ_IZR in *.
    destruct int_bounds as [Bm BM]. pose proof (in_range _ _ _ Hg) as Hk. unfold tr_N in *.
    set (th := (t - (tr_t0 tr + IZR (Z.of_nat k) * tr_dt tr)) / tr_dt tr).
    assert (Ht' : t = tr_t0 tr + (IZR (Z.of_nat k) + th) * tr_dt tr) by (unfold th; field; lra).
    assert (0 <= th < 1).
    { split; [unfold th; apply Rmult_le_pos; [lra|left; apply Rinv_0_lt_compat; lra]|].
      apply (Rmult_lt_reg_r (tr_dt tr)); [lra|]. unfold th, Rdiv. rewrite Rmult_assoc, Rinv_l by lra. lra. }
    rewrite Ht' at 1.
    rewrite tr_at_unfold; [|exact Hd|lra|lia|unfold tr_N; lia].
    destruct (tr_get_nth (tr_f tr) k f (tr_N tr) Hf eq_refl) as [-> ->]. cbn [bind].
    replace (Z.of_nat k + 1)%Z with (Z.of_nat (S k)) by lia.
    destruct (tr_get_nth (tr_f tr) (S k) g (tr_N tr) Hg eq_refl) as [-> ->]. cbn [bind].
    f_equal. unfold interp_field.
    replace ((t - (tr_t0 tr + IZR (Z.of_nat k) * tr_dt tr)) /
      (tr_t0 tr + (IZR (Z.of_nat k) + 1) * tr_dt tr - (tr_t0 tr + IZR (Z.of_nat k) * tr_dt tr)))
      with th by (unfold th; field; lra).
    generalize f g th. vring.
Qed.

Lemma trace_cell (tr : ftrace R) t : 0 < tr_dt tr ->
  exists k th, 0 <= th < 1 /\ t = tr_t0 tr + (IZR k + th) * tr_dt tr /\ k = Zfloor ((t - tr_t0 tr) / tr_dt tr).
Proof.
  intros Hd. set (r := (t - tr_t0 tr) / tr_dt tr).
  exists (Zfloor r), (r - IZR (Zfloor r)).
  pose proof (Zfloor_lb r). pose proof (Zfloor_ub r).
  split; [lra|]. split; [|reflexivity].
  replace (IZR (Zfloor r) + (r - IZR (Zfloor r))) with r by ring. unfold r. field. lra.
Qed.

Lemma trace_outside (tr : ftrace R) t :
  0 < tr_dt tr -> (tr_N tr <= int_max)%Z ->
  -2147483648 <= (t - tr_t0 tr) / tr_dt tr < 2147483647 ->
  t <= tr_t0 tr - tr_dt tr \/ sample_time tr (tr_N tr) <= t ->
  tr_at tr t = Ok ezero.
Proof.
  intros Hd HN Hr Ho. destruct (trace_cell tr t Hd) as (k & th & Hth & Ht & Hk).
  destruct int_bounds as [Bm BM].
  assert (Hki : (int_min <= k < int_max)%Z).
  { rewrite Hk, Bm, BM. split.
    - apply Zfloor_lub. lra.
    - apply lt_IZR. eapply Rle_lt_trans; [apply Zfloor_lb|]. lra. }
  assert (HNp : (0 <= tr_N tr)%Z) by (unfold tr_N; lia).
  assert (Hout : (k < 0)%Z /\ ((k < -1)%Z \/ th = 0) \/ (tr_N tr <= k)%Z).
  { destruct Ho as [Ho|Ho].
    - left. assert (IZR k + th <= -1).
      { apply (Rmult_le_reg_r (tr_dt tr)); [exact Hd|]. lra. }
      assert (k <= -1)%Z by (apply le_IZR; lra).
      split; [lia|]. destruct (Z.eq_dec k (-1)); [|left; lia].
      right. rewrite e in *. lra.
    - right. unfold sample_time in Ho. assert (IZR (tr_N tr) <= IZR k + th).
      { apply (Rmult_le_reg_r (tr_dt tr)); [exact Hd|]. lra. }
      assert (tr_N tr < k + 1)%Z; [|lia]. apply lt_IZR. rewrite plus_IZR. lra. }
  rewrite Ht. rewrite tr_at_unfold; [|exact Hd|lra|lia|exact HN].
  destruct Hout as [[Hk0 Hk1]|Hk0].
  - destruct (Z.leb_spec 0 k); [lia|]. cbn [andb bind].
    destruct Hk1 as [Hk1|Hth0].
    + destruct (Z.leb_spec 0 (k + 1)); [lia|]. cbn [andb bind]. f_equal. vring.
    + rewrite Hth0. destruct (Z.leb_spec 0 (k + 1)); cbn [andb].
      * destruct (Z.ltb_spec (k + 1) (tr_N tr)).
        -- destruct (zget_ok (tr_f tr) (k + 1)) as [g G]; [unfold tr_N in *; lia|].
           rewrite (proj1 G). cbn [bind]. f_equal. generalize g. vring.
        -- cbn [bind]. f_equal. vring.
      * cbn [bind]. f_equal. vring.
  - destruct (Z.ltb_spec k (tr_N tr)); [lia|]. rewrite andb_false_r. cbn [bind].
    destruct (Z.ltb_spec (k + 1) (tr_N tr)); [lia|]. rewrite andb_false_r. cbn [bind].
    f_equal. vring.
Qed.

Lemma trace_ramp_up (tr : ftrace R) f th :
  0 < tr_dt tr -> (tr_N tr <= int_max)%Z -> nth_error (tr_f tr) 0 = Some f -> 0 < th < 1 ->
  tr_at tr (tr_t0 tr - th * tr_dt tr) = Ok (emul f (1 - th)).
Proof.
  intros Hd HN H Hth. destruct int_bounds as [Bm BM].
  replace (tr_t0 tr - th * tr_dt tr) with (tr_t0 tr + (IZR (-1) + (1 - th)) * tr_dt tr) by (cbn; ring).
  rewrite tr_at_unfold; [|exact Hd|lra|lia|exact HN]. change (0 <=? -1)%Z with false. cbn [andb bind].
  change (-1 + 1)%Z with 0%Z.
  destruct (tr_get_nth (tr_f tr) 0 f _ H eq_refl) as [E1 E2]. unfold tr_N. cbn [Z.of_nat] in E1, E2.
  rewrite E1, E2. cbn [bind]. f_equal. generalize f th. vring.
Qed.

Lemma trace_ramp_down (tr : ftrace R) f th :
  0 < tr_dt tr -> (tr_N tr <= int_max)%Z -> nth_error (tr_f tr) (Z.to_nat (tr_N tr - 1)) = Some f -> 0 < th < 1 ->
  tr_at tr (sample_time tr (tr_N tr - 1) + th * tr_dt tr) = Ok (emul f (1 - th)).
Proof.
  intros Hd HN H Hth. destruct int_bounds as [Bm BM].
  pose proof (in_range _ _ _ H) as Hk. unfold sample_time. unfold tr_N in *.
  assert (1 <= Z.of_nat (length (tr_f tr)))%Z by lia.
  replace (tr_t0 tr + IZR (Z.of_nat (length (tr_f tr)) - 1) * tr_dt tr + th * tr_dt tr)
    with (tr_t0 tr + (IZR (Z.of_nat (length (tr_f tr)) - 1) + th) * tr_dt tr) by ring.
  rewrite tr_at_unfold; [|exact Hd|lra|lia|unfold tr_N; lia]. unfold tr_N.
  destruct (tr_get_nth (tr_f tr) _ f _ H eq_refl) as [E1 E2].
  rewrite Z2Nat.id in E1, E2 by lia. rewrite E1, E2. cbn [bind].
  destruct (Z.ltb_spec (Z.of_nat (length (tr_f tr)) - 1 + 1) (Z.of_nat (length (tr_f tr)))); [lia|].
  rewrite andb_false_r. cbn [bind]. f_equal. generalize f th. vring.
Qed.

Lemma trace_far (tr : ftrace R) t :
  (t - tr_t0 tr) / tr_dt tr < -2147483648 \/ 2147483648 <= (t - tr_t0 tr) / tr_dt tr ->
  tr_at tr t = UB.
Proof.
  intros H. unfold tr_at.
  change ((t - tr_t0 tr) / tr_dt tr)%num with ((t - tr_t0 tr) / tr_dt tr).
  set (r := (t - tr_t0 tr) / tr_dt tr) in *.
  change (nfloor r) with (Some (Zfloor r)). unfold to_int.
  destruct (in_int (Zfloor r)) eqn:E; [|reflexivity]. exfalso.
  unfold in_int in E. apply andb_prop in E. destruct E as [E1 E2].
  apply Z.leb_le in E1, E2. destruct int_bounds as [Bm BM]. rewrite Bm in E1. rewrite BM in E2.
  destruct H as [H|H].
  - apply IZR_le in E1. pose proof (Zfloor_lb r). lra.
  - assert (2147483648 <= Zfloor r)%Z by (apply Zfloor_lub; lra). lia.
Qed.

(* ---- arithmetic ---- *)
Lemma zip_with_length {A B C} (f : A -> B -> C) a : forall b,
  length a = length b -> length (zip_with f a b) = length a.
Proof. induction a as [|x a IH]; intros [|y b] H; cbn in *; try lia. rewrite IH; lia. Qed.
Lemma zip_with_nth {A B C} (f : A -> B -> C) a : forall b k x y,
  nth_error a k = Some x -> nth_error b k = Some y -> nth_error (zip_with f a b) k = Some (f x y).
Proof.
  induction a as [|u a IH]; intros [|v b] [|k] x y Hx Hy; cbn in *; try discriminate.
  - congruence.
  - apply IH; auto.
Qed.

Lemma tr_match_spec (a b : ftrace R) : tr_match a b = true <-> same_sampling a b.
Proof.
  unfold tr_match, same_sampling, tr_N. change (neqb (tr_t0 a) (tr_t0 b)) with (Reqb' (tr_t0 a) (tr_t0 b)).
  change (neqb (tr_dt a) (tr_dt b)) with (Reqb' (tr_dt a) (tr_dt b)).
  destruct (Z.eqb_spec (Z.of_nat (length (tr_f a))) (Z.of_nat (length (tr_f b)))) as [E|E];
  destruct (Reqb_spec (tr_t0 a) (tr_t0 b)); destruct (Reqb_spec (tr_dt a) (tr_dt b)); cbn [andb]; split; intros H; try discriminate H; try tauto.
  all: try (repeat split; auto; lia). all: exfalso; intuition lia.
Qed.

Lemma same_sampling_N {T} (a b : ftrace T) : same_sampling a b -> tr_N a = tr_N b.
Proof. intros (H & _). unfold tr_N. lia. Qed.

Section Arith.
Context (op : emf R -> emf R -> emf R).
Definition combine_tr (a b : ftrace R) : res (ftrace R) :=
  if tr_match a b then Ok (FT (tr_t0 a) (tr_dt a) (zip_with op (tr_f a) (tr_f b))) else Throw IOexc.
Lemma combine_tr_ok a b c : combine_tr a b = Ok c -> samplewise op a b c.
Proof.
  unfold combine_tr. destruct (tr_match a b) eqn:E; [|discriminate]. intros H.
  apply tr_match_spec in E. destruct E as (E1 & E2 & E3).
  assert (c = FT (tr_t0 a) (tr_dt a) (zip_with op (tr_f a) (tr_f b))) by congruence. subst c. clear H.
  split.
  - repeat split; cbn. rewrite zip_with_length; auto.
  - intros k x y Hx Hy. cbn. apply zip_with_nth; auto.
Qed.
Lemma combine_tr_defined a b : same_sampling a b -> exists c, combine_tr a b = Ok c.
Proof. intros H. unfold combine_tr. apply tr_match_spec in H. rewrite H. eauto. Qed.
Lemma combine_tr_refused a b : ~ same_sampling a b -> combine_tr a b = Throw IOexc.
Proof.
  intros H. unfold combine_tr. destruct (tr_match a b) eqn:E; [|reflexivity].
  apply tr_match_spec in E. contradiction.
Qed.
End Arith.

Lemma zip_add_sub (a b : list (emf R)) : length a = length b ->
  zip_with esub (zip_with eadd a b) b = a.
Proof.
  revert b; induction a as [|x a IH]; intros [|y b] H; cbn in *; try lia; [reflexivity|].
  f_equal; [clear; revert x y; vring|]. apply IH. lia.
Qed.
Lemma zip_comm (a b : list (emf R)) : zip_with eadd a b = zip_with eadd b a.
Proof. revert b; induction a as [|x a IH]; intros [|y b]; cbn; auto. f_equal; auto. apply eadd_comm. Qed.
Lemma zip_assoc (a b c : list (emf R)) :
  zip_with eadd a (zip_with eadd b c) = zip_with eadd (zip_with eadd a b) c.
Proof. revert b c; induction a as [|x a IH]; intros [|y b] [|z c]; cbn; auto. f_equal; auto. apply eadd_assoc. Qed.

Lemma add_sub_cancel (a b s : ftrace R) : tr_add a b = Ok s -> tr_sub s b = Ok a.
Proof.
  intros H. assert (Hs := combine_tr_ok eadd a b s H). destruct Hs as ((L & E1 & E2) & _).
  unfold tr_add in H. destruct (tr_match a b) eqn:M; [|discriminate].
  apply tr_match_spec in M. destruct M as (M1 & M2 & M3).
  unfold tr_sub. assert (tr_match s b = true) as ->.
  { apply tr_match_spec. repeat split; congruence. }
  assert (Ef : tr_f s = zip_with eadd (tr_f a) (tr_f b)) by (injection H as <-; reflexivity).
  rewrite Ef, zip_add_sub by auto. rewrite <- E1, <- E2. destruct a; reflexivity.
Qed.
Lemma tr_match_sym (a b : ftrace R) : tr_match a b = tr_match b a.
Proof.
  destruct (tr_match b a) eqn:E.
  - apply tr_match_spec. apply tr_match_spec in E. destruct E as (?&?&?). repeat split; auto.
  - destruct (tr_match a b) eqn:E2; [|reflexivity]. apply tr_match_spec in E2. destruct E2 as (?&?&?).
    assert (tr_match b a = true) by (apply tr_match_spec; repeat split; auto). congruence.
Qed.
Lemma add_commutes (a b : ftrace R) : tr_add a b = tr_add b a.
Proof.
  unfold tr_add. rewrite (tr_match_sym b a). destruct (tr_match a b) eqn:M; [|reflexivity].
  apply tr_match_spec in M. destruct M as (M1 & M2 & M3). rewrite M2, M3, zip_comm. reflexivity.
Qed.
Lemma add_associates (a b c : ftrace R) :
  (s <- tr_add b c;; tr_add a s) = (s <- tr_add a b;; tr_add s c).
Proof.
  unfold tr_add.
  destruct (tr_match a b) eqn:M; destruct (tr_match b c) eqn:M'; cbn [bind].
  - apply tr_match_spec in M, M'. destruct M as (M1 & M2 & M3). destruct M' as (N1 & N2 & N3).
    match goal with |- (if ?x then _ else _) = (if ?y then _ else _) =>
      assert (x = true) as -> by (apply tr_match_spec; repeat split; cbn; rewrite ?zip_with_length; congruence);
      assert (y = true) as -> by (apply tr_match_spec; repeat split; cbn; rewrite ?zip_with_length; congruence) end.
    cbn. rewrite zip_assoc. reflexivity.
  - match goal with |- _ = (if ?y then _ else _) => assert (y = false) as -> end; [|reflexivity].
    match goal with |- ?y = false => destruct y eqn:E end; [|reflexivity]. exfalso.
    apply tr_match_spec in M, E. destruct M as (M1 & M2 & M3). destruct E as (N1 & N2 & N3). cbn in *.
    rewrite zip_with_length in N1 by auto.
    assert (tr_match b c = true) by (apply tr_match_spec; repeat split; congruence). congruence.
  - match goal with |- (if ?y then _ else _) = _ => assert (y = false) as -> end; [|reflexivity].
    match goal with |- ?y = false => destruct y eqn:E end; [|reflexivity]. exfalso.
    apply tr_match_spec in M', E. destruct M' as (M1 & M2 & M3). destruct E as (N1 & N2 & N3). cbn in *.
    rewrite zip_with_length in N1 by auto.
    assert (tr_match a b = true) by (apply tr_match_spec; repeat split; congruence). congruence.
  - reflexivity.
Qed.

Lemma mul_distributes (a b s : ftrace R) k :
  tr_add a b = Ok s -> tr_add (tr_mul a k) (tr_mul b k) = Ok (tr_mul s k).
Proof.
  unfold tr_add. destruct (tr_match a b) eqn:M; [|discriminate]. intros H.
  assert (s = FT (tr_t0 a) (tr_dt a) (zip_with eadd (tr_f a) (tr_f b))) by congruence. subst s. clear H.
  apply tr_match_spec in M. destruct M as (M1 & M2 & M3).
  assert (tr_match (tr_mul a k) (tr_mul b k) = true) as ->.
  { apply tr_match_spec. repeat split; cbn; auto. rewrite !map_length. auto. }
  unfold tr_mul. cbn. do 2 f_equal.
  clear M2 M3. revert M1. generalize (tr_f b). induction (tr_f a) as [|x l IH]; intros [|y l'] H; cbn in *; try lia; auto.
  f_equal; [|apply IH; lia]. clear. revert x y k. vring.
Qed.

Lemma scalar_sum (a : ftrace R) k l :
  tr_add (tr_mul a k) (tr_mul a l) = Ok (tr_mul a (k + l)).
Proof.
  unfold tr_add. assert (tr_match (tr_mul a k) (tr_mul a l) = true) as ->.
  { apply tr_match_spec. repeat split; cbn; auto. rewrite !map_length. auto. }
  unfold tr_mul. cbn. do 2 f_equal. induction (tr_f a) as [|x r IH]; cbn; auto.
  f_equal; auto. clear. revert x k l. vring.
Qed.

Lemma mul_div (a : ftrace R) k : k <> 0 -> tr_div (tr_mul a k) k = a.
Proof.
  intros Hk. unfold tr_div, tr_mul. cbn. destruct a as [t0 dt f]. cbn. f_equal.
  induction f as [|x r IH]; cbn; auto. f_equal; auto. clear IH r. revert x. 
  intros [[a b c] [d e g]]. unfold ediv, emul, vdiv, vmul. cbn. f_equal; f_equal; field; auto.
Qed.
