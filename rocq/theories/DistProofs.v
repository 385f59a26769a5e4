(* Proofs about particle distributions. *)
From Coq Require Import ZArith List Lia Bool.
From Verif Require Import Base BaseFacts Num VecModel ParticleModel BunchModel DistSpec.
Import ListNotations.
Local Open Scope Z_scope.
Local Open Scope res_scope.

Section D.
Context {T : Type} {NT : Num T}.
Implicit Types d : dist T.

Lemma dint : int_min = -2147483648 /\ int_max = 2147483647.
Proof. split; reflexivity. Qed.

Lemma to_int_in z : int_min <= z <= int_max -> to_int (Some z) = Ok z.
Proof.
  intros H. unfold to_int, in_int. destruct (Z.leb_spec int_min z); [|lia].
  destruct (Z.leb_spec z int_max); [|lia]. reflexivity.
Qed.

Lemma index_range d i k : wf_dist d -> in_dist d i k ->
  0 <= i * dDIM d <= i * dDIM d + k /\ i * dDIM d + k < Z.of_nat (length (dA d)).
Proof.
  intros ((H1 & H2 & H3) & H4) ((I1 & I2) & (K1 & K2)). rewrite H4. nia.
Qed.

Lemma index_inj d i k j l : in_dist d i k -> in_dist d j l ->
  Z.to_nat (i * dDIM d + k) = Z.to_nat (j * dDIM d + l) -> i = j /\ k = l.
Proof.
  intros ((I1 & I2) & (K1 & K2)) ((J1 & J2) & (L1 & L2)) H.
  assert (E : i * dDIM d + k = j * dDIM d + l) by nia.
  assert (i = j).
  { replace i with ((i * dDIM d + k) / dDIM d).
    - rewrite E. rewrite Z.add_comm, Z.div_add by lia. rewrite Z.div_small; lia.
    - rewrite Z.add_comm, Z.div_add by lia. rewrite Z.div_small; lia. }
  subst. split; [reflexivity|lia].
Qed.

Lemma coordinate_some d i k : wf_dist d -> in_dist d i k -> exists v, coordinate d i k = Some v.
Proof.
  intros Hw Hi. pose proof (index_range d i k Hw Hi) as Hr. unfold coordinate.
  destruct (nth_error (dA d) (Z.to_nat (i * dDIM d + k))) eqn:E; [eauto|].
  apply nth_error_None in E. lia.
Qed.

Lemma d_get_ok d i k v : wf_dist d -> in_dist d i k -> coordinate d i k = Some v -> d_get d i k = Ok v.
Proof.
  intros Hw Hi Hv. pose proof (index_range d i k Hw Hi) as Hr.
  pose proof dint as [Bm BM]. destruct Hw as ((H1 & H2 & H3) & H4).
  unfold d_get, imul, iadd. rewrite to_int_in by lia. cbn [bind]. rewrite to_int_in by lia. cbn [bind].
  unfold zget. destruct (Z.ltb_spec (i * dDIM d + k) 0); [lia|]. unfold coordinate in Hv. rewrite Hv. reflexivity.
Qed.

Lemma d_put_ok d i k v : wf_dist d -> in_dist d i k ->
  exists d', d_put d i k v = Ok d' /\ wf_dist d' /\ same_shape d d' /\
    forall j l, in_dist d j l ->
      coordinate d' j l = if (j =? i) && (l =? k) then Some v else coordinate d j l.
Proof.
  intros Hw Hi. pose proof (index_range d i k Hw Hi) as Hr.
  pose proof dint as [Bm BM]. pose proof Hw as ((H1 & H2 & H3) & H4).
  unfold d_put, imul, iadd. rewrite to_int_in by lia. cbn [bind]. rewrite to_int_in by lia. cbn [bind].
  unfold zset. destruct (Z.ltb_spec (i * dDIM d + k) 0); [lia|].
  destruct (Z.leb_spec (Z.of_nat (length (dA d))) (i * dDIM d + k)); [lia|]. cbn [orb bind].
  eexists. split; [reflexivity|]. split; [|split].
  - split; cbn; [auto|]. rewrite lset_length. exact H4.
  - split; reflexivity.
  - intros j l Hj. unfold coordinate. cbn.
    destruct (Z.eqb_spec j i) as [->|Nj]; [destruct (Z.eqb_spec l k) as [->|Nl]|]; cbn [andb].
    + apply lset_nth_eq. lia.
    + apply lset_nth_neq. intros E. apply index_inj with (d := d) in E; auto. lia.
    + apply lset_nth_neq. intros E. apply index_inj with (d := d) in E; auto. lia.
Qed.

Lemma dim_ok_true d k : d_dim_ok d k = true <-> 0 <= k < dDIM d.
Proof. unfold d_dim_ok. rewrite andb_true_iff, Z.leb_le, Z.ltb_lt. reflexivity. Qed.
Lemma idx_ok_true d i : d_idx_ok d i = true <-> 0 <= i < dNOP d.
Proof. unfold d_idx_ok. rewrite andb_true_iff, Z.leb_le, Z.ltb_lt. reflexivity. Qed.
Lemma dim_ok_false d k : ~ (0 <= k < dDIM d) -> d_dim_ok d k = false.
Proof. intros H. destruct (d_dim_ok d k) eqn:E; auto. apply dim_ok_true in E. contradiction. Qed.
Lemma idx_ok_false d i : ~ (0 <= i < dNOP d) -> d_idx_ok d i = false.
Proof. intros H. destruct (d_idx_ok d i) eqn:E; auto. apply idx_ok_true in E. contradiction. Qed.

(* loop over the particles which writes coordinate k of each *)
Lemma put_loop (d0 : dist T) k (val : dist T -> Z -> res T) (f : Z -> T) :
  0 <= k < dDIM d0 ->
  (forall d i, wf_dist d -> same_shape d0 d -> 0 <= i < dNOP d0 ->
     (forall l, 0 <= l < dDIM d0 -> coordinate d i l = coordinate d0 i l) -> val d i = Ok (f i)) ->
  forall m a d, wf_dist d -> same_shape d0 d -> 0 <= a -> a + Z.of_nat m <= dNOP d0 ->
  (forall i l, in_dist d0 i l -> a <= i -> coordinate d i l = coordinate d0 i l) ->
  exists d', fold_res (fun d i => v <- val d i;; d_put d i k v) (zseq a m) d = Ok d' /\
    wf_dist d' /\ same_shape d0 d' /\
    forall i l, in_dist d0 i l ->
      coordinate d' i l = if (l =? k) && (a <=? i) && (i <? a + Z.of_nat m) then Some (f i) else coordinate d i l.
Proof.
  intros Hk Hval. induction m as [|m IH]; intros a d Hw Hs Ha Hm Heq.
  - exists d. split; [reflexivity|]. split; [exact Hw|]. split; [exact Hs|]. intros i l Hi.
    destruct (Z.leb_spec a i); destruct (Z.ltb_spec i (a + Z.of_nat 0)); try lia;
      rewrite ?andb_false_r; reflexivity.
  - cbn [zseq fold_res]. pose proof Hs as [S1 S2].
    rewrite (Hval d a Hw Hs) ; [|lia|intros l Hl; apply Heq; [split; lia|lia]]. cbn [bind].
    destruct (d_put_ok d a k (f a) Hw) as (d1 & E1 & W1 & (S3 & S4) & C1); [split; lia|].
    rewrite E1. cbn [bind].
    destruct (IH (a + 1) d1 W1) as (d2 & E2 & W2 & S5 & C2).
    + split; congruence.
    + lia.
    + lia.
    + intros i l Hi Hai. rewrite C1.
      * destruct (Z.eqb_spec i a); [lia|]. cbn [andb]. apply Heq; auto. lia.
      * destruct Hi as [Hi1 Hi2]. split; lia.
    + exists d2. split; [exact E2|]. split; [exact W2|]. split; [exact S5|].
      intros i l Hi. rewrite C2 by exact Hi. rewrite C1 by (destruct Hi as [Hi1 Hi2]; split; lia).
      destruct (Z.eqb_spec l k) as [->|Nl]; cbn [andb]; [|rewrite andb_false_r; reflexivity].
      destruct (Z.eqb_spec i a) as [->|Ni]; cbn [andb].
      * destruct (Z.leb_spec (a + 1) a); [lia|]. cbn [andb].
        destruct (Z.leb_spec a a); [|lia]. destruct (Z.ltb_spec a (a + Z.of_nat (S m))); [|lia]. reflexivity.
      * destruct (Z.leb_spec (a + 1) i); destruct (Z.leb_spec a i); try lia; cbn [andb]; auto.
        destruct (Z.ltb_spec i (a + 1 + Z.of_nat m)); destruct (Z.ltb_spec i (a + Z.of_nat (S m))); try lia; reflexivity.
Qed.

(* the whole array is covered *)
Lemma put_all (d : dist T) k val f :
  wf_dist d -> 0 <= k < dDIM d ->
  (forall d1 i, wf_dist d1 -> same_shape d d1 -> 0 <= i < dNOP d ->
     (forall l, 0 <= l < dDIM d -> coordinate d1 i l = coordinate d i l) -> val d1 i = Ok (f i)) ->
  exists d', fold_res (fun d i => v <- val d i;; d_put d i k v) (zseq 0 (Z.to_nat (dNOP d))) d = Ok d' /\
    wf_dist d' /\ same_shape d d' /\
    forall i l, in_dist d i l -> coordinate d' i l = if l =? k then Some (f i) else coordinate d i l.
Proof.
  intros Hw Hk Hval. pose proof Hw as ((H1 & H2 & H3) & H4).
  destruct (put_loop d k val f Hk Hval (Z.to_nat (dNOP d)) 0 d Hw) as (d' & E & W & S & C).
  - split; reflexivity.
  - lia.
  - lia.
  - reflexivity.
  - exists d'. split; [exact E|]. split; [exact W|]. split; [exact S|]. intros i l Hi. rewrite C by exact Hi.
    destruct Hi as [Hi1 Hi2]. destruct (Z.leb_spec 0 i); [|lia].
    destruct (Z.ltb_spec i (0 + Z.of_nat (Z.to_nat (dNOP d)))); [|lia]. rewrite !andb_true_r. reflexivity.
Qed.

Lemma fold_res_ext {A S} (f g : S -> A -> res S) l s : (forall s a, f s a = g s a) -> fold_res f l s = fold_res g l s.
Proof. intros H. revert s. induction l as [|a l IH]; intros s; cbn; [reflexivity|]. rewrite H. destruct (g s a); cbn; auto. Qed.

Definition the_coord (d : dist T) (i k : Z) : T := match coordinate d i k with Some v => v | None => nZ 0 end.
Lemma the_coord_some d i k : wf_dist d -> in_dist d i k -> coordinate d i k = Some (the_coord d i k).
Proof. intros Hw Hi. unfold the_coord. destruct (coordinate_some d i k Hw Hi) as [v ->]. reflexivity. Qed.

Lemma in_shape d d1 i k : same_shape d d1 -> in_dist d i k -> in_dist d1 i k.
Proof. intros [A B] [C D]. split; [rewrite <- B|rewrite <- A]; assumption. Qed.

Lemma scale_ok (d : dist T) k f : wf_dist d -> 0 <= k < dDIM d ->
  exists d', d_scale k f d = Ok d' /\ wf_dist d' /\ same_shape d d' /\
    forall i l, in_dist d i l ->
      coordinate d' i l = if l =? k then option_map (fun v => nmul v f) (coordinate d i l) else coordinate d i l.
Proof.
  intros Hw Hk. unfold d_scale. rewrite (proj2 (dim_ok_true d k) Hk).
  destruct (put_all d k (fun d i => v <- d_get d i k;; Ok (nmul v f)) (fun i => nmul (the_coord d i k) f) Hw Hk) as (d' & E & W & S & C).
  - intros d1 i W1 S1 Hi Hc. rewrite (d_get_ok d1 i k (the_coord d i k)); [reflexivity|exact W1| |].
    + apply (in_shape d d1); auto. split; assumption.
    + rewrite Hc by exact Hk. apply the_coord_some; auto. split; assumption.
  - exists d'. split; [|split; [exact W|split; [exact S|]]].
    + rewrite <- E. apply fold_res_ext. intros s a. destruct (d_get s a k); reflexivity.
    + intros i l Hi. rewrite C by exact Hi. destruct (Z.eqb_spec l k) as [->|]; [|reflexivity].
      rewrite (the_coord_some d i k Hw Hi). reflexivity.
Qed.

Lemma gaussian_ok (d : dist T) k rnd : wf_dist d -> 0 <= k < dDIM d ->
  exists d', d_gaussian k rnd d = Ok d' /\ wf_dist d' /\ same_shape d d' /\
    forall i l, in_dist d i l -> coordinate d' i l = if l =? k then Some (rnd i) else coordinate d i l.
Proof.
  intros Hw Hk. unfold d_gaussian. rewrite (proj2 (dim_ok_true d k) Hk).
  destruct (put_all d k (fun d i => Ok (rnd i)) rnd Hw Hk) as (d' & E & W & S & C); [auto|].
  exists d'. split; [|split; [exact W|split; [exact S|exact C]]].
  rewrite <- E. apply fold_res_ext. reflexivity.
Qed.

Lemma correlate_ok (d : dist T) u k f : wf_dist d -> 0 <= u < dDIM d -> 0 <= k < dDIM d -> k <> u ->
  exists d', d_correlate u k f d = Ok d' /\ wf_dist d' /\ same_shape d d' /\
    forall i l, in_dist d i l ->
      (l <> k -> coordinate d' i l = coordinate d i l) /\
      (forall x y, l = k -> coordinate d i k = Some x -> coordinate d i u = Some y ->
         coordinate d' i l = Some (nadd x (nmul f y))).
Proof.
  intros Hw Hu Hk Hne. unfold d_correlate.
  rewrite (proj2 (dim_ok_true d k) Hk), (proj2 (dim_ok_true d u) Hu). cbn [andb].
  destruct (Z.eqb_spec k u); [contradiction|]. cbn [negb].
  destruct (put_all d k (fun d i => v <- d_get d i k;; w <- d_get d i u;; Ok (nadd v (nmul f w)))
              (fun i => nadd (the_coord d i k) (nmul f (the_coord d i u))) Hw Hk) as (d' & E & W & S & C).
  - intros d1 i W1 S1 Hi Hc.
    rewrite (d_get_ok d1 i k (the_coord d i k)); [cbn [bind]|exact W1| |].
    + rewrite (d_get_ok d1 i u (the_coord d i u)); [reflexivity|exact W1| |].
      * apply (in_shape d d1); auto. split; assumption.
      * rewrite Hc by exact Hu. apply the_coord_some; auto. split; assumption.
    + apply (in_shape d d1); auto. split; assumption.
    + rewrite Hc by exact Hk. apply the_coord_some; auto. split; assumption.
  - exists d'. split; [|split; [exact W|split; [exact S|]]].
    + rewrite <- E. apply fold_res_ext. intros s a. destruct (d_get s a k); cbn; auto.
      destruct (d_get s a u); reflexivity.
    + intros i l Hi. rewrite C by exact Hi. split.
      * intros Hl. destruct (Z.eqb_spec l k); [contradiction|reflexivity].
      * intros x y -> Hx Hy. rewrite Z.eqb_refl. unfold the_coord. rewrite Hx, Hy. reflexivity.
Qed.

Lemma no_op (d : dist T) u k f rnd i v :
  (~ (0 <= k < dDIM d) -> d_scale k f d = Ok d /\ d_gaussian k rnd d = Ok d) /\
  (~ (0 <= k < dDIM d) \/ ~ (0 <= u < dDIM d) \/ k = u -> d_correlate u k f d = Ok d) /\
  (~ in_dist d i k -> d_setCoordinate i k v d = Ok d /\ d_coordinate d i k = Ok (nZ 0)).
Proof.
  split; [|split].
  - intros H. unfold d_scale, d_gaussian. rewrite (dim_ok_false d k H). auto.
  - unfold d_correlate. intros H.
    destruct (d_dim_ok d u && d_dim_ok d k && negb (k =? u)) eqn:E; [|reflexivity]. exfalso.
    apply andb_prop in E. destruct E as [E E3]. apply andb_prop in E. destruct E as [E1 E2].
    apply dim_ok_true in E1, E2. destruct H as [H|[H|H]]; auto. subst. rewrite Z.eqb_refl in E3. discriminate.
  - intros H. unfold d_setCoordinate, d_coordinate.
    destruct (d_dim_ok d k && d_idx_ok d i) eqn:E; [|auto]. exfalso. apply andb_prop in E. destruct E as [E1 E2].
    apply dim_ok_true in E1. apply idx_ok_true in E2. apply H. split; assumption.
Qed.

Lemma setCoordinate_ok (d : dist T) i k v : wf_dist d -> in_dist d i k ->
  exists d', d_setCoordinate i k v d = Ok d' /\ wf_dist d' /\ same_shape d d' /\
    forall j l, in_dist d j l ->
      coordinate d' j l = if (j =? i) && (l =? k) then Some v else coordinate d j l.
Proof.
  intros Hw Hi. unfold d_setCoordinate. destruct Hi as [H1 H2].
  rewrite (proj2 (dim_ok_true d k) H2), (proj2 (idx_ok_true d i) H1). cbn [andb].
  apply d_put_ok; auto. split; assumption.
Qed.

Lemma getCoordinate_ok (d : dist T) i k v : wf_dist d -> in_dist d i k -> coordinate d i k = Some v ->
  d_coordinate d i k = Ok v.
Proof.
  intros Hw Hi Hv. unfold d_coordinate. pose proof Hi as [H1 H2].
  rewrite (proj2 (dim_ok_true d k) H2), (proj2 (idx_ok_true d i) H1). cbn [andb].
  apply d_get_ok; auto.
Qed.

Lemma buffer_ok (d : dist T) : wf_dist d -> d_bufferData d (dDIM d * dNOP d) = Ok (dA d).
Proof.
  intros ((H1 & H2 & H3) & H4). pose proof dint as [Bm BM]. unfold d_bufferData, imul.
  rewrite to_int_in by lia. cbn [bind]. rewrite Z.eqb_refl. f_equal. apply firstn_all2. lia.
Qed.
Lemma from_buffer_ok (d : dist T) buf : wf_dist d -> Z.of_nat (length buf) = dDIM d * dNOP d ->
  d_fromBuffer buf (dDIM d * dNOP d) d = Ok (DI (dDIM d) (dNOP d) buf).
Proof.
  intros ((H1 & H2 & H3) & H4) Hl. pose proof dint as [Bm BM]. unfold d_fromBuffer, imul.
  rewrite to_int_in by lia. cbn [bind]. rewrite Z.eqb_refl.
  destruct (Z.ltb_spec (Z.of_nat (length buf)) (dDIM d * dNOP d)); [lia|]. do 2 f_equal.
  rewrite firstn_all2 by lia. rewrite skipn_all2 by lia. apply app_nil_r.
Qed.
Lemma buffer_refused (d : dist T) buf n : wf_dist d -> n <> dDIM d * dNOP d ->
  d_bufferData d n = Throw IOexc /\ d_fromBuffer buf n d = Throw IOexc.
Proof.
  intros ((H1 & H2 & H3) & H4) Hn. pose proof dint as [Bm BM]. unfold d_bufferData, d_fromBuffer, imul.
  rewrite !to_int_in by lia. cbn [bind]. destruct (Z.eqb_spec n (dDIM d * dNOP d)); [contradiction|]. auto.
Qed.

Lemma new_ok dim nop rnd : 0 <= dim -> 0 <= nop -> dim * nop <= int_max ->
  exists d, dist_new dim nop rnd = Ok d /\ wf_dist d /\ dDIM d = dim /\ dNOP d = nop.
Proof.
  intros H1 H2 H3. pose proof dint as [Bm BM]. unfold dist_new, imul. rewrite to_int_in by nia. cbn [bind].
  destruct (Z.ltb_spec (dim * nop) 0); [nia|]. eexists. split; [reflexivity|]. split; [|auto].
  split; cbn; [auto|]. rewrite map_length, seq_length. nia.
Qed.

(* the coordinate loop of subDist *)
Lemma sub_row (d : dist T) j i : wf_dist d -> int_min <= j <= int_max -> forall m a (s : dist T),
  wf_dist s -> dDIM s = dDIM d -> 0 <= i < dNOP s -> 0 <= a -> a + Z.of_nat m <= dDIM d ->
  exists s', fold_res (fun sub k => j' <- Ok j;; v <- d_coordinate d j' k;; d_setCoordinate i k v sub) (zseq a m) s = Ok s' /\
    wf_dist s' /\ same_shape s s' /\
    forall i' k, in_dist s i' k ->
      coordinate s' i' k = if (i' =? i) && (a <=? k) && (k <? a + Z.of_nat m)
        then Some (match d_coordinate d j k with Ok v => v | _ => nZ 0 end) else coordinate s i' k.
Proof.
  intros Hw Hj. induction m as [|m IH]; intros a s Ws Hd Hi Ha Hm.
  - exists s. split; [reflexivity|]. split; [exact Ws|]. split; [split; reflexivity|]. intros i' k Hk.
    destruct (Z.leb_spec a k); destruct (Z.ltb_spec k (a + Z.of_nat 0)); try lia; rewrite ?andb_false_r; reflexivity.
  - cbn [zseq fold_res bind].
    assert (exists v, d_coordinate d j a = Ok v) as [v Ev].
    { destruct (Z_le_dec 0 j) as [J1|J1]; [destruct (Z_lt_dec j (dNOP d)) as [J2|J2]|].
      - assert (Hin : in_dist d j a) by (split; lia). destruct (coordinate_some d j a Hw Hin) as [v Hv].
        exists v. apply getCoordinate_ok; auto.
      - exists (nZ 0). unfold d_coordinate. rewrite (idx_ok_false d j) by lia. rewrite andb_false_r. reflexivity.
      - exists (nZ 0). unfold d_coordinate. rewrite (idx_ok_false d j) by lia. rewrite andb_false_r. reflexivity. }
    rewrite Ev. cbn [bind].
    destruct (setCoordinate_ok s i a v Ws) as (s1 & E1 & W1 & (S1 & S2) & C1); [split; lia|].
    rewrite E1. cbn [bind].
    destruct (IH (a + 1) s1 W1) as (s2 & E2 & W2 & (S3 & S4) & C2); try lia.
    exists s2. cbn [bind] in E2. split; [exact E2|]. split; [exact W2|]. split; [split; congruence|].
    intros i' k Hk. rewrite C2 by (apply (in_shape s s1); [split; assumption|exact Hk]).
    rewrite C1 by exact Hk.
    destruct (Z.eqb_spec i' i) as [->|]; cbn [andb]; [|reflexivity].
    destruct (Z.eqb_spec k a) as [->|Nk].
    + destruct (Z.leb_spec (a + 1) a); [lia|]. cbn [andb]. destruct (Z.leb_spec a a); [|lia].
      destruct (Z.ltb_spec a (a + Z.of_nat (S m))); [|lia]. cbn [andb]. rewrite Ev. reflexivity.
    + destruct (Z.leb_spec (a + 1) k); destruct (Z.leb_spec a k); try lia; cbn [andb]; auto.
      destruct (Z.ltb_spec k (a + 1 + Z.of_nat m)); destruct (Z.ltb_spec k (a + Z.of_nat (S m))); try lia; reflexivity.
Qed.

Lemma sub_rows (d : dist T) index : wf_dist d -> forall m a (s : dist T),
  wf_dist s -> dDIM s = dDIM d -> 0 <= a -> a + Z.of_nat m <= dNOP s ->
  int_min <= index + a -> index + a + Z.of_nat m - 1 <= int_max ->
  exists s', fold_res (fun sub i =>
      fold_res (fun sub k =>
          j <- iadd index i;; v <- d_coordinate d j k;; d_setCoordinate i k v sub)
        (zseq 0 (Z.to_nat (dDIM d))) sub) (zseq a m) s = Ok s' /\
    wf_dist s' /\ same_shape s s' /\
    forall i k, in_dist s i k ->
      coordinate s' i k = if (a <=? i) && (i <? a + Z.of_nat m)
        then Some (match d_coordinate d (index + i) k with Ok v => v | _ => nZ 0 end) else coordinate s i k.
Proof.
  intros Hw. pose proof Hw as ((H1 & H2 & H3) & H4).
  induction m as [|m IH]; intros a s Ws Hd Ha Hm L1 L2.
  - exists s. split; [reflexivity|]. split; [exact Ws|]. split; [split; reflexivity|]. intros i k Hk.
    destruct (Z.leb_spec a i); destruct (Z.ltb_spec i (a + Z.of_nat 0)); try lia; reflexivity.
  - cbn [zseq fold_res].
    destruct (sub_row d (index + a) a Hw) with (m := Z.to_nat (dDIM d)) (a := 0) (s := s) as (s1 & E1 & W1 & (S1 & S2) & C1); try lia; auto.
    assert (E1' : fold_res (fun sub k => j <- iadd index a;; v <- d_coordinate d j k;; d_setCoordinate a k v sub)
                   (zseq 0 (Z.to_nat (dDIM d))) s = Ok s1).
    { rewrite <- E1. apply fold_res_ext. intros s0 k. unfold iadd. rewrite to_int_in by lia. reflexivity. }
    rewrite E1'. cbn [bind].
    destruct (IH (a + 1) s1 W1) as (s2 & E2 & W2 & (S3 & S4) & C2); try lia.
    exists s2. split; [exact E2|]. split; [exact W2|]. split; [split; congruence|].
    intros i k Hk. rewrite C2 by (apply (in_shape s s1); [split; assumption|exact Hk]).
    rewrite C1 by exact Hk. destruct Hk as [Hk1 Hk2].
    destruct (Z.eqb_spec i a) as [->|Ni]; cbn [andb].
    + destruct (Z.leb_spec (a + 1) a); [lia|]. cbn [andb]. destruct (Z.leb_spec a a); [|lia].
      destruct (Z.ltb_spec a (a + Z.of_nat (S m))); [|lia]. destruct (Z.leb_spec 0 k); [|lia].
      destruct (Z.ltb_spec k (0 + Z.of_nat (Z.to_nat (dDIM d)))); [|lia]. reflexivity.
    + destruct (Z.leb_spec (a + 1) i); destruct (Z.leb_spec a i); try lia; cbn [andb]; auto.
      destruct (Z.ltb_spec i (a + 1 + Z.of_nat m)); destruct (Z.ltb_spec i (a + Z.of_nat (S m))); try lia; reflexivity.
Qed.

Lemma sub_ok (d : dist T) index number rnd : wf_dist d -> 0 <= number -> dDIM d * number <= int_max ->
  int_min <= index -> index + number - 1 <= int_max ->
  exists s, d_subDist d index number rnd = Ok s /\ wf_dist s /\ dDIM s = dDIM d /\ dNOP s = number /\
    forall i k, in_dist s i k ->
      (0 <= index + i < dNOP d -> coordinate s i k = coordinate d (index + i) k) /\
      (~ (0 <= index + i < dNOP d) -> coordinate s i k = Some (nZ 0)).
Proof.
  intros Hw Hn Hm L1 L2. pose proof Hw as ((H1 & H2 & H3) & H4).
  destruct (new_ok (dDIM d) number rnd) as (s0 & E0 & W0 & D0 & N0); auto.
  destruct (sub_rows d index Hw (Z.to_nat number) 0 s0) as (s & E & W & (S1 & S2) & C); try lia; auto.
  unfold d_subDist. rewrite E0. cbn [bind]. exists s. split; [exact E|]. split; [exact W|].
  split; [congruence|]. split; [congruence|]. intros i k Hk.
  assert (Hk0 : in_dist s0 i k) by (apply (in_shape s s0); [split; congruence|exact Hk]).
  rewrite C by exact Hk0. destruct Hk0 as [K1 K2].
  destruct (Z.leb_spec 0 i); [|lia]. destruct (Z.ltb_spec i (0 + Z.of_nat (Z.to_nat number))); [|lia]. cbn [andb].
  split; intros Hi.
  - assert (Hin : in_dist d (index + i) k) by (split; lia).
    destruct (coordinate_some d (index + i) k Hw Hin) as [v Hv]. rewrite Hv.
    rewrite (getCoordinate_ok d (index + i) k v Hw Hin Hv). reflexivity.
  - unfold d_coordinate. rewrite (idx_ok_false d _ Hi). rewrite andb_false_r. reflexivity.
Qed.
End D.
