(* Particle distributions: C25. *)
From Coq Require Import ZArith Reals List Lia Lra Bool.
From Verif Require Import Base BaseFacts Num VecModel ParticleModel BunchModel DistSpec DistProofs DistProofs2.
Import ListNotations.
Local Open Scope Z_scope.

Definition ex_dist : dist R := DI 2 3 [1%R; 2%R; 3%R; 4%R; 5%R; 6%R].
Example ex_dist_wf : wf_dist ex_dist.
Proof. split; [|reflexivity]. cbn. unfold int_max. lia. Qed.

(* scaling multiplies the named coordinate of every particle and changes nothing else *)
Theorem C25_scale : forall (T : Type) (NT : Num T) (d : dist T) k f,
  wf_dist d -> 0 <= k < dDIM d ->
  exists d', d_scale k f d = Ok d' /\ wf_dist d' /\ same_shape d d' /\
    forall i l, in_dist d i l ->
      (l <> k -> coordinate d' i l = coordinate d i l) /\
      (forall v, coordinate d i k = Some v -> coordinate d' i k = Some (nmul v f)).
Proof.
  intros T NT d k f Hw Hk. destruct (scale_ok d k f Hw Hk) as (d' & E & W & S & C).
  exists d'. split; [exact E|]. split; [exact W|]. split; [exact S|]. intros i l Hi. split.
  - intros Hl. rewrite C by exact Hi. destruct (Z.eqb_spec l k); [contradiction|reflexivity].
  - intros v Hv. rewrite C by (destruct Hi; split; auto). rewrite Z.eqb_refl, Hv. reflexivity.
Qed.
Print Assumptions C25_scale.
Example C25_scale_ex : exists d', d_scale 1 (2%R) ex_dist = Ok d' /\ coordinate d' 2 1 = Some (12%R) /\ coordinate d' 2 0 = Some (5%R).
Proof. eexists. split; [reflexivity|]. split; [|reflexivity].
  transitivity (Some (6 * 2)%R); [reflexivity|apply f_equal; lra]. Qed.

(* a Gaussian profile replaces the named coordinate only *)
Theorem C25_gaussian : forall (T : Type) (NT : Num T) (d : dist T) k rnd,
  wf_dist d -> 0 <= k < dDIM d ->
  exists d', d_gaussian k rnd d = Ok d' /\ wf_dist d' /\ same_shape d d' /\
    forall i l, in_dist d i l -> coordinate d' i l = if l =? k then Some (rnd i) else coordinate d i l.
Proof. intros; apply gaussian_ok; assumption. Qed.
Print Assumptions C25_gaussian.
Example C25_gaussian_ex : exists d', d_gaussian 0 (fun i => IZR i) ex_dist = Ok d' /\ coordinate d' 2 0 = Some (2%R).
Proof. eexists. split; reflexivity. Qed.

(* a correlation adds factor times the independent to the dependent coordinate *)
Theorem C25_correlation : forall (T : Type) (NT : Num T) (d : dist T) u k f,
  wf_dist d -> 0 <= u < dDIM d -> 0 <= k < dDIM d -> k <> u ->
  exists d', d_correlate u k f d = Ok d' /\ wf_dist d' /\ same_shape d d' /\
    forall i l, in_dist d i l ->
      (l <> k -> coordinate d' i l = coordinate d i l) /\
      (forall x y, l = k -> coordinate d i k = Some x -> coordinate d i u = Some y ->
         coordinate d' i l = Some (nadd x (nmul f y))).
Proof. intros; apply correlate_ok; assumption. Qed.
Print Assumptions C25_correlation.
Example C25_correlation_ex : exists d', d_correlate 0 1 (2%R) ex_dist = Ok d' /\ coordinate d' 1 1 = Some (10%R).
Proof. eexists. split; [reflexivity|]. transitivity (Some (4 + 2 * 3)%R); [reflexivity|apply f_equal; lra]. Qed.

(* the negative factor undoes a correlation *)
Theorem C25_correlation_undone : forall (d : dist R) u k f,
  wf_dist d -> 0 <= u < dDIM d -> 0 <= k < dDIM d -> k <> u ->
  exists d', d_correlate u k f d = Ok d' /\ d_correlate u k (- f)%R d' = Ok d.
Proof. exact correlate_undo. Qed.
Print Assumptions C25_correlation_undone.
Example C25_correlation_undone_ex : wf_dist ex_dist /\ 0 <= 0 < dDIM ex_dist /\ 0 <= 1 < dDIM ex_dist /\ 1 <> 0.
Proof. split; [apply ex_dist_wf|]. cbn. lia. Qed.

(* setting a coordinate changes this one only; reading returns it *)
Theorem C25_set_and_get : forall (T : Type) (NT : Num T) (d : dist T) i k v,
  wf_dist d -> in_dist d i k ->
  exists d', d_setCoordinate i k v d = Ok d' /\ wf_dist d' /\ same_shape d d' /\
    d_coordinate d' i k = Ok v /\
    (forall j l, in_dist d j l -> (j, l) <> (i, k) -> coordinate d' j l = coordinate d j l) /\
    forall j l w, in_dist d j l -> coordinate d j l = Some w -> d_coordinate d j l = Ok w.
Proof.
  intros T NT d i k v Hw Hi. destruct (setCoordinate_ok d i k v Hw Hi) as (d' & E & W & S & C).
  exists d'. split; [exact E|]. split; [exact W|]. split; [exact S|]. split; [|split].
  - apply getCoordinate_ok; [exact W|apply (in_shape d d'); assumption|].
    rewrite C by exact Hi. rewrite !Z.eqb_refl. reflexivity.
  - intros j l Hj Hne. rewrite C by exact Hj.
    destruct (Z.eqb_spec j i); destruct (Z.eqb_spec l k); subst; cbn [andb]; auto. contradiction.
  - intros j l w Hj Hv. apply getCoordinate_ok; assumption.
Qed.
Print Assumptions C25_set_and_get.
Example C25_set_and_get_ex : in_dist ex_dist 2 1.
Proof. split; cbn; lia. Qed.

(* indices out of range are ignored; reading returns zero *)
Theorem C25_out_of_range : forall (T : Type) (NT : Num T) (d : dist T) u k f rnd i v,
  (~ (0 <= k < dDIM d) -> d_scale k f d = Ok d /\ d_gaussian k rnd d = Ok d) /\
  (~ (0 <= k < dDIM d) \/ ~ (0 <= u < dDIM d) \/ k = u -> d_correlate u k f d = Ok d) /\
  (~ in_dist d i k -> d_setCoordinate i k v d = Ok d /\ d_coordinate d i k = Ok (nZ 0)).
Proof. intros; apply no_op. Qed.
Print Assumptions C25_out_of_range.
Example C25_out_of_range_ex : ~ in_dist ex_dist 3 0 /\ ~ (0 <= 2 < dDIM ex_dist).
Proof. unfold in_dist; cbn; split; lia. Qed.

(* export and import *)
Theorem C25_buffer_round_trip : forall (T : Type) (NT : Num T) (a b : dist T),
  wf_dist a -> wf_dist b -> same_shape a b ->
  exists buf, d_bufferData a (dDIM a * dNOP a) = Ok buf /\ Z.of_nat (length buf) = dDIM a * dNOP a /\
    d_fromBuffer buf (dDIM a * dNOP a) b = Ok a.
Proof.
  intros T NT a b Ha Hb [S1 S2]. exists (dA a). split; [apply buffer_ok; exact Ha|]. destruct Ha as [Ha1 Ha2].
  split; [exact Ha2|]. rewrite S1, S2, (from_buffer_ok b (dA a)); [|exact Hb|congruence].
  rewrite <- S1, <- S2. destruct a; reflexivity.
Qed.
Print Assumptions C25_buffer_round_trip.
Example C25_buffer_round_trip_ex : d_bufferData ex_dist 6 = Ok [1%R; 2%R; 3%R; 4%R; 5%R; 6%R].
Proof. reflexivity. Qed.

Theorem C25_buffer_size_refused : forall (T : Type) (NT : Num T) (d : dist T) buf n,
  wf_dist d -> n <> dDIM d * dNOP d ->
  d_bufferData d n = Throw IOexc /\ d_fromBuffer buf n d = Throw IOexc.
Proof. intros; apply buffer_refused; assumption. Qed.
Print Assumptions C25_buffer_size_refused.
Example C25_buffer_size_refused_ex : d_bufferData ex_dist 5 = Throw IOexc.
Proof. reflexivity. Qed.

(* particles index .. index+number-1; particles which do not exist are filled with
   zeros (documented as random values, bunch.h) *)
Theorem C25_sub_distribution : forall (T : Type) (NT : Num T) (d : dist T) index number rnd,
  wf_dist d -> 0 <= number -> dDIM d * number <= int_max ->
  int_min <= index -> index + number - 1 <= int_max ->
  exists s, d_subDist d index number rnd = Ok s /\ wf_dist s /\ dDIM s = dDIM d /\ dNOP s = number /\
    forall i k, in_dist s i k ->
      (0 <= index + i < dNOP d -> coordinate s i k = coordinate d (index + i) k) /\
      (~ (0 <= index + i < dNOP d) -> coordinate s i k = Some (nZ 0)).
Proof. intros; apply sub_ok; assumption. Qed.
Print Assumptions C25_sub_distribution.
Example C25_sub_distribution_ex : exists s, d_subDist ex_dist 1 2 (fun _ => 0%R) = Ok s /\ dA s = [3%R; 4%R; 5%R; 6%R].
Proof. eexists. split; reflexivity. Qed.
