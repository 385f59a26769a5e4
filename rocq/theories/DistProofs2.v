(* Proofs about particle distributions: undoing a correlation (real arithmetic). *)
From Coq Require Import ZArith Reals List Lia Lra Bool.
From Verif Require Import Base BaseFacts Num VecModel ParticleModel BunchModel DistSpec DistProofs.
Import ListNotations.
Local Open Scope Z_scope.

Lemma dist_ext {T} (a b : dist T) : wf_dist a -> wf_dist b -> same_shape a b ->
  (forall i k, in_dist a i k -> coordinate a i k = coordinate b i k) -> a = b.
Proof.
  intros ((A1 & A2 & A3) & A4) ((B1 & B2 & B3) & B4) [S1 S2] H.
  destruct a as [da na la], b as [db nb lb]. cbn [dDIM dNOP dA] in *. subst db nb. f_equal.
  apply nth_error_combine_ext. intros n.
  destruct (Z_lt_dec (Z.of_nat n) (da * na)) as [L|L].
  - assert (D : da > 0) by nia.
    pose proof (Z.div_mod (Z.of_nat n) da ltac:(lia)) as E.
    pose proof (Z.mod_pos_bound (Z.of_nat n) da ltac:(lia)) as M.
    assert (Q : 0 <= Z.of_nat n / da < na).
    { split; [apply Z.div_pos; lia|]. apply Z.div_lt_upper_bound; lia. }
    specialize (H (Z.of_nat n / da) (Z.of_nat n mod da)).
    unfold coordinate in H. cbn [dDIM dNOP dA] in H.
    replace (Z.to_nat (Z.of_nat n / da * da + Z.of_nat n mod da)) with n in H by lia.
    apply H. split; cbn; lia.
  - rewrite (proj2 (nth_error_None la n)) by lia. rewrite (proj2 (nth_error_None lb n)) by lia. reflexivity.
Qed.

Lemma correlate_undo (d : dist R) u k f : wf_dist d -> 0 <= u < dDIM d -> 0 <= k < dDIM d -> k <> u ->
  exists d', d_correlate u k f d = Ok d' /\ d_correlate u k (- f)%R d' = Ok d.
Proof.
  intros Hw Hu Hk Hn.
  destruct (correlate_ok d u k f Hw Hu Hk Hn) as (d1 & E1 & W1 & S1 & C1).
  pose proof S1 as [D1 N1].
  destruct (correlate_ok d1 u k (- f)%R W1) as (d2 & E2 & W2 & S2 & C2); [lia|lia|exact Hn|].
  exists d1. split; [exact E1|]. rewrite E2. f_equal. pose proof S2 as [D2 N2].
  symmetry. apply dist_ext; auto; [split; congruence|].
  intros i l Hi. pose proof (in_shape d d1 i l S1 Hi) as Hi1.
  destruct (C1 i l Hi) as [A1 B1]. destruct (C2 i l Hi1) as [A2 B2].
  destruct (Z.eq_dec l k) as [->|Nl].
  - assert (Hu' : in_dist d i u) by (destruct Hi; split; auto).
    destruct (coordinate_some d i k Hw Hi) as [x Hx]. destruct (coordinate_some d i u Hw Hu') as [y Hy].
    rewrite Hx. rewrite (B2 (nadd x (nmul f y)) y).
    + f_equal. cbn. ring.
    + reflexivity.
    + apply B1; auto.
    + rewrite <- Hy. apply (C1 i u Hu'). auto.
  - rewrite A2, A1 by exact Nl. reflexivity.
Qed.
