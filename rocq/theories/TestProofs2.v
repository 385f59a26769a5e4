(* What the bunch test writes. *)
From Coq Require Import ZArith List Lia Bool String.
From Verif Require Import Base BaseFacts Num VecModel ParticleModel ParticleSpec BunchModel BunchSpec DistSpec DistProofs DistProofs3
  SddsModel SddsSpec SddsProofs TestModel2.
From Verif Require TraceProofs2.
Import ListNotations.
Local Open Scope Z_scope.

Section P.
Context {T : Type} {NT : Num T}.

Lemma gaussians (g : Z -> Z -> T) : forall m a (d : dist T), wf_dist d -> 0 <= a -> a + Z.of_nat m <= dDIM d ->
  exists d', fold_res (fun d k => d_gaussian k (g k) d) (zseq a m) d = Ok d' /\ wf_dist d' /\ same_shape d d' /\
    forall i l, in_dist d i l -> coordinate d' i l = if (a <=? l) && (l <? a + Z.of_nat m) then Some (g l i) else coordinate d i l.
Proof.
  induction m as [|m IH]; intros a d W Ha Hm.
  - exists d. split; [reflexivity|]. split; [exact W|]. split; [split; reflexivity|]. intros i l Hi.
    replace ((a <=? l) && (l <? a + Z.of_nat 0)) with false; [reflexivity|].
    symmetry. apply andb_false_iff. destruct (Z.leb_spec a l); [right; apply Z.ltb_ge; lia|left; reflexivity].
  - cbn [zseq fold_res]. destruct (gaussian_ok d a (g a) W) as (d1 & E1 & W1 & S1 & C1); [lia|]. rewrite E1. cbn [bind].
    destruct S1 as [S1a S1b]. destruct (IH (a + 1) d1 W1) as (d2 & E2 & W2 & [S2a S2b] & C2); [lia|rewrite <- S1a; lia|].
    exists d2. split; [exact E2|]. split; [exact W2|]. split; [split; congruence|]. intros i l Hi.
    rewrite C2 by (unfold in_dist in *; rewrite <- S1a, <- S1b; exact Hi). rewrite C1 by exact Hi.
    destruct (Z.eqb_spec l a) as [->|N].
    + destruct (Z.leb_spec (a + 1) a); [lia|]. cbn [andb]. destruct (Z.leb_spec a a); [|lia]. destruct (Z.ltb_spec a (a + Z.of_nat (S m))); [reflexivity|lia].
    + destruct (Z.leb_spec (a + 1) l), (Z.leb_spec a l); try lia; cbn [andb]; [|reflexivity].
      destruct (Z.ltb_spec l (a + 1 + Z.of_nat m)), (Z.ltb_spec l (a + Z.of_nat (S m))); try lia; reflexivity.
Qed.

Lemma bunch_test_ok (NOP : Z) rnd (g : Z -> Z -> T) : 6 <= NOP -> 6 * NOP <= int_max ->
  let at_all (f : Z -> T) := Some (map f (zseq 0 (Z.to_nat NOP))) in
  exists d, bunch_test NOP rnd g = Ok d /\ sdRows d = NOP /\
    named (sdCol d) "t" = at_all (fun _ => nadd (nZ 0) (nZ 0)) /\
    named (sdCol d) "x" = at_all (fun i => nadd (ndiv (nZ 1) (nZ 1000)) (g 0 i)) /\
    named (sdCol d) "y" = at_all (fun i => nadd (nZ 0) (g 1 i)) /\
    named (sdCol d) "z" = at_all (fun i => nadd (nZ 0) (g 2 i)) /\
    named (sdCol d) "px" = at_all (fun i => nadd (nZ 0) (g 3 i)) /\
    named (sdCol d) "py" = at_all (fun i => nadd (nZ 0) (g 4 i)) /\
    named (sdCol d) "pz" = at_all (fun i => nadd (nsqrt (nsub (nmul (nZ 50) (nZ 50)) (nZ 1))) (g 5 i)).
Proof.
  intros HN HM at_all. unfold bunch_test.
  destruct (new_ok 6 NOP rnd) as (d0 & E0 & W0 & D0 & N0); [lia..|]. rewrite E0. cbn [bind].
  destruct (gaussians g 6 0 d0 W0) as (d & E & W & [Sa Sb] & C); [lia..|]. rewrite E. cbn [bind].
  rewrite from_dist by exact W. cbn [bind].
  assert (ND : dNOP d = NOP) by congruence. rewrite ND.
  match goal with |- context [beam_add (map ?f _) _] => set (mk := f) end.
  set (b := map mk (zseq 0 (Z.to_nat NOP))).
  assert (LB : Z.of_nat (List.length b) = NOP) by (unfold b; rewrite map_length, TraceProofs2.zseq_length; lia).
  assert (P6 : exists l, map_res (fun i => match bunch_particle b i with Some p => Ok p | None => UB end) (zseq 0 6) = Ok l).
  { eexists. apply TraceProofs2.map_res_ext with (g := mk). intros i Hi. apply TraceProofs2.zseq_in in Hi.
    unfold bunch_particle, bunch_NOP. rewrite LB. destruct (Z.leb_spec 0 i); [|lia]. destruct (Z.ltb_spec i NOP); [|lia]. cbn [andb].
    unfold b. rewrite nth_error_map, TraceProofs2.zseq_nth by lia. cbn. rewrite ?Z2Nat.id by lia. reflexivity. }
  destruct P6 as [l ->]. cbn [bind].
  assert (PB : beam_particles (beam_add b beam_new) = b) by (unfold beam_particles; cbn; apply app_nil_r).
  destruct (watch_ok (beam_add b beam_new)) as [s Ws]; [rewrite PB, LB; lia|].
  exists s. split; [exact Ws|].
  pose proof (watch_columns _ _ Ws) as (R & _ & Ct & Cx & Cy & Cz & Cpx & Cpy & Cpz & _).
  unfold has_column in *. rewrite PB in *. split; [rewrite R; exact LB|].
  assert (K : forall k i, 0 <= k < 6 -> 0 <= i < NOP -> coord0 d i k = g k i).
  { intros k i Hk Hi. unfold coord0. destruct (Z.ltb_spec k (dDIM d)); [|lia]. unfold the_coord. rewrite C by (split; lia).
    destruct (Z.leb_spec 0 k); [|lia]. destruct (Z.ltb_spec k (0 + Z.of_nat 6)); [|lia]. reflexivity. }
  assert (K6 : forall i, coord0 d i 6 = nZ 0).
  { intros i. unfold coord0. destruct (Z.ltb_spec 6 (dDIM d)); [lia|reflexivity]. }
  assert (A : forall (f : particle T -> T) (h : Z -> T), (forall i, 0 <= i < NOP -> f (mk i) = h i) -> Some (map f b) = at_all h).
  { intros f h H. unfold at_all, b. f_equal. rewrite map_map. apply map_ext_in. intros i Hi. apply TraceProofs2.zseq_in in Hi. apply H. lia. }
  rewrite Ct, Cx, Cy, Cz, Cpx, Cpy, Cpz.
  repeat split; apply A; intros i Hi; unfold mk; cbn [initTrajectory pt pX pP vadd vx vy vz]; rewrite ?K6, ?K by lia; reflexivity.
Qed.
End P.
