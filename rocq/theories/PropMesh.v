(* Geometry of the cells of a meshed screen (C43): the result of the whole initialization. *)
From Coq Require Import ZArith Reals List Lia Lra Bool.
From Verif Require Import Base BaseFacts Num VecModel VecFacts TraceModel TraceSpec TraceProofs2 ParticleModel DriverProofs FelProofs ObserverProofs
  ObserverModel ObserverSpec2 ObserverProofs5 ObserverProofs6 PropagateProofs PropObserver.
Import ListNotations.
Local Open Scope R_scope.

(* ==== specification ==== *)
(* the corner points of triangle number i *)
Definition corners (s : mesh R) (i : nat) (p1 p2 p3 : vec R) : Prop :=
  exists a b c, nth_error (msTri s) i = Some (a, b, c) /\ (0 <= a /\ 0 <= b /\ 0 <= c)%Z /\
  nth_error (msPts s) (Z.to_nat a) = Some p1 /\ nth_error (msPts s) (Z.to_nat b) = Some p2 /\ nth_error (msPts s) (Z.to_nat c) = Some p3.
(* p1, p2, p3 are seen clockwise if one looks against the direction n *)
Definition clockwise (n p1 p2 p3 : vec R) : Prop := 0 < vdot n (vcross (vsub p3 p1) (vsub p2 p1)).
(* sum of vectors *)
Definition vsum (l : list (vec R)) : vec R := fold_right vadd vzero l.

(* ==== proofs ==== *)
Lemma sum_left {A} (f : A -> R) : forall l a, fold_left (fun a c => nadd a (f c)) l a = a + rsum (map f l).
Proof.
  induction l as [|x l IH]; intros a; cbn [fold_left map]; unfold rsum; cbn [fold_right]; [ring|]. rewrite IH. unfold rsum. unnum. ring.
Qed.
Lemma vsum_left {A} (f : A -> vec R) : forall l a, fold_left (fun a c => vadd a (f c)) l a = vadd a (vsum (map f l)).
Proof.
  induction l as [|x l IH]; intros a; cbn [fold_left map]; unfold vsum; cbn [fold_right].
  - destruct a as [a1 a2 a3]. unfold vadd, vzero. cbn [vx vy vz]. unnum. vsplit; ring.
  - rewrite IH. unfold vsum. generalize (fold_right vadd vzero (map f l)). intros w. unfold vadd. cbn [vx vy vz]. unnum. vsplit; ring.
Qed.
Lemma vsum_zero l : vadd vzero (vsum l) = vsum l.
Proof. destruct (vsum l) as [a1 a2 a3]. unfold vadd, vzero. cbn [vx vy vz]. unnum. vsplit; ring. Qed.
Lemma vdot_normalize (w : vec R) : w <> vzero -> vdot (vnormalize w) w = vnorm w.
Proof.
  intros H. rewrite vnormalize_div. pose proof (vnorm_pos w H) as P. rewrite vdot_div_l, <- vabs2_dot. 
  assert (E : vabs2 w = vnorm w * vnorm w) by (rewrite vnorm_sqrt, sqrt_sqrt; [reflexivity|]; rewrite vabs2_dot; unfold vdot; unnum; nra).
  rewrite E. field. lra.
Qed.
Lemma unit_dot (n : vec R) : vnorm n = 1 -> vdot n n = 1.
Proof.
  intros H. rewrite <- vabs2_dot. rewrite vnorm_sqrt in H. rewrite <- (sqrt_sqrt (vabs2 n)), H; [ring|].
  rewrite vabs2_dot. unfold vdot. unnum. nra.
Qed.

Lemma some_inj {A} (x y : A) : Some x = Some y -> x = y.
Proof. congruence. Qed.

Theorem C43_cells : forall (s : mesh R) total g, mesh_init s = Ok (total, g) ->
  length g = length (msX s) /\ total = rsum (map cgArea g) /\
  (forall i c, nth_error g i = Some c -> exists p1 p2 p3, corners s i p1 p2 p3 /\
     (vcross (vsub p2 p1) (vsub p3 p1) <> vzero ->
      vnorm (cgNormal c) = 1 /\ vdot (cgNormal c) (vsub p2 p1) = 0 /\ vdot (cgNormal c) (vsub p3 p1) = 0 /\ clockwise (cgNormal c) p1 p2 p3 /\
      cgArea c = vnorm (vcross (vsub p2 p1) (vsub p3 p1)) / 2)) /\
  (* all frames are set up in the same way *)
  (let avg := vnormalize (vsum (map cgNormal g)) in
   (vy avg < 7 / 10 /\ forall c, In c g -> vdot (cgNormal c) (cgNormal c) = 1 -> vx (cgNormal c) <> 0 \/ vz (cgNormal c) <> 0 ->
      right_handed (cgXi c) (cgEta c) (cgNormal c) /\ vy (cgXi c) = 0) \/
   (7 / 10 <= vy avg /\ forall c, In c g -> vdot (cgNormal c) (cgNormal c) = 1 -> vy (cgNormal c) <> 0 \/ vz (cgNormal c) <> 0 ->
      right_handed (cgXi c) (cgEta c) (cgNormal c) /\ vx (cgEta c) = 0)).
Proof.
  intros s total g H. unfold mesh_init in H. bget H as ps HP. apply Ok_inj in H.
  pose proof (f_equal fst H) as HT. pose proof (f_equal snd H) as HG. cbn [fst snd] in HT, HG. clear H.
  destruct (map_res_nth _ _ _ HP) as [LP NP]. rewrite zseq_length in LP.
  set (an := map (fun p : vec R * vec R * vec R => let '(p1, p2, p3) := p in (tri_area p1 p2 p3, tri_normal p1 p2 p3)) ps) in *.
  set (avg := vnormalize (fold_left (fun a c => vadd a (snd c)) an vzero)) in HG.
  set (frame := if nltb (VecModel.vy avg) (ndiv (nZ 7) (nZ 10)) then frame_xz else frame_yz) in HG.
  assert (LG : length g = length (msX s)) by (rewrite <- HG; unfold an; rewrite !map_length; exact LP).
  assert (MA : map cgArea g = map fst an) by (rewrite <- HG, map_map; reflexivity).
  assert (MN : map cgNormal g = map snd an) by (rewrite <- HG, map_map; reflexivity).
  split; [exact LG|]. split; [|split].
  - rewrite MA, <- HT. etransitivity; [apply (sum_left fst)|]. unnum. ring.
  - intros i c Hc. assert (Hi : (i < length (msX s))%nat) by (rewrite <- LG; apply nth_error_Some; congruence).
    destruct (NP i (0 + Z.of_nat i)%Z) as (p & Hp & E); [apply zseq_nth; exact Hi|]. cbn [Z.add] in E.
    bget E as t Ht. apply zget_inv in Ht. destruct Ht as [_ Ht]. rewrite Nat2Z.id in Ht. destruct t as [[a b] d]. unfold tri_points in E.
    bget E as p1 H1. bget E as p2 H2. bget E as p3 H3. apply Ok_inj in E. subst p.
    apply zget_inv in H1, H2, H3. exists p1, p2, p3.
    split; [exists a, b, d; repeat split; try tauto; lia|]. intros ND.
    rewrite <- HG in Hc. unfold an in Hc. rewrite map_map, nth_error_map, Hp in Hc. cbn [option_map] in Hc. apply some_inj in Hc. subst c.
    cbn [cgNormal cgArea fst snd].
    destruct (C43_triangle p1 p2 p3 ND) as (T1 & T2 & T3 & T4 & T5 & _). 
    assert (Q : tri_cross p1 p2 p3 <> vzero).
    { intros E. apply ND. unfold tri_cross in E. rewrite vcross_anti, E. vunfold. unnum. vsplit; ring. }
    split; [exact T1|]. split; [exact T2|]. split; [rewrite !vdot_sub_r in *; lra|]. split.
    + unfold clockwise, tri_normal. fold (tri_cross p1 p2 p3). rewrite vdot_normalize by exact Q. apply vnorm_pos. exact Q.
    + unfold tri_area. assert (E : vnorm (tri_cross p1 p2 p3) = vnorm (vcross (vsub p2 p1) (vsub p3 p1))).
      { rewrite !vnorm_sqrt. f_equal. unfold tri_cross, vabs2, vcross, vsub. cbn [vx vy vz]. unnum. ring. }
      rewrite E. generalize (vnorm (vcross (vsub p2 p1) (vsub p3 p1))). intros r. unfold nhalf. unnum. field.
  - cbv zeta. assert (AV : vnormalize (vsum (map cgNormal g)) = avg).
    { unfold avg. rewrite MN. f_equal. rewrite (vsum_left snd), vsum_zero. reflexivity. }
    rewrite AV. clearbody avg. unfold frame in *. clear frame.
    change (@nltb R NumR (vy avg) (@ndiv R NumR (nZ 7) (nZ 10))) with (Rltb (vy avg) (7 / 10)) in *.
    destruct (Rltb_spec (vy avg) (7 / 10)) as [L|L]; [left|right; apply Rnot_lt_le in L]; (split; [exact L|]);
      intros c Hc U NN; rewrite <- HG in Hc; apply in_map_iff in Hc; destruct Hc as (x & <- & _); cbn [cgNormal cgXi cgEta] in *.
    + split; [apply frame_xz_hand; assumption|]. apply frame_xz_ok; assumption.
    + split; [apply frame_yz_hand; assumption|]. apply frame_yz_ok; assumption.
Qed.
Print Assumptions C43_cells.
(* it is defined for every mesh with a triangle for every cell and existing corner points *)
Theorem C43_defined : forall (T : Type) (NT : Num T) (s : mesh T), (length (msX s) <= length (msTri s))%nat ->
  Forall (fun t => let '(a, b, c) := t in (0 <= a < Z.of_nat (length (msPts s)) /\ 0 <= b < Z.of_nat (length (msPts s)) /\ 0 <= c < Z.of_nat (length (msPts s)))%Z)
    (msTri s) -> exists r, mesh_init s = Ok r.
Proof.
  intros T NT s L F. unfold mesh_init.
  assert (E : exists ps, map_res (fun i => bind (zget (msTri s) i) (fun t => tri_points s t)) (zseq 0 (length (msX s))) = Ok ps).
  { assert (HI : forall i, In i (zseq 0 (length (msX s))) -> (0 <= i < Z.of_nat (length (msTri s)))%Z).
    { intros i Hi. apply zseq_In in Hi. lia. }
    revert HI. generalize (zseq 0 (length (msX s))). induction l as [|i l IH]; intros HI; [exists []; reflexivity|]. cbn [map_res].
    destruct IH as [ps ->]; [intros j Hj; apply HI; right; exact Hj|].
    destruct (zget_in (msTri s) i (HI i (or_introl eq_refl))) as ([[a b] c] & T1 & ->). cbn [bind].
    rewrite Forall_forall in F. specialize (F _ (nth_error_In _ _ T1)). cbn in F. destruct F as (A & B & C). unfold tri_points.
    destruct (zget_in (msPts s) a A) as (p1 & _ & ->). destruct (zget_in (msPts s) b B) as (p2 & _ & ->). destruct (zget_in (msPts s) c C) as (p3 & _ & ->).
    cbn [bind]. eexists. reflexivity. }
  destruct E as [ps ->]. cbn [bind]. eexists. reflexivity.
Qed.
Print Assumptions C43_defined.
Example C43_cells_ex : let s := MS [V 0 0 0; V 0 1 0; V 1 0 0] [(0, 1, 2)%Z] [V 0 0 0] 1 [] in
  (exists total g, mesh_init s = Ok (total, g)) /\ corners s 0 (V 0 0 0) (V 0 1 0) (V 1 0 0) /\
  vcross (vsub (V 0 1 0) (V 0 0 0)) (vsub (V 1 0 0) (V 0 0 0)) <> vzero.
Proof.
  cbv zeta. split; [|split].
  - destruct (C43_defined R NumR (MS [V 0 0 0; V 0 1 0; V 1 0 0] [(0, 1, 2)%Z] [V 0 0 0] 1 [])) as [r E].
    + cbn. lia.
    + cbn. repeat constructor; lia.
    + destruct r as [t g]. exists t, g. exact E.
  - exists 0%Z, 1%Z, 2%Z. repeat split; lia.
  - intros E. apply (f_equal vz) in E. cbn in E. lra.
Qed.
