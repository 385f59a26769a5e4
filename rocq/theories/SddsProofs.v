(* Proofs about the watch files: C58 and C61. *)
From Coq Require Import Reals ZArith String List Lra Lia Psatz Bool Nsatz.
From Verif Require Import Base BaseFacts Num VecModel VecFacts ParticleModel TraceModel RetardModel RetardProofs BunchModel TraceProofs2 SddsModel SddsSpec.
Import ListNotations.
Local Open Scope R_scope.
Local Open Scope string_scope.
Local Open Scope list_scope.

(* ---- what is written ---- *)
Section Gen.
Context {T : Type} {NT : Num T}.

Lemma in_int_true z : (int_min <= z <= int_max)%Z -> in_int z = true.
Proof. unfold in_int; intros; apply andb_true_intro; split; apply Z.leb_le; lia. Qed.
Lemma in_int_iff z : in_int z = true <-> (int_min <= z <= int_max)%Z.
Proof. unfold in_int. rewrite andb_true_iff, !Z.leb_le. tauto. Qed.

Lemma NOP_fold (bs : list (bunch T)) : forall s n, fold_res (fun s b => iadd s (bunch_NOP b)) bs s = Ok n -> n = (s + Z.of_nat (length (concat bs)))%Z.
Proof.
  induction bs as [|b r IH]; intros s n H.
  - apply Ok_inj in H. cbn. lia.
  - cbn [fold_res concat] in H |- *. rewrite app_length, Nat2Z.inj_add.
    unfold iadd, to_int in H. destruct (in_int (s + bunch_NOP b)); [|discriminate]. cbn [bind] in H.
    apply IH in H. unfold bunch_NOP in H. lia.
Qed.
Lemma beam_NOP_val (bm : beam T) n : beam_NOP bm = Ok n -> n = Z.of_nat (length (beam_particles bm)).
Proof. intros H. apply NOP_fold in H. exact H. Qed.
Lemma NOP_fold_ok (bs : list (bunch T)) : forall s, (0 <= s)%Z -> (s + Z.of_nat (length (concat bs)) <= int_max)%Z ->
  fold_res (fun s b => iadd s (bunch_NOP b)) bs s = Ok (s + Z.of_nat (length (concat bs)))%Z.
Proof.
  induction bs as [|b r IH]; intros s S H.
  - cbn. f_equal. lia.
  - cbn [fold_res concat] in H |- *. rewrite app_length, Nat2Z.inj_add in *.
    unfold iadd, to_int. rewrite in_int_true by (unfold bunch_NOP; unfold int_min, int_max in *; lia).
    cbn [bind]. rewrite IH by (unfold bunch_NOP; lia). f_equal. unfold bunch_NOP; lia.
Qed.
Lemma beam_NOP_ok (bm : beam T) : (Z.of_nat (length (beam_particles bm)) <= int_max)%Z ->
  beam_NOP bm = Ok (Z.of_nat (length (beam_particles bm))).
Proof. intros H. unfold beam_NOP. rewrite NOP_fold_ok; [reflexivity|lia|exact H]. Qed.
Lemma NOP_fold_ub (bs : list (bunch T)) : forall s, (0 <= s <= int_max)%Z -> (int_max < s + Z.of_nat (length (concat bs)))%Z ->
  fold_res (fun s b => iadd s (bunch_NOP b)) bs s = UB.
Proof.
  induction bs as [|b r IH]; intros s S H.
  - cbn [concat length] in H. lia.
  - cbn [fold_res concat] in H |- *. rewrite app_length, Nat2Z.inj_add in *.
    unfold iadd, to_int. destruct (in_int (s + bunch_NOP b)) eqn:E; [|reflexivity].
    cbn [bind]. apply in_int_iff in E. apply IH; unfold bunch_NOP in *; lia.
Qed.
Lemma beam_NOP_ub (bm : beam T) : (int_max < Z.of_nat (length (beam_particles bm)))%Z -> beam_NOP bm = UB.
Proof. intros H. apply NOP_fold_ub; [unfold int_max; lia|exact H]. Qed.

Lemma watch_ok (bm : beam T) : (Z.of_nat (length (beam_particles bm)) <= int_max)%Z -> exists d, beam_watch bm = Ok d.
Proof. intros H. unfold beam_watch. rewrite beam_NOP_ok by exact H. eexists; reflexivity. Qed.
Lemma watch_columns (bm : beam T) d : beam_watch bm = Ok d ->
  sdRows d = Z.of_nat (length (beam_particles bm)) /\
  named (sdPar d) "NumberOfParticles" = Some (SLong (sdRows d)) /\
  has_column d "t" pt (beam_particles bm) /\
  has_column d "x" (fun p => vx (pX p)) (beam_particles bm) /\
  has_column d "y" (fun p => vy (pX p)) (beam_particles bm) /\
  has_column d "z" (fun p => vz (pX p)) (beam_particles bm) /\
  has_column d "px" (fun p => vx (pP p)) (beam_particles bm) /\
  has_column d "py" (fun p => vy (pP p)) (beam_particles bm) /\
  has_column d "pz" (fun p => vz (pP p)) (beam_particles bm) /\
  has_column d "p" (fun p => vnorm (pP p)) (beam_particles bm) /\
  has_column d "xp" (fun p => ndiv (vx (pP p)) (vz (pP p))) (beam_particles bm) /\
  has_column d "yp" (fun p => ndiv (vy (pP p)) (vz (pP p))) (beam_particles bm) /\
  has_column d "gamma" (fun p => nsqrt (nadd (nZ 1) (vabs2 (pP p)))) (beam_particles bm).
Proof.
  unfold beam_watch. intros H. destruct (beam_NOP bm) as [n| | |] eqn:E; try discriminate. cbn [bind] in H.
  apply Ok_inj in H. subst d. apply beam_NOP_val in E. subst n. repeat split; reflexivity.
Qed.
Lemma watch_names (bm : beam T) d : beam_watch bm = Ok d -> named (sdPar d) "Particles" = None.
Proof.
  unfold beam_watch. intros H. destruct (beam_NOP bm) as [n| | |] eqn:E; try discriminate. cbn [bind] in H.
  apply Ok_inj in H. subst d. reflexivity.
Qed.
Lemma watch_charge (bm : beam T) d : beam_watch bm = Ok d -> named (sdPar d) "Charge" = Some (SDouble (nmul nqe (beam_charge bm))).
Proof.
  unfold beam_watch. intros H. destruct (beam_NOP bm) as [n| | |] eqn:E; try discriminate. cbn [bind] in H.
  apply Ok_inj in H. subst d. reflexivity.
Qed.
Lemma read_nameless (fs : string -> option (sdds T)) fn dir d : (Z.of_nat (String.length fn) < 99)%Z ->
  fs fn = Some d -> named (sdPar d) "Particles" = None -> sdds_read fs fn dir = Ok (0%Z, []).
Proof.
  intros L F N. unfold sdds_read. destruct (Z.leb_spec 99 (Z.of_nat (String.length fn))); [lia|].
  rewrite F. unfold sdds_long. rewrite N. reflexivity.
Qed.

(* ---- HDF5 ---- *)
Definition coords (p : particle T) : list T := wrv (pX p) ++ wrv (pP p).
Lemma coords_len (ps : list (particle T)) : length (flat_map coords ps) = (6 * length ps)%nat.
Proof. induction ps as [|p r IH]; [reflexivity|]. cbn [flat_map]. rewrite app_length, IH. cbn [length]. change (length (coords p)) with 6%nat. lia. Qed.
Lemma hdf5_fold nop cap (bs : list (bunch T)) : forall done,
  (nop <= int_max)%Z -> cap = (nop * 6)%Z ->
  nop = Z.of_nat (length done + length (concat bs)) ->
  fold_res (hdf5_bunch nop cap) bs (flat_map coords done, nop - Z.of_nat (length done))%Z
  = Ok (flat_map coords (done ++ concat bs), 0%Z).
Proof.
  induction bs as [|b r IH]; intros done N C L.
  - cbn [fold_res concat]. rewrite app_nil_r. f_equal. f_equal. cbn [concat length] in L. lia.
  - cbn [fold_res concat] in *. unfold hdf5_bunch at 1. cbn [fst snd]. unfold bunch_bufferCoordinates.
    rewrite app_length in L.
    rewrite (firstn_all2 (n:=Z.to_nat _)) by (unfold bunch_NOP; lia).
    change (fun p => wrv (pX p) ++ wrv (pP p)) with coords.
    rewrite <- flat_map_app, coords_len, app_length.
    destruct (Z.ltb_spec cap (Z.of_nat (6 * (length done + length b)))); [lia|].
    replace (Z.of_nat (6 * (length done + length b)) / 6)%Z with (Z.of_nat (length (done ++ b))).
    2:{ rewrite app_length. rewrite Nat2Z.inj_mul, Z.mul_comm. symmetry. apply Z.div_mul. lia. }
    unfold iadd, to_int. rewrite in_int_true.
    2:{ rewrite app_length. unfold int_min, int_max in *. lia. }
    cbn [bind]. rewrite Z.add_opp_r. rewrite IH; [rewrite <- app_assoc; reflexivity|exact N|exact C|rewrite app_length; lia].
Qed.
Lemma hdf5_ok (bm : beam T) : (6 * Z.of_nat (length (beam_particles bm)) <= int_max)%Z ->
  beam_hdf5 bm = Ok ((Z.of_nat (length (beam_particles bm)), 6%Z, flat_map coords (beam_particles bm)), Z.of_nat (length (beam_particles bm))).
Proof.
  intros H. unfold beam_hdf5. rewrite beam_NOP_ok by (unfold int_max in *; lia). cbn [bind].
  unfold imul, to_int. rewrite in_int_true by (unfold int_min, int_max in *; lia). cbn [bind].
  pose proof (hdf5_fold (Z.of_nat (length (beam_particles bm))) (Z.of_nat (length (beam_particles bm)) * 6) (bmB bm) []) as F.
  cbn [flat_map length app] in F. rewrite Z.sub_0_r in F. rewrite F; [|unfold int_max in *; lia|reflexivity|reflexivity].
  cbn [bind fst]. change (concat (bmB bm)) with (beam_particles bm). rewrite coords_len.
  destruct (Z.eqb_spec (Z.of_nat (6 * length (beam_particles bm))) (Z.of_nat (length (beam_particles bm)) * 6)); [reflexivity|lia].
Qed.
Lemma hdf5_ub (bm : beam T) : (int_max < 6 * Z.of_nat (length (beam_particles bm)))%Z -> beam_hdf5 bm = UB.
Proof.
  intros H. unfold beam_hdf5. destruct (Z.leb_spec (Z.of_nat (length (beam_particles bm))) int_max) as [L|L].
  - rewrite beam_NOP_ok by exact L. cbn [bind]. unfold imul, to_int.
    destruct (in_int (Z.of_nat (length (beam_particles bm)) * 6)) eqn:E; [|reflexivity].
    apply in_int_iff in E. lia.
  - rewrite beam_NOP_ub by exact L. reflexivity.
Qed.
End Gen.

(* ---- the reader ---- *)
Lemma map_res_pure {A B} (f : A -> res B) (g : A -> B) l : (forall x, In x l -> f x = Ok (g x)) -> map_res f l = Ok (map g l).
Proof.
  induction l as [|x r IH]; intros H; [reflexivity|]. cbn [map_res map].
  rewrite (H x (or_introl eq_refl)). cbn [bind]. rewrite IH by (intros; apply H; right; assumption). reflexivity.
Qed.
Lemma zget_nth_d {A} (l : list A) (d : A) i : (0 <= i < Z.of_nat (length l))%Z -> zget l i = Ok (List.nth (Z.to_nat i) l d).
Proof.
  intros H. unfold zget. destruct (Z.ltb_spec i 0); [lia|].
  rewrite (nth_error_nth' l d) by lia. reflexivity.
Qed.
Lemma sum_seq (l : list R) : forall pre s,
  fold_res (fun s i => bind (zget (pre ++ l) i) (fun t => Ok (nadd s t))) (zseq (Z.of_nat (length pre)) (length l)) s
  = Ok (s + fold_right Rplus 0 l).
Proof.
  induction l as [|x r IH]; intros pre s.
  - cbn [length zseq fold_res fold_right]. f_equal. ring.
  - cbn [length zseq fold_res]. rewrite (zget_nth_d _ 0) by (rewrite app_length; cbn [length]; lia).
    rewrite Nat2Z.id, nth_middle. cbn [bind].
    specialize (IH (pre ++ [x]) (s + x)). rewrite <- app_assoc in IH. cbn [app] in IH.
    rewrite app_length in IH. cbn [length] in IH. rewrite Nat2Z.inj_add in IH. change (Z.of_nat 1) with 1%Z in IH.
    change (nadd s x) with (s + x). rewrite IH. cbn [fold_right]. f_equal. ring.
Qed.
Lemma sum_ts (l : list R) n : n = Z.of_nat (length l) ->
  fold_res (fun s i => bind (zget l i) (fun t => Ok (nadd s t))) (zseq 0 (Z.to_nat n)) (nZ 0) = Ok (fold_right Rplus 0 l).
Proof.
  intros ->. rewrite Nat2Z.id. pose proof (sum_seq l [] 0) as H. cbn [app length] in H.
  change (nZ 0) with 0. change (Z.of_nat 0) with 0%Z in H. rewrite H. f_equal. ring.
Qed.

(* the frame *)
Lemma choice_small (es : vec R) : vabs2 es = 1 ->
  let e := if nltb (nZ 4 / nZ 5)%num (nabs (vdot es (V (nZ 1) (nZ 0) (nZ 0)))) then V (nZ 0) (nZ 0) (nZ 1) else V (nZ 1) (nZ 0) (nZ 0) in
  vabs2 e = 1 /\ vdot e es * vdot e es < 1.
Proof.
  intros H. cbv zeta. change (nltb (nZ 4 / nZ 5)%num) with (Rltb (4 / 5)). change (nabs (T:=R)) with Rabs.
  destruct es as [x y z].
  replace (vdot (V x y z) (V (nZ 1) (nZ 0) (nZ 0))) with x by (vunfold; unnum; ring).
  assert (H' : x * x + y * y + z * z = 1) by exact H. clear H.
  destruct (Rltb_spec (4 / 5) (Rabs x)) as [L|L]; (split; [vunfold; unnum; ring|]).
  - replace (vdot (V (nZ 0) (nZ 0) (nZ 1)) (V x y z)) with z by (vunfold; unnum; ring).
    assert (16 / 25 < x * x).
    { rewrite <- (Rabs_pos_eq (x * x)) by nra. rewrite Rabs_mult. nra. }
    nra.
  - replace (vdot (V (nZ 1) (nZ 0) (nZ 0)) (V x y z)) with x by (vunfold; unnum; ring).
    assert (x * x <= 16 / 25).
    { pose proof (Rabs_pos x). rewrite <- (Rabs_pos_eq (x * x)) by nra. rewrite Rabs_mult. nra. }
    nra.
Qed.
Lemma frame_ok (dir : vec R) : dir <> vzero -> let '(ex, ey, es) := sdds_frame dir in
  frame_along dir ex ey es /\ left_handed ex ey es.
Proof.
  intros D. unfold sdds_frame. set (es := vnormalize dir).
  assert (S : vabs2 es = 1) by (apply vnormalize_abs2; exact D).
  pose proof (choice_small es S) as C. cbv zeta in C. revert C.
  generalize (if nltb (nZ 4 / nZ 5)%num (nabs (vdot es (V (nZ 1) (nZ 0) (nZ 0)))) then V (nZ 0) (nZ 0) (nZ 1) else V (nZ 1) (nZ 0) (nZ 0) : vec R).
  intros e [E1 E2]. set (u := vsub e (vmul es (vdot e es))).
  assert (U : vabs2 u = 1 - vdot e es * vdot e es).
  { replace (vabs2 u) with (vabs2 e - 2 * (vdot e es * vdot e es) + vdot e es * vdot e es * vabs2 es) by (unfold u; clear; vring).
    rewrite E1, S. ring. }
  assert (Un : u <> vzero).
  { intros Z0. rewrite Z0 in U. assert (vabs2 (vzero : vec R) = 0) by (vunfold; unnum; ring). lra. }
  assert (O : vdot u es = 0).
  { replace (vdot u es) with (vdot e es - vdot e es * vabs2 es) by (unfold u; clear; vring). rewrite S; ring. }
  set (ex := vnormalize u).
  assert (X1 : vdot ex ex = 1) by (rewrite <- vabs2_dot; apply vnormalize_abs2; exact Un).
  assert (X2 : vdot ex es = 0).
  { unfold ex. rewrite vnormalize_div. replace (vdot (vdiv u (vnorm u)) es) with (vdot u es / vnorm u); [rewrite O; unfold Rdiv; ring|].
    clear. generalize (vnorm u). intros k. vdestr; vunfold; unnum; unfold Rdiv; ring. }
  clearbody ex. clear Un O U u E1 E2 e.
  assert (Y1 : vdot (vcross ex es) (vcross ex es) = 1).
  { rewrite <- vabs2_dot, lagrange, X2, S, vabs2_dot, X1. ring. }
  split.
  - unfold frame_along. change rdot with (@vdot R NumR). split; [exact X1|]. split; [exact Y1|]. split; [exact S|].
    split; [clear; vring|]. split; [exact X2|]. split; [clear; vring|].
    exists (vnorm dir). split; [apply vnorm_pos; exact D|]. unfold es. rewrite vnormalize_div.
    pose proof (vnorm_pos dir D) as Hk. revert Hk. generalize (vnorm dir). intros k Hk. clear es S X2 Y1 D. destruct dir as [a b c]. unfold vdiv. cbn [vx vy vz]. unnum. f_equal; field; lra.
  - destruct ex as [a b c], es as [d e f]. unfold left_handed, vcross. cbn [vx vy vz].
    vunfold_in X1. vunfold_in X2. unnum_in X1. unnum_in X2. unnum.
    split; [|split]; nsatz.
Qed.
