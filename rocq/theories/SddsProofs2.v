(* The particles made by the reader of SDDS files and the way back from a watch file: C58. *)
From Coq Require Import Reals ZArith String List Lra Lia Psatz Bool Nsatz.
From Verif Require Import Base BaseFacts Num VecModel VecFacts ParticleModel TraceModel RetardModel RetardProofs BunchModel TraceProofs2 SddsModel SddsSpec SddsProofs.
Import ListNotations.
Local Open Scope R_scope.
Local Open Scope string_scope.
Local Open Scope list_scope.

Lemma beta_val bg : 0 <= bg -> sqrt (bg * bg / (bg * bg + 1)) = bg / sqrt (1 + bg * bg).
Proof.
  intros B. rewrite sqrt_div_alt by nra. rewrite sqrt_square by exact B. rewrite (Rplus_comm (bg * bg)). reflexivity.
Qed.

Lemma particle_arrives dir ex ey es ne t0 x xp y yp p t : frame_along dir ex ey es -> 0 <= p ->
  arrives ex ey es t0 x xp y yp p t (sdds_particle ne t0 (ex, ey, es) x xp y yp p t).
Proof.
  intros (X1 & Y1 & S1 & XY & XS & YS & _) Hp.
  set (w := vadd (vadd (vmul ex xp) (vmul ey yp)) es).
  assert (Wx : rdot w ex = xp).
  { replace (rdot w ex) with (xp * rdot ex ex + yp * rdot ex ey + rdot ex es) by (unfold w, rdot; clear; vring). rewrite X1, XY, XS; ring. }
  assert (Wy : rdot w ey = yp).
  { replace (rdot w ey) with (xp * rdot ex ey + yp * rdot ey ey + rdot ey es) by (unfold w, rdot; clear; vring). rewrite Y1, XY, YS; ring. }
  assert (Ws : rdot w es = 1).
  { replace (rdot w es) with (xp * rdot ex es + yp * rdot ey es + rdot es es) by (unfold w, rdot; clear; vring). rewrite XS, YS, S1; ring. }
  assert (Wn : w <> vzero).
  { intros E. rewrite E in Ws. assert (rdot vzero es = 0) by (unfold rdot; vunfold; unnum; ring). lra. }
  pose proof (vnorm_pos w Wn) as Np. pose proof (vnorm_sq w) as Nq. change (vabs2 w) with (rdot w w) in Nq.
  unfold arrives, sdds_particle, initTrajectory. cbv zeta. cbn [pX pP pt]. fold w. rewrite vnormalize_div.
  revert Np Nq. generalize (vnorm w). intros k Np Nq.
  set (P := vmul (vdiv w k) p).
  assert (PP : rdot P P = p * p).
  { replace (rdot P P) with (rdot w w / (k * k) * (p * p)).
    - rewrite <- Nq. field. lra.
    - unfold P, rdot. clear -Np. destruct w as [a b c]. vunfold. unnum. field. lra. }
  assert (D : forall e, rdot P e = rdot w e * (p / k)).
  { intros e. unfold P, rdot. clear -Np. destruct w as [a b c], e as [d f g]. vunfold. unnum. field. lra. }
  split; [reflexivity|]. split; [exact PP|]. rewrite PP, !D, Wx, Wy, Ws.
  split; [ring|]. split; [ring|].
  split. { intros. apply Rmult_lt_0_compat; [lra|]. apply Rdiv_lt_0_compat; lra. }
  assert (G : 0 < sqrt (1 + p * p)) by (apply sqrt_lt_R0; nra).
  change (nsqrt (p * p / (p * p + nZ 1))%num) with (sqrt (p * p / (p * p + 1))). rewrite beta_val by exact Hp.
  revert G. generalize (sqrt (1 + p * p)). intros g G.
  match goal with |- rdot ?u _ = _ /\ _ => assert (E : u = vadd (vmul ex x) (vmul ey y)) end.
  { unfold P. clear -G Np. generalize (nc (T:=R)). intros c. destruct w as [wx wy wz], ex as [a1 a2 a3], ey as [b1 b2 b3].
    vunfold. unnum. f_equal; field; split; lra. }
  rewrite E.
  replace (rdot (vadd (vmul ex x) (vmul ey y)) ex) with (x * rdot ex ex + y * rdot ex ey) by (unfold rdot; clear; vring).
  replace (rdot (vadd (vmul ex x) (vmul ey y)) ey) with (x * rdot ex ey + y * rdot ey ey) by (unfold rdot; clear; vring).
  replace (rdot (vadd (vmul ex x) (vmul ey y)) es) with (x * rdot ex es + y * rdot ey es) by (unfold rdot; clear; vring).
  rewrite X1, Y1, XY, XS, YS. split; [ring|]. split; ring.
Qed.

(* the result of the reader *)
Definition read_particle (dir : vec R) (n : Z) (q : R) (xs xps ys yps ps ts : list R) (i : nat) : particle R :=
  sdds_particle (q / nqe / IZR n) (mean ts) (sdds_frame dir) (List.nth i xs 0) (List.nth i xps 0) (List.nth i ys 0) (List.nth i yps 0) (List.nth i ps 0) (List.nth i ts 0).
Lemma read_ok fs fn dir d n q xs xps ys yps ps ts : (Z.of_nat (String.length fn) < 99)%Z -> fs fn = Some d ->
  readable d n q xs xps ys yps ps ts -> (1 <= n)%Z ->
  sdds_read fs fn dir = Ok (n, map (read_particle dir n q xs xps ys yps ps ts) (seq 0 (Z.to_nat n))).
Proof.
  intros L F [Hn Hq Hr Hx Hxp Hy Hyp Hp Ht HL] N. unfold sdds_read.
  destruct (Z.leb_spec 99 (Z.of_nat (String.length fn))); [lia|]. rewrite F.
  unfold sdds_long. rewrite Hn. cbn [bind]. unfold sdds_double. rewrite Hq. unfold sdds_column. rewrite Hr.
  destruct (Z.ltb_spec 0 n); [|lia]. rewrite Hx, Hxp, Hy, Hyp, Hp, Ht.
  repeat match type of HL with Forall _ (_ :: _) => let A := fresh "Len" in apply Forall_cons_iff in HL; destruct HL as [A HL] end.
  rewrite sum_ts by (symmetry; assumption). cbn [bind].
  rewrite (map_res_pure _ (fun i => read_particle dir n q xs xps ys yps ps ts (Z.to_nat i))).
  - cbn [bind]. f_equal. f_equal. clear. induction (Z.to_nat n) as [|m IH] using nat_ind; [reflexivity|].
    assert (S : forall a k, map (fun i => read_particle dir n q xs xps ys yps ps ts (Z.to_nat i)) (zseq (Z.of_nat a) k)
       = map (read_particle dir n q xs xps ys yps ps ts) (seq a k)).
    { clear. intros a k. revert a. induction k as [|k IH]; intros a; [reflexivity|]. cbn [zseq seq map]. rewrite Nat2Z.id. f_equal.
      replace (Z.of_nat a + 1)%Z with (Z.of_nat (S a)) by lia. apply IH. }
    apply (S 0%nat).
  - intros i Hi. apply zseq_in in Hi.
    rewrite !(zget_nth_d _ 0) by lia. cbn [bind]. unfold read_particle, mean. f_equal. 
    change (nZ n) with (IZR n). replace (INR (length ts)) with (IZR n). 2:{ rewrite INR_IZR_INZ. f_equal. lia. }
    reflexivity.
Qed.

Lemma sum_charges (f : nat -> particle R) (c : R) : (forall i, pCharge (f i) = c) -> forall k a s,
  fold_left (fun s p => nadd s (getCharge p)) (map f (seq a k)) s = s + INR k * (c * nqe).
Proof.
  intros H. induction k as [|k IH]; intros a s.
  - cbn [seq map fold_left INR]. ring.
  - cbn [seq map fold_left]. rewrite IH. unfold getCharge. rewrite H. rewrite S_INR.
    change (nadd s (nmul c nqe)) with (s + c * nqe). ring.
Qed.
Lemma read_charge dir n q xs xps ys yps ps ts : (1 <= n)%Z ->
  bunch_charge (map (read_particle dir n q xs xps ys yps ps ts) (seq 0 (Z.to_nat n))) = - q.
Proof.
  intros N. unfold bunch_charge. rewrite (sum_charges _ (- (q / nqe / IZR n))).
  - rewrite INR_IZR_INZ, Z2Nat.id by lia. change (nZ 0) with 0. pose proof nqe_pos. 
    assert (0 < IZR n) by (apply IZR_lt; lia). revert H. generalize (nqe (T:=R)). intros e He. field. split; lra.
  - intros i. unfold read_particle, sdds_particle. destruct (sdds_frame dir) as [[? ?] ?]. reflexivity.
Qed.

(* ---- the way back ---- *)
Lemma frame_z : sdds_frame (V 0 0 1 : vec R) = (V 1 0 0, V 0 (-1) 0, V 0 0 1).
Proof.
  unfold sdds_frame.
  assert (E1 : vnormalize (V 0 0 1 : vec R) = V 0 0 1).
  { rewrite vnormalize_div, vnorm_sqrt. replace (vabs2 (V 0 0 1 : vec R)) with 1 by (vunfold; unnum; ring). rewrite sqrt_1.
    unfold vdiv. cbn [vx vy vz]. unnum. f_equal; field. }
  rewrite E1.
  replace (nltb (nZ 4 / nZ 5)%num (nabs (vdot (V 0 0 1 : vec R) (V (nZ 1) (nZ 0) (nZ 0))))) with false.
  2:{ symmetry. replace (vdot (V 0 0 1 : vec R) (V (nZ 1) (nZ 0) (nZ 0))) with 0 by (vunfold; unnum; ring).
      change (nltb (nZ 4 / nZ 5)%num (nabs (0:R))) with (Rltb (4 / 5) (Rabs 0)). rewrite Rabs_R0.
      destruct (Rltb_spec (4 / 5) 0); [lra|reflexivity]. }
  replace (vsub (V (nZ 1) (nZ 0) (nZ 0) : vec R) (vmul (V 0 0 1) (vdot (V (nZ 1) (nZ 0) (nZ 0)) (V 0 0 1)))) with (V 1 0 0 : vec R).
  2:{ vunfold; unnum. f_equal; ring. }
  assert (E2 : vnormalize (V 1 0 0 : vec R) = V 1 0 0).
  { rewrite vnormalize_div, vnorm_sqrt. replace (vabs2 (V 1 0 0 : vec R)) with 1 by (vunfold; unnum; ring). rewrite sqrt_1.
    unfold vdiv. cbn [vx vy vz]. unnum. f_equal; field. }
  rewrite E2. f_equal. f_equal. vunfold; unnum. f_equal; ring.
Qed.

(* momentum and slopes of a watch file give the momentum back, with the sign of pz *)
Lemma direction_back (x y z : R) : 0 < z ->
  vmul (vnormalize (vadd (vadd (vmul (V 1 0 0) (x / z)) (vmul (V 0 (-1) 0) (y / z))) (V 0 0 1))) (vnorm (V x y z)) = (V x (- y) z : vec R).
Proof.
  intros Z0. rewrite vnormalize_div.
  replace (vadd (vadd (vmul (V 1 0 0) (x / z)) (vmul (V 0 (-1) 0) (y / z))) (V 0 0 1)) with (vmul (V x (- y) z : vec R) (/ z)).
  2:{ vunfold; unnum. f_equal; field; lra. }
  rewrite vnorm_mul. rewrite Rabs_pos_eq by (left; apply Rinv_0_lt_compat; exact Z0).
  replace (vnorm (V x (- y) z : vec R)) with (vnorm (V x y z : vec R)).
  2:{ rewrite !vnorm_sqrt. f_equal. vunfold; unnum; ring. }
  assert (N : 0 < vnorm (V x y z : vec R)).
  { apply vnorm_pos. intros E. apply (f_equal vz) in E. change (z = 0) in E. lra. }
  revert N. generalize (vnorm (V x y z : vec R)). intros k N. unfold vdiv, vmul. cbn [vx vy vz]. unnum. f_equal; field; split; lra.
Qed.

Lemma mean_const (l : list R) (t : R) : l <> [] -> Forall (fun x => x = t) l -> mean l = t.
Proof.
  intros N F. unfold mean. 
  assert (S : fold_right Rplus 0 l = INR (length l) * t).
  { clear N. induction F as [|x r Hx F IH]; [cbn; ring|]. cbn [fold_right length]. rewrite IH, Hx, S_INR. ring. }
  rewrite S. field. destruct l; [congruence|]. cbn [length]. rewrite S_INR. pose proof (pos_INR (length l)). lra.
Qed.
Lemma nth_map_d {A} (f : A -> R) (l : list A) i a : nth_error l i = Some a -> List.nth i (map f l) 0 = f a.
Proof. intros H. apply nth_error_nth. apply map_nth_error. exact H. Qed.

Lemma reimport (bm : beam R) d fs fn q t : beam_watch bm = Ok d -> (Z.of_nat (String.length fn) < 99)%Z ->
  beam_particles bm <> [] -> Forall (fun p => pt p = t /\ 0 < vz (pP p)) (beam_particles bm) ->
  fs fn = Some (renamed (sdRows d) q d) ->
  exists b, sdds_read fs fn (V 0 0 1) = Ok (Z.of_nat (length (beam_particles bm)), b) /\
    Forall2 mirrored_in_plane (beam_particles bm) b /\ bunch_charge b = - q.
Proof.
  intros W L NE F FS. destruct (watch_columns bm d W) as (Rw & _ & Ct & Cx & Cy & _ & _ & _ & _ & Cp & Cxp & Cyp & _).
  set (ps := beam_particles bm) in *. unfold has_column in *.
  assert (N : (1 <= sdRows d)%Z) by (rewrite Rw; destruct ps; [congruence|cbn [length]; lia]).
  assert (RD : readable (renamed (sdRows d) q d) (sdRows d) q (map (fun p => vx (pX p)) ps) (map (fun p => ndiv (vx (pP p)) (vz (pP p))) ps)
     (map (fun p => vy (pX p)) ps) (map (fun p => ndiv (vy (pP p)) (vz (pP p))) ps) (map (fun p => vnorm (pP p)) ps) (map pt ps)).
  { constructor; try reflexivity; try assumption. rewrite Rw. repeat constructor; rewrite map_length; reflexivity. }
  pose proof (read_ok fs fn (V 0 0 1) _ _ _ _ _ _ _ _ _ L FS RD N) as E. rewrite E. rewrite <- Rw.
  eexists. split; [reflexivity|]. split; [|apply read_charge; exact N].
  rewrite Rw, Nat2Z.id. 
  assert (M : mean (map pt ps) = t).
  { apply mean_const; [destruct ps; [congruence|discriminate]|]. apply Forall_forall. intros x Hx. apply in_map_iff in Hx. destruct Hx as (p & <- & Hp).
    rewrite Forall_forall in F. apply F; exact Hp. }
  assert (K : forall i p, nth_error ps i = Some p ->
     mirrored_in_plane p (read_particle (V 0 0 1) (Z.of_nat (length ps)) q (map (fun p => vx (pX p)) ps) (map (fun p => ndiv (vx (pP p)) (vz (pP p))) ps)
     (map (fun p => vy (pX p)) ps) (map (fun p => ndiv (vy (pP p)) (vz (pP p))) ps) (map (fun p => vnorm (pP p)) ps) (map pt ps) i)).
  { intros i p H. unfold read_particle. rewrite !(nth_map_d _ _ _ _ H), M, frame_z.
    rewrite Forall_forall in F. destruct (F p (nth_error_In _ _ H)) as [Tp Zp]. rewrite Tp.
    unfold mirrored_in_plane, sdds_particle, initTrajectory. cbv zeta. cbn [pX pP].
    destruct (pP p) as [a b c] eqn:EP. cbn [vx vy vz] in *. split.
    - generalize (vnormalize (vadd (vadd (vmul (V 1 0 0) (ndiv a c)) (vmul (V 0 (-1) 0) (ndiv b c))) (V 0 0 1) : vec R)).
      generalize (nsqrt (vnorm (V a b c) * vnorm (V a b c) / (vnorm (V a b c) * vnorm (V a b c) + nZ 1))%num). generalize (nc (T:=R)).
      intros cc be v. vunfold; unnum. f_equal; ring.
    - apply direction_back. exact Zp. }
  revert K. generalize (read_particle (V 0 0 1) (Z.of_nat (length ps)) q (map (fun p => vx (pX p)) ps) (map (fun p => ndiv (vx (pP p)) (vz (pP p))) ps)
     (map (fun p => vy (pX p)) ps) (map (fun p => ndiv (vy (pP p)) (vz (pP p))) ps) (map (fun p => vnorm (pP p)) ps) (map pt ps)).
  clearbody ps. clear. intros f. rewrite <- (map_id ps) at 2.
  assert (H : forall l k, (forall i p, nth_error l i = Some p -> mirrored_in_plane p (f (k + i)%nat)) -> Forall2 mirrored_in_plane l (map f (seq k (length l)))).
  { clear. induction l as [|p r IH]; intros k K; [constructor|]. cbn [length seq map]. constructor.
    - specialize (K 0%nat p eq_refl). rewrite Nat.add_0_r in K. exact K.
    - apply IH. intros i q Hq. specialize (K (S i) q Hq). rewrite Nat.add_succ_r in K. exact K. }
  intros K. rewrite map_id. apply (H ps 0%nat). exact K.
Qed.

(* more particles announced than rows in the file *)
Lemma read_short {T} {NT : Num T} (fs : string -> option (sdds T)) fn dir d n q xs xps ys yps ps ts :
  (Z.of_nat (String.length fn) < 99)%Z -> fs fn = Some d ->
  named (sdPar d) "Particles" = Some (SLong n) -> named (sdPar d) "Charge" = Some (SDouble q) -> (0 < sdRows d)%Z ->
  named (sdCol d) "x" = Some xs -> named (sdCol d) "xp" = Some xps -> named (sdCol d) "y" = Some ys -> named (sdCol d) "yp" = Some yps ->
  named (sdCol d) "p" = Some ps -> named (sdCol d) "t" = Some ts -> Z.of_nat (length ts) = sdRows d -> (sdRows d < n)%Z ->
  sdds_read fs fn dir = UB.
Proof.
  intros L F Hn Hq Hr Hx Hxp Hy Hyp Hp Ht LT N. unfold sdds_read.
  destruct (Z.leb_spec 99 (Z.of_nat (String.length fn))); [lia|]. rewrite F.
  unfold sdds_long. rewrite Hn. cbn [bind]. unfold sdds_double. rewrite Hq. unfold sdds_column.
  destruct (Z.ltb_spec 0 (sdRows d)); [|lia]. rewrite Hx, Hxp, Hy, Hyp, Hp, Ht.
  assert (S : forall k a s, (0 <= a)%Z -> (Z.of_nat (length ts) < a + Z.of_nat k)%Z -> (a <= Z.of_nat (length ts))%Z ->
     fold_res (fun s i => bind (zget ts i) (fun t => Ok (nadd s t))) (zseq a k) s = UB).
  { clear. induction k as [|k IH]; intros a s A B C; [lia|]. cbn [zseq fold_res].
    destruct (Z.eqb_spec a (Z.of_nat (length ts))) as [->|NE].
    - unfold zget. destruct (Z.ltb_spec (Z.of_nat (length ts)) 0); [lia|].
      rewrite (proj2 (nth_error_None ts _)) by lia. reflexivity.
    - destruct ts as [|d0 tr] eqn:Et; [cbn [length] in *; lia|]. rewrite (zget_nth_d _ d0) by lia. cbn [bind]. apply IH; lia. }
  rewrite S by lia. reflexivity.
Qed.
Lemma nqe_small : nqe (T:=R) < 1.
Proof.
  change (nqe (T:=R)) with (IZR 16021766208 / IZR (10 ^ 29)).
  assert (0 < IZR (10 ^ 29)) by (apply IZR_lt; reflexivity).
  apply (Rmult_lt_reg_r (IZR (10 ^ 29))); [assumption|]. unfold Rdiv. rewrite Rmult_assoc, Rinv_l, Rmult_1_r, Rmult_1_l by (apply Rgt_not_eq; assumption).
  apply IZR_lt. reflexivity.
Qed.
