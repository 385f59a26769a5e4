(* The distributed tracking computes what a single process computes. *)
From Coq Require Import ZArith List Lia Bool.
From Verif Require Import Base BaseFacts Num VecModel ParticleModel ParticleSpec ParticleProofs ParticleProofs2
  TraceProofs2 BunchModel BunchSpec BeamSpec BeamProofs DistProofs DriverModel DriverSpec DriverProofs.
Import ListNotations.
Local Open Scope Z_scope.
Local Open Scope res_scope.

Lemma share_bounds N P : 0 <= N -> 0 < P -> N <= share N P * P /\ 0 <= share N P /\ share N P * P <= N + P - 1.
Proof.
  intros HN HP. unfold share. pose proof (Z.div_mod (N + P - 1) P ltac:(lia)) as E.
  pose proof (Z.mod_pos_bound (N + P - 1) P HP) as B.
  assert (0 <= (N + P - 1) / P) by (apply Z.div_pos; lia). nia.
Qed.
Lemma share_least N P k : 0 <= N -> 0 < P -> N <= k * P -> share N P <= k.
Proof.
  intros HN HP H. unfold share. apply Z.lt_succ_r. apply Z.div_lt_upper_bound; [exact HP|]. nia.
Qed.

Lemma map_res_const {A B C} (g : A -> res B) (c : res C) (h : C -> A -> B) l : l <> [] ->
  (forall x, In x l -> g x = bind c (fun v => Ok (h v x))) ->
  map_res g l = bind c (fun v => Ok (map (h v) l)).
Proof.
  intros Hl H. destruct c as [v| | |]; cbn [bind] in *.
  - clear Hl. induction l as [|x l IH]; [reflexivity|]. cbn [map_res map]. rewrite (H x) by (left; reflexivity).
    cbn [bind]. rewrite IH by (intros; apply H; right; assumption). reflexivity.
  - destruct l as [|x l]; [congruence|]. cbn [map_res]. rewrite (H x) by (left; reflexivity). reflexivity.
  - destruct l as [|x l]; [congruence|]. cbn [map_res]. rewrite (H x) by (left; reflexivity). reflexivity.
  - destruct l as [|x l]; [congruence|]. cbn [map_res]. rewrite (H x) by (left; reflexivity). reflexivity.
Qed.
Lemma map_res_arg {A B C} (f : B -> res C) (g : A -> B) l : map_res f (map g l) = map_res (fun x => f (g x)) l.
Proof. induction l as [|x l IH]; [reflexivity|]. cbn [map map_res]. rewrite IH. reflexivity. Qed.
Lemma same_mono {A B} (R S' : A -> B -> Prop) a b : (forall x y, R x y -> S' x y) -> same_outcome R a b -> same_outcome S' a b.
Proof. destruct a, b; cbn; auto. Qed.
Lemma same_trans {A B C} (R : A -> B -> Prop) (S' : B -> C -> Prop) (U : A -> C -> Prop) a b c :
  (forall x y z, R x y -> S' y z -> U x z) -> same_outcome R a b -> same_outcome S' b c -> same_outcome U a c.
Proof. destruct a, b, c; cbn; intros H H1 H2; try contradiction; eauto; congruence. Qed.
Lemma forall2_map_l {A B C} (R : B -> C -> Prop) (f : A -> B) l m : Forall2 R (map f l) m -> Forall2 (fun x y => R (f x) y) l m.
Proof.
  revert m. induction l as [|x l IH]; intros m H; inversion H; subst; constructor; auto.
Qed.
Lemma forall2_impl {A B} (R S' : A -> B -> Prop) l m : (forall x y, R x y -> S' x y) -> Forall2 R l m -> Forall2 S' l m.
Proof. intros H. induction 1; constructor; auto. Qed.
Lemma forall2_nth {A B} (R : A -> B -> Prop) l m i y : Forall2 R l m -> nth_error m i = Some y -> exists x, nth_error l i = Some x /\ R x y.
Proof.
  intros H. revert i. induction H as [|a b l m H0 H IH]; intros [|i] Hi; cbn in *; try discriminate.
  - injection Hi as <-. eauto.
  - auto.
Qed.
Lemma nth_error_seq k n i r : nth_error (seq k n) i = Some r -> r = (k + i)%nat /\ (i < n)%nat.
Proof.
  revert k i. induction n as [|n IH]; intros k [|i] H; cbn in *; try discriminate.
  - injection H as <-. lia.
  - apply IH in H. lia.
Qed.

Section D.
Context {T : Type} {NT : Num T}.
Context {L : Type} (Fof : L -> field_fn T) (linit lstep : beam T -> L -> res L).
Implicit Types (p q : particle T) (bm : beam T).

Lemma driver_sizes_ok P bm : 0 < P -> count bm + P <= int_max -> 10 * (share (count bm) P * P) <= int_max ->
  driver_sizes P bm = Ok (share (count bm) P, share (count bm) P * 10, share (count bm) P * P * 10).
Proof.
  intros HP H1 H2. assert (HN : 0 <= count bm) by (unfold count; lia).
  destruct (share_bounds (count bm) P HN HP) as (S1 & S2 & S3). pose proof dint as [Bmin Bmax].
  unfold driver_sizes. rewrite beam_NOP_ok by lia. cbn [bind]. unfold iadd, imul.
  rewrite to_int_in by lia. cbn [bind]. rewrite to_int_in by lia. cbn [bind].
  replace (Z.quot (count bm + P + -1) P) with (share (count bm) P).
  2:{ unfold share. rewrite Z.quot_div_nonneg by lia. reflexivity. }
  cbv zeta. rewrite to_int_in by nia. cbn [bind]. rewrite to_int_in by nia. cbn [bind].
  rewrite to_int_in by nia. cbn [bind]. unfold beam_stepBufferSize. rewrite beam_NOP_ok by lia. cbn [bind].
  unfold imul. rewrite to_int_in by nia. cbn [bind]. destruct (Z.ltb_spec (share (count bm) P * P * 10) (count bm * 10)); [lia|reflexivity].
Qed.

(* ---- tracked beams ---- *)
Lemma setup_one F ps dt tr : outcome (beam_setup F (BM [ps] 0 dt tr)) =
  match tr with
  | TRACKING_VAY => ps' <- map_res (InitVay dt F) ps;; Ok (BM [ps'] 0 dt TRACKING_VAY)
  | _ => Throw IOexc
  end.
Proof.
  unfold beam_setup. cbn [bmTracker bmB bmdt]. destruct tr; try reflexivity. cbn [each_st]. unfold bunch_InitVay.
  rewrite <- outcome_each. unfold outcome. destruct (each _ ps) as [r [[]| | |]]; reflexivity.
Qed.
Lemma step_one F ps k dt : int_min <= k < int_max -> outcome (beam_step F (BM [ps] k dt TRACKING_VAY)) =
  ps' <- map_res (StepVay F) ps;; Ok (BM [ps'] (k + 1) dt TRACKING_VAY).
Proof.
  intros Hk. unfold beam_step. cbn [bmTracker bmB bmdt bmNOTS]. unfold iadd. rewrite to_int_in by lia. cbn [each_st]. unfold bunch_StepVay.
  rewrite <- outcome_each. unfold outcome. destruct (each _ ps) as [r [[]| | |]]; reflexivity.
Qed.

(* ---- start ---- *)
Definition recorded (NOTS : Z) bm : beam T :=
  BM (spread (restarted (NOTS + 1)) (map current (concat (bmB bm))) (bmB bm)) 0 (bmdt bm) (bmTracker bm).

Lemma recorded_count NOTS bm : length (concat (bmB (recorded NOTS bm))) = length (concat (bmB bm)).
Proof. apply lengths_concat. apply spread_length. apply map_length. Qed.
Lemma same_input_count (a b : beam T) : same_input a b -> count b = count a.
Proof. intros (H & _). unfold count. f_equal. symmetry. apply lengths_concat. exact H. Qed.
Lemma zip_restarted n : forall cs (l : list (particle T)),
  Forall (fun p => pNpre p = Some n /\ 1 <= pNP p) (zip_in (restarted n) cs l).
Proof. induction cs as [|c cs IH]; intros [|p l]; cbn; constructor; auto. cbn. split; [reflexivity|lia]. Qed.

Lemma node_start_ok P NOTS lat rest (r : nat) (bm0 bm : beam T) :
  0 < P -> count bm0 + P <= int_max -> 10 * (share (count bm0) P * P) <= int_max -> 0 <= NOTS < int_max ->
  same_input bm0 bm ->
  node_start Fof P NOTS lat (map Some (beam_bufferStep bm0) ++ rest) (Z.of_nat r) bm =
  match bmTracker bm0 with
  | TRACKING_VAY =>
      ps <- map_res (fun p => InitVay (bmdt bm0) (Fof lat) (no_field p))
              (chunk (Z.to_nat (share (count bm0) P)) r (concat (bmB (recorded NOTS bm0))));;
      Ok (PN (recorded NOTS bm0) (BM [ps] 0 (bmdt bm0) TRACKING_VAY) (buf_new (share (count bm0) P * 10)) lat)
  | _ => Throw IOexc
  end.
Proof.
  intros HP H1 H2 HN HI. pose proof (same_input_count _ _ HI) as HC. destruct HI as (I1 & I2 & I3 & I4).
  assert (HN0 : 0 <= count bm0) by (unfold count; lia).
  destruct (share_bounds (count bm0) P HN0 HP) as (S1 & S2 & S3). pose proof dint as [Bmin Bmax].
  unfold node_start. rewrite driver_sizes_ok by (rewrite ?HC; assumption). rewrite HC. cbn [bind].
  unfold iadd. rewrite to_int_in by lia. cbn [bind]. unfold beam_preAllocate, beam_clearTrajectories. cbn [bmB bmNOTS bmdt bmTracker].
  rewrite prep_ok by lia. cbn [bind].
  assert (EB : beam_bufferStep bm0 = flat_map particle_step (concat (bmB bm0))).
  { unfold beam_bufferStep. generalize (bmB bm0). clear. intros bs. induction bs as [|b l IH]; [reflexivity|]. cbn [flat_map concat].
    rewrite flat_map_app, IH. reflexivity. }
  rewrite EB, receive_fun; cbn [bmB bmNOTS bmdt bmTracker]; [|
    apply lengths_concat; rewrite I1; rewrite map_map; apply map_ext; intros; rewrite map_length; reflexivity | lia].
  cbn [bind]. rewrite (spread_restart (NOTS + 1) (bmB bm) (bmB bm0)) by assumption.
  unfold beam_setNOTS. cbn [bmB bmdt bmTracker]. rewrite I2, I3.
  fold (recorded NOTS bm0). change (spread (restarted (NOTS + 1)) (map current (concat (bmB bm0))) (bmB bm0)) with (bmB (recorded NOTS bm0)).
  rewrite <- (Z2Nat.id (share (count bm0) P)) at 1 by lia.
  rewrite chunk_ok; [|lia| |].
  - cbn [bind]. rewrite setup_one. destruct (bmTracker bm0) eqn:ET; try reflexivity.
    rewrite map_res_arg. destruct (map_res _ _); reflexivity.
  - intros Z0. apply length_zero_iff_nil. rewrite recorded_count. unfold count in *. nia.
  - unfold recorded. cbn [bmB]. rewrite spread_concat by (rewrite map_length; reflexivity).
    apply zip_restarted.
Qed.

(* the state of the nodes agrees with that of the single process *)
Definition agree (Pn m : nat) (k : Z) (dt : T) (s : @sim T L) (ns : list (pnode T L)) : Prop :=
  Forall2 (fun r n => nMaster n = sMaster s /\ nLat n = sLat s /\
      nTracked n = BM [chunk m r (sTracked s)] k dt TRACKING_VAY /\ length (nTbuf n) = (10 * m)%nat)
    (seq 0 Pn) ns /\
  length (sTracked s) = length (concat (bmB (sMaster s))) /\ (length (sTracked s) <= Pn * m)%nat /\
  bmNOTS (sMaster s) = k.

Lemma combine_seq {A} (l : list A) : combine (zseq 0 (length l)) l =
  map (fun rb => (Z.of_nat (fst rb), snd rb)) (combine (seq 0 (length l)) l).
Proof.
  change 0 with (Z.of_nat 0). generalize 0%nat. induction l as [|x l IH]; intros k; [reflexivity|].
  cbn [length zseq seq combine map fst snd]. f_equal. rewrite <- IH. f_equal. f_equal. lia.
Qed.

Lemma driver_start_ok NOTS lat (bm0 : beam T) bms Pn m :
  let P := Z.of_nat Pn in
  length bms = Pn -> hd_error bms = Some bm0 -> Forall (same_input bm0) bms ->
  count bm0 + P <= int_max -> 10 * (share (count bm0) P * P) <= int_max -> 0 <= NOTS < int_max ->
  m = Z.to_nat (share (count bm0) P) ->
  same_outcome (agree Pn m 0 (bmdt bm0)) (sim_start Fof linit NOTS lat bm0) (driver_start Fof linit P NOTS lat bms).
Proof.
  intros P HL HH HF H1 H2 HN Hm. destruct bms as [|bm0' bms]; [discriminate|]. cbn in HH. injection HH as ->.
  assert (HP : 0 < P) by (subst P Pn; cbn [length]; lia).
  assert (HN0 : 0 <= count bm0) by (unfold count; lia).
  destruct (share_bounds (count bm0) P HN0 HP) as (S1 & S2 & S3).
  unfold driver_start. rewrite driver_sizes_ok by assumption. cbn [bind].
  rewrite buf_write_ok.
  2:{ unfold buf_new. rewrite repeat_length. apply Nat2Z.inj_le. rewrite beam_step_length, Z2Nat.id by nia. lia. }
  cbn [bind]. set (rest := skipn _ _).
  set (l := bm0 :: bms) in *.
  assert (ES : map_res (fun rb => node_start Fof P NOTS lat (map Some (beam_bufferStep bm0) ++ rest) (fst rb) (snd rb))
                 (combine (zseq 0 (length l)) l)
    = map_res (fun r => match bmTracker bm0 with
        | TRACKING_VAY =>
          ps <- map_res (fun p => InitVay (bmdt bm0) (Fof lat) (no_field p))
              (chunk m r (concat (bmB (recorded NOTS bm0))));;
          Ok (PN (recorded NOTS bm0) (BM [ps] 0 (bmdt bm0) TRACKING_VAY) (buf_new (share (count bm0) P * 10)) lat)
        | _ => Throw IOexc end) (seq 0 Pn)).
  { rewrite combine_seq, map_res_arg, <- HL. clear HL. generalize 0%nat.
    induction l as [|b l IH]; intros k; [reflexivity|]. inversion HF as [|? ? F1 F2]. subst. cbn [length seq combine map_res fst snd].
    rewrite (node_start_ok P NOTS lat rest k bm0 b) by assumption. rewrite (IH F2). reflexivity. }
  rewrite ES. clear ES. unfold sim_start. fold (recorded NOTS bm0).
  assert (Pn1 : seq 0 Pn <> []) by (subst Pn; discriminate).
  assert (HLm : (length (concat (bmB (recorded NOTS bm0))) <= Pn * m)%nat).
  { rewrite recorded_count. unfold count in *. nia. }
  assert (TH : forall e, same_outcome (agree Pn m 0 (bmdt bm0)) (Throw e)
      (bind (map_res (fun _ : nat => @Throw (pnode T L) e) (seq 0 Pn)) (map_res (node_linit linit)))).
  { intros e. destruct (seq 0 Pn); [congruence|]. reflexivity. }
  destruct (bmTracker bm0) eqn:ET; try apply TH.
  set (f := fun p => InitVay (bmdt bm0) (Fof lat) (no_field p)).
  change (spread (restarted (NOTS + 1)) (map current (concat (bmB bm0))) (bmB bm0)) with (bmB (recorded NOTS bm0)).
  assert (EB : forall s, map_res (fun r => ps <- map_res f (chunk m r (concat (bmB (recorded NOTS bm0))));;
             Ok (PN (recorded NOTS bm0) (BM [ps] 0 (bmdt bm0) TRACKING_VAY) (buf_new (share (count bm0) P * 10)) lat)) s =
     cs <- map_res (fun r => map_res f (chunk m r (concat (bmB (recorded NOTS bm0))))) s;;
     Ok (map (fun ps => PN (recorded NOTS bm0) (BM [ps] 0 (bmdt bm0) TRACKING_VAY) (buf_new (share (count bm0) P * 10)) lat) cs)).
  { induction s as [|r s IH]; [reflexivity|]. cbn [map_res]. destruct (map_res f _); try reflexivity. cbn [bind].
    rewrite IH. clear IH. match goal with |- context[map_res ?g s] => destruct (map_res g s) end; reflexivity. }
  rewrite EB. clear EB.
  change (concat (bmB (BM (bmB (recorded NOTS bm0)) 0 (bmdt bm0) TRACKING_VAY))) with (concat (bmB (recorded NOTS bm0))).
  pose proof (map_res_chunks f m Pn _ HLm) as HC.
  destruct (map_res f (concat _)) as [tr| | |], (map_res _ (seq 0 Pn)) as [cs| | |]; cbn in HC; try contradiction;
    cbn [bind same_outcome]; auto.
  destruct HC as [LT ->].
  rewrite (map_res_const (node_linit linit) (linit (recorded NOTS bm0) lat)
            (fun l n => PN (nMaster n) (nTracked n) (nTbuf n) l)).
  - destruct (linit (recorded NOTS bm0) lat); cbn; auto. split; [|split; [|split]]; try assumption.
    + cbn [sMaster sLat sTracked]. rewrite !map_map.
      assert (G : forall s, Forall2 (fun r n => nMaster n = recorded NOTS bm0 /\ nLat n = a /\
          nTracked n = BM [chunk m r tr] 0 (bmdt bm0) TRACKING_VAY /\ length (nTbuf n) = (10 * m)%nat) s
          (map (fun x => PN (recorded NOTS bm0) (BM [chunk m x tr] 0 (bmdt bm0) TRACKING_VAY)
                   (buf_new (share (count bm0) P * 10)) a) s)); [|exact (G _)].
      induction s as [|r s IH]; constructor; [|exact IH]. cbn. repeat split.
      unfold buf_new. rewrite repeat_length. lia.
    + cbn. rewrite LT. exact HLm.
    + reflexivity.
  - intros H. apply map_eq_nil in H. apply map_eq_nil in H. congruence.
  - intros x Hx. apply in_map_iff in Hx. destruct Hx as (c & <- & _). reflexivity.
Qed.

(* ---- one step ---- *)
Lemma driver_step_ok Pn m k dt s ns : (1 <= Pn)%nat -> 0 <= k < int_max -> agree Pn m k dt s ns ->
  same_outcome (agree Pn m (k + 1) dt) (sim_step Fof lstep s) (driver_step Fof lstep ns k).
Proof.
  intros HP Hk (A1 & A2 & A3 & A4). unfold sim_step, driver_step. pose proof dint as [Bmin Bmax].
  set (f := StepVay (Fof (sLat s))).
  pose proof (map_res_chunks f m Pn (sTracked s) A3) as HC.
  set (R := fun ps n => nMaster n = sMaster s /\ nLat n = sLat s /\ nTracked n = BM [ps] (k + 1) dt TRACKING_VAY /\
             length (nTbuf n) = (10 * m)%nat /\ exists tail, nTbuf n = map Some (flat_map particle_step ps) ++ tail).
  assert (HT : same_outcome (Forall2 R) (map_res (fun r => map_res f (chunk m r (sTracked s))) (seq 0 Pn)) (map_res (node_track Fof) ns)).
  { apply map_res_same. eapply forall2_impl; [|exact A1]. intros r n (B1 & B2 & B3 & B4). cbn beta.
    unfold node_track. rewrite B3, B2, step_one by lia. fold f.
    destruct (map_res f (chunk m r (sTracked s))) as [ps| | |] eqn:E; try exact I; try reflexivity. cbn [bind].
    assert (LP : (length ps <= m)%nat). { rewrite (map_res_len _ _ _ E). apply chunk_length. }
    change (beam_bufferStep (BM [ps] (k + 1) dt TRACKING_VAY)) with (flat_map particle_step ps ++ []).
    rewrite app_nil_r, buf_write_ok by (rewrite psteps_length, B4; lia). cbn [bind same_outcome].
    unfold R. cbn [nMaster nLat nTracked nTbuf]. repeat split; auto.
    - rewrite app_length, map_length, skipn_length, psteps_length, B4. lia.
    - eexists. reflexivity. }
  destruct (map_res f (sTracked s)) as [tr| | |], (map_res (fun r => _) (seq 0 Pn)) as [cs| | |]; cbn in HC; try contradiction;
    destruct (map_res (node_track Fof) ns) as [ns'| | |]; cbn in HT; try contradiction; cbn [bind same_outcome]; auto; try congruence.
  destruct HC as [LT ->]. apply forall2_map_l in HT.
  assert (LN : length ns' = Pn) by (rewrite <- (forall2_length _ _ _ HT), seq_length; reflexivity).
  destruct (gather_ok m (map nTbuf ns') tr) as (rest & EG).
  - rewrite map_length, LN, LT. exact A3.
  - intros r b Hb. rewrite nth_error_map in Hb. destruct (nth_error ns' r) as [n|] eqn:En; [|discriminate].
    injection Hb as <-. destruct (forall2_nth _ _ _ _ _ HT En) as (r' & Hr & B1 & B2 & B3 & B4 & tail & B5).
    apply nth_error_seq in Hr. destruct Hr as [-> _]. cbn in B5. exists tail. auto.
  - rewrite EG.
    set (rec := BM (spread append_point (map current tr) (bmB (sMaster s))) (bmNOTS (sMaster s) + 1) (bmdt (sMaster s)) (bmTracker (sMaster s))).
    rewrite (map_res_const _ (lstep rec (sLat s)) (fun l n => PN rec (nTracked n) (nTbuf n) l)).
    + destruct (lstep rec (sLat s)); cbn; auto. split; [|split; [|split]].
      * cbn [sMaster sLat sTracked]. clear -HT. induction HT as [|r n l l' H0 H IH]; constructor; [|exact IH].
        destruct H0 as (B1 & B2 & B3 & B4 & B5). cbn. auto.
      * cbn. rewrite LT, A2. symmetry. apply lengths_concat. apply spread_length. rewrite map_length. congruence.
      * cbn. rewrite LT. exact A3.
      * cbn. rewrite A4. reflexivity.
    + intros ->. cbn in LN. lia.
    + intros n Hn. apply In_nth_error in Hn. destruct Hn as [i Hi].
      destruct (forall2_nth _ _ _ _ _ HT Hi) as (r & Hr & B1 & B2 & B3 & B4 & B5).
      unfold node_update. rewrite B1, receive_fun by (try congruence; rewrite ?A4; lia). cbn [bind]. fold rec.
      change (bmNOTS rec) with (bmNOTS (sMaster s) + 1). rewrite A4, Z.eqb_refl, B2. reflexivity.
Qed.

Lemma driver_run_ok NOTS lat (bm0 : beam T) bms Pn m n :
  let P := Z.of_nat Pn in
  length bms = Pn -> hd_error bms = Some bm0 -> Forall (same_input bm0) bms ->
  count bm0 + P <= int_max -> 10 * (share (count bm0) P * P) <= int_max -> 0 <= NOTS < int_max ->
  Z.of_nat n <= NOTS ->
  m = Z.to_nat (share (count bm0) P) ->
  same_outcome (agree Pn m (Z.of_nat n) (bmdt bm0)) (sim_run Fof linit lstep NOTS lat bm0 n)
    (driver_run Fof linit lstep P NOTS lat bms n).
Proof.
  intros P HL HH HF H1 H2 HN Hn Hm. unfold sim_run, driver_run.
  assert (HP : (1 <= Pn)%nat) by (subst Pn; destruct bms; [discriminate|cbn; lia]).
  eapply same_bind; [apply (driver_start_ok NOTS lat bm0 bms Pn m); assumption|].
  intros s ns A. change 0 with (Z.of_nat 0) in A |- *.
  assert (G : forall n k s ns, Z.of_nat (k + n) <= NOTS -> agree Pn m (Z.of_nat k) (bmdt bm0) s ns ->
    same_outcome (agree Pn m (Z.of_nat (k + n)) (bmdt bm0)) (iter_res (sim_step Fof lstep) n s)
      (fold_res (driver_step Fof lstep) (zseq (Z.of_nat k) n) ns)).
  { clear -HP HN. induction n as [|n IH]; intros k s ns Hk A.
    - rewrite Nat.add_0_r. exact A.
    - cbn [iter_res zseq fold_res]. eapply same_bind.
      + apply (driver_step_ok Pn m (Z.of_nat k)); [exact HP|lia|exact A].
      + intros s' ns' A'. replace (k + S n)%nat with (S k + n)%nat by lia.
        replace (Z.of_nat k + 1) with (Z.of_nat (S k)) in * by lia. apply IH; [lia|exact A']. }
  apply (G n 0%nat); [lia|exact A].
Qed.
End D.
