(* Further proofs about the program: the distribution on its own, the recorded
   trajectories, removal of interaction fields. *)
From Coq Require Import ZArith List Lia Bool.
From Verif Require Import Base BaseFacts Num VecModel ParticleModel ParticleSpec ParticleProofs ParticleProofs2
  BunchModel BunchSpec BeamSpec BeamProofs DistProofs DriverModel DriverSpec DriverProofs DriverProofs2.
Import ListNotations.
Local Open Scope Z_scope.
Local Open Scope res_scope.

Section D.
Context {T : Type} {NT : Num T}.
Implicit Types (p q : particle T) (bm : beam T).

Lemma to_int_ok z y : to_int (Some z) = Ok y -> y = z /\ int_min <= z <= int_max.
Proof.
  unfold to_int, in_int. destruct (Z.leb_spec int_min z), (Z.leb_spec z int_max); cbn [andb]; intros E; try discriminate.
  injection E as <-. auto.
Qed.
Lemma beam_NOP_inv bm n : beam_NOP bm = Ok n -> n = count bm.
Proof.
  unfold beam_NOP. rewrite fold_iadd by lia. unfold count. rewrite Z.add_0_l. destruct (_ <=? _).
  - intros H. injection H as <-. reflexivity.
  - destruct (bmB bm); [|discriminate]. intros H. injection H as <-. reflexivity.
Qed.
Lemma driver_sizes_inv P bm tn t m : 0 < P -> driver_sizes P bm = Ok (tn, t, m) ->
  tn = share (count bm) P /\ t = tn * 10 /\ m = tn * P * 10.
Proof.
  intros HP H. unfold driver_sizes in H. bget H as nop Hn. apply beam_NOP_inv in Hn. subst nop.
  bget H as s Hs. apply to_int_ok in Hs. destruct Hs as [-> _]. bget H as s' Hs'. apply to_int_ok in Hs'. destruct Hs' as [-> _].
  bget H as a Ha. apply to_int_ok in Ha. destruct Ha as [-> _]. bget H as b Hb. apply to_int_ok in Hb. destruct Hb as [-> _].
  bget H as c Hc. apply to_int_ok in Hc. destruct Hc as [-> _]. bget H as d Hd.
  destruct (_ <? _); [discriminate|]. injection H as <- <- <-.
  rewrite Z.quot_div_nonneg by (unfold count; lia). auto.
Qed.
Lemma to_int_cases o : (exists z, to_int o = Ok z) \/ to_int o = UB.
Proof. unfold to_int. destruct o; [destruct (in_int z)|]; eauto. Qed.
Lemma driver_sizes_overflow P bm : 0 < P -> int_max < 10 * count bm -> driver_sizes P bm = UB.
Proof.
  intros HP H. unfold driver_sizes.
  assert (NB : (beam_NOP bm = Ok (count bm)) \/ beam_NOP bm = UB).
  { destruct (beam_NOP bm) eqn:EN; auto.
    - left. f_equal. apply beam_NOP_inv. exact EN.
    - unfold beam_NOP in EN. rewrite fold_iadd in EN by lia. destruct (_ <=? _); [discriminate|]. destruct (bmB bm); discriminate.
    - unfold beam_NOP in EN. rewrite fold_iadd in EN by lia. destruct (_ <=? _); [discriminate|]. destruct (bmB bm); discriminate. }
  assert (NS : beam_stepBufferSize bm = UB).
  { unfold beam_stepBufferSize. destruct NB as [-> | ->]; [|reflexivity]. cbn [bind]. unfold imul, to_int, in_int.
    destruct (Z.leb_spec (count bm * 10) int_max); [lia|]. rewrite andb_false_r. reflexivity. }
  rewrite NS. destruct NB as [-> | ->]; [|reflexivity]. cbn [bind]. unfold iadd, imul.
  repeat (match goal with |- bind (to_int ?x) _ = _ => destruct (to_int_cases x) as [[? ->] | ->]; [cbn [bind]|reflexivity] end).
  reflexivity.
Qed.

Lemma chunk_negative rank tn n ps : rank < 0 -> forall node cnt, 0 <= node -> driver_chunk rank tn n ps node cnt = Ok ([] : list (particle T)).
Proof.
  intros Hr. induction ps as [|p ps IH]; intros node cnt Hn; [reflexivity|]. cbn [driver_chunk].
  destruct (Z.eqb_spec rank node); [lia|]. destruct (cnt + 1 =? tn); cbn beta iota; apply IH; lia.
Qed.
Lemma zseq_seq k : zseq 0 k = map Z.of_nat (seq 0 k).
Proof.
  change 0 with (Z.of_nat 0). generalize 0%nat. induction k as [|k IH]; intros a; [reflexivity|].
  cbn [zseq seq map]. f_equal. rewrite <- IH. f_equal. lia.
Qed.
Lemma distribution_ok P N tn n (ps : list (particle T)) : 0 < P -> N = Z.of_nat (length ps) -> tn = share N P -> 0 <= n ->
  Forall (fun p => pNpre p = Some n /\ 1 <= pNP p) ps ->
  (exists cs, map_res (fun r => driver_chunk r tn n ps 0 0) (zseq 0 (Z.to_nat P)) = Ok cs /\
     concat cs = map no_field ps /\ Forall (fun c => Z.of_nat (length c) <= tn) cs) /\
  (forall r, r < 0 \/ P <= r -> driver_chunk r tn n ps 0 0 = Ok []).
Proof.
  intros HP HN Ht Hn HF. assert (HN0 : 0 <= N) by lia. destruct (share_bounds N P HN0 HP) as (S1 & S2 & S3).
  set (m := Z.to_nat tn). assert (Em : Z.of_nat m = tn) by (unfold m; lia).
  assert (C : forall r, 0 <= r -> driver_chunk r tn n ps 0 0 = Ok (map no_field (chunk m (Z.to_nat r) ps))).
  { intros r Hr. rewrite <- (Z2Nat.id r Hr) at 1. rewrite <- Em. apply chunk_ok; auto.
    intros E. destruct ps; [reflexivity|]. cbn [length] in HN. nia. }
  split.
  - exists (map (fun r => map no_field (chunk m r ps)) (seq 0 (Z.to_nat P))). split; [|split].
    + rewrite zseq_seq, map_res_arg.
      assert (G : forall s, map_res (fun x : nat => driver_chunk (Z.of_nat x) tn n ps 0 0) s = Ok (map (fun r => map no_field (chunk m r ps)) s)).
      { induction s as [|r s IH]; [reflexivity|]. cbn [map_res map]. rewrite C, Nat2Z.id by lia. cbn [bind]. rewrite IH. reflexivity. }
      apply G.
    + rewrite <- (map_map (fun r => chunk m r ps) (map no_field)), <- concat_map, chunk_concat; [reflexivity|]. nia.
    + apply Forall_forall. intros c Hc. apply in_map_iff in Hc. destruct Hc as (r & <- & _). rewrite map_length.
      pose proof (chunk_length m r ps). lia.
  - intros r [Hr|Hr]; [apply chunk_negative; lia|]. rewrite C by lia. unfold chunk.
    rewrite skipn_all2; [rewrite firstn_nil; reflexivity|]. nia.
Qed.

(* ---- what is recorded ---- *)
(* the recorded particle p has the trajectory of the tracked particle q, apart from the
   acceleration at the start *)
Definition records (p q : particle T) : Prop :=
  wf p /\ wf q /\
  exists c c' tl, trajectory p = c :: tl /\ trajectory q = c' :: tl /\
    tpt c = tpt c' /\ tpx c = tpx c' /\ tpp c = tpp c' /\
    (tl <> [] -> current p = current q).

Context {L : Type} (Fof : L -> field_fn T) (linit lstep : beam T -> L -> res L).

Lemma records_start n dt F : forall (all l : list (particle T)) tr,
  length l = length all ->
  map_res (fun p => InitVay dt F (no_field p)) (zip_in (restarted n) (map current all) l) = Ok tr ->
  Forall2 records (zip_in (restarted n) (map current all) l) tr.
Proof.
  induction all as [|a all IH]; intros [|p l] tr HL H; try discriminate; cbn [map zip_in map_res] in H.
  - injection H as <-. constructor.
  - bget H as q Hq. bget H as qs Hqs. injection H as <-. injection HL as HL. cbn [map zip_in]. constructor; [|apply IH; auto].
    assert (W : wf (no_field (restarted n (current a) p))) by (unfold wf; cbn; lia).
    split; [unfold wf; cbn; lia|]. split; [exact (wf_apply _ _ (OpSetup dt F) W Hq)|].
    apply InitVay_trajectory in Hq; [|exact W]. destruct Hq as (init & last & a' & E1 & E2 & _).
    cbn in E1. destruct init as [|x init]; [|destruct init; discriminate]. cbn in E1. injection E1 as <-. cbn in E2.
    eexists _, _, []. split; [reflexivity|]. split; [exact E2|]. cbn. repeat split. congruence.
Qed.
Lemma records_step F : forall (ps qs qs' : list (particle T)),
  Forall2 records ps qs -> map_res (StepVay F) qs = Ok qs' ->
  Forall2 records (zip_in append_point (map current qs') ps) qs'.
Proof.
  intros ps qs qs' H. revert qs'. induction H as [|p q ps qs H0 H IH]; intros qs' E; cbn [map_res] in E.
  - injection E as <-. constructor.
  - bget E as q' Hq. bget E as r Hr. injection E as <-. cbn [map zip_in]. constructor; [|apply IH; auto].
    destruct H0 as (W & W' & c & c' & tl & E1 & E2 & E3 & E4 & E5 & _).
    pose proof (StepVay_trajectory _ _ _ W' Hq) as (ST & _).
    assert (AP : trajectory (append_point (current q') p) = trajectory p ++ [current q']).
    { exact (trajectory_store (tpt (current q')) (tpx (current q')) (tpp (current q')) (tpa (current q')) p W). }
    split; [exact (wf_apply p _ (OpFromBuffer (tpt (current q')) (tpx (current q')) (tpp (current q')) (tpa (current q'))) W eq_refl)|].
    split; [exact (wf_apply _ _ (OpStep F) W' Hq)|].
    exists c, c', (tl ++ [current q']). rewrite AP, ST, E1, E2. repeat split; auto.
Qed.
Lemma records_run NOTS lat (bm : beam T) : forall n s, sim_run Fof linit lstep NOTS lat bm n = Ok s ->
  Forall2 records (concat (bmB (sMaster s))) (sTracked s).
Proof.
  intros n s H. unfold sim_run in H. bget H as s0 H0.
  assert (G0 : Forall2 records (concat (bmB (sMaster s0))) (sTracked s0)).
  { unfold sim_start in H0. destruct (bmTracker bm) eqn:ET; try discriminate. bget H0 as tr Htr. bget H0 as l' Hl.
    injection H0 as <-. cbn [sMaster sTracked bmB] in *. rewrite spread_concat in * by apply map_length.
    apply (records_start _ _ _ _ _ _ eq_refl Htr). }
  clear H0. revert s0 H G0. induction n as [|n IH]; intros s0 H G; cbn [iter_res] in H.
  - injection H as <-. exact G.
  - bget H as s1 H1. apply (IH s1 H). clear H IH. unfold sim_step in H1. bget H1 as tr Htr. bget H1 as l' Hl.
    injection H1 as <-. cbn [sMaster sTracked bmB]. rewrite spread_concat.
    + apply (records_step _ _ _ _ G Htr).
    + rewrite map_length, (map_res_len _ _ _ Htr). symmetry. apply (forall2_length _ _ _ G).
Qed.
End D.

(* ---- removal of interaction fields ---- *)
Section Remove.
Context {A : Type} (external : A -> bool).
Lemma filter_len (l : list A) : (length (filter external l) <= length l)%nat.
Proof. induction l as [|x l IH]; cbn; [lia|]. destruct (external x); cbn; lia. Qed.
Lemma remove_ok : forall fuel (done l : list A),
  forallb external done = true -> (length l <= fuel)%nat ->
  remove_loop external fuel (Z.of_nat (length done)) (done ++ l) = Ok (done ++ filter external l).
Proof.
  induction fuel as [|fuel IH]; intros done l Hd HL; destruct l as [|e l].
  - cbn [remove_loop]. rewrite app_nil_r, Z.ltb_irrefl. cbn. rewrite app_nil_r. reflexivity.
  - cbn in HL. lia.
  - cbn [remove_loop]. rewrite app_nil_r, Z.ltb_irrefl. cbn. rewrite app_nil_r. reflexivity.
  - cbn [length] in HL. cbn [remove_loop]. rewrite app_length. cbn [length].
    destruct (Z.ltb_spec (Z.of_nat (length done)) (Z.of_nat (length done + S (length l)))); [|lia].
    assert (LA : lattice_at (Z.of_nat (length done)) (done ++ e :: l) = Ok e).
    { unfold lattice_at. rewrite app_length. cbn [length].
      destruct (Z.ltb_spec (Z.of_nat (length done)) 0); [lia|].
      destruct (Z.leb_spec (Z.of_nat (length done + S (length l))) (Z.of_nat (length done))); [lia|]. cbn [orb].
      unfold zget. destruct (Z.ltb_spec (Z.of_nat (length done)) 0); [lia|]. rewrite Nat2Z.id.
      rewrite nth_error_app2, Nat.sub_diag by lia. reflexivity. }
    rewrite LA. cbn [bind filter]. destruct (external e) eqn:Ee.
    + specialize (IH (done ++ [e]) l). rewrite app_length, <- !app_assoc in IH. cbn [length app] in IH.
      replace (Z.of_nat (length done) + 1) with (Z.of_nat (length done + 1)) by lia. apply IH; [|lia].
      rewrite forallb_app, Hd. cbn. rewrite Ee. reflexivity.
    + assert (LR : lattice_remove (Z.of_nat (length done)) (done ++ e :: l) = Ok (done ++ l)).
      { unfold lattice_remove. rewrite app_length. cbn [length].
        destruct (Z.ltb_spec (Z.of_nat (length done)) 0); [lia|].
        destruct (Z.leb_spec (Z.of_nat (length done + S (length l))) (Z.of_nat (length done))); [lia|]. cbn [orb].
        rewrite Nat2Z.id. rewrite firstn_app, firstn_all, Nat.sub_diag. cbn [firstn]. rewrite app_nil_r.
        rewrite skipn_app. rewrite skipn_all2 by lia. replace (S (length done) - length done)%nat with 1%nat by lia. reflexivity. }
      rewrite LR. cbn [bind]. apply IH; [exact Hd|lia].
Qed.
End Remove.
