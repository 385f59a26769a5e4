(* The processes of the program side by side: the files are those of ProgramModel.v. *)
From Coq Require Import ZArith String List Bool Arith Lia.
From Verif Require TraceProofs2.
From Verif Require Import Base BaseFacts Num VecModel ParticleModel TraceModel RetardModel BunchModel BeamSpec BeamProofs DriverModel LoggerModel
  ElementModel FelModel ObserverModel SddsModel PropagateModel OutputModel ParserModel ParserSpec2 ProgramModel ProgramProofs3 OutputProofs2
  CommModel CommProofs CommProofs2 CommProofs3 HybridModel HybridProofs HybridProofs2 HybridProofs3.
Import ListNotations.
Local Open Scope list_scope.
Local Open Scope res_scope.

Section Hybrid.
Context {T : Type} {NT : Num T} {TT : Trans T} {CT : Calc T}.
Variable absBF : bunch T -> T -> T.
Notation pin := (pinput (T:=T)).
Notation nd := (pnode T (lattice_T T)).
Notation file := (string * outfile T)%type.
Notation pr := (proc (buffer T) file).
Notation pos := (Z * nd * list (logger T))%type.
Notation sync := (sync (W := file) (@nil (option T)) (@concat (option T)) (breduce (T:=T))).

(* two computations with pauses in between *)
Lemma sync_two {X A B} (f : X -> res A) (g : X -> A -> res B) (K : X -> B -> pr) xs w : xs <> [] ->
  sync 0 (map (fun x => lift (f x) (fun a => pause (pause (lift (g x a) (K x))))) xs) w <->
  exists bs, map_res (fun x => a <- f x;; g x a) xs = Ok bs /\ sync 0 (map (fun xb => K (fst xb) (snd xb)) (combine xs bs)) w.
Proof.
  intros NE. rewrite (sync_lift (D := buffer T) (W := file) [] (@concat _) breduce 0 f (fun x a => pause (pause (lift (g x a) (K x)))) xs w).
  assert (Q : forall ys, length ys = length xs -> sync 0 (map (fun xy => pause (pause (lift (g (fst xy) (snd xy)) (K (fst xy))))) (combine xs ys)) w <->
    exists bs, map_res (fun xy => g (fst xy) (snd xy)) (combine xs ys) = Ok bs /\ sync 0 (map (fun xb => K (fst xb) (snd xb)) (combine xs bs)) w).
  { intros ys L. assert (NC : combine xs ys <> []) by (destruct xs, ys; try discriminate; congruence).
    rewrite (sync_pause 0 (fun xy => pause (lift (g (fst xy) (snd xy)) (K (fst xy)))) _ w NC). cbn [pred].
    rewrite (sync_pause 0 (fun xy => lift (g (fst xy) (snd xy)) (K (fst xy))) _ w NC). cbn [pred].
    rewrite (sync_lift (D := buffer T) (W := file) [] (@concat _) breduce 0 (fun xy => g (fst xy) (snd xy)) (fun xy b => K (fst xy) b)).
    split; intros (bs & E & H); exists bs; (split; [exact E|]); assert (L' : length bs = length xs) by (apply map_res_length in E; rewrite combine_length in E; lia);
      pose proof (combine_map_snd (fun x b => K x b) xs ys bs L L') as CM.
    - exact (eq_ind _ (fun l => sync 0 l w) H _ CM).
    - exact (eq_ind _ (fun l => sync 0 l w) H _ (eq_sym CM)). }
  split.
  - intros (ys & E & H). apply (Q ys (map_res_length _ _ _ E)) in H. destruct H as (bs & E' & H). exists bs. split; [apply map_res_bind; eauto|exact H].
  - intros (bs & E & H). apply map_res_bind in E. destruct E as (ys & E & E'). exists ys. split; [exact E|]. apply (Q ys (map_res_length _ _ _ E)). eauto.
Qed.
Lemma sync_bcast {X} m (s : X -> buffer T) (K : X -> buffer T -> pr) x0 xs w :
  sync 0 (map (fun x => Call (CBcast m) (s x) (K x)) (x0 :: xs)) w <-> sync 0 (map (fun x => K x (s x0)) (x0 :: xs)) w.
Proof.
  rewrite (sync_call (D := buffer T) (W := file) [] (@concat _) breduce 0 (fun _ => CBcast m) s K (x0 :: xs) w) by discriminate. split.
  - intros (c0 & E & _ & H). specialize (E x0 (or_introl eq_refl)). subst c0. erewrite mapi_const in H; [exact H|]. reflexivity.
  - intros H. exists (CBcast m). split; [reflexivity|]. split; [discriminate|]. erewrite mapi_const; [exact H|]. reflexivity.
Qed.
Lemma sync_ok {X A} d (v : X -> A) (f : X -> res A) (K : X -> A -> pr) xs w : (forall x, In x xs -> f x = Ok (v x)) ->
  sync d (map (fun x => lift (f x) (K x)) xs) w <-> sync d (map (fun x => K x (v x)) xs) w.
Proof. intros H. replace (map (fun x => lift (f x) (K x)) xs) with (map (fun x => K x (v x)) xs); [reflexivity|]. apply map_ext_in. intros x I. rewrite (H x I). reflexivity. Qed.

Section Main.
Variables (i0 : pin) (is : list pin) (mdt : string -> res T) (names : list string).
Notation ins := (i0 :: is).
Hypothesis HS : Forall (same_but_coordinates i0) ins.
Notation P := (Z.of_nat (length ins)).
Notation ris := (combine (zseq 0 (length ins)) ins).

Lemma in_ris r i : In (r, i) ris -> same_but_coordinates i0 i.
Proof. intros I. apply in_combine_r in I. rewrite Forall_forall in HS. apply HS, I. Qed.

Lemma main_eq r i : same_but_coordinates i0 i ->
  node_main absBF P r names i mdt =
  lift (driver_sizes P (inBeam i0)) (fun sizes =>
  let '(tn, t, m) := sizes in
  lift (buf_write (beam_bufferStep (inBeam i)) (buf_new m)) (fun mb =>
  Call (CBcast m) mb (fun bcast =>
  lift (node_master (bmNOTS (inBeam i0)) bcast (inBeam i)) (fun bm =>
  pause (pause (
  lift (node_tracked r tn t (bmNOTS (inBeam i0)) (main_lattice i0) bm) (fun n =>
  tail1 absBF i0 mdt names t r n))))))).
Proof.
  intros H. pose proof (coordinates_structure _ _ H) as HB. destruct H as (H1 & H2 & H3 & H4 & H5 & H6 & H7 & H8 & H9 & _).
  unfold node_main, tail1, tail2, tail3, main_lattice. rewrite (sizes_same P _ _ HB). rewrite H1, H2, H3, H4, H5, H6, H7. reflexivity.
Qed.
Lemma observe_eq ns k : length ns = length ins -> main_observe mdt ins ns k = (q <- zget (inObs i0) k;; observe_all mdt ns q).
Proof.
  intros L. unfold main_observe.
  assert (E : forall l, Forall (same_but_coordinates i0) l -> l <> [] -> map_res (fun i : pin => zget (inObs i) k) l = (q <- zget (inObs i0) k;; Ok (map (fun _ => q) l))).
  { clear. intros l F. induction F as [|i l H F IH]; intros NE; [congruence|]. cbn [map_res]. destruct H as (_ & _ & _ & _ & _ & H6 & _). rewrite <- H6. destruct (zget (inObs i0) k) as [q|e| |]; cbn [bind]; try reflexivity.
    destruct l as [|j l]; [reflexivity|]. rewrite IH by discriminate. reflexivity. }
  rewrite (E ins HS) by discriminate. destruct (zget (inObs i0) k) as [[[o src] fn]|e| |]; cbn [bind]; try reflexivity.
  unfold observe_all.
  replace (map_res (fun no : nd * pobs => main_source (fst no) (snd (fst (snd no)))) (combine ns (map (fun _ : pin => (o, src, fn)) ins))) with (map_res (fun n => main_source n src) ns).
  2:{ clear -L. revert L. generalize ins. induction ns as [|n ns IH]; intros [|i l] L; cbn in *; try discriminate; [reflexivity|]. rewrite (IH l) by congruence. reflexivity. }
  rewrite map_map. cbn [fst]. replace (map (fun _ : pin => o) ins) with (map (fun _ : nd => o) ns); [reflexivity|].
  clear -L. revert L. generalize ins. induction ns as [|n ns IH]; intros [|i l] L; cbn in *; try discriminate; [reflexivity|]. rewrite (IH l) by congruence. reflexivity.
Qed.
Lemma ranks_rooted (ns : list nd) : length ns = length ins -> exists n0 ns', ns = n0 :: ns' /\
  let xs := map (fun xb : Z * pin * nd => (fst (fst xb), snd xb, @nil (logger T))) (combine ris ns) in
  exists x0 xs', xs = x0 :: xs' /\ rooted prank (x0 :: xs') /\ Forall (fun x => plogs x = []) (x0 :: xs') /\ pn x0 = n0 /\ map pn (x0 :: xs') = ns.
Proof.
  intros L. destruct ns as [|n0 ns]; [discriminate|]. exists n0, ns. split; [reflexivity|]. cbn [length zseq combine map fst snd]. eexists _, _. split; [reflexivity|].
  assert (L' : length ns = length is) by (cbn in L; congruence). change (0 + 1)%Z with 1%Z.
  assert (G : forall a, (0 < a)%Z -> Forall (fun y => prank y <> 0%Z) (map (fun xb : Z * pin * nd => (fst (fst xb), snd xb, @nil (logger T))) (combine (combine (zseq a (length is)) is) ns)) /\
     Forall (fun x => plogs x = []) (map (fun xb : Z * pin * nd => (fst (fst xb), snd xb, @nil (logger T))) (combine (combine (zseq a (length is)) is) ns)) /\
     map pn (map (fun xb : Z * pin * nd => (fst (fst xb), snd xb, @nil (logger T))) (combine (combine (zseq a (length is)) is) ns)) = ns).
  { clear -L'. revert ns L'. generalize is. induction is0 as [|i l IH]; intros [|n ns] L' a Ha; cbn [length zseq combine map fst snd] in *; try discriminate; [auto|].
    destruct (IH ns (f_equal pred L') (a + 1)%Z ltac:(lia)) as (G1 & G2 & G3). split; [|split].
    - constructor; [unfold prank; cbn [fst]; lia|exact G1].
    - constructor; [reflexivity|exact G2].
    - cbn [pn fst snd]. f_equal. exact G3. }
  destruct (G 1%Z ltac:(lia)) as (G1 & G2 & G3). split; [split; [reflexivity|exact G1]|]. split; [constructor; [reflexivity|exact G2]|]. split; [reflexivity|].
  cbn [map pn fst snd]. f_equal. exact G3.
Qed.

Theorem main_sync w :
  sync 0 (map (fun ri => node_main absBF P (fst ri) names (snd ri) mdt) ris) w <-> main_files absBF mdt names ins = Ok w.
Proof.
  rewrite (map_ext_in _ (fun ri : Z * pin => lift (driver_sizes P (inBeam i0)) (fun sizes =>
    let '(tn, t, m) := sizes in
    lift (buf_write (beam_bufferStep (inBeam (snd ri))) (buf_new m)) (fun mb =>
    Call (CBcast m) mb (fun bcast =>
    lift (node_master (bmNOTS (inBeam i0)) bcast (inBeam (snd ri))) (fun bm =>
    pause (pause (
    lift (node_tracked (fst ri) tn t (bmNOTS (inBeam i0)) (main_lattice i0) bm) (fun n =>
    tail1 absBF i0 mdt names t (fst ri) n)))))))) ris).
  2:{ intros [r i] I. apply main_eq. apply (in_ris r), I. }
  destruct (driver_sizes P (inBeam i0)) as [[[tn t] m]|e| |] eqn:ES.
  2-4: split; [intros H; exfalso; eapply (sync_died (D := buffer T) (W := file)) with (r := 0); [exact H|reflexivity] | unfold main_files, main_track, main_start; rewrite ES; discriminate].
  set (B := buf_write (beam_bufferStep (inBeam i0)) (buf_new m)).
  set (bv := fun ri : Z * pin => map Some (beam_bufferStep (inBeam (snd ri))) ++ skipn (length (beam_bufferStep (inBeam (snd ri)))) (buf_new m)).
  assert (LB : forall ri, In ri ris -> (length (beam_bufferStep (inBeam (snd ri))) <=? length (buf_new (T:=T) m)) = (length (beam_bufferStep (inBeam i0)) <=? length (buf_new (T:=T) m))).
  { intros [r i] I. cbn [snd]. apply in_ris in I. apply coordinates_structure in I. rewrite (count_same _ _ I). reflexivity. }
  destruct (length (beam_bufferStep (inBeam i0)) <=? length (buf_new (T:=T) m)) eqn:EL.
  2:{ assert (EB : B = UB) by (unfold B, buf_write; rewrite EL; reflexivity). split.
      - intros H; exfalso; eapply (sync_died (D := buffer T) (W := file)) with (r := 0); [exact H|]. cbn [length zseq combine map nth_error snd]. unfold lift at 1. fold B. rewrite EB. reflexivity.
      - unfold main_files, main_track, main_start. rewrite ES. cbn [bind]. fold B. rewrite EB. discriminate. }
  assert (EB : B = Ok (bv (0%Z, i0))) by (unfold B, buf_write; rewrite EL; reflexivity).
  cbn [lift]. rewrite (sync_ok 0 bv (fun ri : Z * pin => buf_write (beam_bufferStep (inBeam (snd ri))) (buf_new m)) (fun ri mb => Call (CBcast m) mb (fun bcast =>
    lift (node_master (bmNOTS (inBeam i0)) bcast (inBeam (snd ri))) (fun bm =>
    pause (pause (
    lift (node_tracked (fst ri) tn t (bmNOTS (inBeam i0)) (main_lattice i0) bm) (fun n =>
    tail1 absBF i0 mdt names t (fst ri) n)))))) ris w).
  2:{ intros ri I. unfold buf_write. rewrite (LB ri I). reflexivity. }
  assert (ER : ris = (0%Z, i0) :: combine (zseq 1 (length is)) is) by reflexivity.
  assert (NR : ris <> []) by (rewrite ER; discriminate).
  rewrite ER. rewrite (sync_bcast m bv (fun ri bcast => lift (node_master (bmNOTS (inBeam i0)) bcast (inBeam (snd ri))) (fun bm =>
    pause (pause (
    lift (node_tracked (fst ri) tn t (bmNOTS (inBeam i0)) (main_lattice i0) bm) (fun n =>
    tail1 absBF i0 mdt names t (fst ri) n))))) _ _ w). rewrite <- ER. set (bc := bv (0%Z, i0)) in *.
  rewrite (sync_two (fun ri : Z * pin => node_master (bmNOTS (inBeam i0)) bc (inBeam (snd ri))) (fun ri bm => node_tracked (fst ri) tn t (bmNOTS (inBeam i0)) (main_lattice i0) bm)
    (fun ri n => tail1 absBF i0 mdt names t (fst ri) n) ris w NR).
  assert (EM : map_res (fun ri : Z * pin => node_start full_field P (bmNOTS (inBeam (snd ri))) (main_lattice (snd ri)) bc (fst ri) (inBeam (snd ri))) ris =
    map_res (fun x : Z * pin => a <- node_master (bmNOTS (inBeam i0)) bc (inBeam (snd x));; node_tracked (fst x) tn t (bmNOTS (inBeam i0)) (main_lattice i0) a) ris).
  { apply map_res_eq. intros [r i] I. cbn [fst snd]. apply in_ris in I. pose proof (coordinates_structure _ _ I) as HB. rewrite (start_split _ _ _ _ _ _ tn t m) by (rewrite <- (sizes_same P _ _ HB); exact ES).
    destruct I as (H1 & _ & _ & _ & H5 & _ & H7 & _). unfold main_lattice. rewrite H1, H5, H7. reflexivity. }
  rewrite <- EM. clear EM.
  assert (MT : forall w, main_files absBF mdt names ins = Ok w <->
    exists ns0, map_res (fun ri : Z * pin => node_start full_field P (bmNOTS (inBeam (snd ri))) (main_lattice (snd ri)) bc (fst ri) (inBeam (snd ri))) ris = Ok ns0 /\
    exists ns1 m0 pl ls0 ns' n' ls' wfs wf lf ff of, map_res (node_linit inter_init) ns0 = Ok ns1 /\ first_node ns1 = Ok m0 /\ main_probe (inProbe i0) m0 = Ok pl /\
      map_res (logger_update absBF m0) (map fst (inLogs i0 ++ pl)) = Ok ls0 /\
      fold_res (logged_step absBF full_field inter_step (inWatch i0)) (zseq 0 (Z.to_nat (bmNOTS (inBeam i0)))) (ns1, (ls0, watch_step 0 m0 (inWatch i0))) = Ok (ns', (ls', wfs)) /\
      first_node ns' = Ok n' /\ map_res watch_file wfs = Ok wf /\ map_res (log_file (nMaster n')) (combine ls' (map snd (inLogs i0 ++ pl))) = Ok lf /\
      map_res inter_file (combine (snd (nLat n')) names) = Ok ff /\ map_res (main_observe mdt ins ns') (zseq 0 (length (inObs i0))) = Ok of /\ w = wf ++ lf ++ concat ff ++ concat of).
  { intros w0. unfold main_files, main_track, main_start, log_init. rewrite ES. cbn [bind]. fold B. rewrite EB. cbn [bind]. split.
    - intros H. bget H as nls Ht. bget Ht as ns1 H1. bget H1 as ns0 H0. bget Ht as m0 Hm. bget Ht as pl Hp. bget Ht as o Ho. bget Ho as m1 Hm1. bget Ho as ls0 Hl. apply Ok_inj in Ho. subst o. bget Ht as s Hs.
      apply Ok_inj in Ht. subst nls. destruct s as [ns' [ls' wfs]]. cbn [fst snd] in H. bget H as n' Hn. bget H as wf Hw. bget H as lf Hlf. bget H as ff Hff. bget H as of Hof. apply Ok_inj in H.
      rewrite Hm in Hm1. apply Ok_inj in Hm1. subst m1. exists ns0. split; [exact H0|]. exists ns1, m0, pl, ls0, ns', n', ls', wfs, wf, lf, ff, of. auto 15.
    - intros (ns0 & H0 & ns1 & m0 & pl & ls0 & ns' & n' & ls' & wfs & wf & lf & ff & of & H1 & Hm & Hp & Hl & Hs & Hn & Hw & Hlf & Hff & Hof & ->).
      rewrite H0. cbn [bind]. rewrite H1. cbn [bind]. rewrite Hm. cbn [bind]. rewrite Hp. cbn [bind]. rewrite Hl. cbn [bind]. rewrite Hs. cbn [bind fst snd]. rewrite Hn. cbn [bind]. rewrite Hw. cbn [bind]. rewrite Hlf. cbn [bind]. rewrite Hff. cbn [bind]. rewrite Hof. reflexivity. }
  rewrite MT. clear MT.
  assert (Q : forall ns0, length ns0 = length ins ->
    sync 0 (map (fun xb : Z * pin * nd => tail1 absBF i0 mdt names t (fst (fst xb)) (snd xb)) (combine ris ns0)) w <->
    exists ns1 m0 pl ls0 ns' n' ls' wfs wf lf ff of, map_res (node_linit inter_init) ns0 = Ok ns1 /\ first_node ns1 = Ok m0 /\ main_probe (inProbe i0) m0 = Ok pl /\
      map_res (logger_update absBF m0) (map fst (inLogs i0 ++ pl)) = Ok ls0 /\
      fold_res (logged_step absBF full_field inter_step (inWatch i0)) (zseq 0 (Z.to_nat (bmNOTS (inBeam i0)))) (ns1, (ls0, watch_step 0 m0 (inWatch i0))) = Ok (ns', (ls', wfs)) /\
      first_node ns' = Ok n' /\ map_res watch_file wfs = Ok wf /\ map_res (log_file (nMaster n')) (combine ls' (map snd (inLogs i0 ++ pl))) = Ok lf /\
      map_res inter_file (combine (snd (nLat n')) names) = Ok ff /\ map_res (main_observe mdt ins ns') (zseq 0 (length (inObs i0))) = Ok of /\ w = wf ++ lf ++ concat ff ++ concat of).
  { intros ns0 L0. destruct (ranks_rooted ns0 L0) as (n0 & ns0' & EN & x0 & xs & EX & RX & PX & HX & MX).
    replace (map (fun xb : Z * pin * nd => tail1 absBF i0 mdt names t (fst (fst xb)) (snd xb)) (combine ris ns0)) with (map (fun x => tail1 absBF i0 mdt names t (prank x) (pn x)) (x0 :: xs)).
    2:{ rewrite <- EX. rewrite map_map. reflexivity. }
    rewrite (tail_sync absBF i0 mdt names t x0 xs w RX PX). rewrite MX, HX.
    assert (BN : forall ns1, map_res (node_linit inter_init) ns0 = Ok ns1 -> exists m0 ns1', ns1 = m0 :: ns1' /\ nMaster m0 = nMaster n0 /\ nTracked m0 = nTracked n0).
    { intros ns1 E. rewrite EN in E. cbn [map_res] in E. bget E as m0 Hm. bget E as l Hl. apply Ok_inj in E. subst ns1. exists m0, l. split; [reflexivity|]. unfold node_linit in Hm. bget Hm as la Hla. apply Ok_inj in Hm. subst m0. auto. }
    assert (EP : forall m0, nTracked m0 = nTracked n0 -> main_probe (T:=T) (inProbe i0) m0 = main_probe (inProbe i0) n0). { intros m0 E. unfold main_probe. rewrite E. reflexivity. }
    assert (EU : forall (m0 : nd) l, nMaster m0 = nMaster n0 -> nTracked m0 = nTracked n0 -> map_res (logger_update absBF m0) l = map_res (logger_update absBF n0) l).
    { intros m0 l E1 E2. apply map_res_eq. intros a _. apply logger_lat; assumption. }
    assert (EW : forall m0 : nd, nMaster m0 = nMaster n0 -> watch_step 0 m0 (inWatch i0) = watch_step 0 n0 (inWatch i0)). { intros m0 E. unfold watch_step. rewrite E. reflexivity. }
    assert (EO : forall ns' of, length ns' = length ins -> map_res (main_observe mdt ins ns') (zseq 0 (length (inObs i0))) = Ok of <-> map_res (observe_all mdt ns') (inObs i0) = Ok of).
    { intros ns' of L. rewrite (map_res_eq _ (fun k => q <- zget (inObs i0) k;; observe_all mdt ns' q)) by (intros k _; apply observe_eq, L). rewrite map_res_comp. rewrite map_res_zget. split.
      - intros (bs & E & H). apply Ok_inj in E. subst bs. exact H.
      - intros H. eauto. }
    split.
    - intros (pl & wf0 & ls0 & ns1 & n' & ns' & ls' & wf & wf1 & lf & ff & of & Hp & Hw0 & Hl & H1 & Hs & Hw & Hlf & Hff & Hof & ->).
      destruct (BN ns1 H1) as (m0 & ns1' & E1 & Bm & Bt). exists ns1, m0, pl, ls0, (n' :: ns'), n', ls', (watch_step 0 n0 (inWatch i0) ++ wf), (wf0 ++ wf1), lf, ff, of.
      rewrite (EP m0 Bt), (EU m0 _ Bm Bt), (EW m0 Bm). split; [exact H1|]. split; [rewrite E1; reflexivity|]. split; [exact Hp|]. split; [exact Hl|]. split; [exact Hs|]. split; [reflexivity|].
      split; [apply map_res_app; eauto|]. split; [exact Hlf|]. split; [exact Hff|]. split; [|rewrite app_assoc; reflexivity].
      apply EO; [|exact Hof]. apply logged_len in Hs. cbn [fst] in Hs. apply map_res_length in H1. congruence.
    - intros (ns1 & m0 & pl & ls0 & ns' & n' & ls' & wfs & wf & lf & ff & of & H1 & Hm & Hp & Hl & Hs & Hn & Hw & Hlf & Hff & Hof & ->).
      destruct (BN ns1 H1) as (m0' & ns1' & E1 & Bm & Bt). rewrite E1 in Hm. cbn [first_node] in Hm. apply Ok_inj in Hm. subst m0'. rewrite (EP m0 Bt) in Hp. rewrite (EU m0 _ Bm Bt) in Hl. rewrite (EW m0 Bm) in Hs.
      destruct ns' as [|n'' ns']; [discriminate|]. cbn [first_node] in Hn. apply Ok_inj in Hn. subst n''.
      destruct (logged_acc _ _ _ _ _ _ _ Hs) as (wf1 & Ew). cbn [snd] in Ew. subst wfs. apply map_res_app in Hw. destruct Hw as (wfa & wfb & Hwa & Hwb & ->).
      exists pl, wfa, ls0, ns1, n', ns', ls', wf1, wfb, lf, ff, of. rewrite <- app_assoc. split; [exact Hp|]. split; [exact Hwa|]. split; [exact Hl|]. split; [exact H1|]. split; [exact Hs|]. split; [exact Hwb|]. split; [exact Hlf|]. split; [exact Hff|]. split; [|reflexivity].
      apply EO; [|exact Hof]. apply logged_len in Hs. cbn [fst] in Hs. apply map_res_length in H1. congruence. }
  assert (LR : length ris = length ins) by (rewrite combine_length, TraceProofs2.zseq_length; lia).
  split; intros (ns0 & E & H); exists ns0; (split; [exact E|]); apply (Q ns0); try exact H; apply map_res_length in E; congruence.
Qed.
End Main.
End Hybrid.
