(* The processes of the program side by side: from the input to the files. *)
From Coq Require Import ZArith String List Bool Arith Lia.
From Verif Require Import Base BaseFacts Num VecModel ParticleModel TraceModel RetardModel BunchModel BeamSpec BeamProofs DriverModel LoggerModel
  ElementModel FelModel ObserverModel SddsModel PropagateModel OutputModel ParserModel ParserSpec2 ProgramModel ProgramProofs3 OutputProofs2
  CommModel CommProofs CommProofs2 CommProofs3 HybridModel HybridProofs HybridProofs2.
Import ListNotations.
Local Open Scope list_scope.
Local Open Scope res_scope.


Section Hybrid.
Context {T : Type} {NT : Num T} {TT : Trans T} {CT : Calc T}.
Variable absBF : bunch T -> T -> T.
Notation pin := (pinput (T:=T)).
Notation nd := (pnode T (lattice_T T)).
Notation file := (string * outfile T)%type.
Notation pr := (proc (buffer T) file).
Notation pos := (Z * nd * list (logger T))%type.
Notation sync := (sync (W := file) (@nil (option T)) (@concat (option T)) (breduce (T:=T))).

Lemma nop_same (a b : beam T) : same_structure a b -> beam_NOP a = beam_NOP b.
Proof.
  unfold same_structure, beam_NOP. generalize 0%Z. generalize (bmB a) (bmB b). induction l as [|x l IH]; intros [|y k] z H; cbn [map fold_res] in *; try discriminate; [reflexivity|].
  injection H as H1 H2. replace (bunch_NOP x) with (bunch_NOP y) by (unfold bunch_NOP; rewrite H1; reflexivity). destruct (iadd z (bunch_NOP y)) as [s|e| |]; cbn [bind]; auto.
Qed.
Lemma sizes_same P (a b : beam T) : same_structure a b -> driver_sizes P a = driver_sizes P b.
Proof. intros H. unfold driver_sizes, beam_stepBufferSize. rewrite (nop_same a b H). reflexivity. Qed.
Lemma count_same (a b : beam T) : same_structure a b -> length (beam_bufferStep a) = length (beam_bufferStep b).
Proof.
  unfold same_structure, beam_bufferStep. generalize (bmB a) (bmB b). induction l as [|x l IH]; intros [|y k] H; cbn [map flat_map] in *; try discriminate; [reflexivity|].
  injection H as H1 H2. rewrite !app_length, (IH k H2), !bunch_step_length, H1. reflexivity.
Qed.
Lemma coordinates_structure (a b : pin) : same_but_coordinates a b -> same_structure (inBeam a) (inBeam b).
Proof. intros (_ & _ & _ & _ & _ & _ & _ & _ & _ & F). destruct (kinds_concat _ _ F) as (_ & B). exact B. Qed.

Lemma start_split P NOTS lat B r (bm : beam T) tn t m : driver_sizes P bm = Ok (tn, t, m) ->
  node_start full_field P NOTS lat B r bm = (b <- node_master NOTS B bm;; node_tracked r tn t NOTS lat b).
Proof.
  intros E. unfold node_start, node_master, node_tracked. rewrite E. cbn [bind]. destruct (iadd NOTS 1) as [n|e| |]; cbn [bind]; try reflexivity.
  destruct (beam_preAllocate n _) as [b1|e| |]; cbn [bind]; try reflexivity. destruct (driver_receive B b1) as [b2|e| |]; cbn [bind]; reflexivity.
Qed.

Lemma logged_len (ws : list (Z * wtarget)) l : forall s s', fold_res (logged_step absBF full_field inter_step ws) l s = Ok s' -> length (fst s') = length (fst s).
Proof.
  induction l as [|k l IH]; intros s s' F; cbn [fold_res] in F.
  - apply Ok_inj in F. congruence.
  - bget F as s1 S1. unfold logged_step in S1. bget S1 as l1 E1. bget S1 as m0 E2. bget S1 as o E3. apply Ok_inj in S1. subst s1. apply IH in F. cbn [fst] in F.
    unfold driver_step in E1. bget E1 as l2 E4. apply map_res_length in E1. apply map_res_length in E4. congruence.
Qed.

(* ---- after the set-up of the beams ---- *)
Section Tail.
Variables (i0 : pin) (mdt : string -> res T) (names : list string) (t : Z).
Definition tail3 (r : Z) (n : nd) (ls : list (logger T)) (pl : list (logger T * string)) : pr :=
  pause (pause (
  root_files r (map (fun l => one (log_file (nMaster n) l)) (combine ls (map snd (inLogs i0 ++ pl))) ++
                map inter_file (combine (snd (nLat n)) names)) (
  pause (
  node_observe r mdt n (inObs i0) node_end)))).
Definition tail2 (r : Z) (n : nd) (pl : list (logger T * string)) : pr :=
  pause (
  root_files r (map (fun w => one (watch_file w)) (watch_step 0 n (inWatch i0))) (
  root_do r [] (map_res (logger_update absBF n) (map fst (inLogs i0 ++ pl))) (fun ls =>
  lift (node_linit inter_init n) (fun n =>
  node_steps absBF r t (inWatch i0) (Z.to_nat (bmNOTS (inBeam i0))) 0 n ls (fun n ls => tail3 r n ls pl))))).
Definition tail1 (r : Z) (n : nd) : pr := root_do r [] (main_probe (inProbe i0) n) (fun pl => tail2 r n pl).
Lemma tail2_other r n pl pl' : r <> 0%Z -> tail2 r n pl = tail2 r n pl'.
Proof. intros H. apply Z.eqb_neq in H. unfold tail2, tail3, root_do, root_files. rewrite H. reflexivity. Qed.

Lemma tail3_sync ls pl x0 xs w : rooted prank (x0 :: xs) -> plogs x0 = ls ->
  sync 0 (map (fun x => tail3 (prank x) (pn x) (plogs x) pl) (x0 :: xs)) w <->
  exists lf ff of, map_res (log_file (nMaster (pn x0))) (combine ls (map snd (inLogs i0 ++ pl))) = Ok lf /\
    map_res inter_file (combine (snd (nLat (pn x0))) names) = Ok ff /\
    map_res (observe_all mdt (map pn (x0 :: xs))) (inObs i0) = Ok of /\ w = lf ++ concat ff ++ concat of.
Proof.
  intros R <-. unfold tail3.
  rewrite (sync_pause 0 (fun x => pause (root_files (prank x) (map (fun l => one (log_file (nMaster (pn x)) l)) (combine (plogs x) (map snd (inLogs i0 ++ pl))) ++
                map inter_file (combine (snd (nLat (pn x))) names)) (pause (node_observe (prank x) mdt (pn x) (inObs i0) node_end)))) (x0 :: xs) w) by discriminate.
  rewrite (sync_pause 0 (fun x => root_files (prank x) (map (fun l => one (log_file (nMaster (pn x)) l)) (combine (plogs x) (map snd (inLogs i0 ++ pl))) ++
                map inter_file (combine (snd (nLat (pn x))) names)) (pause (node_observe (prank x) mdt (pn x) (inObs i0) node_end))) (x0 :: xs) w) by discriminate.
  rewrite (sync_root_files prank (fun x => map (fun l => one (log_file (nMaster (pn x)) l)) (combine (plogs x) (map snd (inLogs i0 ++ pl))) ++
                map inter_file (combine (snd (nLat (pn x))) names)) (fun x => pause (node_observe (prank x) mdt (pn x) (inObs i0) node_end)) x0 xs w R).
  assert (Q : forall w', sync 0 (map (fun x => pause (node_observe (prank x) mdt (pn x) (inObs i0) node_end)) (x0 :: xs)) w' <-> exists fl, map_res (observe_all mdt (map pn (x0 :: xs))) (inObs i0) = Ok fl /\ w' = concat fl).
  { intros w'. rewrite (sync_pause 0 (fun x => node_observe (prank x) mdt (pn x) (inObs i0) node_end) (x0 :: xs) w') by discriminate. apply all_observers, R. }
  rewrite <- (map_map (log_file (nMaster (pn x0))) one).
  split.
  - intros (fl & w' & E & -> & H). apply Q in H. destruct H as (of & Eo & ->). apply map_res_app in E. destruct E as (l1 & l2 & E1 & E2 & ->). apply ones_iff in E1. destruct E1 as (lf & E1 & ->). rewrite map_res_map in E1. rewrite map_res_map in E2.
    exists lf, l2, of. split; [exact E1|]. split; [exact E2|]. split; [exact Eo|]. rewrite concat_app, concat_ones, <- app_assoc. reflexivity.
  - intros (lf & ff & of & E1 & E2 & Eo & ->). exists (map (fun f => [f]) lf ++ ff), (concat of). split; [|split].
    + apply map_res_app. exists (map (fun f => [f]) lf), ff. split; [apply ones_iff; exists lf; rewrite map_res_map; auto|]. rewrite map_res_map. auto.
    + rewrite concat_app, concat_ones, <- app_assoc. reflexivity.
    + apply Q. eauto.
Qed.

Lemma tail_sync x0 xs w : rooted prank (x0 :: xs) -> Forall (fun x => plogs x = []) (x0 :: xs) ->
  sync 0 (map (fun x => tail1 (prank x) (pn x)) (x0 :: xs)) w <->
  exists pl wf0 ls0 ns1 n' ns' ls' wf wf1 lf ff of,
    main_probe (inProbe i0) (pn x0) = Ok pl /\
    map_res watch_file (watch_step 0 (pn x0) (inWatch i0)) = Ok wf0 /\
    map_res (logger_update absBF (pn x0)) (map fst (inLogs i0 ++ pl)) = Ok ls0 /\
    map_res (node_linit inter_init) (map pn (x0 :: xs)) = Ok ns1 /\
    fold_res (logged_step absBF full_field inter_step (inWatch i0)) (zseq 0 (Z.to_nat (bmNOTS (inBeam i0)))) (ns1, (ls0, watch_step 0 (pn x0) (inWatch i0))) =
      Ok (n' :: ns', (ls', watch_step 0 (pn x0) (inWatch i0) ++ wf)) /\
    map_res watch_file wf = Ok wf1 /\
    map_res (log_file (nMaster n')) (combine ls' (map snd (inLogs i0 ++ pl))) = Ok lf /\
    map_res inter_file (combine (snd (nLat n')) names) = Ok ff /\
    map_res (observe_all mdt (n' :: ns')) (inObs i0) = Ok of /\ w = wf0 ++ wf1 ++ lf ++ concat ff ++ concat of.
Proof.
  intros R E0. unfold tail1. rewrite (sync_root_do 0 prank (fun _ => []) (fun x => main_probe (inProbe i0) (pn x)) (fun x pl => tail2 (prank x) (pn x) pl) x0 xs w R).
  assert (A0 : forall pl, map (fun xa : pos * list (logger T * string) => tail2 (prank (fst xa)) (pn (fst xa)) (snd xa)) ((x0, pl) :: map (fun x => (x, [])) xs) = map (fun x => tail2 (prank x) (pn x) pl) (x0 :: xs)).
  { intros pl. cbn [map fst snd]. f_equal. rewrite map_map. cbn [fst snd]. destruct R as (_ & R). clear -R. induction R as [|x xs H R IH]; cbn [map]; [reflexivity|]. rewrite IH. f_equal. apply tail2_other, H. }
  assert (Q : forall pl, sync 0 (map (fun x => tail2 (prank x) (pn x) pl) (x0 :: xs)) w <->
    exists wf0 ls0 ns1 n' ns' ls' wf wf1 lf ff of,
    map_res watch_file (watch_step 0 (pn x0) (inWatch i0)) = Ok wf0 /\
    map_res (logger_update absBF (pn x0)) (map fst (inLogs i0 ++ pl)) = Ok ls0 /\
    map_res (node_linit inter_init) (map pn (x0 :: xs)) = Ok ns1 /\
    fold_res (logged_step absBF full_field inter_step (inWatch i0)) (zseq 0 (Z.to_nat (bmNOTS (inBeam i0)))) (ns1, (ls0, watch_step 0 (pn x0) (inWatch i0))) =
      Ok (n' :: ns', (ls', watch_step 0 (pn x0) (inWatch i0) ++ wf)) /\
    map_res watch_file wf = Ok wf1 /\
    map_res (log_file (nMaster n')) (combine ls' (map snd (inLogs i0 ++ pl))) = Ok lf /\
    map_res inter_file (combine (snd (nLat n')) names) = Ok ff /\
    map_res (observe_all mdt (n' :: ns')) (inObs i0) = Ok of /\ w = wf0 ++ wf1 ++ lf ++ concat ff ++ concat of).
  { intros pl. unfold tail2.
    set (K3 := fun r n (ls : list (logger T)) => node_steps absBF r t (inWatch i0) (Z.to_nat (bmNOTS (inBeam i0))) 0 n ls (fun n ls => tail3 r n ls pl)).
    set (K2 := fun r n (ls : list (logger T)) => lift (node_linit inter_init n) (fun n => K3 r n ls)).
    set (K1 := fun (x : pos) => root_do (prank x) [] (map_res (logger_update absBF (pn x)) (map fst (inLogs i0 ++ pl))) (fun ls => K2 (prank x) (pn x) ls)).
    match goal with |- _ <-> ?B => change (sync 0 (map (fun x => pause (root_files (prank x) (map (fun w => one (watch_file w)) (watch_step 0 (pn x) (inWatch i0))) (K1 x))) (x0 :: xs)) w <-> B) end.
    rewrite (sync_pause 0 (fun x => root_files (prank x) (map (fun w => one (watch_file w)) (watch_step 0 (pn x) (inWatch i0))) (K1 x)) (x0 :: xs) w) by discriminate. cbn [pred].
    rewrite (sync_root_files prank (fun x => map (fun w => one (watch_file w)) (watch_step 0 (pn x) (inWatch i0))) K1 x0 xs w R).
    rewrite <- (map_map (fun w => watch_file w) one).
    assert (Q : forall w', sync 0 (map K1 (x0 :: xs)) w' <->
      exists ls0 ns1 n' ns' ls' wf wf1 lf ff of,
      map_res (logger_update absBF (pn x0)) (map fst (inLogs i0 ++ pl)) = Ok ls0 /\
      map_res (node_linit inter_init) (map pn (x0 :: xs)) = Ok ns1 /\
      fold_res (logged_step absBF full_field inter_step (inWatch i0)) (zseq 0 (Z.to_nat (bmNOTS (inBeam i0)))) (ns1, (ls0, watch_step 0 (pn x0) (inWatch i0))) =
        Ok (n' :: ns', (ls', watch_step 0 (pn x0) (inWatch i0) ++ wf)) /\
      map_res watch_file wf = Ok wf1 /\
      map_res (log_file (nMaster n')) (combine ls' (map snd (inLogs i0 ++ pl))) = Ok lf /\
      map_res inter_file (combine (snd (nLat n')) names) = Ok ff /\
      map_res (observe_all mdt (n' :: ns')) (inObs i0) = Ok of /\ w' = wf1 ++ lf ++ concat ff ++ concat of).
    { intros w'. unfold K1.
      rewrite (sync_root_do 0 prank (fun _ => []) (fun x => map_res (logger_update absBF (pn x)) (map fst (inLogs i0 ++ pl))) (fun x ls => K2 (prank x) (pn x) ls) x0 xs w' R).
      assert (A1 : forall ls, map (fun xa : pos * list (logger T) => K2 (prank (fst xa)) (pn (fst xa)) (snd xa)) ((x0, ls) :: map (fun x => (x, [])) xs) = map (fun x => K2 (prank x) (pn x) (plogs x)) (logged ls (x0 :: xs))).
      { intros ls. cbn [map fst snd logged]. f_equal. rewrite map_map. inversion E0 as [|? ? _ E]; subst. clear -E. induction E as [|x xs H E IH]; cbn [map]; [reflexivity|]. cbn [fst snd] in *. rewrite IH, H. reflexivity. }
      assert (Q : forall ls0, sync 0 (map (fun x => K2 (prank x) (pn x) (plogs x)) (logged ls0 (x0 :: xs))) w' <->
        exists ns1 n' ns' ls' wf wf1 lf ff of,
        map_res (node_linit inter_init) (map pn (x0 :: xs)) = Ok ns1 /\
        fold_res (logged_step absBF full_field inter_step (inWatch i0)) (zseq 0 (Z.to_nat (bmNOTS (inBeam i0)))) (ns1, (ls0, watch_step 0 (pn x0) (inWatch i0))) =
          Ok (n' :: ns', (ls', watch_step 0 (pn x0) (inWatch i0) ++ wf)) /\
        map_res watch_file wf = Ok wf1 /\
        map_res (log_file (nMaster n')) (combine ls' (map snd (inLogs i0 ++ pl))) = Ok lf /\
        map_res inter_file (combine (snd (nLat n')) names) = Ok ff /\
        map_res (observe_all mdt (n' :: ns')) (inObs i0) = Ok of /\ w' = wf1 ++ lf ++ concat ff ++ concat of).
      { intros ls0. unfold K2. rewrite (sync_states 0 (node_linit inter_init) K3 (logged ls0 (x0 :: xs)) w'). rewrite logged_n.
        assert (Q : forall n1 ns1, length (n1 :: ns1) = length (x0 :: xs) ->
          sync 0 (map (fun x => K3 (prank x) (pn x) (plogs x)) (moved (logged ls0 (x0 :: xs)) (n1 :: ns1))) w' <->
          exists n' ns' ls' wf wf1 lf ff of,
          fold_res (logged_step absBF full_field inter_step (inWatch i0)) (zseq 0 (Z.to_nat (bmNOTS (inBeam i0)))) (n1 :: ns1, (ls0, watch_step 0 (pn x0) (inWatch i0))) =
            Ok (n' :: ns', (ls', watch_step 0 (pn x0) (inWatch i0) ++ wf)) /\
          map_res watch_file wf = Ok wf1 /\
          map_res (log_file (nMaster n')) (combine ls' (map snd (inLogs i0 ++ pl))) = Ok lf /\
          map_res inter_file (combine (snd (nLat n')) names) = Ok ff /\
          map_res (observe_all mdt (n' :: ns')) (inObs i0) = Ok of /\ w' = wf1 ++ lf ++ concat ff ++ concat of).
        { intros n1 ns1 L1. set (xs1 := moved xs ns1). change (moved (logged ls0 (x0 :: xs)) (n1 :: ns1)) with ((prank x0, n1, ls0) :: xs1).
          assert (R1 : rooted prank ((prank x0, n1, ls0) :: xs1)). { change (rooted prank (logged ls0 (moved (x0 :: xs) (n1 :: ns1)))). apply logged_rooted, moved_rooted; assumption. }
          assert (EN : map pn ((prank x0, n1, ls0) :: xs1) = n1 :: ns1). { change (map pn (logged ls0 (moved (x0 :: xs) (n1 :: ns1))) = n1 :: ns1). rewrite logged_n. apply moved_n, L1. }
          unfold K3. rewrite (all_steps absBF t (inWatch i0) (fun r n ls => tail3 r n ls pl) (Z.to_nat (bmNOTS (inBeam i0))) 0 (prank x0, n1, ls0) xs1 (watch_step 0 (pn x0) (inWatch i0)) w' R1).
          rewrite EN. change (plogs (prank x0, n1, ls0)) with ls0.
          assert (Q : forall n' ns' ls' w2, length (n' :: ns') = length ((prank x0, n1, ls0) :: xs1) ->
            sync 0 (map (fun x => tail3 (prank x) (pn x) (plogs x) pl) (logged ls' (moved ((prank x0, n1, ls0) :: xs1) (n' :: ns')))) w2 <->
            exists lf ff of, map_res (log_file (nMaster n')) (combine ls' (map snd (inLogs i0 ++ pl))) = Ok lf /\
            map_res inter_file (combine (snd (nLat n')) names) = Ok ff /\
            map_res (observe_all mdt (n' :: ns')) (inObs i0) = Ok of /\ w2 = lf ++ concat ff ++ concat of).
          { intros n' ns' ls' w2 L2. change (logged ls' (moved ((prank x0, n1, ls0) :: xs1) (n' :: ns'))) with ((prank x0, n', ls') :: moved xs1 ns').
            rewrite (tail3_sync ls' pl (prank x0, n', ls') (moved xs1 ns') w2); [|change (rooted prank (logged ls' (moved ((prank x0, n1, ls0) :: xs1) (n' :: ns')))); apply logged_rooted, moved_rooted; assumption|reflexivity].
            replace (map pn ((prank x0, n', ls') :: moved xs1 ns')) with (n' :: ns'); [reflexivity|].
            change (n' :: ns' = map pn (logged ls' (moved ((prank x0, n1, ls0) :: xs1) (n' :: ns')))). rewrite logged_n. symmetry. apply moved_n, L2. }
          split.
          - intros (ns & ls & wf & fl & w2 & F & F1 & -> & L2 & H). destruct ns as [|n' ns']; [discriminate|]. apply (Q n' ns' ls w2 L2) in H. destruct H as (lf & ff & of & H1 & H2 & H3 & ->).
            exists n', ns', ls, wf, fl, lf, ff, of. auto 10.
          - intros (n' & ns' & ls & wf & wf1 & lf & ff & of & F & F1 & H1 & H2 & H3 & ->).
            assert (L2 : length (n' :: ns') = length ((prank x0, n1, ls0) :: xs1)).
            { rewrite <- (map_length pn ((prank x0, n1, ls0) :: xs1)), EN. apply (logged_len _ _ _ _ F). }
            exists (n' :: ns'), ls, wf, wf1, (lf ++ concat ff ++ concat of). split; [exact F|]. split; [exact F1|]. split; [reflexivity|]. split; [exact L2|]. apply (Q n' ns' ls _ L2). eauto 10. }
        split.
        - intros (ns1 & E1 & H). assert (L1 : length ns1 = length (x0 :: xs)) by (apply map_res_length in E1; rewrite map_length in E1; exact E1). destruct ns1 as [|n1 ns1]; [discriminate|].
          apply (Q n1 ns1 L1) in H. destruct H as (n' & ns' & ls' & wf & wf1 & lf & ff & of & H). exists (n1 :: ns1), n', ns', ls', wf, wf1, lf, ff, of. split; [exact E1|exact H].
        - intros (ns1 & n' & ns' & ls' & wf & wf1 & lf & ff & of & E1 & H). assert (L1 : length ns1 = length (x0 :: xs)) by (apply map_res_length in E1; rewrite map_length in E1; exact E1). destruct ns1 as [|n1 ns1]; [discriminate|].
          exists (n1 :: ns1). split; [exact E1|]. apply (Q n1 ns1 L1). exists n', ns', ls', wf, wf1, lf, ff, of. exact H. }
      split.
      - intros (ls0 & E1 & H). rewrite A1 in H. apply (Q ls0) in H. destruct H as (ns1 & n' & ns' & ls' & wf & wf1 & lf & ff & of & H). exists ls0, ns1, n', ns', ls', wf, wf1, lf, ff, of. split; [exact E1|exact H].
      - intros (ls0 & ns1 & n' & ns' & ls' & wf & wf1 & lf & ff & of & E1 & H). exists ls0. split; [exact E1|]. rewrite A1. apply (Q ls0). exists ns1, n', ns', ls', wf, wf1, lf, ff, of. exact H. }
    split.
    - intros (fl & w' & E & -> & H). apply ones_iff in E. destruct E as (wf0 & E & ->). rewrite map_res_map in E. rewrite concat_ones. apply Q in H.
      destruct H as (ls0 & ns1 & n' & ns' & ls' & wf & wf1 & lf & ff & of & H1 & H2 & H3 & H4 & H5 & H6 & H7 & ->). exists wf0, ls0, ns1, n', ns', ls', wf, wf1, lf, ff, of. auto 12.
    - intros (wf0 & ls0 & ns1 & n' & ns' & ls' & wf & wf1 & lf & ff & of & E & H1 & H2 & H3 & H4 & H5 & H6 & H7 & ->). exists (map (fun f => [f]) wf0), (wf1 ++ lf ++ concat ff ++ concat of).
      split; [apply ones_iff; exists wf0; rewrite map_res_map; auto|]. split; [rewrite concat_ones; reflexivity|]. apply Q. exists ls0, ns1, n', ns', ls', wf, wf1, lf, ff, of. auto 12. }
  split.
  - intros (pl & E & H). rewrite A0 in H. apply Q in H. destruct H as (wf0 & ls0 & ns1 & n' & ns' & ls' & wf & wf1 & lf & ff & of & H). exists pl, wf0, ls0, ns1, n', ns', ls', wf, wf1, lf, ff, of. split; [exact E|exact H].
  - intros (pl & wf0 & ls0 & ns1 & n' & ns' & ls' & wf & wf1 & lf & ff & of & E & H). exists pl. split; [exact E|]. rewrite A0. apply Q. exists wf0, ls0, ns1, n', ns', ls', wf, wf1, lf, ff, of. exact H.
Qed.
End Tail.
End Hybrid.
