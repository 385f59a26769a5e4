(* The processes of the program side by side: the observers. *)
From Coq Require Import ZArith String List Bool Arith Lia.
From Verif Require Import Base BaseFacts Num VecModel ParticleModel TraceModel RetardModel BunchModel DriverModel LoggerModel
  ElementModel FelModel ObserverModel ObserverSpec ObserverProofs ObserverProofs3 SddsModel PropagateModel OutputModel ParserModel ParserSpec2 ProgramModel
  CommModel CommProofs CommProofs2 CommProofs3 HybridModel HybridProofs.
Import ListNotations.
Local Open Scope list_scope.
Local Open Scope res_scope.

Lemma map_fst_combine {A B} (l : list A) : forall (k : list B), length k = length l -> map fst (combine l k) = l.
Proof. induction l as [|a l IH]; intros [|b k] L; cbn in *; try discriminate; [reflexivity|]. f_equal. apply IH. congruence. Qed.
Lemma map_snd_combine {A B} (l : list A) : forall (k : list B), length k = length l -> map snd (combine l k) = k.
Proof. induction l as [|a l IH]; intros [|b k] L; cbn in *; try discriminate; [reflexivity|]. f_equal. apply IH. congruence. Qed.

Section Hybrid.
Context {T : Type} {NT : Num T} {TT : Trans T} {CT : Calc T}.
Variable absBF : bunch T -> T -> T.
Notation pin := (pinput (T:=T)).
Notation nd := (pnode T (lattice_T T)).
Notation file := (string * outfile T)%type.
Notation pr := (proc (buffer T) file).
Notation pos := (Z * nd * list (logger T))%type.
Notation sync := (sync (W := file) (@nil (option T)) (@concat (option T)) (breduce (T:=T))).

(* the observation does not change the size of the buffer *)
Lemma size_kept src (o o' : observer T) : obs_integrate src o = Ok o' -> obs_size o' = obs_size o.
Proof.
  destruct o as [s|s|s|s]; cbn [obs_integrate]; intros H.
  - bget H as s' Hs. apply Ok_inj in H. subst o'. unfold screen_integrate in Hs. bget Hs as m Hm. apply Ok_inj in Hs. subst s'. reflexivity.
  - bget H as s' Hs. apply Ok_inj in H. subst o'. unfold snap_integrate in Hs. bget Hs as m Hm. apply Ok_inj in Hs. subst s'. reflexivity.
  - bget H as s' Hs. apply Ok_inj in H. subst o'. unfold point_integrate in Hs. bget Hs as tr Ht. apply Ok_inj in Hs. subst s'. cbn [obs_size poTr].
    rewrite (tr_like_N (poTr s) tr); [reflexivity|]. destruct src; [eapply keeps_beam|eapply keeps_lattice]; eauto.
  - bget H as s' Hs. apply Ok_inj in H. subst o'. unfold mesh_integrate in Hs. bget Hs as m Hm. apply Ok_inj in Hs. subst s'. reflexivity.
Qed.

Lemma sync_reduce {X} (rk : X -> Z) (c : X -> Z) (s : X -> buffer T) (K : X -> buffer T -> pr) x0 xs w : rooted rk (x0 :: xs) ->
  (forall x a b, rk x <> 0%Z -> K x a = K x b) ->
  sync 0 (map (fun x => Call (CReduce (c x)) (s x) (K x)) (x0 :: xs)) w <->
  (forall x, In x xs -> c x = c x0) /\ sync 0 (map (fun x => K x (breduce (map s (x0 :: xs)))) (x0 :: xs)) w.
Proof.
  intros (R0 & R) HK. rewrite (sync_call (D := buffer T) (W := file) [] (@concat _) breduce 0 (fun x => CReduce (c x)) s K (x0 :: xs) w) by discriminate.
  assert (M : forall c0, mapi 0 (fun r x => K x (delivers [] (@concat _) breduce (CReduce c0) r (map s (x0 :: xs)))) (x0 :: xs) = map (fun x => K x (breduce (map s (x0 :: xs)))) (x0 :: xs)).
  { intros c0. set (SS := map s (x0 :: xs)). cbn [mapi]. change (delivers [] (@concat _) breduce (CReduce c0) 0 SS) with (breduce SS). cbn [map]. f_equal. generalize 1. generalize SS.
    clear -R HK. intros D. induction R as [|x xs H R IH]; intros k; cbn [mapi map]; [reflexivity|]. rewrite IH. f_equal. apply HK, H. }
  split.
  - intros (c0 & E & _ & H). pose proof (E x0 (or_introl eq_refl)) as E0. subst c0. split.
    + intros x I. specialize (E x (or_intror I)). congruence.
    + change (pred 0) with 0 in H. rewrite M in H. exact H.
  - intros (E & H). exists (CReduce (c x0)). split; [|split; [discriminate|]].
    + intros x [<-|I]; [reflexivity|]. rewrite (E x I). reflexivity.
    + change (pred 0) with 0. rewrite M. exact H.
Qed.

(* all processes with the observer o *)
Definition observe_all (mdt : string -> res T) (ns : list nd) (q : pobs) : res (list file) :=
  let '(o, src, fn) := q in
  srcs <- map_res (fun n => main_source n src) ns;;
  o <- driver_observe srcs (map (fun _ => o) ns);;
  n0 <- first_node ns;;
  obs_file mdt (nMaster n0) src fn o.

Lemma reduce_parts z (bufs : list (buffer T)) sum : bufs <> [] ->
  mpi_reduce z bufs = Ok sum <-> exists parts, map_res (reduce_send z) bufs = Ok parts /\ sum = breduce parts.
Proof.
  intros NE. unfold mpi_reduce, reduce_send. destruct (int_max <? z)%Z.
  - split; [discriminate|]. intros (parts & E & _). destruct bufs; [congruence|discriminate].
  - split.
    + intros H. bget H as parts E. destruct parts as [|b r]; [discriminate|]. apply Ok_inj in H. exists (b :: r). split; [exact E|]. subst. reflexivity.
    + intros (parts & E & ->). cbv zeta. match goal with |- context [map_res ?f bufs] => replace (map_res f bufs) with (@Ok (list (buffer T)) parts) by (symmetry; exact E) end. cbn [bind]. destruct parts as [|b r]; [|reflexivity]. apply map_res_length in E. destruct bufs; [congruence|discriminate].
Qed.
Lemma integrate_same (srcs : list (source T)) (ns : list nd) (o : observer T) : length srcs = length ns ->
  map_res (fun so => obs_integrate (fst so) (snd so)) (combine srcs (map (fun _ => o) ns)) = map_res (fun s => obs_integrate s o) srcs.
Proof. revert ns. induction srcs as [|s srcs IH]; intros [|n ns] L; cbn in *; try discriminate; [reflexivity|]. rewrite IH by congruence. reflexivity. Qed.
Lemma pairs_iff z (os : list (observer T)) zbs :
  map_res (fun o => b <- obs_getBuffer o;; Ok (u32 z, b)) os = Ok zbs <-> exists bufs, map_res obs_getBuffer os = Ok bufs /\ zbs = map (pair (u32 z)) bufs.
Proof.
  rewrite (map_res_comp obs_getBuffer (fun b => Ok (u32 z, b))). assert (E : forall l : list (buffer T), map_res (fun b => Ok (u32 z, b)) l = Ok (map (pair (u32 z)) l)).
  { induction l as [|b l IH]; cbn [map_res map]; [reflexivity|]. rewrite IH. reflexivity. }
  split; intros (bs & E1 & E2); exists bs; (split; [exact E1|]). { rewrite E in E2. apply Ok_inj in E2. congruence. } rewrite E. congruence.
Qed.

Lemma one_observer mdt (o : observer T) src fn (K : Z -> nd -> pr) x0 xs w : rooted prank (x0 :: xs) ->
  sync 0 (map (fun x =>
      barrier (
      lift (s <- main_source (pn x) src;; obs_integrate s o) (fun o =>
      barrier (
      lift (z <- obs_size o;; b <- obs_getBuffer o;; Ok (u32 z, b)) (fun zb =>
      barrier (
      lift (reduce_send (fst zb) (snd zb)) (fun part =>
      Call (CReduce (fst zb)) part (fun sum =>
      barrier (
      root_files (prank x) [o <- obs_fromBuffer sum (fst zb) o;; obs_file mdt (nMaster (pn x)) src fn o] (
      pause (
      K (prank x) (pn x)))))))))))) (x0 :: xs)) w <->
  exists fl w', observe_all mdt (map pn (x0 :: xs)) (o, src, fn) = Ok fl /\ w = fl ++ w' /\ sync 0 (map (fun x => K (prank x) (pn x)) (x0 :: xs)) w'.
Proof.
  intros R. rewrite (sync_barrier1 0 (fun x => lift (s <- main_source (pn x) src;; obs_integrate s o) (fun o =>
      barrier (
      lift (z <- obs_size o;; b <- obs_getBuffer o;; Ok (u32 z, b)) (fun zb =>
      barrier (
      lift (reduce_send (fst zb) (snd zb)) (fun part =>
      Call (CReduce (fst zb)) part (fun sum =>
      barrier (
      root_files (prank x) [o <- obs_fromBuffer sum (fst zb) o;; obs_file mdt (nMaster (pn x)) src fn o] (
      pause (
      K (prank x) (pn x))))))))))) (x0 :: xs) w) by discriminate. cbn [pred].
  rewrite (sync_lift (D := buffer T) (W := file) [] (@concat _) breduce 0 (fun x => s <- main_source (pn x) src;; obs_integrate s o)
    (fun x o => barrier (
      lift (z <- obs_size o;; b <- obs_getBuffer o;; Ok (u32 z, b)) (fun zb =>
      barrier (
      lift (reduce_send (fst zb) (snd zb)) (fun part =>
      Call (CReduce (fst zb)) part (fun sum =>
      barrier (
      root_files (prank x) [o <- obs_fromBuffer sum (fst zb) o;; obs_file mdt (nMaster (pn x)) src fn o] (
      pause (
      K (prank x) (pn x)))))))))) (x0 :: xs) w).
  (* what follows for given observers after the integration *)
  assert (Q : forall o1 os, length os = length xs -> (forall o', In o' (o1 :: os) -> obs_size o' = obs_size o) ->
    sync 0 (map (fun xy => barrier (
      lift (z <- obs_size (snd xy);; b <- obs_getBuffer (snd xy);; Ok (u32 z, b)) (fun zb =>
      barrier (
      lift (reduce_send (fst zb) (snd zb)) (fun part =>
      Call (CReduce (fst zb)) part (fun sum =>
      barrier (
      root_files (prank (fst xy)) [o <- obs_fromBuffer sum (fst zb) (snd xy);; obs_file mdt (nMaster (pn (fst xy))) src fn o] (
      pause (
      K (prank (fst xy)) (pn (fst xy)))))))))))  (combine (x0 :: xs) (o1 :: os))) w <->
    exists z bufs sum o2 fl w', obs_size o1 = Ok z /\ map_res obs_getBuffer (o1 :: os) = Ok bufs /\ mpi_reduce (u32 z) bufs = Ok sum /\
      obs_fromBuffer sum (u32 z) o1 = Ok o2 /\ obs_file mdt (nMaster (pn x0)) src fn o2 = Ok fl /\ w = fl ++ w' /\ sync 0 (map (fun x => K (prank x) (pn x)) (x0 :: xs)) w').
  { intros o1 os L SZ. set (Y1 := combine (x0 :: xs) (o1 :: os)).
    rewrite (sync_barrier1 0 (fun xy : pos * observer T => 
      lift (z <- obs_size (snd xy);; b <- obs_getBuffer (snd xy);; Ok (u32 z, b)) (fun zb =>
      barrier (
      lift (reduce_send (fst zb) (snd zb)) (fun part =>
      Call (CReduce (fst zb)) part (fun sum =>
      barrier (
      root_files (prank (fst xy)) [o <- obs_fromBuffer sum (fst zb) (snd xy);; obs_file mdt (nMaster (pn (fst xy))) src fn o] (
      pause (
      K (prank (fst xy)) (pn (fst xy)))))))))) Y1 w) by discriminate. cbn [pred].
    rewrite (sync_lift (D := buffer T) (W := file) [] (@concat _) breduce 0 (fun xy : pos * observer T => z <- obs_size (snd xy);; b <- obs_getBuffer (snd xy);; Ok (u32 z, b))
      (fun xy zb => barrier (
      lift (reduce_send (fst zb) (snd zb)) (fun part =>
      Call (CReduce (fst zb)) part (fun sum =>
      barrier (
      root_files (prank (fst xy)) [o <- obs_fromBuffer sum (fst zb) (snd xy);; obs_file mdt (nMaster (pn (fst xy))) src fn o] (
      pause (
      K (prank (fst xy)) (pn (fst xy))))))))) Y1 w).
    rewrite <- (map_res_map (fun o : observer T => z <- obs_size o;; b <- obs_getBuffer o;; Ok (u32 z, b)) snd Y1).
    unfold Y1 at 1. rewrite map_snd_combine by (cbn; congruence).
    pose proof (SZ o1 (or_introl eq_refl)) as SZ1. rewrite SZ1.
    destruct (obs_size o) as [z|e| |] eqn:Ez.
    2-4: cbn [map_res]; rewrite SZ1; cbn [bind]; split; [intros (ys & E & _); discriminate|intros (z & bufs & sum & o2 & fl & w' & E & _); discriminate].
    rewrite (map_res_eq _ (fun o => b <- obs_getBuffer o;; Ok (u32 z, b))) by (intros a I; rewrite (SZ a I); reflexivity).
    assert (Q : forall bufs, length bufs = length (o1 :: os) ->
      sync 0 (map (fun xy => barrier (
        lift (reduce_send (fst (snd xy)) (snd (snd xy))) (fun part =>
        Call (CReduce (fst (snd xy))) part (fun sum =>
        barrier (
        root_files (prank (fst (fst xy))) [o <- obs_fromBuffer sum (fst (snd xy)) (snd (fst xy));; obs_file mdt (nMaster (pn (fst (fst xy)))) src fn o] (
        pause (
        K (prank (fst (fst xy))) (pn (fst (fst xy)))))))))) (combine Y1 (map (pair (u32 z)) bufs))) w <->
      exists sum o2 fl w', mpi_reduce (u32 z) bufs = Ok sum /\ obs_fromBuffer sum (u32 z) o1 = Ok o2 /\ obs_file mdt (nMaster (pn x0)) src fn o2 = Ok fl /\ w = fl ++ w' /\
        sync 0 (map (fun x => K (prank x) (pn x)) (x0 :: xs)) w').
    { intros bufs Lb. set (Y2 := combine Y1 (map (pair (u32 z)) bufs)).
      assert (N2 : Y2 <> []). { unfold Y2, Y1. destruct bufs; [discriminate|discriminate]. }
      rewrite (sync_barrier1 0 (fun xy : pos * observer T * (Z * buffer T) => 
        lift (reduce_send (fst (snd xy)) (snd (snd xy))) (fun part =>
        Call (CReduce (fst (snd xy))) part (fun sum =>
        barrier (
        root_files (prank (fst (fst xy))) [o <- obs_fromBuffer sum (fst (snd xy)) (snd (fst xy));; obs_file mdt (nMaster (pn (fst (fst xy)))) src fn o] (
        pause (
        K (prank (fst (fst xy))) (pn (fst (fst xy))))))))) Y2 w N2). cbn [pred].
      rewrite (sync_lift (D := buffer T) (W := file) [] (@concat _) breduce 0 (fun xy : pos * observer T * (Z * buffer T) => reduce_send (fst (snd xy)) (snd (snd xy)))
        (fun xy part => Call (CReduce (fst (snd xy))) part (fun sum =>
        barrier (
        root_files (prank (fst (fst xy))) [o <- obs_fromBuffer sum (fst (snd xy)) (snd (fst xy));; obs_file mdt (nMaster (pn (fst (fst xy)))) src fn o] (
        pause (
        K (prank (fst (fst xy))) (pn (fst (fst xy)))))))) Y2 w).
      rewrite <- (map_res_map (fun zb : Z * buffer T => reduce_send (fst zb) (snd zb)) snd Y2).
      unfold Y2 at 1. rewrite map_snd_combine. 2:{ unfold Y1. rewrite map_length, combine_length. cbn in *. lia. }
      rewrite map_res_map. change (fun a : buffer T => reduce_send (fst (u32 z, a)) (snd (u32 z, a))) with (fun a : buffer T => reduce_send (u32 z) a).
      assert (Q : forall parts, length parts = length (o1 :: os) ->
        sync 0 (map (fun xy => Call (CReduce (fst (snd (fst xy)))) (snd xy) (fun sum =>
          barrier (
          root_files (prank (fst (fst (fst xy)))) [o <- obs_fromBuffer sum (fst (snd (fst xy))) (snd (fst (fst xy)));; obs_file mdt (nMaster (pn (fst (fst (fst xy))))) src fn o] (
          pause (
          K (prank (fst (fst (fst xy)))) (pn (fst (fst (fst xy))))))))) (combine Y2 parts)) w <->
        exists o2 fl w', obs_fromBuffer (breduce parts) (u32 z) o1 = Ok o2 /\ obs_file mdt (nMaster (pn x0)) src fn o2 = Ok fl /\ w = fl ++ w' /\
          sync 0 (map (fun x => K (prank x) (pn x)) (x0 :: xs)) w').
      { intros parts Lp. destruct bufs as [|b0 bufs]; [discriminate|]. destruct parts as [|p0 parts]; [discriminate|].
        set (Y3 := combine Y2 (p0 :: parts)). set (y0 := ((x0, o1, (u32 z, b0)), p0)). set (ys := combine (combine (combine xs os) (map (pair (u32 z)) bufs)) parts).
        assert (E3 : Y3 = y0 :: ys) by reflexivity.
        set (rk := fun y : pos * observer T * (Z * buffer T) * buffer T => prank (fst (fst (fst y)))).
        assert (Ly : length parts = length xs) by (cbn in Lp; congruence). assert (Lb' : length bufs = length xs) by (cbn in Lb; congruence).
        assert (EX : forall A (g : pos -> A), map (fun y => g (fst (fst (fst y)))) Y3 = map g (x0 :: xs)).
        { intros A g. rewrite E3. cbn [map fst snd y0]. f_equal. unfold ys. rewrite <- (map_map (fun y => fst (fst (fst y))) g). f_equal.
          clear -L Ly Lb'. revert os bufs parts L Ly Lb'. induction xs as [|x xs IH]; intros [|a os] [|b bufs] [|p parts] H1 H2 H3; cbn in *; try discriminate; [reflexivity|]. f_equal. apply IH; congruence. }
        assert (RY : rooted rk (y0 :: ys)).
        { rewrite <- E3. pose proof (EX Z prank) as ER. fold rk in ER. change (map (fun y => prank (fst (fst (fst y)))) Y3) with (map rk Y3) in ER. rewrite E3 in ER |- *. cbn [map] in ER. injection ER as ER.
          destruct R as (R0 & R). split; [exact R0|]. clear -R ER. rewrite Forall_forall in R |- *. intros y I.
          assert (I' : In (rk y) (map prank xs)) by (rewrite <- ER; apply in_map, I). apply in_map_iff in I'. destruct I' as (x & E & I'). rewrite <- E. apply R, I'. }
        rewrite E3. rewrite (sync_reduce (fun y : pos * observer T * (Z * buffer T) * buffer T => prank (fst (fst (fst y)))) (fun y => fst (snd (fst y))) snd (fun xy sum => barrier (
          root_files (prank (fst (fst (fst xy)))) [o <- obs_fromBuffer sum (fst (snd (fst xy))) (snd (fst (fst xy)));; obs_file mdt (nMaster (pn (fst (fst (fst xy))))) src fn o] (
          pause (
          K (prank (fst (fst (fst xy)))) (pn (fst (fst (fst xy)))))))) y0 ys w RY).
        2:{ intros x a b H. unfold root_files. apply Z.eqb_neq in H. rewrite H. reflexivity. }
        assert (C : forall y, In y ys -> fst (snd (fst y)) = fst (snd (fst y0))).
        { intros y I. unfold ys in I. cbn [y0 fst snd]. destruct y as [[xo zb] p]. apply in_combine_l in I. apply in_combine_r in I. apply in_map_iff in I. destruct I as (b & E & _). cbn [fst snd]. rewrite <- E. reflexivity. }
        rewrite <- E3. replace (map snd Y3) with (p0 :: parts). 2:{ unfold Y3. rewrite map_snd_combine; [reflexivity|]. unfold Y2, Y1. rewrite !combine_length, map_length. cbn in *. lia. }
        rewrite (sync_barrier1 0 (fun x => root_files (prank (fst (fst (fst x)))) [o <- obs_fromBuffer (breduce (p0 :: parts)) (fst (snd (fst x))) (snd (fst (fst x)));; obs_file mdt (nMaster (pn (fst (fst (fst x))))) src fn o] (
          pause (
          K (prank (fst (fst (fst x)))) (pn (fst (fst (fst x))))))) Y3 w) by (rewrite E3; discriminate).
        cbn [pred]. rewrite E3.
        rewrite (sync_root_files (fun y : pos * observer T * (Z * buffer T) * buffer T => prank (fst (fst (fst y)))) (fun x => [o <- obs_fromBuffer (breduce (p0 :: parts)) (fst (snd (fst x))) (snd (fst (fst x)));; obs_file mdt (nMaster (pn (fst (fst (fst x))))) src fn o])
          (fun x => pause (K (prank (fst (fst (fst x)))) (pn (fst (fst (fst x)))))) y0 ys w RY).
        rewrite <- E3. cbn [map_res]. change (fst (snd (fst y0))) with (u32 z). change (snd (fst (fst y0))) with o1. change (fst (fst (fst y0))) with x0.
        assert (P : forall w', sync 0 (map (fun x : pos * observer T * (Z * buffer T) * buffer T => pause (K (prank (fst (fst (fst x)))) (pn (fst (fst (fst x)))))) Y3) w' <-> sync 0 (map (fun x => K (prank x) (pn x)) (x0 :: xs)) w').
        { intros w'. rewrite (EX pr (fun x => pause (K (prank x) (pn x)))). rewrite (sync_pause 0 (fun x => K (prank x) (pn x))) by discriminate. reflexivity. }
        split.
        - intros (_ & fl & w' & E & -> & H). bget E as f Ef. bget Ef as o2 Eo. apply Ok_inj in E. subst fl. cbn [concat]. rewrite app_nil_r. exists o2, f, w'. rewrite P in H. auto.
        - intros (o2 & fl & w' & E1 & E2 & -> & H). split; [exact C|]. exists [fl], w'. rewrite E1. cbn [bind]. rewrite E2. cbn [bind concat]. rewrite app_nil_r. rewrite P. auto. }
      assert (NB : bufs <> []) by (destruct bufs; discriminate).
      split.
      - intros (parts & E & H). assert (Lp : length parts = length (o1 :: os)) by (apply map_res_length in E; congruence). apply (Q parts Lp) in H. destruct H as (o2 & fl & w' & H).
        exists (breduce parts), o2, fl, w'. split; [|exact H]. apply reduce_parts; eauto.
      - intros (sum & o2 & fl & w' & E & H). apply reduce_parts in E; [|exact NB]. destruct E as (parts & E & ->). assert (Lp : length parts = length (o1 :: os)) by (apply map_res_length in E; congruence).
        exists parts. split; [exact E|]. apply (Q parts Lp). eauto. }
    split.
    - intros (zbs & E & H). apply pairs_iff in E. destruct E as (bufs & E & ->). apply (Q bufs) in H; [|apply map_res_length in E; exact E]. destruct H as (sum & o2 & fl & w' & H). exists z, bufs, sum, o2, fl, w'. tauto.
    - intros (z' & bufs & sum & o2 & fl & w' & Ez' & E & H). apply Ok_inj in Ez'. subst z'. exists (map (pair (u32 z)) bufs). split; [apply pairs_iff; eauto|]. apply (Q bufs); [apply map_res_length in E; exact E|]. exists sum, o2, fl, w'. exact H. }
  rewrite <- (map_res_map (fun n => s <- main_source n src;; obs_integrate s o) pn (x0 :: xs)).
  assert (LO : forall os, map_res (fun n => s <- main_source n src;; obs_integrate s o) (map pn (x0 :: xs)) = Ok os -> exists o1 os', os = o1 :: os' /\ length os' = length xs /\ (forall o', In o' (o1 :: os') -> obs_size o' = obs_size o)).
  { intros os E. pose proof (map_res_length _ _ _ E) as L. rewrite map_length in L. destruct os as [|o1 os]; [discriminate|]. exists o1, os. split; [reflexivity|]. split; [cbn in L; congruence|].
    intros o' I. apply map_res_ok_iff in E. clear -E I. revert I. generalize dependent (o1 :: os). generalize (map pn (x0 :: xs)). intros l k F. induction F as [|n o2 l k H F IH]; intros []; [subst o2|auto]. bget H as s Hs. eapply size_kept; eauto. }
  unfold observe_all. split.
  - intros (os & E & H). destruct (LO os E) as (o1 & os' & -> & L & SZ). apply (Q o1 os' L SZ) in H. destruct H as (z & bufs & sum & o2 & fl & w' & E1 & E2 & E3 & E4 & E5 & -> & H).
    exists fl, w'. split; [|auto]. apply map_res_comp in E. destruct E as (srcs & Es & Ei). rewrite Es. cbn [bind]. unfold driver_observe. rewrite integrate_same by (apply map_res_length in Es; exact Es). rewrite Ei. cbn [bind].
    rewrite E1. cbn [bind]. rewrite E2. cbn [bind]. rewrite E3. cbn [bind]. rewrite E4. cbn [bind first_node map]. exact E5.
  - intros (fl & w' & E & -> & H). bget E as srcs Es. bget E as o2 Eo. cbn [first_node map bind] in E. unfold driver_observe in Eo. rewrite integrate_same in Eo by (apply map_res_length in Es; exact Es). bget Eo as os Ei.
    assert (EE : map_res (fun n => s <- main_source n src;; obs_integrate s o) (map pn (x0 :: xs)) = Ok os) by (apply map_res_comp; eauto). exists os. split; [exact EE|].
    destruct (LO os EE) as (o1 & os' & -> & L & SZ). apply (Q o1 os' L SZ). bget Eo as z E1. bget Eo as bufs E2. bget Eo as sum E3. exists z, bufs, sum, o2, fl, w'. auto 10.
Qed.

Lemma end_sync (xs : list pos) w : xs <> [] -> sync 0 (map (fun _ => node_end) xs) w <-> w = [].
Proof.
  intros NE. unfold node_end. rewrite (sync_barrier1 0 (fun _ => Call CFinalize [] (fun _ => Done)) xs w NE). cbn [pred].
  rewrite (sync_barrier (D := buffer T) (W := file) [] (@concat _) breduce 0 CFinalize [] (fun _ => Done) xs w NE) by discriminate. apply sync_done, NE.
Qed.
Lemma all_observers mdt l : forall x0 xs w, rooted prank (x0 :: xs) ->
  sync 0 (map (fun x => node_observe (prank x) mdt (pn x) l node_end) (x0 :: xs)) w <->
  exists fl, map_res (observe_all mdt (map pn (x0 :: xs))) l = Ok fl /\ w = concat fl.
Proof.
  induction l as [|[[o src] fn] l IH]; intros x0 xs w R; cbn [node_observe].
  - rewrite end_sync by discriminate. cbn [map_res]. split; [intros ->; exists []; auto|]. intros (fl & E & ->). apply Ok_inj in E. subst fl. reflexivity.
  - rewrite (one_observer mdt o src fn (fun r n => node_observe r mdt n l node_end) x0 xs w R). cbn [map_res]. split.
    + intros (f & w' & E & -> & H). apply (IH x0 xs w' R) in H. destruct H as (fl & E' & ->). exists (f :: fl). rewrite E. cbn [bind]. rewrite E'. auto.
    + intros (fl & E & ->). bget E as f Ef. bget E as fl' El. apply Ok_inj in E. subst fl. exists f, (concat fl'). split; [exact Ef|]. split; [reflexivity|]. apply (IH x0 xs _ R). eauto.
Qed.
End Hybrid.
