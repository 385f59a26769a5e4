(* The processes of the program side by side: set-up and tracking. *)
From Coq Require Import ZArith String List Bool Arith Lia.
From Verif Require Import Base BaseFacts Num VecModel ParticleModel TraceModel RetardModel BunchModel DriverModel LoggerModel
  ElementModel FelModel ObserverModel SddsModel PropagateModel OutputModel ParserModel ParserSpec2 ProgramModel CommModel CommProofs CommProofs2 CommProofs3 HybridModel.
Import ListNotations.
Local Open Scope list_scope.
Local Open Scope res_scope.

Lemma map_res_ok_iff {A B} (f : A -> res B) l l' : map_res f l = Ok l' <-> Forall2 (fun a b => f a = Ok b) l l'.
Proof.
  revert l'. induction l as [|a l IH]; intros l'; cbn [map_res].
  - split; intros H; [apply Ok_inj in H; subst; constructor|inversion H; reflexivity].
  - split.
    + intros H. bget H as b Hb. bget H as bs Hbs. apply Ok_inj in H. subst. constructor; [exact Hb|apply IH, Hbs].
    + intros H. inversion H; subst. match goal with E : f a = Ok _ |- _ => rewrite E end. cbn [bind]. match goal with E : Forall2 _ l _ |- _ => apply IH in E; rewrite E end. reflexivity.
Qed.
Lemma map_res_bind {A B C} (f : A -> res B) (g : A -> B -> res C) l l' :
  map_res (fun a => b <- f a;; g a b) l = Ok l' <-> exists bs, map_res f l = Ok bs /\ map_res (fun ab => g (fst ab) (snd ab)) (combine l bs) = Ok l'.
Proof.
  revert l'. induction l as [|a l IH]; intros l'; cbn [map_res].
  - split; [intros H; exists []; split; [reflexivity|exact H]|]. intros (bs & E & H). apply Ok_inj in E. subst bs. exact H.
  - split.
    + intros H. bget H as c Hc. bget Hc as b Hb. bget H as cs Hcs. apply Ok_inj in H. subst l'. apply IH in Hcs. destruct Hcs as (bs & E1 & E2).
      exists (b :: bs). rewrite Hb. cbn [bind]. rewrite E1. cbn [bind]. split; [reflexivity|]. cbn [combine map_res fst snd]. rewrite Hc. cbn [bind]. rewrite E2. reflexivity.
    + intros (bs & E & H). bget E as b Hb. bget E as bs' Hbs. apply Ok_inj in E. subst bs. cbn [combine map_res fst snd] in H. bget H as c Hc. bget H as cs Hcs. apply Ok_inj in H. subst l'.
      rewrite Hb. cbn [bind]. rewrite Hc. cbn [bind]. destruct (IH cs) as (_ & I). rewrite I; [reflexivity|]. eauto.
Qed.
Lemma map_res_map {A B C} (f : B -> res C) (g : A -> B) l : map_res f (map g l) = map_res (fun a => f (g a)) l.
Proof. induction l as [|a l IH]; cbn; [reflexivity|]. rewrite IH. reflexivity. Qed.
Lemma map_res_eq {A B} (f g : A -> res B) l : (forall a, In a l -> f a = g a) -> map_res f l = map_res g l.
Proof. induction l as [|a l IH]; intros H; cbn; [reflexivity|]. rewrite (H a (or_introl eq_refl)), IH; [reflexivity|]. intros b I. apply H. right. exact I. Qed.
Lemma map_res_length {A B} (f : A -> res B) l l' : map_res f l = Ok l' -> length l' = length l.
Proof. intros H. apply map_res_ok_iff in H. induction H; cbn; auto. Qed.
Lemma combine_map_snd {A B C D} (g : A -> C -> D) (l : list A) : forall (m : list B) (k : list C), length m = length l -> length k = length l ->
  map (fun x => g (fst (fst x)) (snd x)) (combine (combine l m) k) = map (fun x => g (fst x) (snd x)) (combine l k).
Proof.
  induction l as [|a l IH]; intros [|b m] [|c k] H1 H2; cbn in *; try discriminate; [reflexivity|]. f_equal. apply IH; congruence.
Qed.
Lemma map_res_comp {A B C} (f : A -> res B) (g : B -> res C) l l' :
  map_res (fun a => b <- f a;; g b) l = Ok l' <-> exists bs, map_res f l = Ok bs /\ map_res g bs = Ok l'.
Proof.
  rewrite (map_res_bind f (fun _ => g)). split; intros (bs & E & H); exists bs; (split; [exact E|]); pose proof (map_res_length _ _ _ E) as L; rewrite <- H; clear E H;
    revert l L; induction bs as [|b bs IH]; intros [|a l] L; cbn in *; try discriminate; try reflexivity; rewrite (IH l); auto.
Qed.

Section Hybrid.
Context {T : Type} {NT : Num T} {TT : Trans T} {CT : Calc T}.
Variable absBF : bunch T -> T -> T.
Notation pin := (pinput (T:=T)).
Notation nd := (pnode T (lattice_T T)).
Notation file := (string * outfile T)%type.
Notation pr := (proc (buffer T) file).
Notation sync := (sync (W := file) (@nil (option T)) (@concat (option T)) (breduce (T:=T))).

Lemma sync_barrier1 {X} d (K : X -> pr) xs w : xs <> [] -> sync d (map (fun x => barrier (K x)) xs) w <-> sync (pred d) (map K xs) w.
Proof. intros NE. unfold barrier. apply sync_barrier; [exact NE|reflexivity]. Qed.
Lemma sync_pause {X} d (K : X -> pr) xs w : xs <> [] -> sync d (map (fun x => pause (K x)) xs) w <-> sync (pred (pred d)) (map K xs) w.
Proof. intros NE. unfold pause. rewrite sync_barrier1 by exact NE. apply sync_barrier1, NE. Qed.

(* the first process is the root *)
Definition rooted {X} (rk : X -> Z) (xs : list X) : Prop := match xs with [] => False | x :: r => rk x = 0%Z /\ Forall (fun y => rk y <> 0%Z) r end.
Lemma rooted_ne {X} (rk : X -> Z) xs : rooted rk xs -> xs <> [].
Proof. destruct xs; [intros []|discriminate]. Qed.
Lemma tail_map {X} (rk : X -> Z) (f g : X -> pr) r : Forall (fun y => rk y <> 0%Z) r ->
  map (fun x => if (rk x =? 0)%Z then f x else g x) r = map g r.
Proof. intros F. induction F as [|x r H F IH]; cbn [map]; [reflexivity|]. rewrite IH. apply Z.eqb_neq in H. rewrite H. reflexivity. Qed.
Lemma sync_root_do {X A} d (rk : X -> Z) (o : X -> A) (m : X -> res A) (K : X -> A -> pr) x0 xs w : rooted rk (x0 :: xs) ->
  sync d (map (fun x => root_do (rk x) (o x) (m x) (K x)) (x0 :: xs)) w <->
  exists a, m x0 = Ok a /\ sync d (map (fun xa => K (fst xa) (snd xa)) ((x0, a) :: map (fun x => (x, o x)) xs)) w.
Proof.
  intros (R0 & RN). cbn [map]. unfold root_do. rewrite (tail_map rk _ (fun x => K x (o x)) xs RN), R0. cbn [Z.eqb].
  rewrite lift_head. rewrite map_map. reflexivity.
Qed.
Lemma sync_writes fs p ps w : sync 0 (writes fs p :: ps) w <-> exists w', w = fs ++ w' /\ sync 0 (p :: ps) w'.
Proof.
  revert w. induction fs as [|f fs IH]; intros w; cbn [writes].
  - split; [intros H; exists w; auto|]. intros (w' & -> & H). exact H.
  - rewrite sync_write. split.
    + intros (w1 & -> & H). apply IH in H. destruct H as (w' & -> & H). exists w'. auto.
    + intros (w' & -> & H). exists (fs ++ w'). split; [reflexivity|]. apply IH. eauto.
Qed.
Lemma sync_make fs p ps w : sync 0 (make_files fs p :: ps) w <-> exists fl w', map_res (fun r => r) fs = Ok fl /\ w = concat fl ++ w' /\ sync 0 (p :: ps) w'.
Proof.
  revert w. induction fs as [|f fs IH]; intros w; cbn [make_files map_res].
  - split; [intros H; exists [], w; auto|]. intros (fl & w' & E & -> & H). apply Ok_inj in E. subst fl. exact H.
  - rewrite lift_head. split.
    + intros (l & -> & H). apply sync_writes in H. destruct H as (w1 & -> & H). apply IH in H. destruct H as (fl & w' & E & -> & H).
      exists (l :: fl), w'. cbn [bind]. rewrite E. cbn [bind concat]. rewrite <- app_assoc. auto.
    + intros (fl & w' & E & -> & H). bget E as l Hl. bget E as fl' Hf. apply Ok_inj in E. subst fl. exists l. split; [exact Hl|].
      apply sync_writes. exists (concat fl' ++ w'). split; [cbn [concat]; rewrite app_assoc; reflexivity|]. apply IH. eauto.
Qed.
Lemma sync_root_files {X} (rk : X -> Z) (fs : X -> list (res (list file))) (K : X -> pr) x0 xs w : rooted rk (x0 :: xs) ->
  sync 0 (map (fun x => root_files (rk x) (fs x) (K x)) (x0 :: xs)) w <->
  exists fl w', map_res (fun r => r) (fs x0) = Ok fl /\ w = concat fl ++ w' /\ sync 0 (map K (x0 :: xs)) w'.
Proof.
  intros (R0 & RN). cbn [map]. unfold root_files. rewrite (tail_map rk _ K xs RN), R0. cbn [Z.eqb]. apply sync_make.
Qed.
Lemma ones_iff (l : list (res file)) fl : map_res (fun r => r) (map one l) = Ok fl <-> exists fs, map_res (fun r => r) l = Ok fs /\ fl = map (fun f => [f]) fs.
Proof.
  revert fl. induction l as [|r l IH]; intros fl; cbn [map map_res].
  - split; [intros H; apply Ok_inj in H; subst; exists []; auto|]. intros (fs & E & ->). apply Ok_inj in E. subst. reflexivity.
  - split.
    + intros H. bget H as x Hx. unfold one in Hx. bget Hx as f Hf. apply Ok_inj in Hx. subst x. bget H as fl' Hl. apply Ok_inj in H. subst fl.
      apply IH in Hl. destruct Hl as (fs & E & ->). exists (f :: fs). rewrite Hf. cbn [bind]. rewrite E. auto.
    + intros (fs & E & ->). bget E as f Hf. bget E as fs' Hl. apply Ok_inj in E. subst. unfold one at 1. cbn [bind].
      destruct (IH (map (fun f => [f]) fs')) as (_ & I). rewrite I by eauto. reflexivity.
Qed.
Lemma concat_ones {A} (l : list A) : concat (map (fun f => [f]) l) = l.
Proof. induction l; cbn; congruence. Qed.

(* ---- tracking ---- *)
Lemma logger_lat (n n' : nd) l : nMaster n = nMaster n' -> nTracked n = nTracked n' -> logger_update absBF n l = logger_update absBF n' l.
Proof. intros E1 E2. destruct l; unfold logger_update; rewrite ?E1, ?E2; reflexivity. Qed.
Lemma log_one_lat (n n' : nd) step l : nMaster n = nMaster n' -> nTracked n = nTracked n' -> log_one absBF step n l = log_one absBF step n' l.
Proof. intros E1 E2. unfold log_one. rewrite (logger_lat n n' l E1 E2). reflexivity. Qed.

(* the rank, the state and the loggers of a process *)
Notation pos := (Z * nd * list (logger T))%type.
Definition prank (x : pos) : Z := fst (fst x).
Definition pn (x : pos) : nd := snd (fst x).
Definition plogs (x : pos) : list (logger T) := snd x.
(* the processes with other states; the first one with other loggers *)
Definition moved (xs : list pos) (ns : list nd) : list pos := map (fun xn => (prank (fst xn), snd xn, plogs (fst xn))) (combine xs ns).
Definition logged (ls : list (logger T)) (xs : list pos) : list pos := match xs with [] => [] | x :: r => (prank x, pn x, ls) :: r end.
Lemma moved_rooted xs ns : length ns = length xs -> rooted prank xs -> rooted prank (moved xs ns).
Proof.
  unfold moved. destruct xs as [|x xs], ns as [|n ns]; cbn; try discriminate; [auto|]. intros L (R & F). split; [exact R|].
  assert (L' : length ns = length xs) by congruence. clear L. revert ns L'. induction F as [|y xs H F IH]; intros [|m ns] L; cbn in *; try discriminate; [constructor|]. constructor; [exact H|]. apply IH. congruence.
Qed.
Lemma logged_rooted ls xs : rooted prank xs -> rooted prank (logged ls xs).
Proof. destruct xs as [|x xs]; cbn; auto. Qed.
Lemma moved_n xs ns : length ns = length xs -> map pn (moved xs ns) = ns.
Proof. unfold moved. revert ns. induction xs as [|x xs IH]; intros [|n ns] L; cbn in *; try discriminate; [reflexivity|]. f_equal. apply IH. congruence. Qed.
Lemma moved_moved xs ns ns' : length ns = length xs -> length ns' = length xs -> moved (moved xs ns) ns' = moved xs ns'.
Proof. unfold moved. revert ns ns'. induction xs as [|x xs IH]; intros [|n ns] [|n' ns'] L L'; cbn in *; try discriminate; [reflexivity|]. f_equal. apply IH; congruence. Qed.
Lemma moved_logged xs ns ls : moved (logged ls xs) ns = logged ls (moved xs ns).
Proof. destruct xs as [|x xs], ns as [|n ns]; reflexivity. Qed.
Lemma logged_twice xs ls ls' : logged ls (logged ls' xs) = logged ls xs.
Proof. destruct xs; reflexivity. Qed.
Lemma logged_n xs ls : map pn (logged ls xs) = map pn xs.
Proof. destruct xs; reflexivity. Qed.
Lemma moved_same xs : moved xs (map pn xs) = xs.
Proof. unfold moved. induction xs as [|[[r n] l] xs IH]; cbn; [reflexivity|]. f_equal. exact IH. Qed.
Lemma logged_same x xs : logged (plogs x) (x :: xs) = x :: xs.
Proof. destruct x as [[r n] l]. reflexivity. Qed.

(* a computation on the state of every process *)
Lemma sync_states d (f : nd -> res nd) (K : Z -> nd -> list (logger T) -> pr) xs w :
  sync d (map (fun x => lift (f (pn x)) (fun n => K (prank x) n (plogs x))) xs) w <->
  exists ns, map_res f (map pn xs) = Ok ns /\ sync d (map (fun x => K (prank x) (pn x) (plogs x)) (moved xs ns)) w.
Proof.
  rewrite (sync_lift (D := buffer T) (W := file) [] (@concat _) breduce d (fun x => f (pn x)) (fun x n => K (prank x) n (plogs x)) xs w). rewrite map_res_map.
  split; intros (ns & E & H); exists ns; (split; [exact E|]); unfold moved in *; rewrite map_map in *; exact H.
Qed.
Lemma sync_states2 (f : nd -> res (beam T)) (g : nd -> beam T -> res nd) (K : Z -> nd -> list (logger T) -> pr) xs w : xs <> [] ->
  sync 0 (map (fun x => lift (f (pn x)) (fun b => barrier (lift (g (pn x) b) (fun n => K (prank x) n (plogs x))))) xs) w <->
  exists ns, map_res (fun n => b <- f n;; g n b) (map pn xs) = Ok ns /\ sync 0 (map (fun x => K (prank x) (pn x) (plogs x)) (moved xs ns)) w.
Proof.
  intros NE.
  assert (Q : forall bs, map_res (fun x => f (pn x)) xs = Ok bs ->
    sync 0 (map (fun xy => barrier (lift (g (pn (fst xy)) (snd xy)) (fun n => K (prank (fst xy)) n (plogs (fst xy))))) (combine xs bs)) w <->
    exists ns, map_res (fun xb => g (pn (fst xb)) (snd xb)) (combine xs bs) = Ok ns /\ sync 0 (map (fun x => K (prank x) (pn x) (plogs x)) (moved xs ns)) w).
  { intros bs E. assert (L : length bs = length xs) by (apply map_res_length in E; exact E).
    rewrite (sync_barrier1 0 (fun xy => lift (g (pn (fst xy)) (snd xy)) (fun n => K (prank (fst xy)) n (plogs (fst xy))))).
    2:{ destruct xs, bs; try discriminate; congruence. }
    cbn [pred]. rewrite (sync_lift (D := buffer T) (W := file) [] (@concat _) breduce 0 (fun xy => g (pn (fst xy)) (snd xy)) (fun xy n => K (prank (fst xy)) n (plogs (fst xy)))).
    split; intros (ns & E' & H); exists ns; (split; [exact E'|]); assert (L' : length ns = length xs) by (apply map_res_length in E'; rewrite combine_length in E'; lia);
      pose proof (combine_map_snd (fun x n => K (prank x) n (plogs x)) xs bs ns L L') as CM; unfold moved in *; rewrite map_map in *.
    - exact (eq_ind _ (fun l => sync 0 l w) H _ CM).
    - exact (eq_ind _ (fun l => sync 0 l w) H _ (eq_sym CM)). }
  rewrite (sync_lift (D := buffer T) (W := file) [] (@concat _) breduce 0 (fun x => f (pn x)) (fun x b => barrier (lift (g (pn x) b) (fun n => K (prank x) n (plogs x)))) xs w).
  split.
  - intros (bs & E & H). apply (Q bs E) in H. destruct H as (ns & E' & H). exists ns. split; [|exact H].
    rewrite map_res_map. apply (map_res_bind (fun x => f (pn x)) (fun x b => g (pn x) b)). exists bs. split; [exact E|exact E'].
  - intros (ns & E & H). rewrite map_res_map in E. apply (map_res_bind (fun x => f (pn x)) (fun x b => g (pn x) b)) in E. destruct E as (bs & E & E').
    exists bs. split; [exact E|]. apply (Q bs E). exists ns. split; [exact E'|exact H].
Qed.
Lemma sync_gather {X} t (s : X -> buffer T) (K : X -> buffer T -> pr) xs w : xs <> [] ->
  sync 0 (map (fun x => Call (CAllgather t) (s x) (K x)) xs) w <-> sync 0 (map (fun x => K x (concat (map s xs))) xs) w.
Proof.
  intros NE. rewrite (sync_call (D := buffer T) (W := file) [] (@concat _) breduce 0 (fun _ => CAllgather t) s K xs w NE). split.
  - intros (c0 & E & _ & H). destruct xs as [|x xs]; [congruence|]. specialize (E x (or_introl eq_refl)). subst c0.
    erewrite mapi_const in H; [exact H|]. reflexivity.
  - intros H. exists (CAllgather t). split; [reflexivity|]. split; [discriminate|]. erewrite mapi_const; [exact H|]. reflexivity.
Qed.
Lemma sync_root_logs d (m : nd -> list (logger T) -> res (list (logger T))) (K : Z -> nd -> list (logger T) -> pr) x0 xs w : rooted prank (x0 :: xs) ->
  sync d (map (fun x => root_do (prank x) (plogs x) (m (pn x) (plogs x)) (fun ls => K (prank x) (pn x) ls)) (x0 :: xs)) w <->
  exists ls, m (pn x0) (plogs x0) = Ok ls /\ sync d (map (fun x => K (prank x) (pn x) (plogs x)) (logged ls (x0 :: xs))) w.
Proof.
  intros R. rewrite (sync_root_do d prank plogs (fun x => m (pn x) (plogs x)) (fun x ls => K (prank x) (pn x) ls) x0 xs w R).
  split; intros (ls & E & H); exists ls; (split; [exact E|]); cbn [logged map] in *; rewrite map_map in *; exact H.
Qed.
Lemma sync_moved_eq {X} d (f g : X -> pr) xs w : (forall x, f x = g x) -> sync d (map f xs) w <-> sync d (map g xs) w.
Proof. intros E. rewrite (map_ext f g E). reflexivity. Qed.

Lemma update_split step G (n : nd) : node_update inter_step step G n = (m <- node_gathered step G n;; node_interact m).
Proof. unfold node_update, node_gathered. destruct (driver_receive G (nMaster n)) as [bm|e| |]; cbn [bind]; try reflexivity. destruct (bmNOTS bm =? step + 1)%Z; reflexivity. Qed.
Lemma interact_beams (n n' : nd) : node_interact n = Ok n' -> nMaster n' = nMaster n /\ nTracked n' = nTracked n.
Proof. unfold node_interact. intros H. bget H as l Hl. apply Ok_inj in H. subst n'. auto. Qed.

(* one step of the main loop *)
Definition head_node (ns : list nd) (n : nd) : Prop := first_node ns = Ok n.
Lemma one_step (t : Z) ws step (K : Z -> nd -> list (logger T) -> pr) x0 xs w : rooted prank (x0 :: xs) ->
  sync 0 (map (fun x =>
      lift (node_do (pn x)) (fun tb =>
      barrier (
      lift (node_buffer (pn x) tb) (fun n =>
      Call (CAllgather t) (nTbuf n) (fun gathered =>
      lift (node_gathered step gathered n) (fun n =>
      barrier (
      root_do (prank x) (plogs x) (map_res (log_one absBF (step + 1) n) (plogs x)) (fun ls =>
      root_files (prank x) (map (fun w => one (watch_file w)) (watch_step (step + 1) n ws)) (
      lift (node_interact n) (fun n =>
      K (prank x) n ls)))))))))) (x0 :: xs)) w <->
  exists n0 ns ls fl w', driver_step full_field inter_step (map pn (x0 :: xs)) step = Ok (n0 :: ns) /\
    map_res (log_one absBF (step + 1) n0) (plogs x0) = Ok ls /\
    map_res watch_file (watch_step (step + 1) n0 ws) = Ok fl /\ w = fl ++ w' /\
    sync 0 (map (fun x => K (prank x) (pn x) (plogs x)) (logged ls (moved (x0 :: xs) (n0 :: ns)))) w'.
Proof.
  intros R. set (K6 := fun r n l => lift (node_interact n) (fun n => K r n l)).
  set (K5 := fun r n l => root_files r (map (fun w => one (watch_file w)) (watch_step (step + 1) n ws)) (K6 r n l)).
  set (K4 := fun r n l => root_do r l (map_res (log_one absBF (step + 1) n) l) (fun ls => K5 r n ls)).
  set (K2 := fun r n l => Call (CAllgather t) (nTbuf n) (fun gathered => lift (node_gathered step gathered n) (fun n => barrier (K4 r n l)))).
  change (sync 0 (map (fun x => lift (node_do (pn x)) (fun b => barrier (lift (node_buffer (pn x) b) (fun n => K2 (prank x) n (plogs x))))) (x0 :: xs)) w <->
    exists n0 ns ls fl w', driver_step full_field inter_step (map pn (x0 :: xs)) step = Ok (n0 :: ns) /\
    map_res (log_one absBF (step + 1) n0) (plogs x0) = Ok ls /\
    map_res watch_file (watch_step (step + 1) n0 ws) = Ok fl /\ w = fl ++ w' /\
    sync 0 (map (fun x => K (prank x) (pn x) (plogs x)) (logged ls (moved (x0 :: xs) (n0 :: ns)))) w').
  rewrite (sync_states2 node_do node_buffer K2 (x0 :: xs) w) by discriminate.
  assert (Q : forall ns1, map_res (node_track full_field) (map pn (x0 :: xs)) = Ok ns1 ->
    sync 0 (map (fun x => K2 (prank x) (pn x) (plogs x)) (moved (x0 :: xs) ns1)) w <->
    exists m0 ms n0 ns ls fl w', map_res (node_gathered step (concat (map nTbuf ns1))) ns1 = Ok (m0 :: ms) /\ map_res node_interact (m0 :: ms) = Ok (n0 :: ns) /\
      map_res (log_one absBF (step + 1) m0) (plogs x0) = Ok ls /\ map_res watch_file (watch_step (step + 1) m0 ws) = Ok fl /\ w = fl ++ w' /\
      sync 0 (map (fun x => K (prank x) (pn x) (plogs x)) (logged ls (moved (x0 :: xs) (n0 :: ns)))) w').
  { intros ns1 E1. assert (L1 : length ns1 = length (x0 :: xs)) by (apply map_res_length in E1; rewrite map_length in E1; exact E1).
    set (xs1 := moved (x0 :: xs) ns1). assert (R1 : rooted prank xs1) by (apply moved_rooted; assumption).
    unfold K2. rewrite (sync_gather t (fun x => nTbuf (pn x)) (fun x gathered => lift (node_gathered step gathered (pn x)) (fun n => barrier (K4 (prank x) n (plogs x)))) xs1 w) by (apply (rooted_ne prank), R1).
    replace (map (fun x => nTbuf (pn x)) xs1) with (map nTbuf ns1) by (rewrite <- (moved_n (x0 :: xs) ns1 L1) at 1; rewrite map_map; reflexivity).
    rewrite (sync_states 0 (node_gathered step (concat (map nTbuf ns1))) (fun r n l => barrier (K4 r n l)) xs1 w).
    unfold xs1. rewrite moved_n by exact L1. fold xs1.
    assert (Q : forall m0 ms, map_res (node_gathered step (concat (map nTbuf ns1))) ns1 = Ok (m0 :: ms) ->
      sync 0 (map (fun x => barrier (K4 (prank x) (pn x) (plogs x))) (moved xs1 (m0 :: ms))) w <->
      exists n0 ns ls fl w', map_res node_interact (m0 :: ms) = Ok (n0 :: ns) /\
      map_res (log_one absBF (step + 1) m0) (plogs x0) = Ok ls /\ map_res watch_file (watch_step (step + 1) m0 ws) = Ok fl /\ w = fl ++ w' /\
      sync 0 (map (fun x => K (prank x) (pn x) (plogs x)) (logged ls (moved (x0 :: xs) (n0 :: ns)))) w').
    { intros m0 ms E2. assert (L2 : length (m0 :: ms) = length (x0 :: xs)) by (apply map_res_length in E2; congruence).
      unfold xs1. rewrite moved_moved by assumption. set (xs2 := moved (x0 :: xs) (m0 :: ms)). assert (R2 : rooted prank xs2) by (apply moved_rooted; assumption).
      rewrite (sync_barrier1 0 (fun x => K4 (prank x) (pn x) (plogs x)) xs2 w) by (apply (rooted_ne prank), R2). cbn [pred].
      assert (E0 : xs2 = (prank x0, m0, plogs x0) :: moved xs ms) by reflexivity.
      unfold K4. rewrite E0 in R2 |- *. rewrite (sync_root_logs 0 (fun n l => map_res (log_one absBF (step + 1) n) l) K5 _ _ w R2).
      change (pn (prank x0, m0, plogs x0)) with m0. change (plogs (prank x0, m0, plogs x0)) with (plogs x0). rewrite <- E0 in R2 |- *.
      assert (Q : forall ls, sync 0 (map (fun x => K5 (prank x) (pn x) (plogs x)) (logged ls xs2)) w <->
        exists n0 ns fl w', map_res node_interact (m0 :: ms) = Ok (n0 :: ns) /\ map_res watch_file (watch_step (step + 1) m0 ws) = Ok fl /\ w = fl ++ w' /\
        sync 0 (map (fun x => K (prank x) (pn x) (plogs x)) (logged ls (moved (x0 :: xs) (n0 :: ns)))) w').
      { intros ls. assert (R3 : rooted prank (logged ls xs2)) by (apply logged_rooted, R2).
        assert (E3 : logged ls xs2 = (prank x0, m0, ls) :: moved xs ms) by (rewrite E0; reflexivity). unfold K5. rewrite E3 in R3 |- *.
        rewrite (sync_root_files prank (fun x => map (fun w => one (watch_file w)) (watch_step (step + 1) (pn x) ws)) (fun x => K6 (prank x) (pn x) (plogs x)) _ _ w R3).
        change (pn (prank x0, m0, ls)) with m0. rewrite <- E3 in R3 |- *. rewrite <- (map_map (fun w => watch_file w) one).
        assert (Q : forall w', sync 0 (map (fun x => K6 (prank x) (pn x) (plogs x)) (logged ls xs2)) w' <-> exists n0 ns, map_res node_interact (m0 :: ms) = Ok (n0 :: ns) /\
          sync 0 (map (fun x => K (prank x) (pn x) (plogs x)) (logged ls (moved (x0 :: xs) (n0 :: ns)))) w').
        { intros w'. unfold K6. rewrite (sync_states 0 node_interact K (logged ls xs2) w'). rewrite logged_n. unfold xs2. rewrite moved_n by exact L2. fold xs2.
          split.
          - intros (ns' & E4 & H). assert (L4 : length ns' = length (x0 :: xs)) by (apply map_res_length in E4; congruence). destruct ns' as [|n0 ns]; [discriminate|].
            exists n0, ns. split; [exact E4|]. rewrite moved_logged in H. unfold xs2 in H. rewrite moved_moved in H by assumption. exact H.
          - intros (n0 & ns & E4 & H). assert (L4 : length (n0 :: ns) = length (x0 :: xs)) by (apply map_res_length in E4; congruence).
            exists (n0 :: ns). split; [exact E4|]. rewrite moved_logged. unfold xs2. rewrite moved_moved by assumption. exact H. }
        split.
        - intros (fl & w' & E4 & -> & H). apply ones_iff in E4. destruct E4 as (fs & E4 & ->). rewrite concat_ones. rewrite map_res_map in E4. apply Q in H. destruct H as (n0 & ns & E5 & H).
          exists n0, ns, fs, w'. auto.
        - intros (n0 & ns & fs & w' & E5 & E4 & -> & H). exists (map (fun f => [f]) fs), w'. split; [|split].
          + apply ones_iff. exists fs. rewrite map_res_map. auto.
          + rewrite concat_ones. reflexivity.
          + apply Q. eauto. }
      split.
      - intros (ls & E3 & H). apply Q in H. destruct H as (n0 & ns & fl & w' & H). exists n0, ns, ls, fl, w'. tauto.
      - intros (n0 & ns & ls & fl & w' & H). exists ls. split; [tauto|]. apply Q. exists n0, ns, fl, w'. tauto. }
    split.
    - intros (ms & E2 & H). destruct ms as [|m0 ms]. { exfalso. apply map_res_length in E2. rewrite L1 in E2. discriminate. }
      apply (Q m0 ms E2) in H. destruct H as (n0 & ns & ls & fl & w' & H). exists m0, ms, n0, ns, ls, fl, w'. tauto.
    - intros (m0 & ms & n0 & ns & ls & fl & w' & E2 & H). exists (m0 :: ms). split; [exact E2|]. apply (Q m0 ms E2). exists n0, ns, ls, fl, w'. exact H. }
  assert (B : forall m0 ms n0 ns, map_res node_interact (m0 :: ms) = Ok (n0 :: ns) -> nMaster m0 = nMaster n0 /\ nTracked m0 = nTracked n0).
  { intros m0 ms n0 ns E. cbn [map_res] in E. bget E as y Hy. bget E as ys Hys. apply Ok_inj in E. injection E as E _. subst y. apply interact_beams in Hy. split; symmetry; apply Hy. }
  assert (U : forall ns1 l, map_res (node_update inter_step step (concat (map nTbuf ns1))) ns1 = Ok l <->
    exists ms, map_res (node_gathered step (concat (map nTbuf ns1))) ns1 = Ok ms /\ map_res node_interact ms = Ok l).
  { intros ns1 l. rewrite <- (map_res_comp (node_gathered step (concat (map nTbuf ns1))) node_interact). rewrite (map_res_eq _ (fun a => b <- node_gathered step (concat (map nTbuf ns1)) a;; node_interact b)); [reflexivity|].
    intros a _. apply update_split. }
  assert (LL : forall (m0 n0 : nd) l, nMaster m0 = nMaster n0 -> nTracked m0 = nTracked n0 -> map_res (log_one absBF (step + 1) m0) l = map_res (log_one absBF (step + 1) n0) l).
  { intros m0 n0 l H1 H2. apply map_res_eq. intros a _. apply log_one_lat; assumption. }
  assert (WW : forall m0 n0 : nd, nMaster m0 = nMaster n0 -> watch_step (step + 1) m0 ws = watch_step (step + 1) n0 ws).
  { intros m0 n0 H1. unfold watch_step. rewrite H1. reflexivity. }
  split.
  - intros (ns1 & E1 & H). apply (Q ns1 E1) in H. destruct H as (m0 & ms & n0 & ns & ls & fl & w' & E2 & E3 & E4 & E5 & -> & H).
    destruct (B _ _ _ _ E3) as (B1 & B2). exists n0, ns, ls, fl, w'. rewrite <- (LL m0 n0 _ B1 B2), <- (WW m0 n0 B1). split; [|auto].
    unfold driver_step. change (map_res (node_track full_field) (map pn (x0 :: xs)) = Ok ns1) in E1. rewrite E1. cbn [bind]. apply U. eauto.
  - intros (n0 & ns & ls & fl & w' & E & E4 & E5 & -> & H). unfold driver_step in E. bget E as ns1 E1. apply U in E. destruct E as (ms & E2 & E3).
    exists ns1. split; [exact E1|]. apply (Q ns1 E1). destruct ms as [|m0 ms]; [discriminate|]. destruct (B _ _ _ _ E3) as (B1 & B2).
    exists m0, ms, n0, ns, ls, fl, w'. rewrite (LL m0 n0 _ B1 B2), (WW m0 n0 B1). auto 10.
Qed.

(* the main loop *)
Lemma logged_acc (ws : list (Z * wtarget)) l : forall ns ls a s, fold_res (logged_step absBF full_field inter_step ws) l (ns, (ls, a)) = Ok s -> exists b, snd (snd s) = a ++ b.
Proof.
  induction l as [|k l IH]; intros ns ls a s H; cbn [fold_res] in H.
  - apply Ok_inj in H. subst s. exists []. cbn. rewrite app_nil_r. reflexivity.
  - bget H as s1 H1. unfold logged_step in H1. bget H1 as ns1 E1. bget H1 as n E2. bget H1 as o E3. apply Ok_inj in H1. subst s1. unfold log_step in E3. cbn [fst snd] in E3. bget E3 as ls1 E4. apply Ok_inj in E3. subst o.
    apply IH in H. destruct H as (b & ->). rewrite <- app_assoc. eauto.
Qed.
Lemma map_res_app {A B} (f : A -> res B) l1 l2 l : map_res f (l1 ++ l2) = Ok l <-> exists a b, map_res f l1 = Ok a /\ map_res f l2 = Ok b /\ l = a ++ b.
Proof.
  revert l. induction l1 as [|x l1 IH]; intros l; cbn [app map_res].
  - split; [intros H; exists [], l; auto|]. intros (a & b & E & H & ->). apply Ok_inj in E. subst a. exact H.
  - split.
    + intros H. bget H as y Hy. bget H as l' Hl. apply Ok_inj in H. subst l. apply IH in Hl. destruct Hl as (a & b & E1 & E2 & ->). exists (y :: a), b. rewrite Hy. cbn [bind]. rewrite E1. auto.
    + intros (a & b & E1 & E2 & ->). bget E1 as y Hy. bget E1 as a' Ha. apply Ok_inj in E1. subst a. rewrite Hy. cbn [bind]. destruct (IH (a' ++ b)) as (_ & I). rewrite I by eauto. reflexivity.
Qed.
Lemma all_steps (t : Z) ws (K : Z -> nd -> list (logger T) -> pr) todo : forall step x0 xs a w, rooted prank (x0 :: xs) ->
  sync 0 (map (fun x => node_steps absBF (prank x) t ws todo step (pn x) (plogs x) (K (prank x))) (x0 :: xs)) w <->
  exists ns ls wf fl w', fold_res (logged_step absBF full_field inter_step ws) (zseq step todo) (map pn (x0 :: xs), (plogs x0, a)) = Ok (ns, (ls, a ++ wf)) /\
    map_res watch_file wf = Ok fl /\ w = fl ++ w' /\ length ns = length (x0 :: xs) /\
    sync 0 (map (fun x => K (prank x) (pn x) (plogs x)) (logged ls (moved (x0 :: xs) ns))) w'.
Proof.
  induction todo as [|todo IH]; intros step x0 xs a w R.
  - cbn [node_steps zseq fold_res]. split.
    + intros H. exists (map pn (x0 :: xs)), (plogs x0), [], [], w. rewrite app_nil_r. rewrite moved_same, logged_same, map_length. auto 10.
    + intros (ns & ls & wf & fl & w' & E & E1 & -> & _ & H). apply Ok_inj in E. injection E as E2 E3 E4. subst ns ls. rewrite <- (app_nil_r a) in E4 at 1. apply app_inv_head in E4. subst wf.
      apply Ok_inj in E1. subst fl. rewrite moved_same, logged_same in H. exact H.
  - cbn [node_steps zseq fold_res].
    rewrite (one_step t ws step (fun r n ls => node_steps absBF r t ws todo (step + 1) n ls (K r)) x0 xs w R).
    assert (Z : forall n0 ns ls, length (n0 :: ns) = length (x0 :: xs) -> exists x1 r1, logged ls (moved (x0 :: xs) (n0 :: ns)) = x1 :: r1 /\ pn x1 = n0 /\ plogs x1 = ls /\ map pn (x1 :: r1) = n0 :: ns /\ rooted prank (x1 :: r1) /\
      (forall ls' ns', length ns' = length (x0 :: xs) -> logged ls' (moved (x1 :: r1) ns') = logged ls' (moved (x0 :: xs) ns'))).
    { intros n0 ns ls L. exists (prank x0, n0, ls), (moved xs ns). split; [reflexivity|]. split; [reflexivity|]. split; [reflexivity|]. split; [|split].
      - change (map pn (logged ls (moved (x0 :: xs) (n0 :: ns))) = n0 :: ns). rewrite logged_n. apply moved_n, L.
      - change (rooted prank (logged ls (moved (x0 :: xs) (n0 :: ns)))). apply logged_rooted, moved_rooted; assumption.
      - intros ls' ns' L'. change ((prank x0, n0, ls) :: moved xs ns) with (logged ls (moved (x0 :: xs) (n0 :: ns))). rewrite moved_logged, logged_twice, moved_moved by assumption. reflexivity. }
    assert (LD : forall l, driver_step full_field inter_step (map pn (x0 :: xs)) step = Ok l -> length l = length (x0 :: xs)).
    { intros l E. unfold driver_step in E. bget E as l1 E1. apply map_res_length in E. apply map_res_length in E1. rewrite map_length in E1. congruence. }
    split.
    + intros (n0 & ns1 & ls1 & fl1 & w1 & E1 & E2 & E3 & -> & H).
      destruct (Z n0 ns1 ls1 (LD _ E1)) as (x1 & r1 & Q1 & Q2 & Q3 & Q4 & Q5 & Q6). rewrite Q1 in H.
      apply (IH _ x1 r1 (a ++ watch_step (step + 1) n0 ws) w1 Q5) in H. destruct H as (ns & ls & wf & fl & w' & F & F1 & -> & L & H).
      assert (L' : length ns = length (x0 :: xs)). { rewrite L. rewrite <- (map_length pn (x1 :: r1)), Q4. apply (LD _ E1). }
      exists ns, ls, (watch_step (step + 1) n0 ws ++ wf), (fl1 ++ fl), w'. split; [|split; [|split; [|split]]].
      * unfold logged_step at 1. cbn [fst snd]. rewrite E1. cbn [bind first_node]. unfold log_step. cbn [fst snd]. rewrite E2. cbn [bind fst snd].
        rewrite Q4, Q3 in F. rewrite <- app_assoc in F. etransitivity; [|exact F]. reflexivity.
      * apply map_res_app. eauto.
      * rewrite app_assoc. reflexivity.
      * exact L'.
      * rewrite (Q6 ls ns L') in H. exact H.
    + intros (ns & ls & wf & fl & w' & F & F1 & -> & L & H).
      bget F as s1 S1. unfold logged_step in S1. cbn [fst snd] in S1. bget S1 as l1 E1. bget S1 as n0 E2. bget S1 as o E3. apply Ok_inj in S1. subst s1.
      destruct l1 as [|n0' ns1]; [discriminate|]. cbn [first_node] in E2. apply Ok_inj in E2. subst n0'. unfold log_step in E3. cbn [fst snd] in E3. bget E3 as ls1 E4. apply Ok_inj in E3. subst o.
      destruct (logged_acc _ _ _ _ _ _ F) as (b & Eb). cbn [snd] in Eb. rewrite <- app_assoc in Eb. apply app_inv_head in Eb. subst wf. rewrite app_assoc in F.
      apply map_res_app in F1. destruct F1 as (fl1 & fl2 & F1 & F2 & ->). exists n0, ns1, ls1, fl1, (fl2 ++ w'). split; [exact E1|]. split; [exact E4|]. split; [exact F1|]. split; [rewrite app_assoc; reflexivity|].
      destruct (Z n0 ns1 ls1 (LD _ E1)) as (x1 & r1 & Q1 & Q2 & Q3 & Q4 & Q5 & Q6). rewrite Q1.
      apply (IH _ x1 r1 (a ++ watch_step (step + 1) n0 ws) (fl2 ++ w') Q5). exists ns, ls, b, fl2, w'. rewrite Q4, Q3. split; [exact F|]. split; [exact F2|]. split; [reflexivity|]. split.
      * rewrite <- (map_length pn (x1 :: r1)), Q4, (LD _ E1). exact L.
      * rewrite Q6 by exact L. exact H.
Qed.
End Hybrid.
