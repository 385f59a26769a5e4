(* The processes of the program side by side: reading the input; where files are read and written. *)
From Coq Require Import ZArith String List Bool Arith Lia.
From Verif Require TraceProofs2.
From Verif Require Import Base BaseFacts Num VecModel ParticleModel TraceModel RetardModel BunchModel BeamSpec BeamProofs DriverModel LoggerModel
  ElementModel FelModel ObserverModel SddsModel PropagateModel OutputModel ParserModel ParserSpec2 PropParser2 ProgramModel ProgramProofs3 OutputProofs2
  CommModel CommProofs CommProofs2 CommProofs3 HybridModel HybridProofs HybridProofs2 HybridProofs3 HybridProofs4.
Import ListNotations.
Local Open Scope list_scope.
Local Open Scope res_scope.

Section Hybrid.
Context {T : Type} {NT : Num T} {TT : Trans T} {CT : Calc T}.
Variable absBF : bunch T -> T -> T.
Variable consts : cenv T.
Notation pin := (pinput (T:=T)).
Notation nd := (pnode T (lattice_T T)).
Notation file := (string * outfile T)%type.
Notation pr := (proc (buffer T) file).
Notation sync := (sync (W := file) (@nil (option T)) (@concat (option T)) (breduce (T:=T))).

Lemma sync_bind {X A B} d d' (f : X -> res A) (g : X -> A -> res B) (H : X -> A -> pr) (K : X -> A -> B -> pr) xs w : xs <> [] ->
  (forall zs : list (X * A), zs <> [] -> sync d (map (fun xa => H (fst xa) (snd xa)) zs) w <-> sync d' (map (fun xa => lift (g (fst xa) (snd xa)) (K (fst xa) (snd xa))) zs) w) ->
  sync d (map (fun x => lift (f x) (H x)) xs) w <-> sync d' (map (fun x => lift (a <- f x;; b <- g x a;; Ok (a, b)) (fun ab => K x (fst ab) (snd ab))) xs) w.
Proof.
  intros NE Q. rewrite (sync_lift (D := buffer T) (W := file) [] (@concat _) breduce d f H xs w).
  assert (NC : forall ys : list A, length ys = length xs -> combine xs ys <> []) by (intros ys L; destruct xs, ys; try discriminate; congruence).
  assert (M : forall ys, map_res f xs = Ok ys -> map (fun xa => lift (g (fst xa) (snd xa)) (K (fst xa) (snd xa))) (combine xs ys) =
    map (fun x => lift (a <- f x;; b <- g x a;; Ok (a, b)) (fun ab => K x (fst ab) (snd ab))) xs).
  { intros ys E. apply map_res_ok_iff in E. clear -E. induction E as [|x y xs ys H0 E IH]; cbn [combine map fst snd]; [reflexivity|]. rewrite IH, H0. f_equal. cbn [bind]. destruct (g x y) as [b|e| |]; reflexivity. }
  split.
  - intros (ys & E & H1). apply Q in H1; [|apply NC, (map_res_length _ _ _ E)]. rewrite <- (M ys E). exact H1.
  - intros H1. assert (Z : exists ys, map_res f xs = Ok ys).
    { apply (sync_lift (D := buffer T) (W := file) [] (@concat _) breduce d' (fun x => a <- f x;; b <- g x a;; Ok (a, b)) (fun x ab => K x (fst ab) (snd ab)) xs w) in H1.
      destruct H1 as (abs & E & _). apply (map_res_bind f (fun x a => b <- g x a;; Ok (a, b))) in E. destruct E as (ys & E & _). eauto. }
    destruct Z as (ys & E). exists ys. split; [exact E|]. apply Q; [apply NC, (map_res_length _ _ _ E)|]. rewrite (M ys E). exact H1.
Qed.

Variables (fsX : string -> option node) (fsS : string -> option (sdds T)) (fsH : string -> option (h5file T)).
Definition world (sd : seeds (T:=T)) : World T := world_of fsS fsH (fst sd) (snd sd).
Lemma seen_nil sd : seen fsS fsH [] sd = world sd.
Proof. reflexivity. Qed.

Section Parse.
Context {X : Type} (sd : X -> seeds (T:=T)) (root : node) (K : X -> pin -> (string -> res T) -> pr).
Notation pnext := (@parsed T _).
Definition C4 x els pb (tr : beam T * ptrack) s : pr := pause (Read (fun ws : list file => parse (@p_observers T NT CT (seen fsS fsH ws (sd x)) root) s (fun obs _ =>
  pause (pause (pause (K x (PIN els (fst tr) (pbLogs pb) (pbProbe pb) (ptWatch (snd tr)) (ptFel (snd tr)) obs) (mesh_dt (seenH fsH ws)))))))).
Definition C3 x els pb s : pr := pause (parse (p_tracking root (pbBeam pb)) s (fun tr s => C4 x els pb tr s)).
Definition C2 x els s : pr := pause (Read (fun ws : list file => parse (@p_beam T NT CT (seen fsS fsH ws (sd x)) root) s (fun pb s => C3 x els pb s))).
Definition C1 x s : pr := parse (@p_lattice T NT CT (seen fsS fsH [] (sd x)) root) s (fun els s => C2 x els s).
Definition s0 : pst T := PST [] [] [].
Definition F2 (x : X) := a <- parsed (p_new consts root) s0;; b <- parsed (@p_lattice T NT CT (world (sd x)) root) (snd a);; Ok (a, b).
Definition F3 (x : X) := a <- F2 x;; b <- parsed (@p_beam T NT CT (world (sd x)) root) (snd (snd a));; Ok (a, b).
Definition F4 (x : X) := a <- F3 x;; b <- parsed (p_tracking root (pbBeam (fst (snd a)))) (snd (snd a));; Ok (a, b).
Definition F5 (x : X) := a <- F4 x;; b <- parsed (@p_observers T NT CT (world (sd x)) root) (snd (snd a));; Ok (a, b).
Definition made (v : unit * pst T * (list (element T) * pst T) * (pbeam * pst T) * (beam T * ptrack * pst T) * (list pobs * pst T)) : pin :=
  PIN (fst (snd (fst (fst (fst v))))) (fst (fst (snd (fst v)))) (pbLogs (fst (snd (fst (fst v))))) (pbProbe (fst (snd (fst (fst v)))))
    (ptWatch (snd (fst (snd (fst v))))) (ptFel (snd (fst (snd (fst v))))) (fst (snd v)).
Lemma made_input x : snd (@parse_input T NT TT CT (world (sd x)) consts root) = (v <- F5 x;; Ok (made v)).
Proof.
  unfold parse_input, p_program, F5, F4, F3, F2, parsed, pbind. fold s0.
  destruct (p_new consts root s0) as [s1 [u|e| |]]; cbn [fst snd bind]; try reflexivity.
  destruct (p_lattice root s1) as [s2 [els|e| |]]; cbn [fst snd bind]; try reflexivity.
  destruct (p_beam root s2) as [s3 [pb|e| |]]; cbn [fst snd bind]; try reflexivity.
  destruct (p_tracking root (pbBeam pb) s3) as [s4 [tr|e| |]]; cbn [fst snd bind]; try reflexivity.
  destruct (p_observers root s4) as [s5 [obs|e| |]]; cbn [fst snd bind]; try reflexivity.
Qed.
Lemma parse_sync xs w : xs <> [] ->
  sync 7 (map (fun x => node_parse consts fsS fsH (sd x) root (K x)) xs) w <->
  exists ins, map_res (fun x => snd (@parse_input T NT TT CT (world (sd x)) consts root)) xs = Ok ins /\
    sync 0 (map (fun xi => K (fst xi) (snd xi) (mesh_dt fsH)) (combine xs ins)) w.
Proof.
  intros NE. unfold node_parse. rewrite sync_read.
  match goal with |- _ <-> ?B => change (sync 7 (map (fun x => lift (parsed (p_new consts root) s0) (fun r => C1 x (snd r))) xs) w <-> B) end.
  rewrite (sync_bind 7 7 (fun x => parsed (p_new consts root) s0) (fun x a => parsed (@p_lattice T NT CT (world (sd x)) root) (snd a)) (fun x r => C1 x (snd r)) (fun x a r => C2 x (fst r) (snd r)) xs w NE).
  2:{ intros zs _. reflexivity. }
  match goal with |- _ <-> ?B => change (sync 7 (map (fun x => lift (F2 x) (fun v => C2 x (fst (snd v)) (snd (snd v)))) xs) w <-> B) end.
  rewrite (sync_bind 7 5 F2 (fun x v => parsed (@p_beam T NT CT (world (sd x)) root) (snd (snd v))) (fun x v => C2 x (fst (snd v)) (snd (snd v))) (fun x v r => C3 x (fst (snd v)) (fst r) (snd r)) xs w NE).
  2:{ intros zs NZ. unfold C2. rewrite (sync_pause 7 (fun xa => Read (fun ws : list file => parse (@p_beam T NT CT (seen fsS fsH ws (sd (fst xa))) root) (snd (snd (snd xa))) (fun pb s => C3 (fst xa) (fst (snd (snd xa))) pb s))) zs w NZ).
      cbn [pred]. rewrite sync_read. reflexivity. }
  match goal with |- _ <-> ?B => change (sync 5 (map (fun x => lift (F3 x) (fun v => C3 x (fst (snd (fst v))) (fst (snd v)) (snd (snd v)))) xs) w <-> B) end.
  rewrite (sync_bind 5 3 F3 (fun x v => parsed (p_tracking root (pbBeam (fst (snd v)))) (snd (snd v))) (fun x v => C3 x (fst (snd (fst v))) (fst (snd v)) (snd (snd v))) (fun x v r => C4 x (fst (snd (fst v))) (fst (snd v)) (fst r) (snd r)) xs w NE).
  2:{ intros zs NZ. unfold C3. rewrite (sync_pause 5 (fun xa => parse (p_tracking root (pbBeam (fst (snd (snd xa))))) (snd (snd (snd xa))) (fun tr s => C4 (fst xa) (fst (snd (fst (snd xa)))) (fst (snd (snd xa))) tr s)) zs w NZ).
      reflexivity. }
  match goal with |- _ <-> ?B => change (sync 3 (map (fun x => lift (F4 x) (fun v => C4 x (fst (snd (fst (fst v)))) (fst (snd (fst v))) (fst (snd v)) (snd (snd v)))) xs) w <-> B) end.
  rewrite (sync_bind 3 1 F4 (fun x v => parsed (@p_observers T NT CT (world (sd x)) root) (snd (snd v))) (fun x v => C4 x (fst (snd (fst (fst v)))) (fst (snd (fst v))) (fst (snd v)) (snd (snd v)))
    (fun x v r => pause (pause (pause (K x (made (v, r)) (mesh_dt fsH))))) xs w NE).
  2:{ intros zs NZ. unfold C4. rewrite (sync_pause 3 (fun xa => Read (fun ws : list file => parse (@p_observers T NT CT (seen fsS fsH ws (sd (fst xa))) root) (snd (snd (snd xa))) (fun obs _ =>
        pause (pause (pause (K (fst xa) (PIN (fst (snd (fst (fst (snd xa))))) (fst (fst (snd (snd xa)))) (pbLogs (fst (snd (fst (snd xa))))) (pbProbe (fst (snd (fst (snd xa))))) (ptWatch (snd (fst (snd (snd xa))))) (ptFel (snd (fst (snd (snd xa))))) obs) (mesh_dt (seenH fsH ws)))))))) zs w NZ).
      cbn [pred]. rewrite sync_read. reflexivity. }
  match goal with |- _ <-> ?B => change (sync 1 (map (fun x => lift (F5 x) (fun v => pause (pause (pause (K x (made (fst v, snd v)) (mesh_dt fsH)))))) xs) w <-> B) end.
  replace (map (fun x => lift (F5 x) (fun v => pause (pause (pause (K x (made (fst v, snd v)) (mesh_dt fsH)))))) xs) with
    (map (fun x => lift (snd (@parse_input T NT TT CT (world (sd x)) consts root)) (fun i => pause (pause (pause (K x i (mesh_dt fsH)))))) xs).
  2:{ apply map_ext. intros x. rewrite made_input. destruct (F5 x) as [[v r]|e| |]; reflexivity. }
  rewrite (sync_lift (D := buffer T) (W := file) [] (@concat _) breduce 1 (fun x => snd (@parse_input T NT TT CT (world (sd x)) consts root)) (fun x i => pause (pause (pause (K x i (mesh_dt fsH))))) xs w).
  assert (Q : forall ins, length ins = length xs -> sync 1 (map (fun xi => pause (pause (pause (K (fst xi) (snd xi) (mesh_dt fsH))))) (combine xs ins)) w <-> sync 0 (map (fun xi => K (fst xi) (snd xi) (mesh_dt fsH)) (combine xs ins)) w).
  { intros ins L. assert (NC : combine xs ins <> []) by (destruct xs, ins; try discriminate; congruence).
    rewrite (sync_pause 1 (fun xi => pause (pause (K (fst xi) (snd xi) (mesh_dt fsH)))) _ w NC). cbn [pred]. rewrite (sync_pause 0 (fun xi => pause (K (fst xi) (snd xi) (mesh_dt fsH))) _ w NC). cbn [pred].
    rewrite (sync_pause 0 (fun xi => K (fst xi) (snd xi) (mesh_dt fsH)) _ w NC). reflexivity. }
  split; intros (ins & E & H); exists ins; (split; [exact E|]); apply (Q ins (map_res_length _ _ _ E)), H.
Qed.
End Parse.

(* ---- the whole program ---- *)
Lemma combine_inputs (sds : list (seeds (T:=T))) (ins : list pin) : forall zs : list Z, length zs = length sds -> length ins = length sds ->
  forall g : Z -> pin -> pr, map (fun xi => g (fst (fst xi)) (snd xi)) (combine (combine zs sds) ins) = map (fun ri => g (fst ri) (snd ri)) (combine zs ins).
Proof.
  revert ins. induction sds as [|s sds IH]; intros [|i ins] [|z zs] L1 L2 g; cbn in *; try discriminate; [reflexivity|]. f_equal. apply IH; congruence.
Qed.
Theorem program_sync prog fn rest doc root sds w : sds <> [] -> fsX fn = Some doc -> child doc "teufel" = Some root ->
  sync 10 (processes absBF consts fsX fsS fsH (prog :: fn :: rest) sds) w <->
  program absBF consts (map world sds) (mesh_dt fsH) root = Ok w.
Proof.
  intros NE EX EC. unfold processes, node_program. set (xs := combine (zseq 0 (length sds)) sds).
  assert (LX : length xs = length sds) by (unfold xs; rewrite combine_length, TraceProofs2.zseq_length; lia).
  assert (NX : xs <> []) by (destruct xs; [|discriminate]; destruct sds; [congruence|discriminate]).
  set (P := Z.of_nat (length sds)).
  set (K := fun (ws : list file) (rs : Z * seeds (T:=T)) => match seenX fsX ws fn with
      | Some doc => match child doc "teufel" with
          | Some root => node_parse consts fsS fsH (snd rs) root (node_main absBF P (fst rs) (fel_names root))
          | None => Died (FThrow IOexc)
          end
      | None => Died (FExit 1)
      end).
  match goal with |- _ <-> ?B => change (sync 10 (map (fun rs => barrier (pause (Read (fun ws : list file => K ws rs)))) xs) w <-> B) end.
  rewrite (sync_barrier1 10 (fun rs => pause (Read (fun ws : list file => K ws rs))) xs w NX). cbn [pred].
  rewrite (sync_pause 9 (fun rs => Read (fun ws : list file => K ws rs)) xs w NX). cbn [pred]. rewrite sync_read.
  etransitivity; [apply (sync_moved_eq 7 _ (fun rs : Z * seeds (T:=T) => node_parse consts fsS fsH (snd rs) root (node_main absBF P (fst rs) (fel_names root))) xs w);
    intros rs; unfold K; change (seenX (T:=T) fsX [] fn) with (fsX fn); rewrite EX, EC; reflexivity|].
  etransitivity; [exact (parse_sync snd root (fun rs => node_main absBF P (fst rs) (fel_names root)) xs w NX)|].
  unfold program. rewrite map_res_map.
  replace (map_res (fun x : Z * seeds (T:=T) => snd (@parse_input T NT TT CT (world (snd x)) consts root)) xs) with (map_res (fun a => snd (@parse_input T NT TT CT (world a) consts root)) sds).
  2:{ rewrite <- (map_res_map (fun a => snd (@parse_input T NT TT CT (world a) consts root)) snd xs). f_equal. unfold xs. symmetry. apply map_snd_combine. rewrite TraceProofs2.zseq_length. reflexivity. }
  assert (Q : forall ins, map_res (fun a => snd (@parse_input T NT TT CT (world a) consts root)) sds = Ok ins ->
    sync 0 (map (fun xi => node_main absBF P (fst (fst xi)) (fel_names root) (snd xi) (mesh_dt fsH)) (combine xs ins)) w <-> main_files absBF (mesh_dt fsH) (fel_names root) ins = Ok w).
  { intros ins E. assert (L : length ins = length sds) by (apply (map_res_length _ _ _ E)).
    unfold xs. rewrite (combine_inputs sds ins (zseq 0 (length sds)) (TraceProofs2.zseq_length _ _) L (fun r i => node_main absBF P r (fel_names root) i (mesh_dt fsH))). unfold P. rewrite <- L.
    destruct ins as [|i0 is]. { destruct sds; [congruence|discriminate]. }
    apply main_sync. destruct sds as [|sd0 sds]; [congruence|]. cbn [map_res] in E. bget E as i Hi. bget E as l Hl. apply Ok_inj in E. injection E as E1 E2. subst i l.
    destruct (@parse_input T NT TT CT (world sd0) consts root) as [st r] eqn:EP. cbn [snd] in Hi. subst r.
    assert (G : forall sd i, snd (@parse_input T NT TT CT (world sd) consts root) = Ok i -> same_but_coordinates i0 i).
    { intros sd i Hd. destruct (C76_random_numbers T NT TT CT (world sd0) (world sd) consts root st i0) as (s2 & b & E2 & S); [repeat split|exact EP|]. rewrite E2 in Hd. apply Ok_inj in Hd. subst i. exact S. }
    constructor; [apply (G sd0); rewrite EP; reflexivity|]. apply map_res_ok_iff in Hl. clear -Hl G. induction Hl as [|sd i l k H Hl IH]; constructor; eauto. }
  split.
  - intros (ins & E & H). rewrite E. cbn [bind]. apply (Q ins E), H.
  - intros H. bget H as ins E. exists ins. split; [exact E|]. apply (Q ins E), H.
Qed.

(* ---- where files are read and written ---- *)
Notation tame := (tame (D := buffer T) (W := file)).
Lemma tame_lift {A} d b (r : res A) (k : A -> pr) : (forall a, r = Ok a -> tame d b (k a)) -> tame d b (lift r k).
Proof. destruct r as [a|e| |]; intros H; cbn [lift]; [apply H; reflexivity|apply T_died..]. Qed.
Lemma tame_barrier d b p : tame (pred d) b p -> tame d b (barrier p).
Proof. intros H. unfold barrier. apply T_call; [reflexivity|]. intros _. exact H. Qed.
Lemma tame_pause d b p : tame (pred (pred d)) b p -> tame d b (pause p).
Proof. intros H. unfold pause. apply tame_barrier, tame_barrier, H. Qed.
Lemma tame_root_do {A} d r (o : A) m k : (forall a, tame d (r =? 0)%Z (k a)) -> tame d (r =? 0)%Z (root_do r o m k).
Proof. intros H. unfold root_do. destruct (r =? 0)%Z; [apply tame_lift; intros a _|]; apply H. Qed.
Lemma tame_writes fs p : tame 0 true p -> tame 0 true (writes fs p).
Proof. intros H. induction fs as [|f fs IH]; cbn [writes]; [exact H|]. apply T_write, IH. Qed.
Lemma tame_files r fs p : tame 0 (r =? 0)%Z p -> tame 0 (r =? 0)%Z (root_files r fs p).
Proof.
  intros H. unfold root_files. destruct (r =? 0)%Z; [|exact H]. induction fs as [|f fs IH]; cbn [make_files]; [exact H|]. apply tame_lift. intros l _. apply tame_writes, IH.
Qed.
Lemma tame_steps r t ws (k : nd -> list (logger T) -> pr) todo : (forall n ls, tame 0 (r =? 0)%Z (k n ls)) -> forall step n ls, tame 0 (r =? 0)%Z (node_steps absBF r t ws todo step n ls k).
Proof.
  intros Hk. induction todo as [|todo IH]; intros step n ls; cbn [node_steps]; [apply Hk|].
  apply tame_lift. intros tb _. apply tame_barrier. apply tame_lift. intros n1 _. apply T_call; [discriminate|]. intros G. apply tame_lift. intros n2 _. apply tame_barrier.
  apply tame_root_do. intros ls1. apply tame_files. apply tame_lift. intros n3 _. apply IH.
Qed.
Lemma tame_observe r mdt n l p : tame 0 (r =? 0)%Z p -> tame 0 (r =? 0)%Z (node_observe r mdt n l p).
Proof.
  intros H. induction l as [|[[o src] fn] l IH]; cbn [node_observe]; [exact H|].
  apply tame_barrier, tame_lift. intros o1 _. apply tame_barrier, tame_lift. intros zb _. apply tame_barrier, tame_lift. intros part _. apply T_call; [discriminate|]. intros sum.
  apply tame_barrier, tame_files, tame_pause, IH.
Qed.
Lemma tame_end b : tame 0 b node_end.
Proof. unfold node_end. apply tame_barrier, T_call; [discriminate|]. intros _. apply T_done. Qed.
Lemma tame_main P r names i mdt : tame 0 (r =? 0)%Z (node_main absBF P r names i mdt).
Proof.
  unfold node_main. apply tame_lift. intros [[tn t] m] _. apply tame_lift. intros mb _. apply T_call; [discriminate|]. intros bc. apply tame_lift. intros bm _.
  apply tame_pause, tame_pause, tame_lift. intros n _. apply tame_root_do. intros pl. apply tame_pause, tame_files, tame_root_do. intros ls. apply tame_lift. intros n1 _.
  apply tame_steps. intros n2 ls2. apply tame_pause, tame_pause, tame_files, tame_pause, tame_observe, tame_end.
Qed.
Lemma tame_parse sd root r (K : pin -> (string -> res T) -> pr) : (forall i m, tame 0 (r =? 0)%Z (K i m)) -> tame 7 (r =? 0)%Z (node_parse consts fsS fsH sd root K).
Proof.
  intros H. unfold node_parse, parse. apply T_read, tame_lift. intros a _. apply tame_lift. intros b _. apply tame_pause. cbn [pred]. apply T_read, tame_lift. intros c _. apply tame_pause. cbn [pred].
  apply tame_lift. intros e _. apply tame_pause. cbn [pred]. apply T_read, tame_lift. intros f _. apply tame_pause, tame_pause, tame_pause. apply H.
Qed.
Lemma tame_program argv P r sd : tame 10 (r =? 0)%Z (node_program absBF consts fsX fsS fsH argv P r sd).
Proof.
  unfold node_program. apply tame_barrier. cbn [pred]. apply tame_pause. cbn [pred]. destruct argv as [|a [|fn rest]]; [apply T_died..|]. apply T_read.
  destruct (seenX fsX [] fn) as [doc|]; [|apply T_died]. destruct (child doc "teufel") as [root|]; [|apply T_died]. apply tame_parse. intros i m. apply tame_main.
Qed.
Lemma processes_nth argv (sds : list (seeds (T:=T))) r p : nth_error (processes absBF consts fsX fsS fsH argv sds) r = Some p ->
  exists sd, p = node_program absBF consts fsX fsS fsH argv (Z.of_nat (length sds)) (Z.of_nat r) sd.
Proof.
  unfold processes. generalize (Z.of_nat (length sds)). intros P. rewrite nth_error_map.
  assert (G : forall a r x, nth_error (combine (zseq a (length sds)) sds) r = Some x -> fst x = (a + Z.of_nat r)%Z).
  { induction sds as [|s l IH]; intros a [|k] x E; cbn [length zseq combine nth_error] in E; try discriminate.
    - inversion E. cbn. lia.
    - apply IH in E. lia. }
  destruct (nth_error (combine (zseq 0 (length sds)) sds) r) as [x|] eqn:E; [|discriminate]. intros H. inversion H. exists (snd x). rewrite (G _ _ _ E). reflexivity.
Qed.
Lemma tame_processes argv (sds : list (seeds (T:=T))) r p : nth_error (processes absBF consts fsX fsS fsH argv sds) r = Some p -> tame 10 (r =? 0) p.
Proof.
  intros E. destruct (processes_nth _ _ _ _ E) as (sd & ->). replace (r =? 0) with (Z.of_nat r =? 0)%Z; [apply tame_program|].
  destruct r as [|r]; [reflexivity|]. apply Z.eqb_neq. lia.
Qed.
End Hybrid.
