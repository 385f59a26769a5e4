(* C88: the processes of the program, run side by side. *)
From Coq Require Import ZArith String List Bool Arith Lia Floats.
From Verif Require TraceProofs2.
From Verif Require Import Base Num NumFloat VecModel ParticleModel TraceModel BunchModel DriverModel LoggerModel ElementModel ObserverModel SddsModel OutputModel
  ParserModel ProgramModel CommModel CommProofs CommProofs2 CommProofs4 CommProofs5 HybridModel HybridProofs5 HybridProofs6 PropParser PropProgram.
Import ListNotations.
Local Open Scope string_scope.
Local Open Scope list_scope.

(* any steps of the processes, in any order *)
Definition runs {T} {NT : Num T} := @run (buffer T) (string * outfile T) [] (@concat (option T)) (breduce (T:=T)).
Definition steps_to {T} {NT : Num T} := @step (buffer T) (string * outfile T) [] (@concat (option T)) (breduce (T:=T)).

Lemma processes_ne {T} {NT : Num T} {TT : Trans T} {CT : Calc T} absBF consts fsX fsS fsH argv (sds : list (seeds (T:=T))) : sds <> [] -> processes absBF consts fsX fsS fsH argv sds <> [].
Proof. intros NE E. apply (f_equal (@length _)) in E. unfold processes in E. rewrite map_length, combine_length, TraceProofs2.zseq_length in E. destruct sds; [congruence|]. cbn in E. lia. Qed.

(* What a process finds under a name: the last file written under this name, otherwise what
   was there before. *)
Theorem C88_found : forall (T : Type) A (pick : outfile T -> option A) before ws fn o fn',
  found pick before [] fn = before fn /\ found pick before (ws ++ [(fn, o)]) fn = pick o /\
  (fn' <> fn -> found pick before (ws ++ [(fn, o)]) fn' = found pick before ws fn').
Proof.
  intros T A pick before ws fn o fn'. unfold found. split; [reflexivity|]. rewrite rev_app_distr. cbn [rev app find fst]. split.
  - rewrite String.eqb_refl. reflexivity.
  - intros H. destruct (String.eqb_spec fn fn'); [congruence|]. reflexivity.
Qed.
Print Assumptions C88_found.
(* A process finds a written table only as a table, a written HDF5 file only as such a file, and
   no file written by the program as an input document. *)
Theorem C88_found_kinds : forall (T : Type) (fsX : string -> option node) (fsS : string -> option (sdds T)) (fsH : string -> option (h5file T))
    (ws : list (string * outfile T)) fn d f,
  seenS fsS (ws ++ [(fn, FSdds d)]) fn = Some d /\ seenH fsH (ws ++ [(fn, FSdds d)]) fn = None /\ seenX fsX (ws ++ [(fn, FSdds d)]) fn = None /\
  seenS fsS (ws ++ [(fn, FHdf5 f)]) fn = None /\ seenH fsH (ws ++ [(fn, FHdf5 f)]) fn = Some f /\ seenX fsX (ws ++ [(fn, FHdf5 f)]) fn = None /\
  seenS fsS [] fn = fsS fn /\ seenH fsH [] fn = fsH fn /\ seenX (T:=T) fsX [] fn = fsX fn.
Proof.
  intros T fsX fsS fsH ws fn d f. unfold seenS, seenH, seenX.
  assert (H : forall A pick before o, @found T A pick before (ws ++ [(fn, o)]) fn = pick o) by (intros; apply C88_found; exact fn).
  rewrite !H. repeat split; reflexivity.
Qed.
Print Assumptions C88_found_kinds.

(* If the program as a whole (ProgramModel.v: all processes in step) writes the files, then
   every run of the processes, in whatever order they proceed, has a bounded length, never
   gets stuck, matches all collective operations and ends with these files, in this order. *)
Theorem C88_runs : forall (T : Type) (NT : Num T) (TT : Trans T) (CT : Calc T) (absBF : bunch T -> T -> T) (consts : cenv T)
    (fsX : string -> option node) (fsS : string -> option (sdds T)) (fsH : string -> option (h5file T)) prog fn rest doc root (sds : list (seeds (T:=T))) files,
  sds <> [] -> fsX fn = Some doc -> child doc "teufel" = Some root ->
  program absBF consts (map (fun sd => world_of fsS fsH (fst sd) (snd sd)) sds) (mesh_dt fsH) root = Ok files ->
  exists N, forall n g, runs n (start (processes absBF consts fsX fsS fsH (prog :: fn :: rest) sds)) g ->
    ~ mismatch g /\ n <= N /\ (finished g <-> n = N) /\ (finished g -> written g = files) /\ (~ finished g -> exists g', steps_to g g').
Proof.
  intros T NT TT CT absBF consts fsX fsS fsH prog fn rest doc root sds files NE EX EC H.
  apply (program_sync absBF consts fsX fsS fsH prog fn rest doc root sds files NE EX EC) in H. destruct H as (hist & FA).
  exact (all_runs _ _ _ _ _ _ _ FA (processes_ne absBF consts fsX fsS fsH (prog :: fn :: rest) sds NE)).
Qed.
Print Assumptions C88_runs.

(* Whatever the input, also one which is refused or fails: the processes never disagree about
   the next collective operation, its kind or the number of values. *)
Theorem C88_agree : forall (T : Type) (NT : Num T) (TT : Trans T) (CT : Calc T) (absBF : bunch T -> T -> T) (consts : cenv T)
    (fsX : string -> option node) (fsS : string -> option (sdds T)) (fsH : string -> option (h5file T)) argv (sds : list (seeds (T:=T))) n g,
  runs n (start (processes absBF consts fsX fsS fsH argv sds)) g -> ~ mismatch g.
Proof.
  intros T NT TT CT absBF consts fsX fsS fsH argv sds n g H. destruct sds as [|sd0 sds].
  - assert (L : ranks g = []).
    { remember (start _) as g0 eqn:E in H. induction H as [g|n g g1 g2 H IH S]; [subst; reflexivity|]. specialize (IH E).
      destruct S as [g1 r h c s k Hq|g1 r h x c s k Hq Hn|g1 r h f p Hq|g1 r h k Hq]; rewrite IH in Hq; destruct r; discriminate. }
    intros (q & q' & I & _). rewrite L in I. destruct I.
  - apply (agree _ _ _ 10 _ _ (tame_processes absBF consts fsX fsS fsH argv (sd0 :: sds))
      (makes_processes absBF consts fsX fsS fsH argv sd0 (sd0 :: sds)) n g H).
Qed.
Print Assumptions C88_agree.

(* as long as no process has failed, some process can go on or all have returned from main *)
Theorem C88_alive : forall (T : Type) (NT : Num T) (TT : Trans T) (CT : Calc T) (absBF : bunch T -> T -> T) (consts : cenv T)
    (fsX : string -> option node) (fsS : string -> option (sdds T)) (fsH : string -> option (h5file T)) argv (sds : list (seeds (T:=T))) n g,
  sds <> [] -> runs n (start (processes absBF consts fsX fsS fsH argv sds)) g ->
  (forall q f, In q (ranks g) -> code q <> Died f) -> finished g \/ exists g', steps_to g g'.
Proof.
  intros T NT TT CT absBF consts fsX fsS fsH argv sds n g NE H. destruct sds as [|sd0 sds]; [congruence|].
  exact (alive _ _ _ 10 _ _ (tame_processes absBF consts fsX fsS fsH argv (sd0 :: sds))
    (makes_processes absBF consts fsX fsS fsH argv sd0 (sd0 :: sds)) n g H).
Qed.
Print Assumptions C88_alive.

(* No run goes on for ever, whatever the input and the order; where it ends all processes have
   returned from main or one has failed. *)
Theorem C88_ends : forall (T : Type) (NT : Num T) (TT : Trans T) (CT : Calc T) (absBF : bunch T -> T -> T) (consts : cenv T)
    (fsX : string -> option node) (fsS : string -> option (sdds T)) (fsH : string -> option (h5file T)) argv (sds : list (seeds (T:=T))),
  sds <> [] ->
  (forall f : nat -> system (buffer T) (string * outfile T), f 0 = start (processes absBF consts fsX fsS fsH argv sds) -> ~ (forall n, steps_to (f n) (f (S n)))) /\
  (forall n g, runs n (start (processes absBF consts fsX fsS fsH argv sds)) g -> (forall g', ~ steps_to g g') ->
     finished g \/ exists q, In q (ranks g) /\ exists f, code q = Died f).
Proof.
  intros T NT TT CT absBF consts fsX fsS fsH argv sds NE. split; [intros f _; apply no_infinite_run|].
  intros n g H ST. assert (DEC : (exists q, In q (ranks g) /\ exists f, code q = Died f) \/ (forall q f, In q (ranks g) -> code q <> Died f)).
  { induction (ranks g) as [|q l IH]; [right; intros q f []|]. destruct IH as [(q' & I & E)|IH]; [left; exists q'; split; [right; exact I|exact E]|].
    destruct (code q) as [|f|c d k|w p|k] eqn:E; [| left; exists q; split; [left; reflexivity|exists f; exact E] | | |]; (right; intros q' f' [<-|I]; [congruence|apply IH; exact I]). }
  destruct DEC as [DE|ND]; [right; exact DE|left]. destruct (C88_alive T NT TT CT absBF consts fsX fsS fsH argv sds n g NE H ND) as [F|(g' & S)]; [exact F|destruct (ST g' S)].
Qed.
Print Assumptions C88_ends.

(* if all processes have returned from main, then the files are those of the program as a whole *)
Theorem C88_only : forall (T : Type) (NT : Num T) (TT : Trans T) (CT : Calc T) (absBF : bunch T -> T -> T) (consts : cenv T)
    (fsX : string -> option node) (fsS : string -> option (sdds T)) (fsH : string -> option (h5file T)) prog fn rest doc root (sds : list (seeds (T:=T))) n g,
  sds <> [] -> fsX fn = Some doc -> child doc "teufel" = Some root ->
  runs n (start (processes absBF consts fsX fsS fsH (prog :: fn :: rest) sds)) g -> finished g ->
  program absBF consts (map (fun sd => world_of fsS fsH (fst sd) (snd sd)) sds) (mesh_dt fsH) root = Ok (written g).
Proof.
  intros T NT TT CT absBF consts fsX fsS fsH prog fn rest doc root sds n g NE EX EC H F.
  apply (program_sync absBF consts fsX fsS fsH prog fn rest doc root sds (written g) NE EX EC).
  apply (finished_sync _ _ _ 10 _ (tame_processes absBF consts fsX fsS fsH (prog :: fn :: rest) sds) (processes_ne absBF consts fsX fsS fsH (prog :: fn :: rest) sds NE) n g H F).
  exact (C88_agree T NT TT CT absBF consts fsX fsS fsH (prog :: fn :: rest) sds n g H).
Qed.
Print Assumptions C88_only.

(* no file is written before all processes have read all their input: once a file is written
   no process looks at a file any more *)
Theorem C88_input_first : forall (T : Type) (NT : Num T) (TT : Trans T) (CT : Calc T) (absBF : bunch T -> T -> T) (consts : cenv T)
    (fsX : string -> option node) (fsS : string -> option (sdds T)) (fsH : string -> option (h5file T)) argv (sds : list (seeds (T:=T))) n g q k,
  sds <> [] -> runs n (start (processes absBF consts fsX fsS fsH argv sds)) g -> written g <> [] -> In q (ranks g) -> code q <> Read k.
Proof.
  intros T NT TT CT absBF consts fsX fsS fsH argv sds n g q k NE H NW Iq EC.
  destruct (run_inv2 _ _ _ 10 _ (tame_processes absBF consts fsX fsS fsH argv sds) _ _ H) as (L & R & QW & _).
  specialize (QW NW q Iq). apply In_nth_error in Iq. destruct Iq as (r & Er). destruct (nth_ex (processes absBF consts fsX fsS fsH argv sds) r) as (p0 & Ep). { apply nth_lt in Er. rewrite <- L. exact Er. }
  destruct (R r p0 q Ep Er) as (_ & _ & _ & _ & WT & TM). unfold left in TM. destruct (waiting q).
  - destruct (WT eq_refl) as (h & c & s & k' & E & _). congruence.
  - replace (10 - (length (entered q) - 0)) with 0 in TM by lia. rewrite EC in TM. inversion TM.
Qed.
Print Assumptions C88_input_first.

(* a process which has returned from main has called MPI_Finalize, as its last operation *)
Theorem C88_finalize : forall (T : Type) (NT : Num T) (TT : Trans T) (CT : Calc T) (absBF : bunch T -> T -> T) (consts : cenv T)
    (fsX : string -> option node) (fsS : string -> option (sdds T)) (fsH : string -> option (h5file T)) argv (sds : list (seeds (T:=T))) n g q,
  sds <> [] -> runs n (start (processes absBF consts fsX fsS fsH argv sds)) g -> In q (ranks g) -> code q = Done ->
  exists h, map fst (entered q) = h ++ [CFinalize] /\ waiting q = false.
Proof.
  intros T NT TT CT absBF consts fsX fsS fsH argv sds n g q NE H Iq D. destruct sds as [|sd0 sds]; [congruence|].
  pose proof (run_on_way _ _ _ 10 _ _ (tame_processes absBF consts fsX fsS fsH argv (sd0 :: sds)) (makes_processes absBF consts fsX fsS fsH argv sd0 (sd0 :: sds)) n g H) as F.
  rewrite Forall_forall in F. specialize (F q Iq). unfold on_way in F. destruct (waiting q); [destruct F as (? & ? & ? & ? & ? & _ & E & _); congruence|].
  destruct F as (c1 & E1 & M1). rewrite D in M1. apply makes_done in M1. subst c1. rewrite app_nil_r in E1. rewrite <- E1.
  destruct (ops_end consts fsX fsS fsH argv (Z.of_nat (length (sd0 :: sds))) sd0) as (h & E). exists h. auto.
Qed.
Print Assumptions C88_finalize.

(* Without an input file on the command line, or with one which cannot be read, no process ever
   calls MPI_Finalize or returns from main ... *)
Theorem C88_exit : forall (T : Type) (NT : Num T) (TT : Trans T) (CT : Calc T) (absBF : bunch T -> T -> T) (consts : cenv T)
    (fsX : string -> option node) (fsS : string -> option (sdds T)) (fsH : string -> option (h5file T)) argv (sds : list (seeds (T:=T))) n g q,
  (length argv < 2 \/ exists fn, nth_error argv 1 = Some fn /\ fsX fn = None) ->
  sds <> [] -> runs n (start (processes absBF consts fsX fsS fsH argv sds)) g -> In q (ranks g) ->
  ~ In CFinalize (map fst (entered q)) /\ code q <> Done.
Proof.
  intros T NT TT CT absBF consts fsX fsS fsH argv sds n g q HA NE H Iq. destruct sds as [|sd0 sds]; [congruence|].
  pose proof (tame_processes absBF consts fsX fsS fsH argv (sd0 :: sds)) as TA.
  assert (MA : forall cs' p, In p (processes absBF consts fsX fsS fsH argv (sd0 :: sds)) -> makes ([CBarrier; CBarrier; CBarrier] ++ cs') p).
  { intros cs' p I. apply In_nth_error in I. destruct I as (r & E). destruct (processes_nth absBF consts fsX fsS fsH _ _ _ _ E) as (sd & ->).
    unfold node_program. cbn [app]. apply makes_barrier, makes_pause. destruct argv as [|a [|fn rest]]; [apply M_died..|]. apply M_read.
    change (seenX (T:=T) fsX [] fn) with (fsX fn). destruct HA as [HA|(fn' & E1 & E2)]; [cbn in HA; lia|]. cbn in E1. inversion E1; subst fn'. rewrite E2. apply M_died. }
  split.
  - intros I. pose proof (entered_only _ _ _ 10 _ _ TA (MA []) n g q CFinalize H Iq I) as A. cbn in A. destruct A as [A|[A|[A|[]]]]; discriminate.
  - intros D. pose proof (run_on_way _ _ _ 10 _ _ TA (MA [CFinalize]) n g H) as F1. pose proof (run_on_way _ _ _ 10 _ _ TA (MA []) n g H) as F2. rewrite Forall_forall in F1, F2. specialize (F1 q Iq). specialize (F2 q Iq).
    unfold on_way in F1, F2. destruct (waiting q); [destruct F1 as (? & ? & ? & ? & ? & _ & E & _); congruence|]. destruct F1 as (c1 & E1 & M1), F2 as (c2 & E2 & M2). rewrite D in M1, M2. apply makes_done in M1, M2. subst c1 c2.
    rewrite <- E2 in E1. discriminate.
Qed.
Print Assumptions C88_exit.
(* ... but all of them leave the program by exit(1), after MPI_Init *)
Theorem C88_exit_refuted : forall (T : Type) (NT : Num T) (TT : Trans T) (CT : Calc T) (absBF : bunch T -> T -> T) (consts : cenv T)
    (fsX : string -> option node) (fsS : string -> option (sdds T)) (fsH : string -> option (h5file T)) prog (sd : seeds (T:=T)),
  exists n g, runs n (start (processes absBF consts fsX fsS fsH [prog] [sd])) g /\ map code (ranks g) = [Died (FExit 1)] /\
    map (fun q => map fst (entered q)) (ranks g) = [[CBarrier; CBarrier; CBarrier]].
Proof.
  intros T NT TT CT absBF consts fsX fsS fsH prog sd. exists 6.
  eexists. split.
  - unfold runs. eapply R_step; [eapply R_step; [eapply R_step; [eapply R_step; [eapply R_step; [eapply R_step; [apply R_none|]|]|]|]|]|].
    + eapply (S_enter _ _ _ _ 0). reflexivity.
    + eapply (S_leave _ _ _ _ 0 []); [reflexivity|]. intros [|o] q E _; [|destruct o; discriminate]. inversion E. cbn. lia.
    + eapply (S_enter _ _ _ _ 0). reflexivity.
    + eapply (S_leave _ _ _ _ 0 [(CBarrier, [])]); [reflexivity|]. intros [|o] q E _; [|destruct o; discriminate]. inversion E. cbn. lia.
    + eapply (S_enter _ _ _ _ 0). reflexivity.
    + eapply (S_leave _ _ _ _ 0 [(CBarrier, []); (CBarrier, [])]); [reflexivity|]. intros [|o] q E _; [|destruct o; discriminate]. inversion E. cbn. lia.
  - split; reflexivity.
Qed.
Print Assumptions C88_exit_refuted.

(* the document of C77 run by two processes, with floating point numbers *)
Definition ex_seed (k : Z) : seeds (T:=float) := (fun _ _ => nZ k, fun _ _ _ _ => nZ k).
Example C88_ex : forall (TT : Trans float) absBF, exists files f1 f2 f3 f4 f5,
  @program float NumF TT (toy_calc float NumF) absBF [] (map (fun sd => world_of (fun _ => None) (fun _ => None) (fst sd) (snd sd)) [ex_seed 0; ex_seed 1]) (mesh_dt (fun _ => None)) run_doc = Ok files /\
  files = [("s", f1); ("w", f2); ("l", f3); ("p", f4); ("o", f5)] /\ child (Node "" [] [run_doc]) "teufel" = Some run_doc.
Proof. intros TT absBF. eexists _, _, _, _, _, _. split; [vm_compute; reflexivity|]. split; reflexivity. Qed.
