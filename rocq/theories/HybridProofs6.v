(* The processes of the program make the same collective operations. *)
From Coq Require Import ZArith String List Bool Arith Lia.
From Verif Require Import Base BaseFacts Num VecModel ParticleModel TraceModel RetardModel BunchModel BeamSpec BeamProofs DriverModel LoggerModel
  ElementModel FelModel ObserverModel SddsModel PropagateModel OutputModel ParserModel ParserSpec2 PropParser2 ProgramModel ProgramProofs3 OutputProofs2
  CommModel CommProofs CommProofs2 CommProofs3 CommProofs4 HybridModel HybridProofs HybridProofs2 HybridProofs3 HybridProofs4 HybridProofs5.
Import ListNotations.
Local Open Scope list_scope.
Local Open Scope res_scope.

Section Hybrid.
Context {T : Type} {NT : Num T} {TT : Trans T} {CT : Calc T}.
Variable absBF : bunch T -> T -> T.
Variable consts : cenv T.
Notation pin := (pinput (T:=T)).
Notation nd := (pnode T (lattice_T T)).
Notation file := (string * outfile T)%type.
Notation pr := (proc (buffer T) file).
Notation makes := (makes (D := buffer T) (W := file)).
Variables (fsX : string -> option node) (fsS : string -> option (sdds T)) (fsH : string -> option (h5file T)).

Lemma makes_lift {A} cs (r : res A) (k : A -> pr) : (forall a, r = Ok a -> makes cs (k a)) -> makes cs (lift r k).
Proof. destruct r as [a|e| |]; intros H; cbn [lift]; [apply H; reflexivity|apply M_died..]. Qed.
Lemma makes_barrier cs p : makes cs p -> makes (CBarrier :: cs) (barrier p).
Proof. intros H. unfold barrier. apply M_call. intros _. exact H. Qed.
Lemma makes_pause cs p : makes cs p -> makes (CBarrier :: CBarrier :: cs) (pause p).
Proof. intros H. unfold pause. apply makes_barrier, makes_barrier, H. Qed.
Lemma makes_root_do {A} cs r (o : A) m k : (forall a, makes cs (k a)) -> makes cs (root_do r o m k).
Proof. intros H. unfold root_do. destruct (r =? 0)%Z; [apply makes_lift; intros a _|]; apply H. Qed.
Lemma makes_writes cs fs p : makes cs p -> makes cs (writes fs p).
Proof. intros H. induction fs as [|f fs IH]; cbn [writes]; [exact H|]. apply M_write, IH. Qed.
Lemma makes_files cs r fs p : makes cs p -> makes cs (root_files r fs p).
Proof.
  intros H. unfold root_files. destruct (r =? 0)%Z; [|exact H]. induction fs as [|f fs IH]; cbn [make_files]; [exact H|]. apply makes_lift. intros l _. apply makes_writes, IH.
Qed.

Definition step_ops (t : Z) : list coll := [CBarrier; CAllgather t; CBarrier].
Definition obs_count (o : observer T) : Z := match obs_size o with Ok z => u32 z | _ => 0%Z end.
Definition obs_ops (o : pobs (T:=T)) : list coll := [CBarrier; CBarrier; CBarrier; CReduce (obs_count (fst (fst o))); CBarrier; CBarrier; CBarrier].
Fixpoint times {A} (n : nat) (l : list A) : list A := match n with O => [] | S k => l ++ times k l end.
Definition end_ops : list coll := [CBarrier; CFinalize].
Lemma makes_steps cs r t ws (k : nd -> list (logger T) -> pr) todo : (forall n ls, makes cs (k n ls)) -> forall step n ls, makes (times todo (step_ops t) ++ cs) (node_steps absBF r t ws todo step n ls k).
Proof.
  intros Hk. induction todo as [|todo IH]; intros step n ls; cbn [node_steps times step_ops app]; [apply Hk|].
  apply makes_lift. intros tb _. apply makes_barrier, makes_lift. intros n1 _. apply M_call. intros G. apply makes_lift. intros n2 _. apply makes_barrier.
  apply makes_root_do. intros ls1. apply makes_files, makes_lift. intros n3 _. apply IH.
Qed.
Lemma makes_observe cs r mdt n l p : makes cs p -> makes (flat_map obs_ops l ++ cs) (node_observe r mdt n l p).
Proof.
  intros H. induction l as [|[[o src] fn] l IH]; cbn [node_observe flat_map]; [exact H|].
  unfold obs_ops at 1. cbn [fst snd app].
  apply makes_barrier, makes_lift. intros o1 E1. bget E1 as s Es. apply size_kept in E1. apply makes_barrier, makes_lift. intros zb E2. bget E2 as z Ez. bget E2 as b Eb. apply Ok_inj in E2. subst zb. cbn [fst snd].
  apply makes_barrier, makes_lift. intros part _. rewrite E1 in Ez. unfold obs_count. rewrite Ez. apply M_call. intros sum.
  apply makes_barrier, makes_files, makes_pause, IH.
Qed.
Lemma makes_end : makes end_ops node_end.
Proof. unfold node_end, end_ops. apply makes_barrier, M_call. intros _. apply M_done. Qed.
Definition main_ops (P : Z) (i : pin) : list coll :=
  match driver_sizes P (inBeam i) with
  | Ok (tn, t, m) => CBcast m :: times 6 [CBarrier] ++ times (Z.to_nat (bmNOTS (inBeam i))) (step_ops t) ++ times 6 [CBarrier] ++ flat_map obs_ops (inObs i) ++ end_ops
  | _ => end_ops
  end.
Lemma makes_main P r names i mdt : makes (main_ops P i) (node_main absBF P r names i mdt).
Proof.
  unfold node_main, main_ops. apply makes_lift. intros [[tn t] m] ->. apply makes_lift. intros mb _. apply M_call. intros bc. apply makes_lift. intros bm _.
  cbn [times app]. apply makes_pause, makes_pause, makes_lift. intros n _. apply makes_root_do. intros pl. apply makes_pause, makes_files, makes_root_do. intros ls. apply makes_lift. intros n1 _.
  apply makes_steps. intros n2 ls2. apply makes_pause, makes_pause, makes_files, makes_pause, makes_observe, makes_end.
Qed.
Lemma ops_same P (a b : pin) : same_but_coordinates a b -> main_ops P a = main_ops P b.
Proof.
  intros S. unfold main_ops. rewrite (sizes_same P _ _ (coordinates_structure a b S)). destruct S as (_ & _ & _ & _ & _ & EO & EN & _). rewrite EO, EN. reflexivity.
Qed.
Lemma makes_parse cs sd root (K : pin -> (string -> res T) -> pr) : (forall i, snd (@parse_input T NT TT CT (world fsS fsH sd) consts root) = Ok i -> makes cs (K i (mesh_dt fsH))) ->
  makes (times 12 [CBarrier] ++ cs) (node_parse consts fsS fsH sd root K).
Proof.
  intros H. pose proof (made_input consts fsS fsH (fun sd => sd) root sd) as E. unfold F5, F4, F3, F2 in E.
  unfold node_parse, parse. cbn [times app]. apply M_read, makes_lift. intros a Ea. apply makes_lift. intros b Eb. apply makes_pause, M_read, makes_lift. intros c Ec. apply makes_pause, makes_lift. intros d Ed.
  apply makes_pause, M_read, makes_lift. intros e Ee. apply makes_pause, makes_pause, makes_pause.
  change (parsed (@p_lattice T NT CT (world fsS fsH sd) root) (snd a) = Ok b) in Eb. change (parsed (@p_beam T NT CT (world fsS fsH sd) root) (snd b) = Ok c) in Ec.
  change (parsed (@p_observers T NT CT (world fsS fsH sd) root) (snd d) = Ok e) in Ee. change (parsed (p_new consts root) s0 = Ok a) in Ea.
  rewrite Ea in E. cbn [bind] in E. rewrite Eb in E. cbn [bind fst snd] in E. rewrite Ec in E. cbn [bind fst snd] in E. rewrite Ed in E. cbn [bind fst snd] in E. rewrite Ee in E. cbn [bind] in E. exact (H _ E).
Qed.
Definition all_ops (argv : list string) (P : Z) (sd : seeds (T:=T)) : list coll :=
  times 15 [CBarrier] ++
  match argv with
  | _ :: fn :: _ => match fsX fn with Some doc => match child doc "teufel" with
      Some root => match snd (@parse_input T NT TT CT (world fsS fsH sd) consts root) with Ok i => main_ops P i | _ => end_ops end | None => end_ops end | None => end_ops end
  | _ => end_ops
  end.
Lemma ops_end argv P sd : exists h, all_ops argv P sd = h ++ [CFinalize].
Proof.
  assert (E : exists h, end_ops = h ++ [CFinalize]) by (exists [CBarrier]; reflexivity).
  assert (A : forall a b, (exists h, b = h ++ [CFinalize]) -> exists h, a ++ b = h ++ [CFinalize]) by (intros a b (h & ->); exists (a ++ h); apply app_assoc).
  unfold all_ops, main_ops. apply A. destruct argv as [|x [|fn rest]]; auto. destruct (fsX fn) as [doc|]; auto. destruct (child doc "teufel") as [root|]; auto.
  destruct (snd (parse_input consts root)) as [i|e| |]; auto. destruct (driver_sizes P (inBeam i)) as [[[tn t] m]|e| |]; auto.
  rewrite app_comm_cons. do 4 apply A. exact E.
Qed.
Lemma makes_program argv P r sd0 sd : makes (all_ops argv P sd0) (node_program absBF consts fsX fsS fsH argv P r sd).
Proof.
  unfold node_program, all_ops. change (times 15 [CBarrier]) with (CBarrier :: CBarrier :: CBarrier :: times 12 [CBarrier]). cbn [app]. apply makes_barrier, makes_pause. destruct argv as [|a [|fn rest]]; [apply M_died..|]. apply M_read.
  change (seenX (T:=T) fsX [] fn) with (fsX fn). destruct (fsX fn) as [doc|]; [|apply M_died]. destruct (child doc "teufel") as [root|]; [|apply M_died]. apply makes_parse. intros i Ei.
  destruct (@parse_input T NT TT CT (world fsS fsH sd) consts root) as [st r1] eqn:EP. cbn [snd] in Ei. subst r1.
  destruct (C76_random_numbers T NT TT CT (world fsS fsH sd) (world fsS fsH sd0) consts root st i) as (s2 & b & E2 & S); [repeat split|exact EP|]. rewrite E2. cbn [snd].
  rewrite <- (ops_same P i b S). apply makes_main.
Qed.
Lemma makes_processes argv (sd0 : seeds (T:=T)) sds p : In p (processes absBF consts fsX fsS fsH argv sds) -> makes (all_ops argv (Z.of_nat (length sds)) sd0) p.
Proof.
  intros I. apply In_nth_error in I. destruct I as (r & E). destruct (processes_nth absBF consts fsX fsS fsH _ _ _ _ E) as (sd & ->). apply makes_program.
Qed.
End Hybrid.
