(* C77: an exception from the output of an observer does not end the program, undefined behaviour is not
   caught. *)
From Coq Require Import ZArith String List.
From Verif Require Import Base Num VecModel TraceModel BunchModel ElementModel ObserverModel SddsModel OutputModel ParserModel ProgramModel.
Import ListNotations.
Local Open Scope res_scope.

(* the outcome of the output of one observer, from that of its generateOutput (r) *)
Definition as_caught {T A} (fn : string) (kind : A -> outfile T) (r : res A) (out : res (list (string * outfile T))) : Prop :=
  (forall f, r = Ok f <-> out = Ok [(fn, kind f)]) /\ ((exists e, r = Throw e) <-> out = Ok []) /\
  (r = UB <-> out = UB) /\ (r = Loop <-> out = Loop) /\ (forall e, out <> Throw e).

Lemma caught_as {T A} fn (kind : A -> outfile T) (r : res A) : (forall a b, kind a = kind b -> a = b) -> as_caught fn kind r (caught fn (f <- r;; Ok (kind f))).
Proof.
  intros K. unfold as_caught, caught. destruct r as [f|e| |]; cbn [bind]; repeat split; try discriminate; try (intros [? ?]; discriminate).
  - intros H. apply (f_equal (fun r => match r with Ok a => a | _ => f end)) in H. cbn in H. subst. reflexivity.
  - intros H. injection H as H. apply K in H. congruence.
  - intros _. eauto.
Qed.

Theorem C77_output_outcomes : forall (T : Type) (NT : Num T) mdt (bm : beam T) k fn,
  (forall s : screen T, as_caught fn FHdf5 (screen_file s) (obs_file mdt bm k fn (OScreen s))) /\
  (forall s : point T, as_caught fn FSdds (point_file s) (obs_file mdt bm k fn (OPoint s))) /\
  (forall (s : mesh T) dt, mdt fn = Ok dt -> as_caught fn FHdf5 (mesh_file s dt) (obs_file mdt bm k fn (OMesh s))) /\
  (forall s : snapshot T, as_caught fn FHdf5 (snap_file s None) (obs_file mdt bm LatticeObservation fn (OSnap s))) /\
  (forall (s : snapshot T) st, snap_store (snt s) bm = Ok st ->
     as_caught fn FHdf5 (snap_file s (Some st)) (obs_file mdt bm BeamObservation fn (OSnap s))).
Proof.
  intros T NT mdt bm k fn. assert (K1 : forall a b, @FHdf5 T a = FHdf5 b -> a = b) by congruence.
  assert (K2 : forall a b, @FSdds T a = FSdds b -> a = b) by congruence.
  split; [|split; [|split; [|split]]].
  - intros s. apply caught_as, K1.
  - intros s. apply caught_as, K2.
  - intros s dt H. cbn [obs_file]. rewrite H. cbn [bind]. apply caught_as, K1.
  - intros s. cbn [obs_file bind]. apply caught_as, K1.
  - intros s st H. cbn [obs_file]. rewrite H. cbn [bind]. apply caught_as, K1.
Qed.
Print Assumptions C77_output_outcomes.
(* the particles of a beam without bunches are stored *)
Example C77_output_outcomes_ex : forall (T : Type) (NT : Num T) t dt, exists st, snap_store t (BM [] 0 dt TRACKING_VAY) = Ok st.
Proof. intros. eexists. reflexivity. Qed.
