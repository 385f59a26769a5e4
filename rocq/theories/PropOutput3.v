(* C75: when the FEL interaction writes a file. *)
From Coq Require Import ZArith String Reals List Lia Lra Bool.
From Verif Require Import Base BaseFacts Num VecModel VecFacts ParticleModel TraceModel TraceProofs2 RetardModel BunchModel BeamSpec ElementModel DriverModel DriverProofs DistProofs
  ObserverModel ObserverSpec ObserverProofs ObserverProofs2 ObserverProofs6 PropagateModel PropagateProofs5 SddsModel FelModel FelSpec FelProofs FelProofs2 FelProofs3 FelProofs4 FelProofs5 LoggerModel LoggerSpec LoggerProofs2
  OutputModel OutputSpec OutputProofs OutputProofs2 OutputProofs3 OutputProofs4 PropFel PropOutput.
Import ListNotations.
Local Open Scope Z_scope.

(* An interaction without a log writes no file, after any steps (fel1d.cpp:361); one with a log never
   ends without one. *)
Theorem C75_no_file : forall (T : Type) (NT : Num T) (TT : Trans T) dt N pos prop pol log zR w0 zw sd (f0 f1 : fel T) bm0 bms gs,
  fel_new dt N pos prop pol log zR w0 zw sd = Ok f0 -> fel_init bm0 f0 = Ok f1 -> fel_states bms f1 = Ok gs ->
  (log = None <-> fel_file (last gs f1) = Ok None).
Proof.
  intros T NT TT dt N pos prop pol log zR w0 zw sd f0 f1 bm0 bms gs H0 H1 H.
  pose proof (states_header _ _ _ H) as Hd. rewrite (init_header _ _ _ H1), (new_header _ _ _ _ _ _ _ _ _ _ _ H0) in Hd.
  unfold header in Hd. injection Hd as A1 A2 A3 A4 A5 A6 A7 A8 A9. unfold fel_file, fel_output. rewrite A8, A9. split.
  - intros ->. reflexivity.
  - destruct log as [s|]; [|reflexivity]. intros K. bget K as o Ho. bget Ho as z Hz. bget Ho as e He. bget Ho as j Hj. okinj Ho. discriminate K.
Qed.
Print Assumptions C75_no_file.
Example C75_no_file_ex : forall TT : Trans R, exists (f0 f1 : fel R) bm0,
  fel_new 1%R 5 vzero (V 0 0 1)%R (V 1 0 0)%R None 1%R 1%R 0%R None = Ok f0 /\ fel_init bm0 f0 = Ok f1 /\ fel_states [] f1 = Ok [].
Proof.
  intros TT. destruct (new_exists (1 : R)%R 5 vzero (V 0 0 1)%R (V 1 0 0)%R None 1%R 1%R 0%R None ltac:(unfold int_max; lia)) as [f0 H0].
  pose proof H0 as K. apply new_wf in K; [|unfold int_max; lia]. destruct K as (W & N0 & D & T0 & S0 & _ & _ & _ & _ & _ & St & Js & E & O & EP).
  destruct (init_exists f0 (no_beam 0 1%R) W ltac:(lia) ltac:(rewrite S0; unfold int_min, int_max; lia) ltac:(cbn [no_beam bmdt]; congruence)) as [f1 H1].
  exists f0, f1, (no_beam 0 1%R). split; [exact H0|]. split; [exact H1|reflexivity].
Qed.
