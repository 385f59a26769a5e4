(* What the log files are to contain. *)
From Coq Require Import ZArith List Bool.
From Verif Require Import Base Num VecModel ParticleModel BunchModel BeamSpec DriverSpec.
Import ListNotations.

(* the steps 0, s, 2s, ... not exceeding k *)
Definition due (s k : nat) : list nat := map (fun i => (i * s)%nat) (seq 0 (S (k / s))).

Section S.
Context {T : Type} {NT : Num T} {L : Type} (Fof : L -> field_fn T) (linit lstep : beam T -> L -> res L).
(* bunch ib of the beam recorded in step j of the tracking; tracked particles *)
Definition bunch_in_step (NOTS : Z) (lat : L) (bm : beam T) (ib : nat) (j : nat) (b : bunch T) : Prop :=
  exists s, sim_run Fof linit lstep NOTS lat bm j = Ok s /\ nth_error (bmB (sMaster s)) ib = Some b.
Definition master_in_step (NOTS : Z) (lat : L) (bm : beam T) (j : nat) (m : beam T) : Prop :=
  exists s, sim_run Fof linit lstep NOTS lat bm j = Ok s /\ sMaster s = m.
Definition tracked_in_step (NOTS : Z) (lat : L) (bm : beam T) (j : nat) (ps : list (particle T)) : Prop :=
  exists s, sim_run Fof linit lstep NOTS lat bm j = Ok s /\ sTracked s = ps.

(* one line of the parameter file *)
Definition parameter_row (bf : T) (b : bunch T) : list T :=
  let x := bunch_avgPosition b in let m := bunch_avgMomentum b in let r := bunch_rmsPosition b in
  [bunch_avgTime b; vx x; vy x; vz x; vx m; vy m; vz m; bunch_avgGamma b; bunch_delta b; vx r; vy r; vz r; bf].
(* position and momentum of the first n particles *)
Definition coordinates (n : nat) (b : list (particle T)) : list T :=
  flat_map (fun p => [vx (pX p); vy (pX p); vz (pX p); vx (pP p); vy (pP p); vz (pP p)]) (firstn n b).
(* all properties of the first n particles *)
Definition probe_values (n : nat) (b : list (particle T)) : list T := flat_map probe_record (firstn n b).
End S.

(* a run of at most NOTS steps on the given number of nodes, as in the theorems on the
   parallel program *)
Definition valid_run {T} {NT : Num T} (NOTS : Z) (bm0 : beam T) (bms : list (beam T)) (k : nat) : Prop :=
  let P := Z.of_nat (length bms) in
  hd_error bms = Some bm0 /\ Forall (same_input bm0) bms /\
  (count bm0 + P <= int_max)%Z /\ (10 * (share (count bm0) P * P) <= int_max)%Z /\
  (0 <= NOTS < int_max)%Z /\ (Z.of_nat k <= NOTS)%Z.
(* number of particles tracked by the first node *)
Definition first_share {T} {NT : Num T} (bm0 : beam T) (P : Z) : Z := Z.min (share (count bm0) P) (count bm0).
