(* C63: a bunch of equal particles.  C74, C85: parameters and columns of the tables, in the order in which they are defined in the file. *)
From Coq Require Import ZArith Lia List String Floats.
From Verif Require Import Base BaseFacts Num NumFloat VecModel ParticleModel ParticleSpec BunchModel TraceModel ObserverModel SddsModel LoggerModel OutputModel.
Import ListNotations.
Local Open Scope string_scope.
Local Open Scope Z_scope.

Theorem C74_columns : forall (T : Type) (NT : Num T),
  (forall (s : point T) d, point_file s = Ok d ->
     map fst (sdPar d) = ["NumberTimeSteps"; "t0"; "dt"] /\ map fst (sdCol d) = ["t"; "Ex"; "Ey"; "Ez"; "Bx"; "By"; "Bz"]) /\
  (forall (b : bunch T) l d, plog_file b l = Ok d ->
     map fst (sdPar d) = (["NumberTimeSteps"; "NumberParticles"; "TotalCharge"] ++ (match plFreq l with Some _ => ["BunchingFrequency"] | None => [] end))%list /\
     map fst (sdCol d) = ["t"; "x_av"; "y_av"; "z_av"; "bgx_av"; "bgy_av"; "bgz_av"; "gamma"; "delta"; "x_rms"; "y_rms"; "z_rms"; "BF"]).
Proof.
  intros T NT. split.
  - intros s d H. unfold point_file in H. cbv zeta in H. bget H as fs Hfs. apply Ok_inj in H. subst d. split; reflexivity.
  - intros b l d H. unfold plog_file in H. bget H as fs Hfs. apply Ok_inj in H. subst d. cbn [sdPar sdCol]. split; [destruct (plFreq l); reflexivity|]. cbn. reflexivity.
Qed.
Print Assumptions C74_columns.

(* the tables of watch points *)
Theorem C74_watch_columns : forall (T : Type) (NT : Num T),
  let columns := ["t"; "x"; "y"; "z"; "px"; "py"; "pz"; "p"; "xp"; "yp"; "gamma"] in
  (forall b : bunch T, map fst (sdPar (bunch_watch b)) = ["NumberOfParticles"] /\ map fst (sdCol (bunch_watch b)) = columns) /\
  (forall (bm : beam T) d, beam_watch bm = Ok d -> map fst (sdPar d) = ["NumberOfParticles"; "Charge"] /\ map fst (sdCol d) = columns).
Proof.
  intros T NT columns. split.
  - intros b. split; reflexivity.
  - intros bm d H. unfold beam_watch in H. bget H as n Hn. apply Ok_inj in H. subst d. split; reflexivity.
Qed.
Print Assumptions C74_watch_columns.
Example C74_columns_ex : exists d, point_file (@PO float vzero (tr_new (nZ 0) (nZ 1) 2)) = Ok d.
Proof. eexists. reflexivity. Qed.

(* Bunch(N,charge,mass): N particles of this charge and mass, at rest at the origin and without trajectory *)
Theorem C63_equal_particles : forall (T : Type) (NT : Num T) N (charge mass : T), 0 <= N ->
  bunch_NOP (bunch_new N charge mass) = N /\
  forall p, In p (bunch_new N charge mass) -> pCharge p = charge /\ pMass p = mass /\ pt p = nZ 0 /\ pX p = vzero /\ pP p = vzero /\ trajectory p = [].
Proof.
  intros T NT N charge mass H. split.
  - unfold bunch_NOP, bunch_new. rewrite repeat_length, Z2Nat.id by lia. reflexivity.
  - intros p Hp. apply repeat_spec in Hp. subst p. repeat split.
Qed.
Print Assumptions C63_equal_particles.
Example C63_equal_ex : 0 <= 100.
Proof. lia. Qed.
