(* C58: watch files can be read back.  C61: HDF5 watch files. *)
From Coq Require Import Reals ZArith String List Lra Lia Floats.
From Flocq Require Core.Raux.
From Verif Require Import Base BaseFacts Num NumFloat VecModel ParticleModel BunchModel RetardProofs SddsModel SddsSpec SddsProofs SddsProofs2.
Import ListNotations.
Local Open Scope R_scope.
Local Open Scope string_scope.
Local Open Scope list_scope.

(* one particle at (1,2,3) with momentum (0,0,10) *)
Definition one_beam : beam R := BM [[initTrajectory 0 (V 1 2 3) (V 0 0 10) (V 0 0 0) (new_particle (-1) 1)]] 0 1 TRACKING_VAY.
Definition one_beam_f : beam float := BM [[initTrajectory 0%float (V 1 2 3)%float (V 0 0 10)%float (V 0 0 0)%float (new_particle (-1)%float 1%float)]] 0 1%float TRACKING_VAY.

(* C58, what holds: the file of any beam (in any arithmetic) has one row for each particle with
   its time, position, momentum, slopes and gamma, and the number of rows as a parameter *)
Theorem C58_written_partial : forall (T : Type) (NT : Num T) (bm : beam T), (Z.of_nat (length (beam_particles bm)) <= int_max)%Z ->
  exists d, beam_watch bm = Ok d /\
  sdRows d = Z.of_nat (length (beam_particles bm)) /\
  named (sdPar d) "NumberOfParticles" = Some (SLong (sdRows d)) /\
  has_column d "t" pt (beam_particles bm) /\
  has_column d "x" (fun p => vx (pX p)) (beam_particles bm) /\
  has_column d "y" (fun p => vy (pX p)) (beam_particles bm) /\
  has_column d "z" (fun p => vz (pX p)) (beam_particles bm) /\
  has_column d "px" (fun p => vx (pP p)) (beam_particles bm) /\
  has_column d "py" (fun p => vy (pP p)) (beam_particles bm) /\
  has_column d "pz" (fun p => vz (pP p)) (beam_particles bm) /\
  has_column d "p" (fun p => vnorm (pP p)) (beam_particles bm) /\
  has_column d "xp" (fun p => ndiv (vx (pP p)) (vz (pP p))) (beam_particles bm) /\
  has_column d "yp" (fun p => ndiv (vy (pP p)) (vz (pP p))) (beam_particles bm) /\
  has_column d "gamma" (fun p => nsqrt (nadd (nZ 1) (vabs2 (pP p)))) (beam_particles bm).
Proof. intros T NT bm H. destruct (watch_ok bm H) as [d W]. exists d. split; [exact W|]. apply watch_columns; exact W. Qed.
Print Assumptions C58_written_partial.
Example C58_written_ex : (Z.of_nat (length (beam_particles one_beam)) <= int_max)%Z. Proof. discriminate. Qed.

(* the file of a single bunch has the same columns and no charge *)
Theorem C58_bunch : forall (T : Type) (NT : Num T) (b : bunch T),
  sdPar (bunch_watch b) = [("NumberOfParticles"%string, SLong (Z.of_nat (length b)))] /\
  forall bm d, beam_watch bm = Ok d -> beam_particles bm = b ->
    sdRows (bunch_watch b) = sdRows d /\ sdCol (bunch_watch b) = sdCol d.
Proof.
  intros T NT b. split; [reflexivity|]. intros bm d W E. unfold beam_watch in W.
  destruct (beam_NOP bm) as [n| | |] eqn:En; cbn [bind] in W; try discriminate. apply Ok_inj in W. subst d. cbn [sdRows sdCol bunch_watch].
  split; [|rewrite <- E; reflexivity]. rewrite <- E. symmetry. apply (beam_NOP_val bm), En.
Qed.
Print Assumptions C58_bunch.

(* C58 refuted: no file of a beam or of a bunch has the name "Particles" the reader asks for;
   reading any of them back gives an empty bunch *)
Theorem C58_names_refuted : forall (T : Type) (NT : Num T) (fs : string -> option (sdds T)) fn dir d,
  (Z.of_nat (String.length fn) < 99)%Z -> fs fn = Some d ->
  (exists bm, beam_watch bm = Ok d) \/ (exists b, d = bunch_watch b) ->
  named (sdPar d) "Particles" = None /\ sdds_read fs fn dir = Ok (0%Z, []).
Proof.
  intros T NT fs fn dir d L F H.
  assert (N : named (sdPar d) "Particles" = None).
  { destruct H as [[bm W]|[b ->]]; [exact (watch_names bm d W)|reflexivity]. }
  split; [exact N|]. eapply read_nameless; eassumption.
Qed.
Print Assumptions C58_names_refuted.
Example C58_names_ex : exists d, beam_watch one_beam = Ok d /\ sdds_read (fun _ => Some d) "watch.sdds" (V 0 0 1) = Ok (0%Z, []).
Proof.
  destruct (watch_ok one_beam) as [d W]; [discriminate|]. exists d. split; [exact W|].
  apply (C58_names_refuted R NumR (fun _ => Some d) "watch.sdds" (V 0 0 1) d); [reflexivity|reflexivity|left; exists one_beam; exact W].
Qed.

(* C58 refuted: the charge in the file is the total charge in Coulomb times the elementary
   charge (in Coulomb): never the total charge, unless that is zero *)
Theorem C58_charge_refuted : forall (bm : beam R) d, beam_watch bm = Ok d -> exists q,
  named (sdPar d) "Charge" = Some (SDouble q) /\ q = nqe * beam_charge bm /\ (beam_charge bm <> 0 -> q <> beam_charge bm).
Proof.
  intros bm d W. exists (nqe * beam_charge bm). split; [exact (watch_charge bm d W)|]. split; [reflexivity|].
  intros N E. pose proof nqe_small as S. apply N. revert S E. generalize (nqe (T:=R)), (beam_charge bm). intros e c S E.
  assert (c * (1 - e) = 0) by lra. apply Rmult_integral in H. lra.
Qed.
Print Assumptions C58_charge_refuted.
Example C58_charge_ex : exists d, beam_watch one_beam_f = Ok d /\ exists q, named (sdPar d) "Charge" = Some (SDouble q) /\
  PrimFloat.ltb (PrimFloat.abs q) 1e-37%float = true /\ PrimFloat.ltb 1.6e-19%float (PrimFloat.abs (beam_charge one_beam_f)) = true.
Proof. eexists. split; [vm_compute; reflexivity|]. eexists. split; [reflexivity|]. vm_compute. auto. Qed.

(* what the reader does with a file it understands: n particles of total charge -q, each of
   which arrives in the plane through the origin perpendicular to dir at the time given in the
   file (relative to the mean) with the transverse coordinates, slopes and momentum of the file *)
Theorem C58_reader : forall fs fn dir d n q xs xps ys yps ps ts,
  (Z.of_nat (String.length fn) < 99)%Z -> fs fn = Some d -> readable d n q xs xps ys yps ps ts -> (1 <= n)%Z ->
  dir <> V 0 0 0 -> Forall (fun p => 0 <= p) ps ->
  exists b ex ey es, sdds_read fs fn dir = Ok (n, b) /\ Z.of_nat (length b) = n /\
    frame_along dir ex ey es /\ left_handed ex ey es /\ bunch_charge b = - q /\
    forall i x xp y yp p t, nth_error xs i = Some x -> nth_error xps i = Some xp -> nth_error ys i = Some y -> nth_error yps i = Some yp ->
      nth_error ps i = Some p -> nth_error ts i = Some t ->
      exists c, nth_error b i = Some c /\ arrives ex ey es (mean ts) x xp y yp p t c /\ getCharge c = - (q / IZR n) /\ pMass c = - pCharge c.
Proof.
  intros fs fn dir d n q xs xps ys yps ps ts L F RD N D P.
  pose proof (read_ok fs fn dir d n q _ _ _ _ _ _ L F RD N) as E.
  pose proof (frame_ok dir D) as FR. destruct (sdds_frame dir) as [[ex ey] es] eqn:EF.
  destruct FR as [FA LH].
  exists (map (read_particle dir n q xs xps ys yps ps ts) (seq 0 (Z.to_nat n))), ex, ey, es.
  split; [exact E|]. split; [rewrite map_length, seq_length; lia|]. split; [exact FA|]. split; [exact LH|].
  split; [apply read_charge; exact N|].
  intros i x xp y yp p t X XP Y YP PP TT.
  assert (I : (i < Z.to_nat n)%nat).
  { destruct RD as [_ _ _ _ _ _ _ _ _ HL]. apply Forall_cons_iff in HL. destruct HL as [HL _].
    assert (i < length xs)%nat by (apply nth_error_Some; congruence). lia. }
  exists (read_particle dir n q xs xps ys yps ps ts i). split.
  { apply map_nth_error. rewrite (nth_error_nth' _ 0%nat) by (rewrite seq_length; exact I). rewrite seq_nth by exact I. reflexivity. }
  unfold read_particle. rewrite EF.
  rewrite (nth_error_nth _ _ 0 X), (nth_error_nth _ _ 0 XP), (nth_error_nth _ _ 0 Y), (nth_error_nth _ _ 0 YP), (nth_error_nth _ _ 0 PP), (nth_error_nth _ _ 0 TT).
  split.
  { apply (particle_arrives dir); [exact FA|]. rewrite Forall_forall in P. apply P. eapply nth_error_In; exact PP. }
  split.
  - unfold getCharge, sdds_particle, initTrajectory. cbv zeta. cbn [pCharge new_particle].
    pose proof nqe_pos as Q. assert (0 < IZR n) by (apply IZR_lt; lia). revert Q.
    change (nmul (nopp (q / nqe / IZR n)) nqe = - (q / IZR n)) with (- (q / nqe / IZR n) * nqe = - (q / IZR n)).
    generalize (nqe (T:=R)). intros e Q. field. split; lra.
  - unfold sdds_particle, initTrajectory. cbv zeta. cbn [pCharge pMass new_particle].
    change (q / nqe / IZR n = - - (q / nqe / IZR n)). ring.
Qed.
Print Assumptions C58_reader.
(* numbers of another type in the file are converted: the number of particles is rounded towards
   zero, a charge may be an integer *)
Theorem C58_converted : forall (x : R) n z rows cols rest fn dir, 0 <= x -> IZR n <= x < IZR n + 1 -> (n <= int_max)%Z ->
  sdds_read (fun _ => Some (SD (("Particles", SDouble x) :: ("Charge", SLong z) :: rest) rows cols)) fn dir =
  sdds_read (fun _ => Some (SD (("Particles", SLong n) :: ("Charge", SDouble (IZR z)) :: rest) rows cols)) fn dir.
Proof.
  intros x n z rows cols rest fn dir Hx Hn Hi. unfold sdds_read. destruct (99 <=? _)%Z; [reflexivity|].
  assert (F : Raux.Zfloor x = n).
  { apply Raux.Zfloor_imp. rewrite plus_IZR. exact Hn. }
  assert (N0 : (0 <= n)%Z) by (assert (0 < IZR n + 1) as Q by lra; rewrite <- plus_IZR in Q; apply lt_IZR in Q; lia).
  unfold sdds_long at 1. cbn [named sdPar String.eqb Ascii.eqb Bool.eqb].
  unnum. destruct (Rleb_spec 0 x) as [_|?]; [|lra]. rewrite F.
  assert (I : to_int (Some n) = Ok n).
  { unfold to_int, in_int. replace (andb (int_min <=? n) (n <=? int_max))%Z with true; [reflexivity|]. symmetry. apply Bool.andb_true_iff. unfold int_min in *. split; apply Z.leb_le; lia. }
  rewrite I. cbn [bind]. reflexivity.
Qed.
Print Assumptions C58_converted.
Example C58_converted_ex : 0 <= 5 / 2 /\ IZR 2 <= 5 / 2 < IZR 2 + 1 /\ (2 <= int_max)%Z.
Proof. unfold int_max. split; [lra|]. split; [lra|lia]. Qed.
Definition two_rows : sdds R := SD [("Particles", SLong 2); ("Charge", SDouble 1)] 2
  [("x", [1; 2]); ("xp", [0; 0]); ("y", [3; 4]); ("yp", [0; 0]); ("p", [10; 10]); ("t", [0; 1])].
Example C58_reader_ex : readable two_rows 2 1 [1; 2] [0; 0] [3; 4] [0; 0] [10; 10] [0; 1] /\ (1 <= 2)%Z /\
  V 0 0 1 <> V 0 0 0 /\ Forall (fun p => 0 <= p) [10; 10].
Proof.
  split; [constructor; try reflexivity; repeat constructor|]. split; [lia|].
  split; [intros E; apply (f_equal vz) in E; cbn in E; lra|repeat constructor; lra].
Qed.

(* C58 refuted even with the right names in the file: a beam of particles at the same time with
   pz>0 comes back mirrored (y and py reversed) and flattened into the plane z=0 *)
Theorem C58_mirrored : forall (bm : beam R) d fs fn q t,
  beam_watch bm = Ok d -> (Z.of_nat (String.length fn) < 99)%Z -> beam_particles bm <> [] ->
  Forall (fun p => pt p = t /\ 0 < vz (pP p)) (beam_particles bm) ->
  fs fn = Some (renamed (sdRows d) q d) ->
  exists b, sdds_read fs fn (V 0 0 1) = Ok (Z.of_nat (length (beam_particles bm)), b) /\
    Forall2 mirrored_in_plane (beam_particles bm) b /\ bunch_charge b = - q.
Proof. exact reimport. Qed.
Print Assumptions C58_mirrored.
Theorem C58_position_refuted : exists (bm : beam R) d p b p', beam_watch bm = Ok d /\ beam_particles bm = [p] /\
  sdds_read (fun _ => Some (renamed 1 (Rabs (beam_charge bm)) d)) "watch.sdds" (V 0 0 1) = Ok (1%Z, b) /\
  b = [p'] /\ vy (pX p) = 2 /\ vy (pX p') = -2 /\ vz (pX p) = 3 /\ vz (pX p') = 0.
Proof.
  destruct (watch_ok one_beam) as [d W]; [discriminate|].
  assert (RW : sdRows d = 1%Z) by (destruct (watch_columns _ _ W) as [E _]; exact E).
  destruct (C58_mirrored one_beam d (fun _ => Some (renamed 1 (Rabs (beam_charge one_beam)) d)) "watch.sdds" (Rabs (beam_charge one_beam)) 0 W) as (b & E & F & _).
  - reflexivity.
  - discriminate.
  - repeat constructor. change (0 < 10). lra.
  - rewrite RW. reflexivity.
  - inversion F as [|p p' ps' b' M F' E1 E2]; subst. inversion F'; subst.
    exists one_beam, d. do 3 eexists. split; [exact W|]. split; [reflexivity|]. split; [exact E|]. split; [reflexivity|].
    destruct M as [MX _]. rewrite MX. cbn. repeat split; ring.
Qed.
Print Assumptions C58_position_refuted.

(* a file which announces more particles than it has rows (elegant writes "Particles before
   sampling") is read behind the end of its columns *)
Theorem C58_sampled_undefined : forall (T : Type) (NT : Num T) (fs : string -> option (sdds T)) fn dir d n q xs xps ys yps ps ts,
  (Z.of_nat (String.length fn) < 99)%Z -> fs fn = Some d ->
  named (sdPar d) "Particles" = Some (SLong n) -> named (sdPar d) "Charge" = Some (SDouble q) -> (0 < sdRows d)%Z ->
  named (sdCol d) "x" = Some xs -> named (sdCol d) "xp" = Some xps -> named (sdCol d) "y" = Some ys -> named (sdCol d) "yp" = Some yps ->
  named (sdCol d) "p" = Some ps -> named (sdCol d) "t" = Some ts -> Z.of_nat (length ts) = sdRows d -> (sdRows d < n)%Z ->
  sdds_read fs fn dir = UB.
Proof. intros; eapply read_short; eassumption. Qed.
Print Assumptions C58_sampled_undefined.
Example C58_sampled_ex : sdds_read (fun _ => Some (renamed 3 1 two_rows)) "a" (V 0 0 1) = UB.
Proof. eapply C58_sampled_undefined; try reflexivity. Qed.
(* a file name of 99 or more characters *)
Theorem C58_long_name_undefined : forall (T : Type) (NT : Num T) (fs : string -> option (sdds T)) fn dir,
  (99 <= Z.of_nat (String.length fn))%Z -> sdds_read fs fn dir = UB.
Proof. intros T NT fs fn dir H. unfold sdds_read. destruct (Z.leb_spec 99 (Z.of_nat (String.length fn))); [reflexivity|lia]. Qed.
Print Assumptions C58_long_name_undefined.
(* a file which cannot be opened gives an empty bunch *)
Theorem C58_missing : forall (T : Type) (NT : Num T) (fs : string -> option (sdds T)) fn dir,
  (Z.of_nat (String.length fn) < 99)%Z -> fs fn = None -> sdds_read fs fn dir = Ok (0%Z, []).
Proof. intros T NT fs fn dir H E. unfold sdds_read. destruct (Z.leb_spec 99 (Z.of_nat (String.length fn))); [lia|]. rewrite E. reflexivity. Qed.
Print Assumptions C58_missing.
Example C58_long_name_ex : (99 <= Z.of_nat (String.length (String.concat "aaaaaaaaaa" ["";"";"";"";"";"";"";"";"";"";""])))%Z.
Proof. vm_compute. discriminate. Qed.

(* C61: the HDF5 watch file of any beam (in any arithmetic) has one row of six numbers for each
   particle, in the order of the bunches, and the number of particles is returned *)
Theorem C61_hdf5_partial : forall (T : Type) (NT : Num T) (bm : beam T),
  (6 * Z.of_nat (length (beam_particles bm)) <= int_max)%Z ->
  beam_hdf5 bm = Ok ((Z.of_nat (length (beam_particles bm)), 6%Z,
      flat_map (fun p => [vx (pX p); vy (pX p); vz (pX p); vx (pP p); vy (pP p); vz (pP p)]) (beam_particles bm)),
    Z.of_nat (length (beam_particles bm))).
Proof. intros T NT bm H. exact (hdf5_ok bm H). Qed.
Print Assumptions C61_hdf5_partial.
Example C61_hdf5_ex : beam_hdf5 one_beam = Ok ((1%Z, 6%Z, [1; 2; 3; 0; 0; 10]), 1%Z).
Proof. rewrite (C61_hdf5_partial R NumR one_beam) by discriminate. reflexivity. Qed.
(* refuted beyond 357913941 particles: the size of the buffer overflows *)
Theorem C61_overflow_refuted : forall (T : Type) (NT : Num T) (bm : beam T),
  (int_max < 6 * Z.of_nat (length (beam_particles bm)))%Z -> beam_hdf5 bm = UB.
Proof. intros T NT bm H. exact (hdf5_ub bm H). Qed.
Print Assumptions C61_overflow_refuted.
Example C61_overflow_ex : exists bm : beam R, (int_max < 6 * Z.of_nat (length (beam_particles bm)))%Z.
Proof.
  exists (BM [repeat (new_particle 1 1) (Z.to_nat 357913942)] 0 1 TRACKING_VAY).
  unfold beam_particles. cbn [bmB concat]. rewrite app_nil_r, repeat_length, Z2Nat.id by lia. unfold int_max. lia.
Qed.
