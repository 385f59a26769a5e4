(* The tracking part of the program. *)
From Coq Require Import ZArith String List Bool Lia Arith.
From Verif Require Import Base BaseFacts Num VecModel ParticleModel ParticleSpec BunchModel BunchSpec BeamSpec BeamProofs
  DriverModel DriverSpec DriverProofs DriverProofs2 DriverProofs3 ElementModel FelModel ObserverModel ObserverSpec ObserverProofs3 ObserverProofs5 ObserverProofs7 ProbeProofs
  LoggerModel LoggerSpec LoggerProofs LoggerProofs2 LoggerProofs3 LoggerProofs4 SddsModel SddsSpec SddsProofs OutputModel ParserModel ParserSpec ParserSpec2
  ProgramModel ProgramSpec ProgramProofs ProgramProofs2.
Import ListNotations.
Local Open Scope list_scope.
Local Open Scope res_scope.
Local Open Scope nat_scope.

Lemma same_kind_start {T} (p q : particle T) : same_kind p q -> same_but_start p q.
Proof. unfold same_kind, same_but_start. intros H. decompose [and] H. repeat split; congruence. Qed.
Lemma kinds_concat {T} (a b : list (bunch T)) : Forall2 (Forall2 same_kind) a b ->
  Forall2 same_but_start (concat a) (concat b) /\ map (@length _) a = map (@length _) b.
Proof.
  intros H. induction H as [|x y a b H H' (IH1 & IH2)]; cbn [concat map]; [split; [constructor|reflexivity]|]. split.
  - apply Forall2_app; [|exact IH1]. clear -H. induction H; constructor; auto using same_kind_start.
  - rewrite IH2. f_equal. clear -H. induction H; cbn; congruence.
Qed.
Lemma coordinates_input {T} {NT : Num T} (a b : pinput (T:=T)) : same_but_coordinates a b -> same_input (inBeam a) (inBeam b).
Proof.
  intros (_ & _ & _ & _ & _ & _ & _ & D & K & F). destruct (kinds_concat _ _ F) as (A & B).
  split; [exact B|]. split; [congruence|]. split; [congruence|exact A].
Qed.

(* the loggers made by the parser *)
Section L.
Context {T : Type} {NT : Num T} {TT : Trans T} {CT : Calc T} {WT : World T}.
Hypothesis CI : forall t, (int_min <= cInt t <= int_max)%Z.
Definition parsed (bs : list (bunch T)) (l : logger T) : Prop :=
  match l with
  | LPar ib p => exists i step freq, ib = Z.of_nat i /\ i < length bs /\ p = plog_new step freq /\ (int_min <= step <= int_max)%Z
  | LTraj ib p => exists i b step number, ib = Z.of_nat i /\ nth_error bs i = Some b /\ p = tlog_new b step number /\ (int_min <= step <= int_max)%Z
  | LProbe _ => False
  end.
Lemma int_attr_range n k d : (int_min <= d <= int_max)%Z -> (int_min <= int_attr n k d <= int_max)%Z.
Proof. unfold int_attr. destruct (attr n k); auto. Qed.
Lemma log_parsed (pre post : list (bunch T)) bu e n bunching lo : log_described e n (Z.of_nat (length pre)) bunching lo ->
  Forall (fun l => parsed (pre ++ bu :: post) (fst l)) lo.
Proof.
  intros H. inversion H as [|l fn A B]; subst; constructor; [|constructor]. cbn [fst parsed]. eexists _, _, _. split; [reflexivity|].
  split; [rewrite app_length; cbn; lia|]. split; [reflexivity|]. apply int_attr_range. unfold int_min, int_max. lia.
Qed.
Lemma traj_parsed (pre post : list (bunch T)) bu n lo : traj_described n (Z.of_nat (length pre)) bu lo ->
  Forall (fun l => parsed (pre ++ bu :: post) (fst l)) lo.
Proof.
  intros H. inversion H as [|l fn A B]; subst; constructor; [|constructor]. cbn [fst parsed]. eexists _, bu, _, _. split; [reflexivity|].
  split; [|split; [reflexivity|apply int_attr_range; unfold int_min, int_max; lia]].
  rewrite nth_error_app2, Nat.sub_diag by lia. reflexivity.
Qed.
Lemma bunch_parsed pre post i ib e n bu lo : bunch_described i ib e n bu lo -> ib = Z.of_nat (length pre) ->
  Forall (fun l => parsed (pre ++ bu :: post) (fst l)) lo.
Proof.
  intros H ->. destruct H.
  - eapply log_parsed; eauto.
  - apply Forall_app. split; [eapply log_parsed; eauto|eapply traj_parsed; eauto].
  - eapply log_parsed; eauto.
Qed.
Lemma beam_parsed i ib e l bs ls pr : beam_described i ib e l bs ls pr -> forall pre, ib = Z.of_nat (length pre) ->
  Forall (fun l => parsed (pre ++ bs) (fst l)) ls /\ match pr with Some x => (int_min <= piStep x <= int_max)%Z | None => True end.
Proof.
  induction 1 as [i ib e|i ib e n r bs ls pr Hn H IH|i ib e n r bu lo bs ls pr B H IH|i ib e n r fn bs ls pr Hn Hf H IH]; intros pre E.
  - split; [constructor|exact I].
  - auto.
  - destruct (IH (pre ++ [bu])) as (A & P); [rewrite app_length; cbn; lia|]. split; [|exact P]. apply Forall_app. split.
    + eapply bunch_parsed; eauto.
    + rewrite <- app_assoc in A. exact A.
  - destruct (IH pre E) as (A & P). split; [exact A|]. destruct pr as [x|]; [exact P|]. cbn [piStep]. apply int_attr_range. unfold int_min, int_max. lia.
Qed.
Lemma input_logs consts root i : input_described consts root i ->
  Forall (fun l => parsed (bmB (inBeam i)) (fst l)) (inLogs i) /\ (int_min <= piStep (inProbe i) <= int_max)%Z.
Proof.
  intros H. inversion H as [e0 e1 e2 e3 l b t o els bs ls pr ts tn dt N ws fs os C1 C2 C3 C4 E0 E1 E2 E3 DL DB]; subst.
  destruct (beam_parsed _ _ _ _ _ _ _ DB [] eq_refl) as (A & P). cbn [inLogs inBeam bmB inProbe]. split; [exact A|].
  destruct pr; [exact P|]. cbn. lia.
Qed.
Lemma parsed_created (bm : beam T) P l : parsed (bmB bm) l -> logger_step l <> 0%Z -> created bm P l.
Proof.
  destruct l as [ib p|ib p|p]; cbn [parsed created logger_step]; [| |tauto].
  - intros (n & step & freq & A & B & C & D) N. exists n, step, freq. repeat split; auto; try tauto. intros ->. subst p. apply N. reflexivity.
  - intros (n & b & step & number & A & B & C & D) N. exists n, b, step, number. repeat split; auto; try tauto. intros ->. subst p. apply N. reflexivity.
Qed.
End L.

(* the files of interactions and observers *)
Section Written.
Context {T : Type} {NT : Num T} {TT : Trans T}.
Lemma fel_written_iff (l : list (fel T * string)) ff : map_res inter_file l = Ok ff <-> Forall2 fel_written l ff.
Proof.
  assert (A : forall (f : fel T * string) fs, inter_file f = Ok fs <-> fel_written f fs).
  { intros f fs. unfold inter_file, fel_written. destruct (fel_file (fst f)) as [[h|]|e| |]; cbn [bind]; split.
    - intros H. apply Ok_inj in H. right. exists h. auto.
    - intros [[H _]|(h' & H & ->)]; [discriminate|]. apply Ok_inj in H. congruence.
    - intros H. apply Ok_inj in H. left. auto.
    - intros [[_ ->]|(h' & H & _)]; [reflexivity|discriminate].
    - discriminate.
    - intros [[H _]|(h' & H & _)]; discriminate.
    - discriminate.
    - intros [[H _]|(h' & H & _)]; discriminate.
    - discriminate.
    - intros [[H _]|(h' & H & _)]; discriminate. }
  revert ff. induction l as [|f l IH]; intros ff; cbn [map_res].
  - split; [intros H; apply Ok_inj in H; subst; constructor|intros H; inversion H; reflexivity].
  - split.
    + intros H. bget H as fs E. bget H as r Er. apply Ok_inj in H. subst ff. constructor; [apply A; exact E|apply IH; exact Er].
    + intros H. inversion H as [|a b c d H1 H2]; subst. apply A in H1. apply IH in H2. rewrite H1. cbn [bind]. rewrite H2. reflexivity.
Qed.
Lemma one_file_iff {A} fn (kind : A -> outfile T) (r : res A) fs : caught fn (x <- r;; Ok (kind x)) = Ok fs <-> one_file fn kind r fs.
Proof.
  unfold one_file, caught. destruct r as [f|e| |]; cbn [bind]; split.
  - intros H. apply Ok_inj in H. left. eauto.
  - intros [(g & H & ->)|(e & H & _)]; [apply Ok_inj in H; congruence|discriminate].
  - intros H. apply Ok_inj in H. right. eauto.
  - intros [(g & H & _)|(e' & _ & ->)]; [discriminate|reflexivity].
  - discriminate.
  - intros [(g & H & _)|(e' & H & _)]; discriminate.
  - discriminate.
  - intros [(g & H & _)|(e' & H & _)]; discriminate.
Qed.
Lemma obs_output_iff mdt (bm : beam T) k fn o fs : obs_file mdt bm k fn o = Ok fs <-> obs_output mdt bm k fn o fs.
Proof.
  destruct o as [s|s|s|s]; cbn [obs_file].
  - rewrite one_file_iff. split; [apply U_screen|]. intros H. inversion H; subst; assumption.
  - destruct k; cbn [bind].
    + destruct (snap_store (snt s) bm) as [st| | |] eqn:E; cbn [bind].
      * rewrite one_file_iff. split; [apply U_snap_beam; exact E|]. intros H. inversion H as [|a b st' d H1 H2| | |]; subst. rewrite E in H1. apply Ok_inj in H1. subst st'. exact H2.
      * split; [discriminate|]. intros H. inversion H; subst. congruence.
      * split; [discriminate|]. intros H. inversion H; subst. congruence.
      * split; [discriminate|]. intros H. inversion H; subst. congruence.
    + rewrite one_file_iff. split; [apply U_snap_lattice|]. intros H. inversion H; subst; assumption.
  - rewrite one_file_iff. split; [apply U_point|]. intros H. inversion H; subst; assumption.
  - destruct (mdt fn) as [dt| | |] eqn:E; cbn [bind].
    + rewrite one_file_iff. split; [apply U_mesh; exact E|]. intros H. inversion H as [| | | |a b c dt' d H1 H2]; subst. rewrite E in H1. apply Ok_inj in H1. subst dt'. exact H2.
    + split; [discriminate|]. intros H. inversion H; subst. congruence.
    + split; [discriminate|]. intros H. inversion H; subst. congruence.
    + split; [discriminate|]. intros H. inversion H; subst. congruence.
Qed.
Lemma fel_names_iff root names : names = fel_names root <-> fel_files_named root names.
Proof.
  assert (A : forall l fns, fns = flat_map (fun n => if String.eqb (nName n) "fel1d" then [match child n "log" with Some l => attr_text l "file" | None => ""%string end] else []) l <->
    fels_named l fns).
  { induction l as [|n l IH]; intros fns; cbn [flat_map].
    - split; [intros ->; constructor|intros H; inversion H; reflexivity].
    - destruct (String.eqb_spec (nName n) "fel1d") as [E|E]; cbn [app]; split.
      + intros ->. apply FN_fel; [exact E| |apply IH; reflexivity]. destruct (child n "log") eqn:C; [apply N_log; exact C|apply N_none; exact C].
      + intros H. inversion H as [|a b fn fs H1 H2 H3|]; subst; [|contradiction]. apply IH in H3. subst fs. f_equal. inversion H2 as [x C|C]; subst; rewrite C; reflexivity.
      + intros ->. apply FN_other; [exact E|apply IH; reflexivity].
      + intros H. inversion H; subst; [contradiction|]. apply IH. assumption. }
  unfold fel_names. destruct (child root "tracking") as [t|] eqn:C.
  - rewrite A. split; [apply FF_some; exact C|]. intros H. inversion H as [|t' f H1 H2]; subst; [congruence|]. rewrite C in H1. congruence.
  - split; [intros ->; apply FF_none; exact C|]. intros H. inversion H; subst; [reflexivity|congruence].
Qed.
End Written.

Section P.
Context {T : Type} {NT : Num T} {TT : Trans T} (absBF : bunch T -> T -> T).
Variables (i : pinput (T := T)) (rest : list (pinput (T := T))).
Notation ins := (i :: rest).
Hypothesis HS : Forall (same_but_coordinates i) ins.
Notation NOTS := (bmNOTS (inBeam i)).
Notation lat := (inLattice i, inFel i).
Notation bms := (map inBeam ins).
Notation P := (Z.of_nat (length ins)).
Hypothesis FI : fitting i P.
Notation k := (steps i).
Notation drun := (driver_run full_field inter_init inter_step P NOTS lat bms).

Lemma bms_length : length bms = length ins. Proof. apply map_length. Qed.
Lemma run_valid : valid_run NOTS (inBeam i) bms k.
Proof.
  destruct FI as (A & B & C). unfold valid_run. rewrite bms_length. split; [reflexivity|].
  split. { clear -HS NT. induction HS; constructor; auto. apply coordinates_input. assumption. }
  split; [exact A|]. split; [exact B|]. split; [exact C|]. unfold steps. lia.
Qed.

Lemma start_map f (l : list (pinput (T:=T))) z : Forall (same_but_coordinates i) l ->
  map_res (fun ri : Z * pinput => node_start full_field P (bmNOTS (inBeam (snd ri))) (main_lattice (snd ri)) f (fst ri) (inBeam (snd ri)))
    (combine (zseq z (length l)) l) =
  map_res (fun rb => node_start full_field P NOTS lat f (fst rb) (snd rb)) (combine (zseq z (length (map inBeam l))) (map inBeam l)).
Proof.
  rewrite map_length. intros H. revert z. induction H as [|x l H H' IH]; intros z; [reflexivity|]. cbn [length zseq combine map map_res fst snd].
  destruct H as (E1 & _ & _ & _ & E5 & _ & E7 & _). unfold main_lattice at 1. rewrite <- E1, <- E5, <- E7, IH. reflexivity.
Qed.
Lemma start_eq : main_start P ins = driver_start full_field inter_init P NOTS lat bms.
Proof.
  unfold main_start, driver_start. cbn [map]. destruct (driver_sizes P (inBeam i)) as [[[a b] m]| | |]; cbn [bind]; try reflexivity.
  destruct (buf_write _ _) as [bc| | |]; cbn [bind]; try reflexivity.
  rewrite (start_map bc ins 0%Z HS). reflexivity.
Qed.

Lemma tracked_count ns n0 : drun 0 = Ok ns -> first_node ns = Ok n0 -> count (nTracked n0) = first_share (inBeam i) P.
Proof.
  intros D F. destruct run_valid as (V1 & V2 & V3 & V4 & V5 & V6). pose proof (bms_length) as BL.
  pose proof (node0 full_field inter_init inter_step NOTS lat (inBeam i) bms V1 V2 V3 V4 V5 0 ltac:(lia)) as A. rewrite BL, D in A.
  destruct A as (s & n & S & F' & M & E). rewrite F in F'. apply Ok_inj in F'. subst n. rewrite E. unfold count. cbn [bmB concat]. rewrite app_nil_r, firstn_length.
  destruct (sim_lens _ _ _ _ _ _ _ _ S) as (_ & L). rewrite L. unfold perNode, first_share. rewrite BL.
  destruct (count_small _ _ _ _ run_valid) as (_ & _ & SH). rewrite BL in SH. unfold count in *. lia.
Qed.

Hypothesis LC : Forall (fun l => created (inBeam i) P (fst l) /\ match fst l with LProbe _ => False | _ => True end) (inLogs i).
Hypothesis PS : (int_min <= piStep (inProbe i) <= int_max)%Z.
Hypothesis PN : piReq (inProbe i) = true -> (piStep (inProbe i)) <> 0%Z.

Lemma share_range : (0 <= first_share (inBeam i) P /\ 10 * first_share (inBeam i) P <= int_max)%Z.
Proof.
  destruct (count_small _ _ _ _ run_valid) as (A & B & C). rewrite bms_length in *. unfold first_share. unfold count in *. lia.
Qed.
(* the probe logger *)
Lemma probe_made ns n0 : drun 0 = Ok ns -> first_node ns = Ok n0 -> exists pl, main_probe (inProbe i) n0 = Ok pl /\
  Forall (fun l => created (inBeam i) P (fst l)) pl /\
  (piReq (inProbe i) = false /\ pl = [] \/
   piReq (inProbe i) = true /\ exists p, prlog_new (nTracked n0) (piStep (inProbe i)) (piNumber (inProbe i)) = Ok p /\ pl = [(LProbe p, piFile (inProbe i))]).
Proof.
  intros D F. pose proof (tracked_count _ _ D F) as C. destruct share_range as (A & B). unfold main_probe. destruct (piReq (inProbe i)) eqn:Q.
  - destruct (prlog_new (nTracked n0) (piStep (inProbe i)) (piNumber (inProbe i))) as [p| | |] eqn:E.
    2-4: unfold prlog_new in E; rewrite (beam_NOP_ok (nTracked n0)) in E by (refine (eq_ind_r (fun z => (z <= int_max)%Z) _ C); lia); discriminate.
    cbn [bind]. eexists. split; [reflexivity|]. split; [|right; eauto]. constructor; [|constructor]. cbn [fst created].
    eexists _, _, _. split; [exact E|]. split; [exact C|]. split; [exact PS|]. apply PN. reflexivity.
  - eexists. split; [reflexivity|]. split; [constructor|]. left. auto.
Qed.

Notation srun := (sim_run full_field inter_init inter_step NOTS lat (inBeam i)).
Notation result := (@log_result T NT absBF _ full_field inter_init inter_step NOTS lat (inBeam i) k).

Lemma forall2_map_l {A B C} (R : B -> C -> Prop) (f : A -> B) l m : Forall2 R (map f l) m -> Forall2 (fun a c => R (f a) c) l m.
Proof. revert m. induction l as [|a l IH]; intros m H; inversion H; subst; constructor; auto. Qed.

Lemma track_eq ns n0 pl : drun 0 = Ok ns -> first_node ns = Ok n0 -> main_probe (inProbe i) n0 = Ok pl ->
  main_track absBF ins =
  (r <- logged_run absBF full_field inter_init inter_step P NOTS lat bms (map fst (inLogs i ++ pl)) (inWatch i) k;;
   Ok (fst r, combine (fst (snd r)) (map snd (inLogs i ++ pl)), snd (snd r))).
Proof.
  unfold driver_run. cbn [zseq fold_res]. intros D F M. apply bind_ok in D. destruct D as (ns' & D & E). apply Ok_inj in E. subst ns'.
  unfold main_track. rewrite start_eq, D. cbn [bind]. rewrite F. cbn [bind]. rewrite M. cbn [bind]. unfold logged_run. rewrite D. cbn [bind].
  destruct (log_init _ _ _ _) as [o| | |]; cbn [bind]; reflexivity.
Qed.

Lemma track_results ns ls ws : main_track absBF ins = Ok (ns, ls, ws) ->
  exists s n0 l1, state_at i k s /\ drun k = Ok ns /\ first_node ns = Ok n0 /\ nMaster n0 = sMaster s /\ nLat n0 = sLat s /\
    Forall2 (fun l l' => result (fst l) l') (inLogs i) l1 /\
    Forall2 (fun jw f => fst f = snd jw /\ master_in_step full_field inter_init inter_step NOTS lat (inBeam i) (fst jw) (snd f)) (watches_due i) ws /\
    (piReq (inProbe i) = false /\ ls = combine l1 (map snd (inLogs i)) \/
     piReq (inProbe i) = true /\ exists tb p p', prlog_new tb (piStep (inProbe i)) (piNumber (inProbe i)) = Ok p /\
       count tb = first_share (inBeam i) P /\ result (LProbe p) p' /\ ls = combine l1 (map snd (inLogs i)) ++ [(p', piFile (inProbe i))]).
Proof.
  intros H.
  assert (D : exists ns0 n0, drun 0 = Ok ns0 /\ first_node ns0 = Ok n0).
  { unfold main_track in H. rewrite start_eq in H. bget H as ns0 E0. bget H as n0 En. exists ns0, n0. split; [|exact En].
    unfold driver_run. rewrite E0. reflexivity. }
  destruct D as (ns0 & m0 & D & F). destruct (probe_made _ _ D F) as (pl & M & PC & K). rewrite (track_eq _ _ _ D F M) in H.
  bget H as r Er. destruct r as [ns' [ls' ws']]. cbn [fst snd] in H. apply Ok_inj in H. injection H as <- <- <-.
  assert (CR : Forall (created (inBeam i) (Z.of_nat (length bms))) (map fst (inLogs i ++ pl))).
  { rewrite bms_length. apply Forall_map. apply Forall_app. split; [|exact PC]. eapply Forall_impl; [|exact LC]. intros a Ha. apply Ha. }
  pose proof run_valid as V. rewrite <- bms_length in Er.
  destruct (logged_all absBF full_field inter_init inter_step NOTS lat (inBeam i) bms k V _ _ _ _ _ CR Er)
    as (s & n0 & S & DR & F0 & M0 & L0 & R & WF).
  rewrite map_app in R. apply Forall2_app_inv_l in R. destruct R as (l1 & l2 & R1 & R2 & ->).
  exists s, n0, l1. split; [exact S|]. rewrite bms_length in DR. split; [exact DR|]. split; [exact F0|]. split; [exact M0|]. split; [exact L0|].
  split; [apply forall2_map_l; exact R1|]. split; [exact WF|].
  assert (LL : length l1 = length (map snd (inLogs i))).
  { apply forall2_map_l in R1. rewrite map_length. clear -R1. induction R1; cbn; congruence. }
  rewrite map_app, combine_app by exact LL.
  destruct K as [(Q & ->)|(Q & p & PL & ->)].
  - left. inversion R2; subst. rewrite app_nil_r. auto.
  - right. split; [exact Q|]. cbn [map fst] in R2. inversion R2 as [|x p' y z R3 R4]; subst. inversion R4; subst.
    exists (nTracked m0), p, p'. split; [exact PL|]. split; [exact (tracked_count _ _ D F)|]. split; [exact R3|reflexivity].
Qed.

Lemma run_prefix s : srun k = Ok s -> exists s0, srun 0 = Ok s0.
Proof. unfold sim_run. destruct (sim_start _ _ _ _ _) as [s0| | |]; cbn [bind]; try discriminate. intros _. exists s0. reflexivity. Qed.

Lemma track_exists s : state_at i k s -> exists r, main_track absBF ins = Ok r.
Proof.
  intros S. destruct (run_prefix s S) as (s0 & S0). pose proof run_valid as V. destruct V as (V1 & V2 & V3 & V4 & V5 & V6).
  pose proof (node0 full_field inter_init inter_step NOTS lat (inBeam i) bms V1 V2 V3 V4 V5 0 ltac:(lia)) as A. rewrite bms_length in A.
  destruct (drun 0) as [ns| | |] eqn:D; try congruence. destruct A as (s' & n & _ & F & _).
  destruct (probe_made _ _ D F) as (pl & M & PC & K). rewrite (track_eq _ _ _ D F M).
  assert (CR : Forall (created (inBeam i) (Z.of_nat (length bms))) (map fst (inLogs i ++ pl))).
  { rewrite bms_length. apply Forall_map. apply Forall_app. split; [|exact PC]. eapply Forall_impl; [|exact LC]. intros a Ha. apply Ha. }
  destruct (logged_exists absBF full_field inter_init inter_step NOTS lat (inBeam i) bms k run_valid _ (inWatch i) s CR S) as (ns' & ls' & fs & E).
  rewrite bms_length in E. rewrite E. cbn [bind]. eauto.
Qed.

(* the files *)
Lemma track_files ns ls ws n0 names tf : main_track absBF ins = Ok (ns, ls, ws) -> first_node ns = Ok n0 ->
  (exists wf lf ff, map_res watch_file ws = Ok wf /\ map_res (log_file (nMaster n0)) ls = Ok lf /\
     map_res inter_file (combine (snd (nLat n0)) names) = Ok ff /\ tf = wf ++ lf ++ concat ff) <->
  tracking_writes absBF i P names tf.
Proof.
  intros H F. destruct (track_results _ _ _ H) as (s & n & l1 & S & DR & F' & M & L & R & W & K).
  rewrite F in F'. apply Ok_inj in F'. subst n. rewrite M, L.
  assert (C6 : (6 * count (inBeam i) <= int_max)%Z).
  { destruct (count_small _ _ _ _ run_valid) as (A & _). unfold count in *. lia. }
  assert (NPR : Forall (fun l : logger T * string => match fst l with LProbe _ => False | _ => True end) (inLogs i)).
  { eapply Forall_impl; [|exact LC]. intros a Ha. apply Ha. }
  assert (WI := watches_iff i C6 _ _ W). assert (LI := logs_iff absBF i s S _ _ R NPR).
  destruct share_range as (SP & S10).
  assert (LP : forall lf, map_res (log_file (sMaster s)) ls = Ok lf <->
    exists lf1 pf, Forall2 (log_written absBF i) (inLogs i) lf1 /\ probe_written i P pf /\ lf = lf1 ++ pf).
  { intros lf. destruct K as [(Q & ->)|(Q & tb & p & p' & N & C & RP & ->)].
    - rewrite LI. split.
      + intros A. exists lf, []. split; [exact A|]. split; [apply B_none; exact Q|]. rewrite app_nil_r. reflexivity.
      + intros (lf1 & pf & A & B & ->). inversion B; [rewrite app_nil_r; exact A|congruence].
    - rewrite map_res_app.
      assert (PI : forall f, log_file (sMaster s) (p', piFile (inProbe i)) = Ok f <-> probe_written i P [f]).
      { apply (probe_iff absBF i s P tb p p' S N C); auto. unfold int_max in S10. lia. }
      split.
      + intros A. bget A as lf1 E1. bget A as pf E2. apply Ok_inj in A. subst lf. exists lf1, pf. split; [apply LI; exact E1|]. split; [|reflexivity].
        cbn [map_res] in E2. bget E2 as f Ef. apply Ok_inj in E2. subst pf. apply PI. exact Ef.
      + intros (lf1 & pf & A & B & ->). apply LI in A. rewrite A. cbn [bind]. pose proof B as B0. inversion B as [|pss Q' F' n nop D X]; [congruence|]. subst pf.
        apply PI in B0. cbn [map_res]. rewrite B0. reflexivity. }
  split.
  - intros (wf & lf & ff & A & B & D & ->). apply LP in B. destruct B as (lf1 & pf & B1 & B2 & ->). exists s, wf, lf1, pf, ff.
    split; [exact S|]. split; [apply WI; exact A|]. split; [exact B1|]. split; [exact B2|]. split; [apply fel_written_iff; exact D|]. rewrite <- app_assoc. reflexivity.
  - intros (s' & wf & lf & pf & ff & S' & A & B & D & E & ->). rewrite (state_fun _ _ _ _ S' S) in E. exists wf, (lf ++ pf), ff.
    split; [apply WI; exact A|]. split; [apply LP; eauto|]. split; [apply fel_written_iff; exact E|]. rewrite <- app_assoc. reflexivity.
Qed.
End P.
