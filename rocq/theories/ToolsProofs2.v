(* Proofs about the programs propagate and reflection: the whole runs; see ToolsModel.v *)
From Coq Require Import ZArith String List Lia Bool Sorting.Permutation.
From Verif Require Import Base BaseFacts Num VecModel TraceModel TraceSpec TraceProofs TraceProofs2 FelProofs DriverProofs ObserverModel ObserverSpec ObserverProofs
  ObserverProofs7 SddsModel ParticleModel BunchModel PropagateModel PropagateSpec OutputModel OutputSpec OutputProofs OutputProofs2 OutputProofs3 ToolsModel ToolsSpec ToolsProofs.
Import ListNotations.
Local Open Scope string_scope.
Local Open Scope list_scope.
Local Open Scope Z_scope.

Section Programs.
Context {T : Type} {NT : Num T}.
Variable sched : nat -> list Z.
Variable solve : list (list T) -> list T -> list T.
Hypothesis F : fair sched.

(* ---- meshes which have been read ---- *)
Lemma read_lengths (f : h5file T) s dt : mesh_read f = Ok (s, dt) -> length (msA s) = length (msX s).
Proof.
  intros H. destruct (msX s) as [|x xs] eqn:E.
  - unfold mesh_read in H. bget H as d Hd. bget H as ncp Hn. bget H as pts Hp. bget H as d2 Hd2. bget H as np Hnp. bget H as xs Hx.
    bget H as d3 Hd3. bget H as n3 Hn3. bget H as is Hi. bget H as b Hb. bget H as ti Hti. bget H as q Hq. destruct q as [[nt dt'] trs].
    bget H as trs' Htrs. apply Ok_inj in H. injection H as <- <-. cbn [msX msA] in *. subst xs.
    apply read_vectors_len in Hx. destruct Hx as [N1 N2]. cbn [length] in N2. assert (np = 0) by lia. subst np.
    assert (LT : length trs = 0%nat).
    { unfold mesh_times in Hq. destruct (named f "ObservationTime").
      - bget Hq as nt1 H1. bget Hq as dt1 H2. bget Hq as b1 H3. bget Hq as ts H4. bget Hq as trs1 H5. apply Ok_inj in Hq. injection Hq as <- <- <-.
        apply map_res_nth in H5. destruct H5 as [L _]. rewrite L. apply buf_read_len in H4. exact H4.
      - apply Ok_inj in Hq. injection Hq as <- <- <-. reflexivity. }
    unfold mesh_fields in Htrs. destruct (named f "ElMagField").
    + bget Htrs as n H1. bget Htrs as vals H2. apply map_res_nth in Htrs. destruct Htrs as [L _]. rewrite L, combine_length, LT. cbn [length]. apply Nat.min_0_r.
    + apply Ok_inj in Htrs. subst. exact LT.
  - rewrite <- E. destruct (mesh_read_shaped f s dt H) as ((_ & L & _) & _); [congruence|exact L].
Qed.
Lemma init_length (s : mesh T) init : mesh_init s = Ok init -> length (snd init) = length (msX s).
Proof.
  unfold mesh_init. intros H. bget H as ps HP. apply Ok_inj in H. subst init. cbn [snd]. rewrite !map_length.
  apply map_res_nth in HP. rewrite zseq_length in HP. tauto.
Qed.
(* the geometry does not depend on the fields *)
Lemma init_same (s s' : mesh T) : msPts s' = msPts s -> msTri s' = msTri s -> msX s' = msX s -> mesh_init s' = mesh_init s.
Proof. intros H1 H2 H3. unfold mesh_init, tri_points. rewrite H1, H2, H3. reflexivity. Qed.

(* ---- the reports ---- *)
Lemma energy_some (s : mesh T) g : length (msA s) = length (msX s) -> length g = length (msX s) -> exists e, mesh_energy s g = Ok e.
Proof.
  intros H1 H2. unfold mesh_energy. generalize (nZ 0). rewrite <- H2 in H1. rewrite <- H2. assert (L : forall i, In i (zseq 0 (length g)) -> 0 <= i < Z.of_nat (length g)) by (intros i Hi; apply zseq_In in Hi; lia).
  induction (zseq 0 (length g)) as [|i l IH]; intros a; cbn [fold_res]; [eauto|].
  assert (Hi : 0 <= i < Z.of_nat (length g)) by (apply L; left; reflexivity).
  destruct (zget_ok (msA s) i) as (tr & -> & _); [lia|]. destruct (zget_ok g i) as (c & -> & _); [lia|]. cbn [bind]. apply IH. intros j Hj. apply L. right. exact Hj.
Qed.
(* index of the peak: a cell or none *)
Lemma peak_some (s : mesh T) : length (msA s) = length (msX s) -> exists ip peak sp, mesh_peak s = Ok (ip, peak, sp) /\ ip < Z.of_nat (length (msX s)).
Proof.
  intros H. unfold mesh_peak. assert (L : forall i, In i (zseq 0 (length (msX s))) -> 0 <= i < Z.of_nat (length (msX s))) by (intros i Hi; apply zseq_In in Hi; lia).
  assert (Q : forall l b0, (forall i, In i l -> 0 <= i < Z.of_nat (length (msX s))) -> fst (fst b0) < Z.of_nat (length (msX s)) ->
    exists ip peak sp, fold_res (fun (best : Z * T * vec T) ip => bind (zget (msA s) ip) (fun tr =>
      Ok (if nltb (snd (fst best)) (vnorm (tr_poynting tr)) then (ip, vnorm (tr_poynting tr), tr_poynting tr) else best))) l b0 = Ok (ip, peak, sp) /\ ip < Z.of_nat (length (msX s))).
  { induction l as [|i l IH]; intros b0 HL Hb; cbn [fold_res]; [destruct b0 as [[a b] c]; cbn in Hb; eauto|].
    assert (Hi : 0 <= i < Z.of_nat (length (msX s))) by (apply HL; left; reflexivity).
    destruct (zget_ok (msA s) i) as (tr & -> & _); [lia|]. cbn [bind]. apply IH; [intros j Hj; apply HL; right; exact Hj|].
    destruct (nltb _ _); cbn [fst]; lia. }
  apply Q; [exact L|cbn; lia].
Qed.
Lemma report_some (s : mesh T) init : length (msA s) = length (msX s) -> length (snd init) = length (msX s) -> exists r, mesh_report s init = Ok r.
Proof.
  intros H1 H2. unfold mesh_report. destruct (energy_some s (snd init) H1 H2) as (e & ->). cbn [bind].
  destruct (peak_some s H1) as (ip & peak & sp & -> & Hi). cbn [bind]. destruct (Z.leb_spec 0 ip); [|eauto].
  destruct (zget_ok (msX s) ip) as (p & -> & _); [lia|]. destruct (zget_ok (msA s) ip) as (tr & -> & _); [lia|]. cbn [bind]. eauto.
Qed.

(* ---- the file of the result ---- *)
Lemma file_fits (s : mesh T) dt f : msX s <> [] -> shaped (OMesh s) -> length (msTri s) = length (msX s) -> mesh_file s dt = Ok f ->
  small (OMesh s) /\ mesh_fits s.
Proof.
  intros NE Sh LT H. pose proof Sh as (S1 & S2 & S3). unfold mesh_file in H. cbv zeta in H.
  bget H as c3 H1. bget H as cb H2. bget H as c H3. bget H as p3 H4. bget H as pb H5. bget H as p H6. bget H as ts H7. bget H as t0s H8. bget H as o H9.
  bget H as n H10. bget H as n' H11. clear H.
  unfold imul in *. apply to_int_inv in H1, H4, H10, H11.
  destruct H1 as [E1 B1], H4 as [E4 B4], H10 as [E10 B10], H11 as [E11 B11].
  assert (Q1 : c3 = Z.of_nat (length (msPts s)) * 3) by congruence. assert (Q2 : p3 = mesh_Np s * 3) by congruence.
  assert (Q3 : n = mesh_Np s * msNt s) by congruence. assert (Q4 : n' = n * 6) by congruence. clear E1 E4 E10 E11. subst c3 p3 n' n.
  unfold mesh_Np in *. assert (NP : 1 <= Z.of_nat (length (msX s))) by (destruct (msX s); [congruence|cbn [length]; lia]).
  split.
  - cbn [small]. unfold fields. cbn [extent]. unfold mesh_Np. lia.
  - unfold mesh_fits. repeat split; try lia. nia.
Qed.
Lemma same_mesh_shaped (s s' : mesh T) : same_mesh s s' -> shaped (OMesh s) -> shaped (OMesh s').
Proof.
  intros (M1 & M2 & M3 & M4 & M5) (S1 & S2 & S3). cbn [shaped]. rewrite M3, M4. split; [exact S1|]. split; [rewrite <- (Forall2_length _ _ _ M5); exact S2|].
  clear S2. induction M5 as [|a b l l' H M IH]; [constructor|]. inversion S3; subst. constructor; [|apply IH; assumption].
  destruct H as (H & _). unfold tr_N in *. rewrite <- H. assumption.
Qed.
Lemma same_mesh_dt (s s' : mesh T) dt : same_mesh s s' -> Forall (fun tr => tr_dt tr = dt) (msA s) -> Forall (fun tr => tr_dt tr = dt) (msA s').
Proof.
  intros (_ & _ & _ & _ & M5) H. induction M5 as [|a b l l' E M IH]; [constructor|]. inversion H; subst. constructor; [|apply IH; assumption].
  destruct E as (_ & _ & E). congruence.
Qed.
Lemma zero_same (s : mesh T) : same_mesh s (mesh_zero s).
Proof.
  unfold same_mesh, mesh_zero, mesh_with. cbn. repeat (split; [reflexivity|]). induction (msA s) as [|a l IH]; constructor; [|exact IH].
  unfold same_sampling, tr_zero. cbn. rewrite map_length. auto.
Qed.
Lemma same_trans (a b c : mesh T) : same_mesh a b -> same_mesh b c -> same_mesh a c.
Proof.
  intros (A1 & A2 & A3 & A4 & A5) (B1 & B2 & B3 & B4 & B5). unfold same_mesh. repeat (split; [congruence|]).
  revert B5. generalize (msA c). induction A5 as [|x y l l' H M IH]; intros m B5; inversion B5; subst; constructor.
  - eapply sampling_trans; eassumption.
  - apply IH. assumption.
Qed.
Lemma prop_cell_zero srcs pos (tr : ftrace T) : prop_cell srcs pos (tr_zero tr) = prop_cell srcs pos tr.
Proof. unfold prop_cell, tr_zero. cbn [tr_t0 tr_dt tr_f]. rewrite map_map. reflexivity. Qed.

(* what is done with the target *)
Definition target_run (srcs : list (srccell T)) (ftgt : h5file T) (tgt tgt' : mesh T) (dt : T) : Prop :=
  mesh_read ftgt = Ok (tgt, dt) /\ same_mesh tgt tgt' /\
  forall k tr pos, nth_error (msA tgt) k = Some tr -> nth_error (msX tgt) k = Some pos ->
    exists out, prop_cell srcs pos tr = Ok out /\ nth_error (msA tgt') k = Some out.
Lemma target_inv boxed fs srcs infile outfile rs bs fs' :
  to_target sched boxed fs srcs infile outfile = Ok (rs, bs, fs') ->
  exists ftgt tgt tgt' dt init f r1 r2, fs infile = Some ftgt /\ target_run srcs ftgt tgt tgt' dt /\ mesh_init tgt = Ok init /\
    rs = [r1; r2] /\ mesh_report (mesh_zero tgt) init = Ok r1 /\ mesh_report tgt' init = Ok r2 /\
    (if boxed then exists b, mesh_box (mesh_zero tgt) dt = Ok b /\ bs = [b] else bs = []) /\
    mesh_file tgt' dt = Ok f /\ fs' = put fs outfile f.
Proof.
  unfold to_target, mesh_open. intros H. destruct (fs infile) as [ftgt|] eqn:Ef; [|discriminate H]. bget H as q Hq. destruct q as [tgt dt].
  bget H as init Hi. bget H as r1 H1. bget H as bs' Hb. bget H as tgt' Ht. bget H as r2 H2. bget H as f Hf. apply Ok_inj in H. injection H as <- <- <-.
  pose proof (read_lengths _ _ _ Hq) as LA.
  apply target_iff in Ht; [|exact F|unfold mesh_zero, mesh_with; cbn; rewrite map_length; exact LA]. destruct Ht as [M P].
  exists ftgt, tgt, tgt', dt, init, f, r1, r2. split; [reflexivity|]. split.
  - split; [exact Hq|]. split; [eapply same_trans; [apply zero_same|exact M]|]. intros k tr pos Hk Hp.
    destruct (P k (tr_zero tr) pos) as (out & O1 & O2); [cbn; rewrite nth_error_map, Hk; reflexivity|exact Hp|]. rewrite prop_cell_zero in O1. eauto.
  - repeat (split; [assumption || reflexivity|]). split.
    + destruct boxed; [|apply Ok_inj in Hb; congruence]. bget Hb as b Hbb. apply Ok_inj in Hb. eauto.
    + split; [exact Hf|reflexivity].
Qed.
Lemma target_intro boxed fs srcs infile outfile ftgt tgt tgt' dt init f : fs infile = Some ftgt -> target_run srcs ftgt tgt tgt' dt ->
  mesh_init tgt = Ok init -> (boxed = true -> exists b, mesh_box (mesh_zero tgt) dt = Ok b) -> mesh_file tgt' dt = Ok f ->
  exists rs bs, to_target sched boxed fs srcs infile outfile = Ok (rs, bs, put fs outfile f).
Proof.
  intros Ef (Hr & M & P) Hi Hb Hf. pose proof (read_lengths _ _ _ Hr) as LA. pose proof (init_length _ _ Hi) as LG.
  unfold to_target, mesh_open. rewrite Ef, Hr. cbn [bind]. rewrite Hi. cbn [bind].
  assert (LZ : length (msA (mesh_zero tgt)) = length (msX (mesh_zero tgt))) by (cbn; rewrite map_length; exact LA).
  destruct (report_some (mesh_zero tgt) init LZ LG) as (r1 & ->). cbn [bind].
  assert (B : exists bs, (if boxed then bind (mesh_box (mesh_zero tgt) dt) (fun b => Ok [b]) else Ok []) = Ok bs).
  { destruct boxed; [|eauto]. destruct (Hb eq_refl) as (b & ->). cbn. eauto. }
  destruct B as (bs & ->). cbn [bind].
  rewrite (proj2 (target_iff sched F srcs (mesh_zero tgt) tgt' LZ)).
  - cbn [bind]. destruct M as (M1 & M2 & M3 & M4 & M5). destruct (report_some tgt' init) as (r2 & ->).
    + rewrite M3, <- (Forall2_length _ _ _ M5). exact LA.
    + rewrite M3. exact LG.
    + cbn [bind]. rewrite Hf. cbn [bind]. eauto.
  - split.
    + destruct M as (M1 & M2 & M3 & M4 & M5). unfold same_mesh, mesh_zero, mesh_with. cbn [msPts msTri msX msNt msA]. repeat (split; [assumption|]).
      clear - M5. induction M5 as [|a b l l' E M IH]; constructor; [|exact IH]. destruct E as (E1 & E2 & E3). unfold same_sampling, tr_zero. cbn. rewrite map_length. auto.
    + intros k tr pos Hk Hp. cbn in Hk, Hp. rewrite nth_error_map in Hk. destruct (nth_error (msA tgt) k) as [tr'|] eqn:E; [|discriminate]. injection Hk as <-.
      rewrite prop_cell_zero. apply (P k tr' pos E Hp).
Qed.
Lemma target_back srcs ftgt tgt tgt' dt f : target_run srcs ftgt tgt tgt' dt -> mesh_file tgt' dt = Ok f -> msX tgt <> [] ->
  mesh_read f = Ok (tgt', dt) /\ shaped (OMesh tgt') /\ small (OMesh tgt') /\ mesh_fits tgt'.
Proof.
  intros (Hr & M & P) Hf NE. destruct (mesh_read_shaped _ _ _ Hr NE) as (Sh & LT & D). pose proof M as (M1 & M2 & M3 & M4 & M5).
  pose proof (same_mesh_shaped _ _ M Sh) as Sh'. destruct (file_fits tgt' dt f) as [Sm Ft]; [rewrite M3; exact NE|exact Sh'|rewrite M2, M3; exact LT|exact Hf|].
  split; [|auto]. apply (mesh_back tgt' dt f Sh' Sm Ft); [|exact Hf]. eapply same_mesh_dt; eassumption.
Qed.

(* ---- propagate ---- *)
Lemma propagate_inv fs prog sf infile outfile rest res : propagate_main sched solve fs (prog :: sf :: infile :: outfile :: rest) = Ok res ->
  exists fsrc src sdt init r0 srcs rs bs fs', fs sf = Some fsrc /\ mesh_read fsrc = Ok (src, sdt) /\ mesh_init src = Ok init /\ mesh_report src init = Ok r0 /\
    cells_of solve src (snd init) srcs /\ to_target sched false fs srcs infile outfile = Ok (rs, bs, fs') /\ res = (0, fs', r0 :: rs, []).
Proof.
  unfold propagate_main. destruct (Z.ltb_spec (Z.of_nat (length (prog :: sf :: infile :: outfile :: rest))) 3) as [HL|_]; [cbn [length] in HL; lia|].
  cbn [arg zget Z.ltb Z.compare Z.to_nat nth_error bind]. change (Pos.to_nat 1) with 1%nat. change (Pos.to_nat 2) with 2%nat. change (Pos.to_nat 3) with 3%nat. cbn [nth_error bind].
  intros H. unfold mesh_open in H. destruct (fs sf) as [fsrc|] eqn:Ef; [|discriminate H]. bget H as q Hq. destruct q as [src sdt].
  bget H as init Hi. bget H as r0 H0. bget H as srcs Hs. bget H as q Hq2. destruct q as [[rs bs] fs']. apply Ok_inj in H.
  apply source_iff in Hs; [|exact F|eapply read_lengths; eassumption|eapply init_length; eassumption].
  exists fsrc, src, sdt, init, r0, srcs, rs, bs, fs'. repeat (split; [assumption || reflexivity|]). congruence.
Qed.
Lemma propagate_intro fs prog sf infile outfile rest fsrc src sdt init r0 srcs rs bs fs' : fs sf = Some fsrc -> mesh_read fsrc = Ok (src, sdt) ->
  mesh_init src = Ok init -> mesh_report src init = Ok r0 -> cells_of solve src (snd init) srcs -> to_target sched false fs srcs infile outfile = Ok (rs, bs, fs') ->
  propagate_main sched solve fs (prog :: sf :: infile :: outfile :: rest) = Ok (0, fs', r0 :: rs, []).
Proof.
  intros H1 H2 H3 H4 H5 H6. unfold propagate_main. destruct (Z.ltb_spec (Z.of_nat (length (prog :: sf :: infile :: outfile :: rest))) 3) as [HL|_]; [cbn [length] in HL; lia|].
  cbn [arg zget Z.ltb Z.compare Z.to_nat nth_error bind]. change (Pos.to_nat 1) with 1%nat. change (Pos.to_nat 2) with 2%nat. change (Pos.to_nat 3) with 3%nat. cbn [nth_error bind].
  unfold mesh_open. rewrite H1, H2. cbn [bind]. rewrite H3. cbn [bind]. rewrite H4. cbn [bind].
  rewrite (proj2 (source_iff sched solve F src (snd init) srcs (read_lengths _ _ _ H2) (init_length _ _ H3)) H5). cbn [bind]. rewrite H6. reflexivity.
Qed.
(* ---- reflection ---- *)
Lemma reflect_shape (s s' : mesh T) g : reflect_mesh s g = Ok s' ->
  msPts s' = msPts s /\ msTri s' = msTri s /\ msX s' = msX s /\ msNt s' = msNt s /\ length (msA s') = length (msX s).
Proof.
  unfold reflect_mesh. intros H. bget H as l Hl. apply Ok_inj in H. subst. cbn. repeat (split; [reflexivity|]). apply map_res_zseq in Hl. tauto.
Qed.
Lemma reflection_inv fs prog sf infile outfile rest res : reflection_main sched solve fs (prog :: sf :: infile :: outfile :: rest) = Ok res ->
  exists fsrc src sdt init r0 b0 src' srcs rs bs fs', fs sf = Some fsrc /\ mesh_read fsrc = Ok (src, sdt) /\ mesh_init src = Ok init /\ mesh_report src init = Ok r0 /\
    mesh_box src sdt = Ok b0 /\ reflect_mesh src (snd init) = Ok src' /\
    cells_of solve src' (snd init) srcs /\ to_target sched true fs srcs infile outfile = Ok (rs, bs, fs') /\ res = (0, fs', r0 :: rs, b0 :: bs).
Proof.
  unfold reflection_main. destruct (Z.ltb_spec (Z.of_nat (length (prog :: sf :: infile :: outfile :: rest))) 4) as [HL|_]; [cbn [length] in HL; lia|].
  cbn [arg zget Z.ltb Z.compare Z.to_nat nth_error bind]. change (Pos.to_nat 1) with 1%nat. change (Pos.to_nat 2) with 2%nat. change (Pos.to_nat 3) with 3%nat. cbn [nth_error bind].
  intros H. unfold mesh_open in H. destruct (fs sf) as [fsrc|] eqn:Ef; [|discriminate H]. bget H as q Hq. destruct q as [src sdt].
  bget H as init Hi. bget H as r0 H0. bget H as b0 Hb. bget H as src' Hr. bget H as srcs Hs. bget H as q Hq2. destruct q as [[rs bs] fs']. apply Ok_inj in H.
  pose proof (reflect_shape _ _ _ Hr) as (R1 & R2 & R3 & R4 & R5).
  apply source_iff in Hs; [|exact F|rewrite R3; exact R5|rewrite R3; eapply init_length; eassumption].
  exists fsrc, src, sdt, init, r0, b0, src', srcs, rs, bs, fs'. repeat (split; [assumption || reflexivity|]). congruence.
Qed.
End Programs.
