(* Output files of snapshots, points and FEL interactions; the mesh reader. *)
From Coq Require Import ZArith String List Bool Lia.
From Verif Require Import Base BaseFacts Num VecModel ParticleModel TraceModel TraceProofs2 RetardModel BunchModel BeamSpec BeamProofs DistProofs ElementModel DriverModel DriverProofs
  ObserverModel ObserverSpec ObserverProofs ObserverProofs2 ObserverProofs6 PropagateModel SddsModel FelModel FelSpec FelProofs2 OutputModel OutputSpec OutputProofs OutputProofs2.
Import ListNotations.
Local Open Scope string_scope.
Local Open Scope list_scope.
Local Open Scope Z_scope.

Section Proofs.
Context {T : Type} {NT : Num T}.

(* ---- the snapshot ---- *)
Definition snap_field_set (s : snapshot T) (fs : list (emf T)) : h5set T :=
  H5 [snNx s; snNy s; 6] (HDoubles (flat_map six fs)) [att_double "t0" (snt s)].
Lemma snap_parts (s : snapshot T) : shaped (OSnap s) -> small (OSnap s) -> positions_fit (snNx s) (snNy s) ->
  exists ps fs, pos_set (snNx s) (snNy s) (fun xy => Ok (snap_pos s (fst xy) (snd xy))) = Ok (pos_data (snNx s) (snNy s) ps) /\
    complete (pos_data (snNx s) (snNy s) ps) /\
    (forall ix iy c, 0 <= ix < snNx s -> 0 <= iy < snNy s -> 0 <= c < 3 ->
      element_of (pos_data (snNx s) (snNy s) ps) [ix; iy; c] = coordinate c (middle_pos (snO s) (sndX s) (sndY s) (snNx s) (snNy s) ix iy)) /\
    bind (obs_getBuffer (OSnap s)) (fun b => h5_write [snNx s; snNy s; 6] b [att_double "t0" (snt s)]) = Ok (snap_field_set s fs) /\
    complete (snap_field_set s fs) /\
    (forall ix iy c f, inside (OSnap s) (ix, iy, 0) -> 0 <= c < 6 -> obs_get (OSnap s) (ix, iy, 0) = Ok f ->
      element_of (snap_field_set s fs) [ix; iy; c] = field_value c f).
Proof.
  intros Sh Sm Pf. destruct (getBuffer_ok (OSnap s) Sh Sm) as (fs & E & L & B).
  destruct (pos_set_ok (snNx s) (snNy s) (fun xy => Ok (snap_pos s (fst xy) (snd xy)))
    (middle_pos (snO s) (sndX s) (sndY s) (snNx s) (snNy s)) Pf) as (ps & P1 & P2 & P3).
  { intros ix iy I1 I2. destruct Pf as (Q1 & Q2 & _). cbn [fst snd]. unfold snap_pos. rewrite !i32_id by (unfold int_min; lia). reflexivity. }
  assert (C : Z.of_nat (length (flat_map six fs)) = h5_count [snNx s; snNy s; 6]).
  { rewrite six_length. unfold h5_count. cbn [fold_right fields extent] in *. nia. }
  exists ps, fs. split; [exact P1|]. split; [exact P2|]. split; [exact P3|]. split; [|split].
  - rewrite B. cbn [bind]. rewrite write_vals by exact C. reflexivity.
  - exact C.
  - intros ix iy c f I Hc G.
    pose proof (field_elements (OSnap s) fs [snNx s; snNy s; 1; 6] (fun k => let '(a, b, c) := k in [a; b; c]) [att_double "t0" (snt s)] Sh E) as Q.
    assert (R : forall k c, inside (OSnap s) k -> 0 <= c < 6 ->
      row_major [snNx s; snNy s; 1; 6] ((let '(a, b, d) := k in [a; b; d]) ++ [c]) = Some (6 * place (OSnap s) k + c)).
    { clear. intros [[a b] d] c (I1 & I2 & I3) Hc. cbn [app row_major]. rewrite !inb by (cbn [extent] in *; lia).
      f_equal. unfold place. cbn [extent fold_right]. lia. }
    specialize (Q R (ix, iy, 0) c f I Hc G). rewrite <- Q. unfold element_of. cbn [hsDims hsData snap_field_set app row_major].
    destruct I as (I1 & I2 & I3). cbn [extent] in *. rewrite !inb by lia. cbn [fold_right]. reflexivity.
Qed.

Lemma coords_len t ps vals : map_res (coords6 t) ps = Ok vals -> length (concat vals) = (6 * length ps)%nat.
Proof.
  revert vals. induction ps as [|p ps IH]; intros vals H; cbn in H; [apply Ok_inj in H; subst; reflexivity|].
  destruct (coords6 t p) as [v| | |] eqn:E; try discriminate H. cbn [bind] in H. destruct (map_res (coords6 t) ps) as [l| | |]; try discriminate H.
  apply Ok_inj in H. subst vals. cbn [concat length]. rewrite app_length, (IH l eq_refl).
  unfold coords6 in E. destruct (CoordinatesAtTime p t) as [[x m]| | |]; try discriminate E. cbn [bind] in E. apply Ok_inj in E. subst v.
  rewrite app_length, !wrv_length. lia.
Qed.
Lemma coords_nth t ps vals : map_res (coords6 t) ps = Ok vals -> forall i p x m, nth_error ps i = Some p -> CoordinatesAtTime p t = Ok (x, m) ->
  forall c, 0 <= c < 6 -> nth_error (concat vals) (6 * i + Z.to_nat c) = (if c <? 3 then coordinate c x else coordinate (c - 3) m).
Proof.
  revert vals. induction ps as [|q ps IH]; intros vals H i p x m E G c Hc; [destruct i; discriminate E|]. cbn in H.
  destruct (coords6 t q) as [v| | |] eqn:Eq; try discriminate H. cbn [bind] in H. destruct (map_res (coords6 t) ps) as [l| | |]; try discriminate H.
  apply Ok_inj in H. subst vals. cbn [concat].
  assert (LV : length v = 6%nat).
  { unfold coords6 in Eq. destruct (CoordinatesAtTime q t) as [[x' m']| | |]; try discriminate Eq. cbn [bind] in Eq. apply Ok_inj in Eq. subst v. reflexivity. }
  destruct i as [|i]; cbn [nth_error] in E.
  - injection E as ->. unfold coords6 in Eq. rewrite G in Eq. cbn [bind fst snd] in Eq. apply Ok_inj in Eq. subst v.
    rewrite nth_error_app1 by (rewrite LV; lia). assert (c = 0 \/ c = 1 \/ c = 2 \/ c = 3 \/ c = 4 \/ c = 5) as [-> |[-> |[-> |[-> |[-> | ->]]]]] by lia; reflexivity.
  - rewrite nth_error_app2 by lia. rewrite LV. replace (6 * S i + Z.to_nat c - 6)%nat with (6 * i + Z.to_nat c)%nat by lia.
    apply (IH l eq_refl _ p); assumption.
Qed.
Definition coord_set (n : Z) (vals : list T) : h5set T := H5 [n; 6] (HDoubles vals) [att_int "N_particles" n].
Lemma count_len bm : count bm = Z.of_nat (length (concat (bmB (T:=T) bm))).
Proof. reflexivity. Qed.
Lemma snap_store_ok t (bm : beam T) : 6 * count bm <= int_max ->
  (forall p, In p (concat (bmB bm)) -> exists xm, CoordinatesAtTime p t = Ok xm) ->
  exists vals, snap_store t bm = Ok (count bm, map Some (concat vals)) /\ map_res (coords6 t) (concat (bmB bm)) = Ok vals /\
    Z.of_nat (length (concat vals)) = 6 * count bm.
Proof.
  intros Hc Hp. assert (M : exists vals, map_res (coords6 t) (concat (bmB bm)) = Ok vals).
  { revert Hp. generalize (concat (bmB bm)). induction l as [|p l IH]; intros Hp; [exists []; reflexivity|].
    destruct (Hp p (or_introl eq_refl)) as [xm E]. destruct IH as [vals Ev]; [intros q Iq; apply Hp; right; exact Iq|].
    eexists. cbn. unfold coords6 at 1. rewrite E. cbn [bind]. rewrite Ev. reflexivity. }
  destruct M as [vals M]. exists vals. pose proof (coords_len _ _ _ M) as L. rewrite count_len in *.
  split; [|split; [exact M|lia]]. unfold snap_store.
  rewrite beam_NOP_ok by (rewrite count_len; lia). rewrite count_len. cbn [bind].
  rewrite OutputProofs2.imul_in by (unfold int_min; lia). cbn [bind]. rewrite M. cbn [bind]. rewrite buf_exact by lia. reflexivity.
Qed.
Lemma snap_file_ok (s : snapshot T) n vals : shaped (OSnap s) -> small (OSnap s) -> positions_fit (snNx s) (snNy s) ->
  0 < n -> Z.of_nat (length vals) = 6 * n ->
  exists p f, snap_file s (Some (n, map Some vals)) = Ok [("ObservationPosition", p); ("ElMagField", f); ("ParticleCoordinates", coord_set n vals)] /\
    snap_file s None = Ok [("ObservationPosition", p); ("ElMagField", f)] /\
    hsDims p = [snNx s; snNy s; 3] /\ complete p /\ hsDims f = [snNx s; snNy s; 6] /\ complete f /\ attribute f "t0" = Some (SDouble (snt s)) /\
    (forall ix iy c, 0 <= ix < snNx s -> 0 <= iy < snNy s -> 0 <= c < 3 ->
      element_of p [ix; iy; c] = coordinate c (middle_pos (snO s) (sndX s) (sndY s) (snNx s) (snNy s) ix iy)) /\
    (forall ix iy c g, inside (OSnap s) (ix, iy, 0) -> 0 <= c < 6 -> obs_get (OSnap s) (ix, iy, 0) = Ok g ->
      element_of f [ix; iy; c] = field_value c g).
Proof.
  intros Sh Sm Pf Hn Hv. destruct (snap_parts s Sh Sm Pf) as (ps & fs & P1 & P2 & P3 & F1 & F2 & F3).
  exists (pos_data (snNx s) (snNy s) ps), (snap_field_set s fs).
  assert (K : forall st, snap_file s st = bind (match st with
       | Some (n, pb) => if (0 <? n)%Z then bind (h5_write [n; 6%Z] pb [att_int "N_particles" n]) (fun d => Ok [("ParticleCoordinates", d)]) else Ok []
       | None => Ok [] end) (fun c => Ok ([("ObservationPosition", pos_data (snNx s) (snNy s) ps); ("ElMagField", snap_field_set s fs)] ++ c))).
  { intros st. unfold snap_file. rewrite P1. cbn [bind]. revert F1. destruct (obs_getBuffer (OSnap s)); intros F1; try discriminate F1. cbn [bind] in *. rewrite F1. reflexivity. }
  split; [|split; [|auto 10]].
  - rewrite K. destruct (Z.ltb_spec 0 n); [|lia]. rewrite write_vals by (unfold h5_count; cbn [fold_right]; lia). reflexivity.
  - rewrite K. reflexivity.
Qed.

(* ---- the point ---- *)
Lemma point_ok (s : point T) : tr_N (poTr s) < 2 ^ 31 ->
  point_file s = Ok (SD [("NumberTimeSteps", SLong (tr_N (poTr s))); ("t0", SDouble (tr_t0 (poTr s))); ("dt", SDouble (tr_dt (poTr s)))] (tr_N (poTr s))
    (("t", map (fun i => nadd (tr_t0 (poTr s)) (nmul (nZ i) (tr_dt (poTr s)))) (zseq 0 (length (tr_f (poTr s))))) ::
     map (fun c => (fst c, map (snd c) (tr_f (poTr s)))) point_columns)).
Proof.
  intros H. unfold point_file. cbv zeta. assert (0 <= tr_N (poTr s)) by (unfold tr_N; lia).
  rewrite u32_id by lia. rewrite i32_id by (unfold int_min, int_max; lia).
  replace (Z.to_nat (tr_N (poTr s))) with (length (tr_f (poTr s))) by (unfold tr_N; lia).
  rewrite (map_res_pointwise _ _ (tr_f (poTr s))).
  - reflexivity.
  - apply zseq_length.
  - intros k x y K1 K2. assert (K : (k < length (tr_f (poTr s)))%nat) by (apply nth_error_Some; congruence).
    rewrite zseq_nth, Z.add_0_l in K1 by exact K. injection K1 as <-. unfold tr_get, tr_in, tr_N.
    rewrite inb by lia. apply zget_nth. exact K2.
Qed.

(* ---- what the mesh reader returns ---- *)
Lemma vecs_len (l : list T) : forall n, length l = (3 * n)%nat -> length (vecs_of l) = n.
Proof.
  intros n. revert l. induction n as [|n IH]; intros [|a [|b [|c l]]] H; cbn [length] in H; try lia; [reflexivity|].
  cbn [vecs_of length]. rewrite IH by lia. reflexivity.
Qed.
Lemma tris_len (l : list Z) : forall n, length l = (3 * n)%nat -> length (tris_of l) = n.
Proof.
  intros n. revert l. induction n as [|n IH]; intros [|a [|b [|c l]]] H; cbn [length] in H; try lia; [reflexivity|].
  cbn [tris_of length]. rewrite IH by lia. reflexivity.
Qed.
Lemma h5_fill_len {A} (v b r : list A) : h5_fill v b = Ok r -> length r = length b.
Proof.
  unfold h5_fill. destruct (Nat.leb_spec (length v) (length b)); intros E; [|discriminate]. apply Ok_inj in E. subst r.
  rewrite app_length, skipn_length. lia.
Qed.
Lemma buf_read_len {A} n (b : buffer A) r : buf_read n b = Ok r -> length r = n.
Proof.
  revert b r. induction n as [|n IH]; intros b r H; [cbn in H; apply Ok_inj in H; subst; reflexivity|].
  cbn in H. destruct b as [|[x|] b]; try discriminate H. destruct (buf_read n b) eqn:E; try discriminate H. cbn [bind] in H. apply Ok_inj in H. subst r.
  cbn [length]. rewrite (IH _ _ E). reflexivity.
Qed.
Lemma h5_fill_buf {A} (v b r : list A) : h5_fill v b = Ok r -> length r = length b.
Proof. apply h5_fill_len. Qed.
Lemma read_vectors_len d n (l : list (vec T)) : read_vectors d n = Ok l -> 0 <= n /\ Z.of_nat (length l) = n.
Proof.
  unfold read_vectors. destruct (Z.ltb_spec n 0); [discriminate|]. intros E. bget E as v Hv. okinj E. apply h5_fill_len in Hv.
  unfold zero_doubles in Hv. rewrite repeat_length in Hv. split; [lia|]. rewrite (vecs_len v (Z.to_nat n)) by lia. lia.
Qed.
Lemma tr_set_len (tr tr' : ftrace T) i f : tr_set tr i f = Ok tr' -> tr_N tr' = tr_N tr /\ tr_dt tr' = tr_dt tr /\ tr_t0 tr' = tr_t0 tr.
Proof.
  unfold tr_set. destruct (tr_in tr i); [|discriminate]. intros E. bget E as l Hl. okinj E. unfold tr_N. cbn [tr_f tr_dt tr_t0].
  unfold zset in Hl. destruct (orb _ _); [discriminate Hl|]. okinj Hl. rewrite lset_length. auto.
Qed.
Lemma tr_fill_len k : forall i buf (tr tr' : ftrace T), tr_fill k i buf tr = Ok tr' -> tr_N tr' = tr_N tr /\ tr_dt tr' = tr_dt tr /\ tr_t0 tr' = tr_t0 tr.
Proof.
  induction k as [|k IH]; intros i buf tr tr' H; cbn in H; [okinj H; auto|]. destruct buf as [|f r]; [discriminate H|].
  bget H as t Ht. apply tr_set_len in Ht. apply IH in H. destruct H as (A & B & C), Ht as (D & E & F). repeat split; congruence.
Qed.
Lemma to_int_inv o z : to_int o = Ok z -> o = Some z /\ int_min <= z <= int_max.
Proof.
  unfold to_int, in_int. destruct o as [x|]; [|discriminate]. destruct (Z.leb_spec int_min x); [|discriminate]. destruct (Z.leb_spec x int_max); [|discriminate].
  cbn. intros E. apply Ok_inj in E. subst x. auto.
Qed.
Lemma mesh_read_shaped (f : h5file T) s dt : mesh_read f = Ok (s, dt) -> msX s <> [] ->
  shaped (OMesh s) /\ length (msTri s) = length (msX s) /\ Forall (fun tr => tr_dt tr = dt) (msA s).
Proof.
  intros H NE. unfold mesh_read in H. bget H as d1 H1. bget H as ncp H2. bget H as pts H3. bget H as d2 H4. bget H as np H5. bget H as xs H6.
  bget H as d3 H7. bget H as n3 H8. bget H as is H9. bget H as b H10. bget H as ti H11. bget H as q H12. destruct q as [[nt dt'] trs].
  bget H as trs' H13. apply Ok_inj in H. assert (s = MS pts (tris_of ti) xs nt trs') by congruence. assert (dt' = dt) by congruence. subst s dt'. clear H.
  cbn [msX] in NE. apply read_vectors_len in H6. destruct H6 as [Hnp Lx]. apply buf_read_len in H11.
  unfold imul in H8. apply to_int_inv in H8. destruct H8 as [H8 _]. assert (n3 = 3 * np) by congruence. subst n3.
  assert (LX : (0 < length xs)%nat) by (destruct xs; [congruence|cbn [length]; lia]).
  assert (A : 0 <= nt /\ length trs = length xs /\ Forall (fun tr => tr_N tr = nt /\ tr_dt tr = dt) trs).
  { unfold mesh_times in H12. destruct (named f "ObservationTime") as [d|].
    - bget H12 as nt' K1. bget H12 as dt' K2. bget H12 as b' K3. bget H12 as ts K4. bget H12 as trs0 K5.
      apply Ok_inj in H12. assert (nt' = nt) by congruence. assert (dt' = dt) by congruence. assert (trs0 = trs) by congruence. subst nt' dt' trs0. clear H12.
      apply buf_read_len in K4.
      destruct (Z.ltb_spec nt 0) as [Hn|Hn].
      + destruct ts as [|t ts]; [cbn [length] in *; lia|discriminate K5].
      + rewrite (map_res_ext _ (fun t0 => tr_new t0 dt (Z.to_nat nt))) in K5 by reflexivity. okinj K5. rewrite map_length. split; [lia|]. split; [lia|].
        apply Forall_forall. intros tr I. apply in_map_iff in I. destruct I as (t & <- & _). unfold tr_N, tr_new. cbn [tr_f tr_dt]. rewrite repeat_length. split; [lia|reflexivity].
    - apply Ok_inj in H12. assert (nt = 0) by congruence. assert (dt = nZ 0) by congruence. assert (trs = repeat (tr_new (nZ 0) (nZ 0) 0) (Z.to_nat np)) by congruence.
      subst nt dt trs. rewrite repeat_length. split; [lia|]. split; [lia|]. apply Forall_forall. intros tr I. apply repeat_spec in I. subst tr. split; reflexivity. }
  destruct A as (A1 & A2 & A3).
  assert (B : length trs' = length xs /\ Forall (fun tr => tr_N tr = nt /\ tr_dt tr = dt) trs').
  { unfold mesh_fields in H13. destruct (named f "ElMagField") as [d|]; [|okinj H13; auto].
    bget H13 as n K1. bget H13 as vals K2. destruct (map_res_nth _ _ _ H13) as [KL KN].
    rewrite combine_len, zseq_length in KL by (rewrite zseq_length; reflexivity). split; [congruence|].
    apply Forall_forall. intros tr I. apply In_nth_error in I. destruct I as [k Ik].
    assert (K : (k < length trs)%nat) by (rewrite <- KL; apply nth_error_Some; congruence).
    destruct (nth_error trs k) as [t|] eqn:Et; [|apply nth_error_None in Et; lia].
    destruct (KN _ _ (nth_numbered _ _ _ Et)) as (y & Ey & Fy). assert (y = tr) by congruence. subst y. cbn [fst snd] in Fy.
    unfold tr_set_buffer in Fy. destruct (nt =? tr_N t); [|discriminate Fy]. apply tr_fill_len in Fy.
    pose proof (proj1 (Forall_forall _ _) A3 t (nth_error_In _ _ Et)) as [Q1 Q2]. destruct Fy as (F1 & F2 & _). split; congruence. }
  destruct B as [B1 B2]. split; [|split].
  - cbn [shaped msNt msA msX]. split; [lia|]. split; [exact B1|]. eapply Forall_impl; [|exact B2]. intros tr [Q _]. exact Q.
  - cbn [msTri msX]. rewrite (tris_len ti (length xs)) by lia. reflexivity.
  - cbn [msA]. eapply Forall_impl; [|exact B2]. intros tr [_ Q]. exact Q.
Qed.

(* ---- the FEL file ---- *)
Context {TT : Trans T}.
Definition header (f : fel T) := (feN f, feDt f, feDz f, feOrig f, feZR f, feW0 f, (feZw f, feEvery f, feOut f)).
Lemma init_header (f g : fel T) bm : fel_init bm f = Ok g -> header g = header f.
Proof. unfold fel_init. destruct (nltb _ _); [discriminate|]. intros H. bget H as r Hr. bget H as n Hn. okinj H. reflexivity. Qed.
Lemma step_header (f g : fel T) bm : fel_step bm f = Ok g -> header g = header f.
Proof.
  unfold fel_step. destruct (beam_late _ _); [discriminate|]. intros H. bget H as z Hz. bget H as J HJ. unfold fel_advance in H.
  bget H as r Hr. bget H as e He. bget H as n Hn. bget H as d Hd. okinj H. reflexivity.
Qed.
Lemma states_header bms : forall (f : fel T) gs, fel_states bms f = Ok gs -> header (last gs f) = header f.
Proof.
  induction bms as [|bm r IH]; intros f gs H; cbn in H; [okinj H; reflexivity|]. bget H as g Hg. bget H as l Hl. okinj H.
  rewrite <- (step_header _ _ _ Hg), <- (IH _ _ Hl). f_equal. clear. revert f g. induction l as [|a l IH]; intros f g; [reflexivity|]. 
  cbn [last] in *. destruct l; [reflexivity|]. apply (IH f g).
Qed.
Lemma new_header dt N pos prop pol log zR w0 zw sd (f : fel T) : fel_new dt N pos prop pol log zR w0 zw sd = Ok f ->
  header f = (N, dt, vmul (vnormalize prop) (nmul (nopp dt) nc), pos, zR, w0, (zw, log, match log with Some _ => true | None => false end)).
Proof.
  intros H. unfold fel_new in H. cbv zeta in H. bget H as g Hg. unfold fel_setup in Hg. bget Hg as z Hz. okinj Hg. cbn [feN feDt feProp feHead feOrig feDs feEx feEy feOut feEvery] in *.
  destruct sd as [[[[a b] c] d]|].
  - unfold fel_seed in H. bget H as e He. bget H as z2 Hz2. okinj H. reflexivity.
  - okinj H. reflexivity.
Qed.
End Proofs.
