(* The output files: C71-C75. *)
From Coq Require Import ZArith String Reals List Lia Lra Bool.
From Verif Require Import Base BaseFacts Num VecModel VecFacts ParticleModel TraceModel TraceProofs2 RetardModel BunchModel BeamSpec ElementModel DriverModel DriverProofs DistProofs
  ObserverModel ObserverSpec ObserverProofs ObserverProofs2 ObserverProofs6 PropagateModel PropagateProofs5 SddsModel FelModel FelSpec FelProofs FelProofs2 FelProofs3 FelProofs4 FelProofs5 LoggerModel LoggerSpec LoggerProofs2
  OutputModel OutputSpec OutputProofs OutputProofs2 OutputProofs3 OutputProofs4 PropFel.
Import ListNotations.
Local Open Scope string_scope.
Local Open Scope list_scope.
Local Open Scope Z_scope.

(* ==== C71: the file of a screen ==== *)
(* positions, geometry, and all fields with their indices *)
Theorem C71_file : forall (T : Type) (NT : Num T) (s : screen T),
  shaped (OScreen s) -> small (OScreen s) -> positions_fit (scNx s) (scNy s) -> scN s <= int_max ->
  exists p g e, screen_file s = Ok [("ObservationPosition", p); ("Screen", g); ("ElMagField", e)] /\
    (hsDims p = [scNx s; scNy s; 3] /\ complete p /\ attribute p "Nx" = Some (SLong (scNx s)) /\ attribute p "Ny" = Some (SLong (scNy s)) /\
     forall ix iy c, 0 <= ix < scNx s -> 0 <= iy < scNy s -> 0 <= c < 3 ->
       element_of p [ix; iy; c] = coordinate c (centre_pos (scO s) (scdX s) (scdY s) (scNx s) (scNy s) ix iy)) /\
    (hsDims g = [4; 3] /\ complete g /\
     (forall c, 0 <= c < 3 -> element_of g [0; c] = coordinate c (scO s) /\ element_of g [1; c] = coordinate c (scNormal s) /\
       element_of g [2; c] = coordinate c (scdX s) /\ element_of g [3; c] = coordinate c (scdY s)) /\
     attribute g "Nx" = Some (SLong (scNx s)) /\ attribute g "Ny" = Some (SLong (scNy s)) /\ attribute g "NOTS" = Some (SLong (scN s)) /\
     attribute g "t0" = Some (SDouble (sct0 s)) /\ attribute g "dt" = Some (SDouble (scdt s)) /\
     attribute g "dtx" = Some (SDouble (scdtx s)) /\ attribute g "dty" = Some (SDouble (scdty s))) /\
    (hsDims e = [scNx s; scNy s; scN s; 6] /\ complete e /\ attribute e "t0" = Some (SDouble (sct0 s)) /\
     attribute e "dt" = Some (SDouble (scdt s)) /\ attribute e "NOTS" = Some (SLong (scN s)) /\
     forall ix iy it c f, inside (OScreen s) (ix, iy, it) -> 0 <= c < 6 -> obs_get (OScreen s) (ix, iy, it) = Ok f ->
       element_of e [ix; iy; it; c] = field_value c f).
Proof.
  intros T NT s Sh Sm Pf HN. destruct (screen_file_ok s Sh Sm Pf) as (ps & fs & E & P1 & P2 & _ & _ & F1 & F2).
  pose proof Sh as (H1 & H2 & H3 & _). pose proof Pf as (Q1 & Q2 & _).
  assert (I1 : i32 (scNx s) = scNx s) by (apply i32_id; unfold int_min; lia).
  assert (I2 : i32 (scNy s) = scNy s) by (apply i32_id; unfold int_min; lia).
  assert (I3 : i32 (scN s) = scN s) by (apply i32_id; unfold int_min; lia).
  do 3 eexists. split; [exact E|]. split; [|split].
  - split; [reflexivity|]. split; [exact P1|]. unfold attribute, pos_data, att_int. cbn [hsAttr named String.eqb Ascii.eqb Bool.eqb].
    rewrite I1, I2. auto.
  - split; [reflexivity|]. split; [reflexivity|]. split.
    + intros c Hc. assert (c = 0 \/ c = 1 \/ c = 2) as [-> |[-> | ->]] by lia; repeat split; reflexivity.
    + unfold attribute, screen_set_of, att_int, att_double. cbn [hsAttr named String.eqb Ascii.eqb Bool.eqb]. rewrite I1, I2, I3. auto 10.
  - split; [reflexivity|]. split; [exact F1|]. unfold attribute, field_set_of at 1 2 3, att_int, att_double. cbn [hsAttr named String.eqb Ascii.eqb Bool.eqb].
    rewrite I3. auto 10.
Qed.
Print Assumptions C71_file.
(* The file used as a source again (class SourceScreen) at the origin of the screen and with
   its start time: every cell is found at its place, its trace starts at the time of the cell
   and holds the tangential components of the recorded fields.  (For cell vectors which are
   not perpendicular the reader changes the directions, C42.) *)
Theorem C71_read_back : forall (s : screen R) (f : h5file R),
  shaped (OScreen s) -> small (OScreen s) -> positions_fit (scNx s) (scNy s) -> 2 <= scN s ->
  scdX s <> vzero -> scdY s <> vzero -> vdot (scdX s) (scdY s) = 0%R -> scNormal s = vnormalize (vmul (vcross (scdX s) (scdY s)) (-1)%R) ->
  screen_file s = Ok f ->
  exists ss, source_read f = Ok ss /\ ssNx ss = scNx s /\ ssNy ss = scNy s /\ ssN ss = scNormal s /\ ssdx ss = vnorm (scdX s) /\ ssdy ss = vnorm (scdY s) /\
    forall ix iy, 0 <= ix < scNx s -> 0 <= iy < scNy s ->
      (exists p, ss_pos ss ix iy = Ok p /\ vadd (scO s) p = centre_pos (scO s) (scdX s) (scdY s) (scNx s) (scNy s) ix iy) /\
      exists tr, cell_get (ssTr ss) ix iy = Ok tr /\ screen_t0 s ix iy = Ok (sct0 s + tr_t0 tr)%R /\ tr_dt tr = scdt s /\ tr_N tr = scN s /\
        forall it g, 0 <= it < scN s -> obs_get (OScreen s) (ix, iy, it) = Ok g ->
          tr_get tr it = Ok (tangential (vnormalize (scdX s)) (vnormalize (scdY s)) g).
Proof. exact screen_as_source. Qed.
Print Assumptions C71_read_back.

(* The element made of the file (any arithmetic): its field is that of the source moved to the
   given position and start time; without the file it is refused. *)
Theorem C71_placed : forall (T : Type) (NT : Num T) (TT : Trans T) (fs : string -> option (h5file T)) fn pos t0,
  (forall f ss, fs fn = Some f -> source_read f = Ok ss ->
     exists e, screen_source fs fn pos t0 = Ok e /\ forall t X, element_field e t X = ss_local ss (t - t0)%num (vsub X pos)) /\
  (fs fn = None -> screen_source fs fn pos t0 = Throw IOexc).
Proof.
  intros T NT TT fs fn pos t0. unfold screen_source. split.
  - intros f ss -> E. rewrite E. cbn [bind]. eexists. split; reflexivity.
  - intros ->. reflexivity.
Qed.
Print Assumptions C71_placed.
(* Violation: the buffer for the positions has a size computed in 32 bits; from 3 Nx Ny >= 2^32
   on it is too small for what is written to it *)
Theorem C71_positions_overflow_refuted : forall (T : Type) (NT : Num T) (s : screen T),
  shaped (OScreen s) -> scNx s <= int_max -> scNy s <= int_max -> 2 ^ 32 <= 3 * (scNx s * scNy s) -> screen_file s = UB.
Proof. intros T NT. apply screen_file_overflow. Qed.
Print Assumptions C71_positions_overflow_refuted.
(* Violation: a file without time steps or with a single one cannot be read again *)
Theorem C71_short_refuted : exists (s : screen R) f,
  shaped (OScreen s) /\ small (OScreen s) /\ positions_fit (scNx s) (scNy s) /\ screen_file s = Ok f /\ source_read f = UB.
Proof.
  exists (SC vzero (V 1 0 0)%R (V 0 1 0)%R (V 0 0 (-1))%R 1 1 1 0%R 1%R 0%R 0%R [[FT 0%R 1%R [ezero]]]).
  set (s := SC _ _ _ _ _ _ _ _ _ _ _ _).
  assert (Sh : shaped (OScreen s)).
  { cbn [shaped s scNx scNy scN scTr]. split; [lia|]. split; [lia|]. split; [lia|]. split; [reflexivity|]. constructor; [|constructor].
    split; [reflexivity|]. constructor; [reflexivity|constructor]. }
  assert (Sm : small (OScreen s)) by (cbn [small fields extent s scNx scNy scN]; lia).
  assert (Pf : positions_fit (scNx s) (scNy s)) by (cbn [s scNx scNy]; unfold positions_fit, int_max; lia).
  destruct (C71_file R NumR s Sh Sm Pf ltac:(cbn [s scN]; unfold int_max; lia)) as (p & g & e & E & _).
  eexists. split; [exact Sh|]. split; [exact Sm|]. split; [exact Pf|]. split; [exact E|]. rewrite (screen_back s _ Sh Sm Pf E).
  unfold ss_new. destruct (source_frame _ _ _) as [[[[a b] c] d] q]. reflexivity.
Qed.
Print Assumptions C71_short_refuted.
Example C71_ex : exists s : screen R, shaped (OScreen s) /\ small (OScreen s) /\ positions_fit (scNx s) (scNy s) /\ 2 <= scN s <= int_max /\
  scdX s <> vzero /\ scdY s <> vzero /\ vdot (scdX s) (scdY s) = 0%R /\ scNormal s = vnormalize (vmul (vcross (scdX s) (scdY s)) (-1)%R) /\
  exists f, screen_file s = Ok f.
Proof.
  exists (SC vzero (V 1 0 0)%R (V 0 1 0)%R (V 0 0 (-1))%R 1 1 2 0%R 1%R 0%R 0%R [[FT 0%R 1%R [ezero; ezero]]]).
  set (s := SC _ _ _ _ _ _ _ _ _ _ _ _).
  assert (Sh : shaped (OScreen s)).
  { cbn [shaped s scNx scNy scN scTr]. split; [lia|]. split; [lia|]. split; [lia|]. split; [reflexivity|]. constructor; [|constructor].
    split; [reflexivity|]. constructor; [reflexivity|constructor]. }
  assert (Sm : small (OScreen s)) by (cbn [small fields extent s scNx scNy scN]; lia).
  assert (Pf : positions_fit (scNx s) (scNy s)) by (cbn [s scNx scNy]; unfold positions_fit, int_max; lia).
  split; [exact Sh|]. split; [exact Sm|]. split; [exact Pf|]. split; [cbn [s scN]; unfold int_max; lia|].
  cbn [s scdX scdY scNormal]. split; [intros E; apply (f_equal vx) in E; cbn in E; lra|]. split; [intros E; apply (f_equal vy) in E; cbn in E; lra|].
  split; [vunfold; unnum; ring|]. split.
  - replace (vmul (vcross (V 1 0 0)%R (V 0 1 0)%R) (-1)%R) with (V 0 0 (-1))%R by (vunfold; unnum; vsplit; ring). rewrite unit_normalize by ring. reflexivity.
  - destruct (C71_file R NumR s Sh Sm Pf ltac:(cbn [s scN]; unfold int_max; lia)) as (p & g & e & E & _). eexists. exact E.
Qed.

(* ==== C72: the file of a mesh ==== *)
(* What is written can be read again and gives the same mesh with the same traces. *)
Theorem C72_round_trip : forall (T : Type) (NT : Num T) (s : mesh T) dt,
  shaped (OMesh s) -> small (OMesh s) -> mesh_fits s -> Forall (fun tr => tr_dt tr = dt) (msA s) ->
  exists f, mesh_file s dt = Ok f /\ mesh_read f = Ok (s, dt).
Proof.
  intros T NT s dt Sh Sm F D. destruct (mesh_file_ok s dt Sh Sm F) as (fs & _ & _ & E). exists (mesh_sets s dt fs). split; [exact E|].
  apply (mesh_back s dt); assumption.
Qed.
Print Assumptions C72_round_trip.
(* the contents by index *)
Theorem C72_file : forall (T : Type) (NT : Num T) (s : mesh T) dt,
  shaped (OMesh s) -> small (OMesh s) -> mesh_fits s ->
  exists c p t o e, mesh_file s dt = Ok [("MeshCornerPoints", c); ("ObservationPosition", p); ("MeshTriangles", t); ("ObservationTime", o); ("ElMagField", e)] /\
    hsDims c = [Z.of_nat (length (msPts s)); 3] /\ hsDims p = [mesh_Np s; 3] /\ hsDims t = [mesh_Np s; 3] /\ hsDims o = [mesh_Np s] /\ hsDims e = [mesh_Np s; msNt s; 6] /\
    hsData t = HInts (flat_map (fun k => [fst (fst k); snd (fst k); snd k]) (msTri s)) /\
    attribute o "Nt" = Some (SLong (msNt s)) /\ attribute o "dt" = Some (SDouble dt) /\
    (forall i v k, nth_error (msPts s) i = Some v -> 0 <= k < 3 -> element_of c [Z.of_nat i; k] = coordinate k v) /\
    (forall i v k, nth_error (msX s) i = Some v -> 0 <= k < 3 -> element_of p [Z.of_nat i; k] = coordinate k v) /\
    (forall i tr, nth_error (msA s) i = Some tr -> element_of o [Z.of_nat i] = Some (tr_t0 tr)) /\
    (forall i it k f, inside (OMesh s) (i, 0, it) -> 0 <= k < 6 -> obs_get (OMesh s) (i, 0, it) = Ok f -> element_of e [i; it; k] = field_value k f).
Proof.
  intros T NT s dt Sh Sm F. destruct (mesh_file_ok s dt Sh Sm F) as (fs & E & L & H). do 5 eexists. split; [exact H|]. clear H.
  do 5 (split; [reflexivity|]). destruct F as (F1 & F2 & F3 & F4). pose proof Sh as (H1 & H2 & H3).
  split. { cbn [hsData]. f_equal. apply flat_map_ext. intros [[? ?] ?]. reflexivity. }
  split. { unfold attribute. cbn [hsAttr named att_int att_double String.eqb Ascii.eqb Bool.eqb]. rewrite i32_id by (unfold int_min; lia). reflexivity. }
  split; [reflexivity|].
  assert (VV : forall (l : list (vec T)) n attr i v k, n = Z.of_nat (length l) -> nth_error l i = Some v -> 0 <= k < 3 ->
    element_of (H5 [n; 3] (HDoubles (flat_map wrv l)) attr) [Z.of_nat i; k] = coordinate k v).
  { intros l n attr i v k -> Ni Hk. assert (i < length l)%nat by (apply nth_error_Some; congruence).
    unfold element_of. cbn [hsDims hsData row_major]. rewrite !inb by lia. cbn [fold_right].
    replace (Z.to_nat (Z.of_nat i * (3 * 1) + (k * 1 + 0))) with (3 * i + Z.to_nat k)%nat by lia.
    rewrite (block_nth wrv 3 wrv_length _ _ _ _ Ni) by lia. apply wrv_coordinate. exact Hk. }
  split. { intros i v k. apply VV. reflexivity. }
  split. { intros i v k. apply VV. reflexivity. }
  split.
  - intros i tr Ni. assert (i < length (msA s))%nat by (apply nth_error_Some; congruence).
    unfold element_of. cbn [hsDims hsData row_major]. rewrite inb by (unfold mesh_Np; lia). cbn [fold_right].
    replace (Z.to_nat (Z.of_nat i * 1 + 0)) with i by lia. rewrite nth_error_map, Ni. reflexivity.
  - intros i it k f I Hk G.
    pose proof (field_elements (OMesh s) fs [mesh_Np s; 1; msNt s; 6] (fun k => let '(a, b, c) := k in [a; b; c]) [] Sh E) as Q.
    assert (R : forall k c, inside (OMesh s) k -> 0 <= c < 6 ->
      row_major [mesh_Np s; 1; msNt s; 6] ((let '(a, b, d) := k in [a; b; d]) ++ [c]) = Some (6 * place (OMesh s) k + c)).
    { clear. intros [[a b] d] c (I1 & I2 & I3) Hc. cbn [app row_major]. rewrite !inb by (cbn [extent] in *; lia).
      f_equal. unfold place. cbn [extent fold_right]. lia. }
    specialize (Q R (i, 0, it) k f I Hk G). rewrite <- Q. unfold element_of. cbn [hsDims hsData app row_major].
    destruct I as (I1 & I2 & I3). cbn [extent] in *. rewrite !inb by lia. cbn [fold_right]. f_equal. f_equal. lia.
Qed.
Print Assumptions C72_file.
(* every mesh which is read has traces of equal length and sampling, one for every position,
   and as many triangles *)
Theorem C72_shaped : forall (T : Type) (NT : Num T) (f : h5file T) s dt, mesh_read f = Ok (s, dt) -> msX s <> [] ->
  shaped (OMesh s) /\ length (msTri s) = length (msX s) /\ Forall (fun tr => tr_dt tr = dt) (msA s).
Proof. intros T NT. apply mesh_read_shaped. Qed.
Print Assumptions C72_shaped.
(* Violation: the sizes are computed in int *)
Theorem C72_overflow_refuted : forall (T : Type) (NT : Num T) (s : mesh T) dt,
  (int_max < 3 * Z.of_nat (length (msPts s)) -> mesh_file s dt = UB) /\
  (forall f d, named f "MeshCornerPoints" = Some d -> forall np, h5_int d "Ncp" = Ok 0 -> h5_doubles d = [] ->
     forall p, named f "ObservationPosition" = Some p -> h5_int p "Np" = Ok np -> int_max < 3 * np -> Z.of_nat (length (h5_doubles p)) <= 3 * np ->
     (exists t, named f "MeshTriangles" = Some t) -> mesh_read (T := T) f = UB).
Proof.
  intros T NT s dt. split.
  - intros H. unfold mesh_file. cbv zeta. unfold imul at 1. rewrite FelProofs2.to_int_out by lia. reflexivity.
  - intros f d Hd np H1 H2 p Hp H3 H4 H5 [t Ht]. unfold mesh_read, h5_open. rewrite Hd. cbn [bind]. rewrite H1. cbn [bind].
    unfold read_vectors at 1. rewrite H2. cbn [Z.ltb Z.compare]. change (h5_fill [] (zero_doubles (3 * 0))) with (Ok (@nil T)). cbn [bind vecs_of].
    rewrite Hp. cbn [bind]. rewrite H3. cbn [bind]. unfold read_vectors. destruct (Z.ltb_spec np 0); [unfold int_max in *; lia|].
    unfold zero_doubles. rewrite h5_fill_ok by (rewrite repeat_length; lia). cbn [bind]. rewrite Ht. cbn [bind].
    unfold imul. rewrite FelProofs2.to_int_out by lia. reflexivity.
Qed.
Print Assumptions C72_overflow_refuted.
Example C72_ex : exists s : mesh R, shaped (OMesh s) /\ small (OMesh s) /\ mesh_fits s /\ Forall (fun tr => tr_dt tr = 1%R) (msA s) /\ msX s <> [] /\ 0 < msNt s.
Proof.
  exists (MS [V 0 0 0; V 1 0 0; V 0 1 0]%R [(0, 1, 2)] [V (1 / 3) (1 / 3) 0]%R 2 [FT 0%R 1%R [ezero; ezero]]).
  split; [cbn [shaped msNt msA msX]; split; [lia|]; split; [reflexivity|]; constructor; [reflexivity|constructor]|].
  split; [cbn [small fields extent]; unfold mesh_Np, int_max; cbn [msX length msNt]; lia|].
  split; [unfold mesh_fits, int_max; cbn [msTri msX msPts length msNt]; lia|]. split; [constructor; [reflexivity|constructor]|]. split; [discriminate|cbn [msNt]; lia].
Qed.

(* ==== C73: the file of a snapshot ==== *)
Theorem C73_file : forall (T : Type) (NT : Num T) (s : snapshot T) (bm : beam T) t,
  shaped (OSnap s) -> small (OSnap s) -> positions_fit (snNx s) (snNy s) ->
  0 < count bm -> 6 * count bm <= int_max -> (forall p, In p (concat (bmB bm)) -> exists xm, CoordinatesAtTime p t = Ok xm) ->
  exists st p f c, snap_store t bm = Ok st /\
    snap_file s (Some st) = Ok [("ObservationPosition", p); ("ElMagField", f); ("ParticleCoordinates", c)] /\
    snap_file s None = Ok [("ObservationPosition", p); ("ElMagField", f)] /\
    (hsDims p = [snNx s; snNy s; 3] /\ complete p /\
     forall ix iy c, 0 <= ix < snNx s -> 0 <= iy < snNy s -> 0 <= c < 3 ->
       element_of p [ix; iy; c] = coordinate c (middle_pos (snO s) (sndX s) (sndY s) (snNx s) (snNy s) ix iy)) /\
    (hsDims f = [snNx s; snNy s; 6] /\ complete f /\ attribute f "t0" = Some (SDouble (snt s)) /\
     forall ix iy c g, inside (OSnap s) (ix, iy, 0) -> 0 <= c < 6 -> obs_get (OSnap s) (ix, iy, 0) = Ok g -> element_of f [ix; iy; c] = field_value c g) /\
    (hsDims c = [count bm; 6] /\ complete c /\ attribute c "N_particles" = Some (SLong (count bm)) /\
     forall i q x m k, nth_error (concat (bmB bm)) i = Some q -> CoordinatesAtTime q t = Ok (x, m) -> 0 <= k < 6 ->
       element_of c [Z.of_nat i; k] = if k <? 3 then coordinate k x else coordinate (k - 3) m).
Proof.
  intros T NT s bm t Sh Sm Pf Hc0 Hc Hp. destruct (snap_store_ok t bm Hc Hp) as (vals & S & M & L).
  destruct (snap_file_ok s (count bm) (concat vals) Sh Sm Pf Hc0 L) as (p & f & A & B & P1 & P2 & F1 & F2 & F3 & P3 & F4).
  eexists. exists p, f, (coord_set (count bm) (concat vals)). split; [exact S|]. split; [exact A|]. split; [exact B|]. split; [auto|]. split; [auto|].
  split; [reflexivity|]. split; [unfold complete, coord_set; cbn [hsData hsDims fold_right]; lia|]. split.
  - unfold attribute, coord_set, att_int. cbn [hsAttr named String.eqb Ascii.eqb Bool.eqb]. rewrite i32_id by (unfold int_min; lia). reflexivity.
  - intros i q x m k N G Hk. assert (i < length (concat (bmB bm)))%nat by (apply nth_error_Some; congruence). unfold count in *.
    unfold element_of, coord_set. cbn [hsDims hsData row_major]. rewrite !inb by lia. cbn [fold_right].
    replace (Z.to_nat (Z.of_nat i * (6 * 1) + (k * 1 + 0))) with (6 * i + Z.to_nat k)%nat by lia.
    apply (coords_nth t _ _ M i q x m N G k Hk).
Qed.
Print Assumptions C73_file.
(* Violation: 6 N is computed in int *)
Theorem C73_overflow_refuted : forall (T : Type) (NT : Num T) (bm : beam T) t, count bm <= int_max -> int_max < 6 * count bm -> snap_store t bm = UB.
Proof.
  intros T NT bm t H1 H2. unfold snap_store. rewrite BeamProofs.beam_NOP_ok by exact H1. cbn [bind].
  unfold imul. rewrite FelProofs2.to_int_out by lia. reflexivity.
Qed.
Print Assumptions C73_overflow_refuted.
Example C73_ex : exists (s : snapshot R) (bm : beam R) t, shaped (OSnap s) /\ small (OSnap s) /\ positions_fit (snNx s) (snNy s) /\
  0 < count bm /\ 6 * count bm <= int_max /\ forall p, In p (concat (bmB bm)) -> exists xm, CoordinatesAtTime p t = Ok xm.
Proof.
  exists (SN vzero (V 1 0 0)%R (V 0 1 0)%R 1 1 0%R [[ezero]]).
  exists (BM [[new_particle 1%R 1%R]] 0 1%R TRACKING_VAY), 0%R.
  split; [cbn [shaped snNx snNy snF]; split; [lia|]; split; [lia|]; split; [reflexivity|]; constructor; [reflexivity|constructor]|].
  split; [cbn [small fields extent snNx snNy]; lia|]. split; [unfold positions_fit, int_max; cbn [snNx snNy]; lia|].
  split; [unfold count; cbn [bmB concat app length]; lia|]. split; [unfold count, int_max; cbn [bmB concat app length]; lia|].
  intros p [<-|[]]. exists (vzero, vzero). reflexivity.
Qed.

(* ==== C74: tables of a point observer and of a parameter logger ==== *)
Theorem C74_point : forall (T : Type) (NT : Num T) (s : point T), tr_N (poTr s) <= int_max ->
  exists d, point_file s = Ok d /\ sdRows d = tr_N (poTr s) /\
    named (sdPar d) "NumberTimeSteps" = Some (SLong (tr_N (poTr s))) /\ named (sdPar d) "t0" = Some (SDouble (tr_t0 (poTr s))) /\
    named (sdPar d) "dt" = Some (SDouble (tr_dt (poTr s))) /\
    forall i f, nth_error (tr_f (poTr s)) i = Some f ->
      column d "t" i = Some (nadd (tr_t0 (poTr s)) (nmul (nZ (Z.of_nat i)) (tr_dt (poTr s)))) /\
      column d "Ex" i = Some (vx (fE f)) /\ column d "Ey" i = Some (vy (fE f)) /\ column d "Ez" i = Some (vz (fE f)) /\
      column d "Bx" i = Some (vx (fB f)) /\ column d "By" i = Some (vy (fB f)) /\ column d "Bz" i = Some (vz (fB f)).
Proof.
  intros T NT s H. eexists. split; [apply point_ok; unfold int_max in H; lia|]. do 4 (split; [reflexivity|]).
  intros i f N. assert (i < length (tr_f (poTr s)))%nat by (apply nth_error_Some; congruence).
  unfold column. cbn [sdCol named map point_columns fst snd String.eqb Ascii.eqb Bool.eqb].
  rewrite (nth_zseq_map (fun k => nadd (tr_t0 (poTr s)) (nmul (nZ k) (tr_dt (poTr s))))) by assumption.
  rewrite !nth_error_map, N. repeat split.
Qed.
Print Assumptions C74_point.
(* the table of the parameters has a row for every recorded state of the bunch; the
   number of particles and the charge are those of the bunch when the file is written *)
Theorem C74_parameters : forall (T : Type) (NT : Num T) absBF (b : bunch T) step freq bs, Z.of_nat (length bs) <= int_max ->
  exists d, plog_file b (fold_left (fun l b => plog_update absBF b l) bs (plog_new step freq)) = Ok d /\ sdRows d = Z.of_nat (length bs) /\
    named (sdPar d) "NumberTimeSteps" = Some (SLong (Z.of_nat (length bs))) /\ named (sdPar d) "NumberParticles" = Some (SLong (Z.of_nat (length b))) /\
    named (sdPar d) "TotalCharge" = Some (SDouble (fold_left (fun s p => nadd s (nmul (pCharge p) nqe)) b (nZ 0))) /\
    named (sdPar d) "BunchingFrequency" = option_map (@SDouble T) freq /\
    forall i a, nth_error bs i = Some a ->
      column d "t" i = Some (bunch_avgTime a) /\
      column d "x_av" i = Some (vx (bunch_avgPosition a)) /\ column d "y_av" i = Some (vy (bunch_avgPosition a)) /\ column d "z_av" i = Some (vz (bunch_avgPosition a)) /\
      column d "bgx_av" i = Some (vx (bunch_avgMomentum a)) /\ column d "bgy_av" i = Some (vy (bunch_avgMomentum a)) /\ column d "bgz_av" i = Some (vz (bunch_avgMomentum a)) /\
      column d "gamma" i = Some (bunch_avgGamma a) /\ column d "delta" i = Some (bunch_delta a) /\
      column d "x_rms" i = Some (vx (bunch_rmsPosition a)) /\ column d "y_rms" i = Some (vy (bunch_rmsPosition a)) /\ column d "z_rms" i = Some (vz (bunch_rmsPosition a)) /\
      column d "BF" i = Some (match freq with Some f => absBF a f | None => nZ 0 end).
Proof.
  intros T NT absBF b step freq bs H. rewrite plog_new_fold by (unfold int_max in H; lia).
  unfold plog_file. rewrite plog_write_of. cbn [bind]. eexists. split; [reflexivity|].
  cbn [plog_of plNOTS plFreq sdRows sdPar]. rewrite i32_id by (unfold int_min; lia). split; [reflexivity|].
  cbn [app named String.eqb Ascii.eqb Bool.eqb]. do 3 (split; [reflexivity|]). split; [destruct freq; reflexivity|].
  intros i a N. unfold column. cbn [sdCol plog_names length seq combine map named fst snd String.eqb Ascii.eqb Bool.eqb].
  rewrite !nth_error_map, N. repeat split.
Qed.
Print Assumptions C74_parameters.
Example C74_ex : tr_N (poTr (PO (V 0 0 7)%R (tr_new 1%R 1%R 2))) <= int_max /\ Z.of_nat (length [@nil (particle R); []]) <= int_max.
Proof. split; unfold int_max; cbn; lia. Qed.

(* ==== C75: the file of the FEL interaction ==== *)
Theorem C75_file : forall (T : Type) (NT : Num T) (TT : Trans T) dt N pos prop pol s zR w0 zw sd (f0 f1 : fel T) bm0 bms gs,
  let f := last gs f1 in
  N <= int_max -> int_min <= s <= int_max -> fel_new dt N pos prop pol (Some s) zR w0 zw sd = Ok f0 -> fel_init bm0 f0 = Ok f1 -> fel_states bms f1 = Ok gs ->
  Z.of_nat (length (feSt f)) <= int_max -> N * Z.of_nat (length (feSt f)) <= int_max ->
  exists e j, fel_file f = Ok (Some [("InteractionField", e); ("CurrentDensity", j)]) /\
    hsDims e = [Z.of_nat (length (feSt f)); N] /\ hsData e = HDoubles (concat (feSt f)) /\ hsDims j = hsDims e /\ hsData j = HDoubles (concat (feJst f)) /\
    attribute e "N_field" = Some (SLong N) /\ attribute e "N_steps" = Some (SLong (Z.of_nat (length (feSt f)))) /\ attribute e "N_output" = Some (SLong s) /\
    attribute e "dt" = Some (SDouble dt) /\ attribute e "w0" = Some (SDouble w0) /\ attribute e "z_Rayl" = Some (SDouble zR) /\ attribute e "z_waist" = Some (SDouble zw) /\
    attribute e "origin.x" = Some (SDouble (vx pos)) /\ attribute e "origin.y" = Some (SDouble (vy pos)) /\ attribute e "origin.z" = Some (SDouble (vz pos)) /\
    (* the vector between neighbouring cells *)
    let dz := vmul (vnormalize prop) (nmul (nopp dt) nc) in
    attribute e "prop.x" = Some (SDouble (vx dz)) /\ attribute e "prop.y" = Some (SDouble (vy dz)) /\ attribute e "prop.z" = Some (SDouble (vz dz)).
Proof.
  intros T NT TT dt N pos prop pol s zR w0 zw sd f0 f1 bm0 bms gs f HN Hs H0 H1 H L1 L2.
  pose proof (C55_file T NT TT dt N pos prop pol s zR w0 zw sd f0 f1 bm0 bms gs HN H0 H1 H L1 L2) as Out. fold f in Out.
  pose proof (states_header _ _ _ H) as Hd. fold f in Hd. rewrite (init_header _ _ _ H1), (new_header _ _ _ _ _ _ _ _ _ _ _ H0) in Hd.
  unfold header in Hd. injection Hd as A1 A2 A3 A4 A5 A6 A7 A8 A9.
  assert (N0 : 0 <= N). { apply new_wf in H0; [|exact HN]. destruct H0 as (W & <- & _). apply W. }
  unfold fel_file. rewrite Out. cbn [bind]. rewrite A8. do 2 eexists. split; [reflexivity|]. cbn [hsDims hsData]. do 4 (split; [reflexivity|]).
  unfold attribute, fel_attributes, att_int, att_double. cbn [hsAttr named String.eqb Ascii.eqb Bool.eqb].
  rewrite A1, A2, A3, A4, A5, A6, A7. rewrite !i32_id by (unfold int_min in *; lia). repeat split.
Qed.
Print Assumptions C75_file.
(* Violation: the attribute named "prop" (the propagation direction) is this vector, which
   points backwards *)
Theorem C75_direction_refuted : forall (TT : Trans R) dt N pos prop pol s zR w0 zw sd (f0 f1 : fel R) bm0 bms gs,
  let f := last gs f1 in
  N <= int_max -> int_min <= s <= int_max -> fel_new dt N pos prop pol (Some s) zR w0 zw sd = Ok f0 -> fel_init bm0 f0 = Ok f1 -> fel_states bms f1 = Ok gs ->
  Z.of_nat (length (feSt f)) <= int_max -> N * Z.of_nat (length (feSt f)) <= int_max -> (0 < dt)%R -> prop <> vzero ->
  exists e j x y z, fel_file f = Ok (Some [("InteractionField", e); ("CurrentDensity", j)]) /\
    attribute e "prop.x" = Some (SDouble x) /\ attribute e "prop.y" = Some (SDouble y) /\ attribute e "prop.z" = Some (SDouble z) /\
    (vdot (V x y z) prop < 0)%R.
Proof.
  intros TT dt N pos prop pol s zR w0 zw sd f0 f1 bm0 bms gs f HN Hs H0 H1 H L1 L2 Hdt Hp.
  destruct (C75_file R NumR TT dt N pos prop pol s zR w0 zw sd f0 f1 bm0 bms gs HN Hs H0 H1 H L1 L2) as (e & j & E & _ & _ & _ & _ & _ & _ & _ & _ & _ & _ & _ & _ & _ & _ & X & Y & Z0).
  exists e, j. do 3 eexists. split; [exact E|]. split; [exact X|]. split; [exact Y|]. split; [exact Z0|]. clear - Hdt Hp.
  pose proof nc_pos as Hc. pose proof (vnorm_pos prop Hp) as Hn. pose proof (vnorm_sq prop) as Q. rewrite vnormalize_div.
  generalize dependent (@nc R NumR). intros c Hc.
  assert (D : vdot (V (vx (vmul (vdiv prop (vnorm prop)) (nmul (nopp dt) c))) (vy (vmul (vdiv prop (vnorm prop)) (nmul (nopp dt) c)))
    (vz (vmul (vdiv prop (vnorm prop)) (nmul (nopp dt) c)))) prop = (- (dt * c) * vnorm prop)%R).
  { replace (- (dt * c) * vnorm prop)%R with (- (dt * c) * (vnorm prop * vnorm prop / vnorm prop))%R by (field; lra). rewrite Q.
    clear Q. generalize dependent (vnorm prop). intros k Hk. destruct prop. vunfold. unnum. field. lra. }
  rewrite D. assert (0 < dt * c * vnorm prop)%R by (apply Rmult_lt_0_compat; [apply Rmult_lt_0_compat; lra|lra]). lra.
Qed.
Print Assumptions C75_direction_refuted.
Example C75_ex : forall TT : Trans R, exists (f0 f1 : fel R) bm0,
  fel_new 1%R 5 vzero (V 0 0 1)%R (V 1 0 0)%R (Some 1) 1%R 1%R 0%R None = Ok f0 /\ fel_init bm0 f0 = Ok f1 /\ fel_states [] f1 = Ok [] /\
  Z.of_nat (length (feSt f1)) <= int_max /\ 5 * Z.of_nat (length (feSt f1)) <= int_max /\ (V 0 0 1)%R <> vzero.
Proof.
  intros TT. destruct (new_exists (1 : R)%R 5 vzero (V 0 0 1)%R (V 1 0 0)%R (Some 1) 1%R 1%R 0%R None ltac:(unfold int_max; lia)) as [f0 H0].
  pose proof H0 as K. apply new_wf in K; [|unfold int_max; lia]. destruct K as (W & N0 & D & T0 & S0 & _ & _ & _ & _ & _ & St & Js & E & O & EP).
  destruct (init_exists f0 (no_beam 0 1%R) W ltac:(lia) ltac:(rewrite S0; unfold int_min, int_max; lia) ltac:(cbn [no_beam bmdt]; congruence)) as [f1 H1].
  pose proof H1 as K. apply init_inv in K; [|exact W]. destruct K as (_ & _ & _ & r & E1 & _).
  assert (L : length (feSt f1) = 1%nat) by (rewrite E1; cbn [feSt]; rewrite St; reflexivity).
  exists f0, f1, (no_beam 0 1%R). split; [exact H0|]. split; [exact H1|]. split; [reflexivity|]. rewrite L. unfold int_max. split; [lia|]. split; [lia|].
  intros Q. apply (f_equal vz) in Q. cbn in Q. lra.
Qed.
