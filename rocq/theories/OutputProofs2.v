(* Output files which are read again: screens and meshes. *)
From Coq Require Import ZArith String List Bool Lia.
From Verif Require Import Base BaseFacts Num VecModel ParticleModel TraceModel TraceProofs2 RetardModel BunchModel DistProofs DriverModel DriverProofs
  ObserverModel ObserverSpec ObserverProofs ObserverProofs2 ObserverProofs6 PropagateModel SddsModel OutputModel OutputSpec OutputProofs.
Import ListNotations.
Local Open Scope string_scope.
Local Open Scope list_scope.
Local Open Scope Z_scope.

Lemma nth_firstn {A} : forall (N : nat) (l : list A) k, (k < N)%nat -> nth_error (firstn N l) k = nth_error l k.
Proof. induction N as [|N IH]; intros l k Hk; [lia|]. destruct l as [|a l]; [reflexivity|]. destruct k; [reflexivity|]. cbn. apply IH. lia. Qed.
Lemma nth_skipn {A} : forall (m : nat) (l : list A) k, nth_error (skipn m l) k = nth_error l (m + k).
Proof. induction m as [|m IH]; intros l k; [reflexivity|]. destruct l as [|a l]; [destruct k; reflexivity|]. cbn. apply IH. Qed.
Lemma nth_piece {A} n i (l : list A) k : (k < Z.to_nat n)%nat -> nth_error (piece n i l) k = nth_error l (Z.to_nat (i * n) + k).
Proof. intros H. unfold piece. rewrite nth_firstn by exact H. apply nth_skipn. Qed.
Lemma piece_length {A} n i (l : list A) : 0 <= n -> 0 <= i -> (i + 1) * n <= Z.of_nat (length l) -> Z.of_nat (length (piece n i l)) = n.
Proof. intros H1 H2 H3. unfold piece. rewrite firstn_length, skipn_length. nia. Qed.
Lemma nth_none {A} (l : list A) n k : Z.of_nat (length l) = n -> (Z.to_nat n <= k)%nat -> nth_error l k = None.
Proof. intros. apply nth_error_None. lia. Qed.
Lemma nth_zseq_map {A} (g : Z -> A) n k : (k < n)%nat -> nth_error (map g (zseq 0 n)) k = Some (g (Z.of_nat k)).
Proof. intros H. rewrite (map_nth_error g k (zseq 0 n) (d := Z.of_nat k)); [reflexivity|]. rewrite zseq_nth by exact H. reflexivity. Qed.

Section Proofs.
Context {T : Type} {NT : Num T}.

Lemma emfs_of_six (fs : list (emf T)) rest : emfs_of (flat_map six fs ++ rest) = fs ++ emfs_of rest.
Proof. induction fs as [|[[a b c] [d e f]] fs IH]; [reflexivity|]. cbn. rewrite IH. reflexivity. Qed.
Lemma vecs_of_wrv (vs : list (vec T)) rest : vecs_of (flat_map wrv vs ++ rest) = vs ++ vecs_of rest.
Proof. induction vs as [|[a b c] vs IH]; [reflexivity|]. cbn. rewrite IH. reflexivity. Qed.
Lemma tris_of_ints ts : tris_of (flat_map ints_of ts) = ts.
Proof. induction ts as [|[[a b] c] ts IH]; [reflexivity|]. cbn. rewrite IH. reflexivity. Qed.
Lemma h5_fill_ok {A} (vals b : list A) : (length vals <= length b)%nat -> h5_fill vals b = Ok (vals ++ skipn (length vals) b).
Proof. intros H. unfold h5_fill. destruct (Nat.leb_spec (length vals) (length b)); [reflexivity|lia]. Qed.
Lemma dims_same a : dims_eqb a a = true.
Proof. unfold dims_eqb. destruct (list_eq_dec Z.eq_dec a a); congruence. Qed.
Lemma u32_id z : 0 <= z < 2 ^ 32 -> u32 z = z.
Proof. intros. unfold u32. apply Z.mod_small. lia. Qed.

(* ---- the screen ---- *)
Lemma cell_fields_ok (s : screen T) fs : shaped (OScreen s) -> map_res (obs_get (OScreen s)) (obs_keys (OScreen s)) = Ok fs ->
  Z.of_nat (length fs) = fields (OScreen s) ->
  cell_fields (scNx s) (scNy s) (scN s) fs = map (map tr_f) (scTr s).
Proof.
  intros Sh E L. pose proof Sh as (H1 & H2 & H3 & H4 & H5). cbn [fields extent] in L.
  destruct (map_res_nth _ _ _ E) as [_ Hn].
  unfold cell_fields. apply nth_error_ext. intros i. destruct (Nat.lt_ge_cases i (Z.to_nat (scNx s))) as [Hi|Hi].
  2:{ rewrite (nth_none _ (scNx s)) by (rewrite ?map_length, ?zseq_length; lia). rewrite (nth_none _ (scNx s)) by (rewrite ?map_length; lia). reflexivity. }
  rewrite nth_zseq_map by exact Hi. destruct (nth_error (scTr s) i) as [r|] eqn:Er; [|apply nth_error_None in Er; lia].
  rewrite (map_nth_error _ _ _ Er). f_equal.
  assert (Hr := proj1 (Forall_forall _ _) H5 r (nth_error_In _ _ Er)). destruct Hr as [Hr Htr].
  apply nth_error_ext. intros j. destruct (Nat.lt_ge_cases j (Z.to_nat (scNy s))) as [Hj|Hj].
  2:{ rewrite (nth_none _ (scNy s)) by (rewrite ?map_length, ?zseq_length; lia). rewrite (nth_none _ (scNy s)) by (rewrite ?map_length; lia). reflexivity. }
  rewrite nth_zseq_map by exact Hj. destruct (nth_error r j) as [tr|] eqn:Ej; [|apply nth_error_None in Ej; lia].
  rewrite (map_nth_error _ _ _ Ej). f_equal.
  assert (HN := proj1 (Forall_forall _ _) Htr tr (nth_error_In _ _ Ej)). unfold tr_N in HN.
  assert (Q : 0 <= Z.of_nat i * scNy s + Z.of_nat j < scNx s * scNy s) by nia.
  assert (Q2 : 0 <= (Z.of_nat i * scNy s + Z.of_nat j) * scN s) by (apply Z.mul_nonneg_nonneg; lia).
  apply nth_error_ext. intros k. destruct (Nat.lt_ge_cases k (Z.to_nat (scN s))) as [Hk|Hk].
  2:{ rewrite (nth_none _ (scN s)); [|apply piece_length; nia|exact Hk]. rewrite (nth_none _ (scN s)) by lia. reflexivity. }
  rewrite nth_piece by exact Hk.
  assert (I : inside (OScreen s) (Z.of_nat i, Z.of_nat j, Z.of_nat k)) by (cbn [inside extent]; lia).
  destruct (Hn _ _ (keys_place (OScreen s) _ Sh I)) as (g & N & G). cbn [place extent] in N.
  replace (Z.to_nat ((Z.of_nat i * scNy s + Z.of_nat j) * scN s + Z.of_nat k)) with (Z.to_nat ((Z.of_nat i * scNy s + Z.of_nat j) * scN s) + k)%nat in N by lia.
  rewrite N. cbn [obs_get] in G. unfold screen_get in G. rewrite (screen_in_true _ _ _ _ I) in G. unfold cell_get in G.
  rewrite (zget_nth _ _ _ Er) in G. cbn [bind] in G. rewrite (zget_nth _ _ _ Ej) in G. cbn [bind] in G. unfold tr_get in G.
  destruct (tr_in tr (Z.of_nat k)); [|discriminate]. apply zget_inv in G. destruct G as [_ G]. rewrite Nat2Z.id in G. symmetry. exact G.
Qed.

Lemma screen_back (s : screen T) f : shaped (OScreen s) -> small (OScreen s) -> positions_fit (scNx s) (scNy s) -> screen_file s = Ok f ->
  source_read f = ss_new (scNormal s) (scdX s) (scdY s) (scNx s) (scNy s) (scdt s) (scdtx s) (scdty s) (map (map tr_f) (scTr s)).
Proof.
  intros Sh Sm Pf F. destruct (screen_file_ok s Sh Sm Pf) as (ps & fs & F' & _ & _ & E & L & _ & _).
  rewrite F in F'. apply Ok_inj in F'. subst f. pose proof Sh as (H1 & H2 & H3 & _).
  pose proof (fields_pos _ Sh) as P0. cbn [small fields extent] in Sm, L, P0.
  unfold source_read. cbn [h5_open named fst snd String.eqb Ascii.eqb Bool.eqb bind].
  unfold h5_open. cbn [named]. unfold screen_set_of, field_set_of.
  cbn [String.eqb Ascii.eqb Bool.eqb bind h5_int h5_double h5_default named hsAttr att_int att_double hsData hsDims h5_doubles].
  rewrite !i32_u32 by lia. rewrite (u32_id (scNx s * scNy s * scN s * 6)) by nia.
  cbn [flat_map wrv app map h5_fill buf_new length Nat.leb Z.to_nat Pos.to_nat Pos.iter_op Nat.add repeat skipn bind buf_read firstn vecs_of vx vy vz].
  change (Z.to_nat 12) with 12%nat. cbn [repeat buf_new].
  set (mem := zero_doubles _).
  assert (ML : Z.of_nat (length mem) = 6 * (scNx s * scNy s * scN s * 6)) by (unfold mem, zero_doubles; rewrite repeat_length; lia).
  destruct (scNormal s) as [n1 n2 n3], (scdX s) as [x1 x2 x3], (scdY s) as [y1 y2 y3].
  cbn -[mem dims_eqb h5_fill emfs_of ss_new cell_fields Z.mul Z.ltb flat_map].
  match goal with |- bind (h5_fill ?a ?b) _ = _ => change (h5_fill a b) with (Ok a) end.
  cbn -[mem dims_eqb h5_fill emfs_of ss_new cell_fields Z.mul Z.ltb flat_map].
  rewrite dims_same. rewrite h5_fill_ok by (rewrite six_length; nia). cbn [bind]. rewrite emfs_of_six.
  destruct (Z.ltb_spec (Z.of_nat (length (fs ++ emfs_of (skipn (length (flat_map six fs)) mem)))) (scNx s * scNy s * scN s)) as [Hb|Hb].
  { rewrite app_length in Hb. lia. }
  f_equal. rewrite <- (cell_fields_ok s fs Sh E L).
  unfold cell_fields. apply map_ext_in. intros ix Ix. apply map_ext_in. intros iy Iy. apply zseq_In in Ix. apply zseq_In in Iy.
  unfold piece. rewrite skipn_app, firstn_app, skipn_length.
  assert (Q : 0 <= ix * scNy s + iy) by nia. assert (Q' : ix * scNy s + iy + 1 <= scNx s * scNy s) by nia.
  assert (Q2 : (ix * scNy s + iy + 1) * scN s <= scNx s * scNy s * scN s) by (apply Z.mul_le_mono_nonneg_r; lia).
  assert (Q3 : 0 <= (ix * scNy s + iy) * scN s) by (apply Z.mul_nonneg_nonneg; lia).
  replace (Z.to_nat (scN s) - (length fs - Z.to_nat ((ix * scNy s + iy) * scN s)))%nat with 0%nat by lia.
  cbn [firstn]. apply app_nil_r.
Qed.

(* ---- the mesh ---- *)
Lemma map_res_pointwise {A B} (f : A -> res B) : forall l out, length l = length out ->
  (forall k x y, nth_error l k = Some x -> nth_error out k = Some y -> f x = Ok y) -> map_res f l = Ok out.
Proof.
  induction l as [|a l IH]; intros [|b out] L H; cbn in L; try lia; [reflexivity|].
  cbn. rewrite (H 0%nat a b eq_refl eq_refl). cbn. rewrite (IH out); [reflexivity|lia|]. intros k x y. apply (H (S k)).
Qed.
Lemma nth_numbered {A} (l : list A) k x : nth_error l k = Some x -> nth_error (combine (zseq 0 (length l)) l) k = Some (Z.of_nat k, x).
Proof.
  intros H. assert (K : (k < length l)%nat) by (apply nth_error_Some; congruence).
  assert (G : forall (a : list Z) (b : list A) k u v, nth_error a k = Some u -> nth_error b k = Some v -> nth_error (combine a b) k = Some (u, v)).
  { clear. induction a as [|a0 a IH]; intros [|b0 b] [|k] u v; cbn; try discriminate; [congruence|]. apply IH. }
  apply G; [rewrite zseq_nth by exact K; reflexivity|exact H].
Qed.
Lemma combine_len {A B} (a : list A) (b : list B) : length a = length b -> length (combine a b) = length a.
Proof. intros H. rewrite combine_length. lia. Qed.

Lemma fill_more (rest : list (emf T)) : forall buf pre t0 dt, (length rest <= length buf)%nat ->
  tr_fill (length rest) (Z.of_nat (length pre)) buf (FT t0 dt (pre ++ rest)) = Ok (FT t0 dt (pre ++ firstn (length rest) buf)).
Proof.
  induction rest as [|g rest IH]; intros [|f buf] pre t0 dt H; cbn [length] in H; try lia; try reflexivity.
  cbn [length tr_fill]. rewrite tr_set_inside.
  - cbn [bind tr_t0 tr_dt tr_f firstn]. rewrite Nat2Z.id, lset_app.
    specialize (IH buf (pre ++ [f]) t0 dt ltac:(lia)).
    rewrite app_length, <- !app_assoc in IH. cbn [length app] in IH.
    replace (Z.of_nat (length pre) + 1) with (Z.of_nat (length pre + 1)) by lia. exact IH.
  - unfold tr_N. cbn [tr_f]. rewrite app_length. cbn [length]. lia.
Qed.
Lemma mesh_piece (s : mesh T) fs i tr : shaped (OMesh s) -> map_res (obs_get (OMesh s)) (obs_keys (OMesh s)) = Ok fs ->
  Z.of_nat (length fs) = fields (OMesh s) -> nth_error (msA s) i = Some tr -> piece (msNt s) (Z.of_nat i) fs = tr_f tr.
Proof.
  intros Sh E L Ei. pose proof Sh as (H1 & H2 & H3). cbn [fields extent] in L. destruct (map_res_nth _ _ _ E) as [_ Hn].
  assert (HN := proj1 (Forall_forall _ _) H3 tr (nth_error_In _ _ Ei)). unfold tr_N in HN.
  assert (Hi : (i < length (msA s))%nat) by (apply nth_error_Some; congruence). unfold mesh_Np in L.
  assert (Q : (Z.of_nat i + 1) * msNt s <= Z.of_nat (length (msX s)) * msNt s) by (apply Z.mul_le_mono_nonneg_r; lia).
  apply nth_error_ext. intros k. destruct (Nat.lt_ge_cases k (Z.to_nat (msNt s))) as [Hk|Hk].
  2:{ rewrite (nth_none _ (msNt s)); [|apply piece_length; lia|exact Hk]. rewrite (nth_none _ (msNt s)) by lia. reflexivity. }
  rewrite nth_piece by exact Hk.
  assert (I : inside (OMesh s) (Z.of_nat i, 0, Z.of_nat k)) by (cbn [inside extent]; unfold mesh_Np; lia).
  destruct (Hn _ _ (keys_place (OMesh s) _ Sh I)) as (g & N & G). cbn [place extent] in N.
  replace (Z.to_nat ((Z.of_nat i * 1 + 0) * msNt s + Z.of_nat k)) with (Z.to_nat (Z.of_nat i * msNt s) + k)%nat in N.
  2:{ assert (0 <= Z.of_nat i * msNt s) by (apply Z.mul_nonneg_nonneg; lia). lia. }
  rewrite N. cbn [obs_get] in G. unfold mesh_get in G. rewrite (zget_nth _ _ _ Ei) in G. cbn [bind] in G. unfold tr_get in G.
  destruct (tr_in tr (Z.of_nat k)); [|discriminate]. apply zget_inv in G. destruct G as [_ G]. rewrite Nat2Z.id in G. symmetry. exact G.
Qed.

Lemma imul_in a b : int_min <= a * b <= int_max -> imul a b = Ok (a * b).
Proof. intros H. unfold imul. apply to_int_in. exact H. Qed.
Definition mesh_sets (s : mesh T) (dt : T) (fs : list (emf T)) : h5file T :=
  [("MeshCornerPoints", H5 [Z.of_nat (length (msPts s)); 3] (HDoubles (flat_map wrv (msPts s))) [att_int "Ncp" (Z.of_nat (length (msPts s)))]);
   ("ObservationPosition", H5 [mesh_Np s; 3] (HDoubles (flat_map wrv (msX s))) [att_int "Np" (mesh_Np s)]);
   ("MeshTriangles", H5 [mesh_Np s; 3] (HInts (flat_map ints_of (msTri s))) [att_int "Ntri" (mesh_Np s)]);
   ("ObservationTime", H5 [mesh_Np s] (HDoubles (map tr_t0 (msA s))) [att_int "Nt" (msNt s); att_double "dt" dt]);
   ("ElMagField", H5 [mesh_Np s; msNt s; 6] (HDoubles (flat_map six fs)) [])].
Lemma wrv_flat (l : list (vec T)) : Z.of_nat (length (flat_map wrv l)) = Z.of_nat (length l) * 3.
Proof. rewrite (block_length wrv 3 l wrv_length). lia. Qed.
Lemma map_res_zget {A} (l : list A) : map_res (zget l) (zseq 0 (length l)) = Ok l.
Proof.
  apply map_res_pointwise; [apply zseq_length|]. intros k x y H1 H2. assert (K : (k < length l)%nat) by (apply nth_error_Some; congruence).
  rewrite zseq_nth in H1 by exact K. injection H1 as <-. apply (zget_nth _ _ _ H2).
Qed.
Lemma mesh_file_ok (s : mesh T) dt : shaped (OMesh s) -> small (OMesh s) -> mesh_fits s ->
  exists fs, map_res (obs_get (OMesh s)) (obs_keys (OMesh s)) = Ok fs /\ Z.of_nat (length fs) = fields (OMesh s) /\
    mesh_file s dt = Ok (mesh_sets s dt fs).
Proof.
  intros Sh Sm (F1 & F2 & F3 & F4). destruct (getBuffer_ok (OMesh s) Sh Sm) as (fs & E & L & _). exists fs. split; [exact E|]. split; [exact L|].
  pose proof Sh as (H1 & H2 & H3). cbn [small fields extent] in Sm, L. rewrite Z.mul_1_r in Sm, L.
  assert (P0 : 0 <= mesh_Np s * msNt s) by (unfold mesh_Np; nia).
  unfold mesh_file. cbv zeta. rewrite (imul_in (Z.of_nat (length (msPts s)))) by (unfold int_min; lia). cbn [bind].
  rewrite buf_exact by apply wrv_flat. cbn [bind].
  rewrite write_vals by (rewrite wrv_flat; unfold h5_count; cbn [fold_right]; lia). cbn [bind].
  rewrite (imul_in (mesh_Np s) 3) by (unfold int_min, mesh_Np; lia). cbn [bind].
  rewrite buf_exact by apply wrv_flat. cbn [bind].
  rewrite write_vals by (rewrite wrv_flat; unfold h5_count, mesh_Np; cbn [fold_right]; lia). cbn [bind].
  rewrite <- F1, map_res_zget. cbn [bind].
  assert (T0 : map_res (fun i => bind (zget (msA s) i) (fun tr => Ok (tr_t0 tr))) (zseq 0 (length (msTri s))) = Ok (map tr_t0 (msA s))).
  { apply map_res_pointwise; [rewrite zseq_length, map_length; congruence|]. intros k x y K1 K2.
    rewrite nth_error_map in K2. destruct (nth_error (msA s) k) as [tr|] eqn:Ek; [|discriminate]. injection K2 as <-.
    assert (K : (k < length (msA s))%nat) by (apply nth_error_Some; congruence).
    rewrite zseq_nth, Z.add_0_l in K1 by congruence. injection K1 as <-. rewrite (zget_nth _ _ _ Ek). reflexivity. }
  rewrite T0. cbn [bind].
  rewrite write_vals by (rewrite map_length, H2; unfold h5_count, mesh_Np; cbn [fold_right]; lia). cbn [bind].
  rewrite (imul_in (mesh_Np s) (msNt s)) by (unfold int_min; lia). cbn [bind].
  rewrite (imul_in (mesh_Np s * msNt s) 6) by (unfold int_min; lia). cbn [bind].
  rewrite E. cbn [bind]. rewrite buf_exact by (rewrite six_length; lia). cbn [bind].
  rewrite write_vals by (rewrite six_length; unfold h5_count; cbn [fold_right]; lia). reflexivity.
Qed.

Lemma read_vectors_ok dims (l : list (vec T)) attr : read_vectors (H5 dims (HDoubles (flat_map wrv l)) attr) (Z.of_nat (length l)) = Ok l.
Proof.
  unfold read_vectors. destruct (Z.ltb_spec (Z.of_nat (length l)) 0); [lia|]. cbn [h5_doubles hsData].
  pose proof (wrv_flat l) as W. unfold zero_doubles. rewrite h5_fill_ok by (rewrite repeat_length; lia). cbn [bind].
  rewrite skipn_all2 by (rewrite repeat_length; lia). rewrite vecs_of_wrv. cbn [vecs_of]. rewrite app_nil_r. reflexivity.
Qed.
Lemma mesh_back (s : mesh T) dt f : shaped (OMesh s) -> small (OMesh s) -> mesh_fits s -> Forall (fun tr => tr_dt tr = dt) (msA s) ->
  mesh_file s dt = Ok f -> mesh_read f = Ok (s, dt).
Proof.
  intros Sh Sm F D H. destruct (mesh_file_ok s dt Sh Sm F) as (fs & E & L & H'). rewrite H in H'. apply Ok_inj in H'. subst f.
  pose proof F as (F1 & F2 & F3 & F4). pose proof Sh as (H1 & H2 & H3). pose proof L as L'. cbn [small fields extent] in Sm, L. rewrite Z.mul_1_r in Sm, L.
  assert (P0 : 0 <= mesh_Np s * msNt s) by (unfold mesh_Np; nia).
  unfold mesh_read, mesh_sets, h5_open. cbn [named String.eqb Ascii.eqb Bool.eqb bind].
  unfold h5_int at 1. cbn [hsAttr named att_int String.eqb Ascii.eqb Bool.eqb bind]. rewrite i32_id by (unfold int_min; lia).
  rewrite read_vectors_ok. cbn [bind].
  unfold h5_int at 1. cbn [hsAttr named att_int String.eqb Ascii.eqb Bool.eqb bind]. rewrite i32_id by (unfold int_min, mesh_Np; lia).
  unfold mesh_Np at 1. rewrite read_vectors_ok. cbn [bind].
  rewrite (imul_in 3) by (unfold int_min, mesh_Np; lia). cbn [bind h5_ints hsData].
  assert (TL : length (flat_map ints_of (msTri s)) = Z.to_nat (3 * mesh_Np s)).
  { rewrite (block_length ints_of 3) by (intros [[? ?] ?]; reflexivity). unfold mesh_Np. lia. }
  rewrite h5_fill_ok by (unfold buf_new; rewrite map_length, repeat_length; lia). cbn [bind].
  rewrite skipn_all2 by (unfold buf_new; rewrite map_length, repeat_length; lia). rewrite <- TL, buf_read_ok. cbn [bind].
  rewrite tris_of_ints.
  unfold mesh_times. cbn [named String.eqb Ascii.eqb Bool.eqb].
  unfold h5_int at 1. cbn [hsAttr named att_int att_double String.eqb Ascii.eqb Bool.eqb bind]. rewrite i32_id by (unfold int_min; lia).
  unfold h5_double at 1. cbn [hsAttr named att_int att_double String.eqb Ascii.eqb Bool.eqb bind h5_doubles hsData].
  assert (AL : length (map tr_t0 (msA s)) = Z.to_nat (mesh_Np s)) by (rewrite map_length; unfold mesh_Np; lia).
  rewrite h5_fill_ok by (unfold buf_new; rewrite map_length, repeat_length; lia). cbn [bind].
  rewrite skipn_all2 by (unfold buf_new; rewrite map_length, repeat_length; lia). rewrite <- AL at 1. rewrite buf_read_ok. cbn [bind].
  destruct (Z.ltb_spec (msNt s) 0) as [Hn|_]; [lia|].
  rewrite (map_res_ext _ (fun t0 => tr_new t0 dt (Z.to_nat (msNt s)))) by reflexivity. cbn [bind].
  unfold mesh_fields. cbn [named String.eqb Ascii.eqb Bool.eqb].
  rewrite (imul_in (mesh_Np s) (msNt s)) by (unfold int_min; lia). cbn [bind h5_doubles hsData].
  unfold zero_doubles. rewrite h5_fill_ok by (rewrite six_length, repeat_length; lia). cbn [bind].
  rewrite skipn_all2 by (rewrite six_length, repeat_length; lia). rewrite emfs_of_six. cbn [emfs_of]. rewrite app_nil_r.
  rewrite (map_res_pointwise _ _ (msA s)).
  - cbn [bind]. destruct s; reflexivity.
  - rewrite combine_len by (rewrite zseq_length; reflexivity). rewrite zseq_length, !map_length. reflexivity.
  - intros k x tr K1 K2. rewrite (nth_numbered _ k (tr_new (tr_t0 tr) dt (Z.to_nat (msNt s)))) in K1.
    2:{ rewrite !nth_error_map, K2. reflexivity. }
    injection K1 as <-. cbn [fst snd].
    pose proof (mesh_piece s fs k tr Sh E L' K2) as P. unfold piece in P.
    assert (HN := proj1 (Forall_forall _ _) H3 tr (nth_error_In _ _ K2)). unfold tr_N in HN.
    assert (HD := proj1 (Forall_forall _ _) D tr (nth_error_In _ _ K2)). cbn beta in HD.
    unfold tr_set_buffer, tr_new, tr_N. cbn [tr_f]. rewrite repeat_length, Z2Nat.id, Z.eqb_refl by lia.
    assert (K : (k < length (msA s))%nat) by (apply nth_error_Some; congruence). unfold mesh_Np in L.
    assert (Q : (Z.of_nat k + 1) * msNt s <= Z.of_nat (length (msX s)) * msNt s) by (apply Z.mul_le_mono_nonneg_r; lia).
    pose proof (fill_more (repeat ezero (Z.to_nat (msNt s))) (skipn (Z.to_nat (Z.of_nat k * msNt s)) fs) [] (tr_t0 tr) dt) as FM.
    rewrite !repeat_length in FM. cbn [length app] in FM. change (Z.of_nat 0) with 0 in FM. rewrite FM by (rewrite skipn_length; nia).
    rewrite P. destruct tr as [t0 d l]. cbn [tr_t0 tr_dt tr_f] in *. congruence.
Qed.
End Proofs.
