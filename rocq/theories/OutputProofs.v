(* Output files: what they contain. *)
From Coq Require Import ZArith String List Bool Lia.
From Verif Require Import Base BaseFacts Num VecModel ParticleModel TraceModel TraceProofs2 RetardModel BunchModel DriverModel DriverProofs
  ObserverModel ObserverSpec ObserverProofs ObserverProofs2 ObserverProofs6 PropagateModel SddsModel OutputModel OutputSpec.
Import ListNotations.
Local Open Scope string_scope.
Local Open Scope list_scope.
Local Open Scope Z_scope.

(* ---- lists of blocks ---- *)
Lemma block_length {A B} (g : A -> list B) n l : (forall a, length (g a) = n) -> length (flat_map g l) = (n * length l)%nat.
Proof. intros H. induction l as [|a l IH]; [cbn; lia|]. cbn [flat_map length]. rewrite app_length, H, IH. lia. Qed.
Lemma block_nth {A B} (g : A -> list B) n : (forall a, length (g a) = n) -> forall l i a c, nth_error l i = Some a -> (c < n)%nat ->
  nth_error (flat_map g l) (n * i + c) = nth_error (g a) c.
Proof.
  intros H. induction l as [|x l IH]; intros [|i] a c E Hc; try discriminate.
  - injection E as ->. cbn [flat_map]. rewrite nth_error_app1 by (rewrite H; lia). f_equal. lia.
  - cbn [flat_map]. rewrite nth_error_app2 by (rewrite H; nia). rewrite H.
    replace (n * S i + c - n)%nat with (n * i + c)%nat by nia. apply IH; assumption.
Qed.

Section Proofs.
Context {T : Type} {NT : Num T}.

Lemma wrv_length (v : vec T) : length (wrv v) = 3%nat.
Proof. reflexivity. Qed.
Lemma wrv_coordinate (v : vec T) c : 0 <= c < 3 -> nth_error (wrv v) (Z.to_nat c) = coordinate c v.
Proof. intros H. assert (c = 0 \/ c = 1 \/ c = 2) as [-> |[-> | ->]] by lia; reflexivity. Qed.
Lemma component_value (f : emf T) c : 0 <= c < 6 -> component (Z.to_nat c) f = field_value c f.
Proof. intros H. assert (c = 0 \/ c = 1 \/ c = 2 \/ c = 3 \/ c = 4 \/ c = 5) as [-> |[-> |[-> |[-> |[-> | ->]]]]] by lia; reflexivity. Qed.

Lemma buf_read_all (vs : list T) : buf_read (length vs) (map Some vs) = Ok vs.
Proof. rewrite <- (app_nil_r (map Some vs)). apply buf_read_ok. Qed.
Lemma write_vals dims (vs : list T) attr : Z.of_nat (length vs) = h5_count dims ->
  h5_write dims (map Some vs) attr = Ok (H5 dims (HDoubles vs) attr).
Proof. intros H. unfold h5_write. rewrite <- H, Nat2Z.id, buf_read_all. reflexivity. Qed.
Lemma buf_exact (vs : list T) n : Z.of_nat (length vs) = n -> buf_write vs (buf_new n) = Ok (map Some vs).
Proof.
  intros H. assert (L : length (@buf_new T n) = length vs) by (unfold buf_new; rewrite repeat_length; lia).
  rewrite buf_write_ok by lia. rewrite skipn_all2 by lia. rewrite app_nil_r. reflexivity.
Qed.
Lemma buf_short (vs : list T) n : 0 <= n < Z.of_nat (length vs) -> buf_write vs (buf_new n) = UB.
Proof.
  intros H. unfold buf_write, buf_new. rewrite repeat_length. destruct (Nat.leb_spec (length vs) (Z.to_nat n)) as [K|K]; [|reflexivity].
  lia.
Qed.

(* ---- positions ---- *)
Lemma pairs_length nx ny : 0 <= nx -> 0 <= ny -> Z.of_nat (length (pairs nx ny)) = nx * ny.
Proof.
  intros. unfold pairs. rewrite (block_length _ (Z.to_nat ny)) by (intros; rewrite map_length; apply zseq_length).
  rewrite zseq_length, Nat2Z.inj_mul. rewrite !Z2Nat.id by lia. lia.
Qed.
Definition pos_data (nx ny : Z) (ps : list (vec T)) : h5set T :=
  H5 [nx; ny; 3] (HDoubles (flat_map wrv ps)) [att_int "Nx" nx; att_int "Ny" ny].
Lemma pos_set_ok nx ny pos (h : Z -> Z -> vec T) : positions_fit nx ny ->
  (forall ix iy, 0 <= ix < nx -> 0 <= iy < ny -> pos (ix, iy) = Ok (h ix iy)) ->
  exists ps, pos_set nx ny pos = Ok (pos_data nx ny ps) /\ complete (pos_data nx ny ps) /\
    forall ix iy c, 0 <= ix < nx -> 0 <= iy < ny -> 0 <= c < 3 ->
      element_of (pos_data nx ny ps) [ix; iy; c] = coordinate c (h ix iy).
Proof.
  intros (H1 & H2 & H3) Hp. pose proof (pairs_length nx ny (proj1 H1) (proj1 H2)) as PL.
  assert (E : map_res pos (pairs nx ny) = Ok (map (fun xy => h (fst xy) (snd xy)) (pairs nx ny))).
  { apply map_res_ext. intros [ix iy] I. apply pairs_in in I. apply Hp; tauto. }
  exists (map (fun xy => h (fst xy) (snd xy)) (pairs nx ny)).
  assert (L : Z.of_nat (length (flat_map wrv (map (fun xy => h (fst xy) (snd xy)) (pairs nx ny)))) = nx * ny * 3).
  { rewrite (block_length _ 3) by reflexivity. rewrite map_length. nia. }
  assert (C : Z.of_nat (length (flat_map wrv (map (fun xy => h (fst xy) (snd xy)) (pairs nx ny)))) = h5_count [nx; ny; 3]).
  { rewrite L. unfold h5_count. cbn [fold_right]. lia. }
  split; [|split].
  - unfold pos_set. rewrite E. cbn [bind]. unfold u32. rewrite Z.mod_small by nia.
    rewrite buf_exact by exact L. cbn [bind]. apply write_vals. exact C.
  - unfold complete, pos_data. cbn [hsData hsDims]. exact C.
  - intros ix iy c I1 I2 I3. unfold element_of, pos_data. cbn [hsDims hsData row_major].
    assert (Bx : (0 <=? ix) && (ix <? nx) = true) by (apply andb_true_iff; split; [apply Z.leb_le|apply Z.ltb_lt]; lia).
    assert (By : (0 <=? iy) && (iy <? ny) = true) by (apply andb_true_iff; split; [apply Z.leb_le|apply Z.ltb_lt]; lia).
    assert (Bc : (0 <=? c) && (c <? 3) = true) by (apply andb_true_iff; split; [apply Z.leb_le|apply Z.ltb_lt]; lia).
    rewrite Bx, By, Bc. cbn [fold_right].
    pose proof (map_nth_error (fun xy => h (fst xy) (snd xy)) _ _ (pairs_nth nx ny ix iy I1 I2)) as N. cbn [fst snd] in N.
    assert (0 <= ix * ny) by (apply Z.mul_nonneg_nonneg; lia).
    replace (Z.to_nat (ix * (ny * (3 * 1)) + (iy * (3 * 1) + (c * 1 + 0)))) with (3 * Z.to_nat (ix * ny + iy) + Z.to_nat c)%nat by nia.
    rewrite (block_nth wrv 3 wrv_length _ _ _ _ N) by lia. apply wrv_coordinate. exact I3.
Qed.
Lemma pos_set_overflow nx ny pos (h : Z -> Z -> vec T) : 0 <= nx -> 0 <= ny ->
  (forall ix iy, 0 <= ix < nx -> 0 <= iy < ny -> pos (ix, iy) = Ok (h ix iy)) -> 2 ^ 32 <= 3 * (nx * ny) -> pos_set nx ny pos = UB.
Proof.
  intros H1 H2 Hp H3. pose proof (pairs_length nx ny H1 H2) as PL.
  assert (E : map_res pos (pairs nx ny) = Ok (map (fun xy => h (fst xy) (snd xy)) (pairs nx ny))).
  { apply map_res_ext. intros [ix iy] I. apply pairs_in in I. apply Hp; tauto. }
  unfold pos_set. rewrite E. cbn [bind]. rewrite buf_short; [reflexivity|].
  rewrite (block_length _ 3) by reflexivity. rewrite map_length. unfold u32.
  pose proof (Z.mod_pos_bound (nx * ny * 3) (2 ^ 32) ltac:(lia)). lia.
Qed.

(* ---- fields ---- *)
Lemma field_elements (o : observer T) fs (dims : list Z) (idx : Z * Z * Z -> list Z) attr : shaped o ->
  map_res (obs_get o) (obs_keys o) = Ok fs ->
  (forall k c, inside o k -> 0 <= c < 6 -> row_major dims (idx k ++ [c]) = Some (6 * place o k + c)) ->
  forall k c f, inside o k -> 0 <= c < 6 -> obs_get o k = Ok f ->
    element_of (H5 dims (HDoubles (flat_map six fs)) attr) (idx k ++ [c]) = field_value c f.
Proof.
  intros Sh E R k c f I Hc G. unfold element_of. cbn [hsDims hsData]. rewrite R by assumption.
  destruct (map_res_nth _ _ _ E) as [_ Hn]. destruct (Hn _ _ (keys_place o k Sh I)) as (g & N & G').
  assert (g = f) by congruence. subst g.
  assert (P0 : 0 <= place o k).
  { pose proof (extent_pos o Sh) as Q. unfold place, inside in *. destruct (extent o) as [[nx ny] n], k as [[x y] z].
    destruct I as (I1 & I2 & I3). assert (0 <= x * ny + y) by nia. nia. }
  replace (Z.to_nat (6 * place o k + c)) with (6 * Z.to_nat (place o k) + Z.to_nat c)%nat by lia.
  rewrite (six_nth fs _ f _ N) by lia. apply component_value. exact Hc.
Qed.

Lemma inb a n : 0 <= a < n -> (0 <=? a) && (a <? n) = true.
Proof. intros. apply andb_true_iff; split; [apply Z.leb_le|apply Z.ltb_lt]; lia. Qed.
Lemma i32_u32 z : 0 <= z < 2 ^ 32 -> u32 (i32 z) = z.
Proof.
  intros H. unfold u32, i32. rewrite <- (Z.mod_small z (2 ^ 32)) at 2 by lia.
  rewrite Zminus_mod_idemp_l. f_equal. lia.
Qed.

(* ---- the screen ---- *)
Definition screen_set_of (s : screen T) : h5set T :=
  H5 [4; 3] (HDoubles (flat_map wrv [scO s; scNormal s; scdX s; scdY s]))
     [att_int "Nx" (scNx s); att_int "Ny" (scNy s); att_int "NOTS" (scN s);
      att_double "t0" (sct0 s); att_double "dt" (scdt s); att_double "dtx" (scdtx s); att_double "dty" (scdty s)].
Definition field_set_of (s : screen T) (fs : list (emf T)) : h5set T :=
  H5 [scNx s; scNy s; scN s; 6] (HDoubles (flat_map six fs))
     [att_double "t0" (sct0 s); att_double "dt" (scdt s); att_int "NOTS" (scN s)].
Lemma screen_pos_ok (s : screen T) ix iy : positions_fit (scNx s) (scNy s) -> 0 <= ix < scNx s -> 0 <= iy < scNy s ->
  screen_pos s ix iy = Ok (centre_pos (scO s) (scdX s) (scdY s) (scNx s) (scNy s) ix iy).
Proof. intros (H1 & H2 & _) I1 I2. unfold screen_pos. rewrite !centred_ok by lia. reflexivity. Qed.
Lemma screen_file_ok (s : screen T) : shaped (OScreen s) -> small (OScreen s) -> positions_fit (scNx s) (scNy s) ->
  exists ps fs, screen_file s = Ok [("ObservationPosition", pos_data (scNx s) (scNy s) ps); ("Screen", screen_set_of s); ("ElMagField", field_set_of s fs)] /\
    complete (pos_data (scNx s) (scNy s) ps) /\
    (forall ix iy c, 0 <= ix < scNx s -> 0 <= iy < scNy s -> 0 <= c < 3 ->
      element_of (pos_data (scNx s) (scNy s) ps) [ix; iy; c] = coordinate c (centre_pos (scO s) (scdX s) (scdY s) (scNx s) (scNy s) ix iy)) /\
    map_res (obs_get (OScreen s)) (obs_keys (OScreen s)) = Ok fs /\ Z.of_nat (length fs) = fields (OScreen s) /\ complete (field_set_of s fs) /\
    (forall ix iy it c f, inside (OScreen s) (ix, iy, it) -> 0 <= c < 6 -> obs_get (OScreen s) (ix, iy, it) = Ok f ->
      element_of (field_set_of s fs) [ix; iy; it; c] = field_value c f).
Proof.
  intros Sh Sm Pf. destruct (getBuffer_ok (OScreen s) Sh Sm) as (fs & E & L & B).
  destruct (pos_set_ok (scNx s) (scNy s) (fun xy => screen_pos s (fst xy) (snd xy))
    (centre_pos (scO s) (scdX s) (scdY s) (scNx s) (scNy s)) Pf) as (ps & P1 & P2 & P3).
  { intros ix iy I1 I2. apply screen_pos_ok; assumption. }
  assert (C : Z.of_nat (length (flat_map six fs)) = h5_count [scNx s; scNy s; scN s; 6]).
  { rewrite six_length. unfold h5_count. cbn [fold_right fields extent] in *. nia. }
  exists ps, fs. split; [|split; [exact P2|split; [exact P3|split; [exact E|split; [exact L|split]]]]].
  - unfold screen_file. rewrite P1. cbn [bind]. rewrite write_vals by reflexivity. cbn [bind]. rewrite B. cbn [bind].
    rewrite write_vals by exact C. reflexivity.
  - exact C.
  - intros ix iy it c f I Hc G.
    refine (field_elements (OScreen s) fs [scNx s; scNy s; scN s; 6] (fun k => let '(a, b, c) := k in [a; b; c]) _ Sh E _ (ix, iy, it) c f I Hc G).
    clear. intros [[a b] d] c (I1 & I2 & I3) Hc. cbn [app row_major]. rewrite !inb by (cbn [extent] in *; lia).
    f_equal. unfold place. cbn [extent fold_right]. lia.
Qed.
Lemma screen_file_overflow (s : screen T) : shaped (OScreen s) -> scNx s <= int_max -> scNy s <= int_max ->
  2 ^ 32 <= 3 * (scNx s * scNy s) -> screen_file s = UB.
Proof.
  intros (H1 & H2 & _) B1 B2 H3. unfold screen_file.
  rewrite (pos_set_overflow _ _ _ (centre_pos (scO s) (scdX s) (scdY s) (scNx s) (scNy s))); [reflexivity|lia|lia| |exact H3].
  intros ix iy I1 I2. cbn [fst snd]. unfold screen_pos. rewrite !centred_ok by lia. reflexivity.
Qed.
End Proofs.
