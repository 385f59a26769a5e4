(* Proofs about export, import and reduction of the observer buffers. *)
From Coq Require Import ZArith List Lia Bool.
From Verif Require Import Base BaseFacts Num VecModel TraceModel TraceProofs2 BunchModel DistProofs DriverModel DriverProofs
  ObserverModel ObserverSpec ObserverProofs.
Import ListNotations.
Local Open Scope Z_scope.

Section Obs.
Context {T : Type} {NT : Num T}.
Implicit Types o : observer T.

Lemma fields_pos o : shaped o -> 0 <= fields o.
Proof. intros H. rewrite <- (keys_length o H). lia. Qed.
Lemma obs_size_small o : shaped o -> small o -> obs_size o = Ok (6 * fields o).
Proof.
  intros H Sm. pose proof (fields_pos o H) as P. destruct o as [s|s|s|s]; cbn [obs_size].
  - unfold screen_size, u32. cbn [small fields extent] in *. rewrite Z.mod_small by lia. f_equal. lia.
  - unfold snap_size, u32. cbn [small fields extent] in *. rewrite Z.mod_small by lia. f_equal. lia.
  - unfold u64. cbn [small fields extent] in *. rewrite Z.mod_small by lia. f_equal. lia.
  - cbn [small fields extent shaped] in *. unfold mesh_size, imul.
    assert (int_min <= 0 /\ int_max < 2 ^ 64) as [B1 B2] by (unfold int_min, int_max; lia).
    rewrite to_int_in by lia. cbn [bind]. rewrite to_int_in by lia. cbn [bind]. unfold u64.
    rewrite Z.mod_small by lia. f_equal. lia.
Qed.
Lemma small_60 o : shaped o -> small o -> 6 * fields o < 2 ^ 60.
Proof. intros H Sm. destruct o; cbn [small] in Sm; unfold int_max in *; lia. Qed.
Lemma six_length (fs : list (emf T)) : length (flat_map six fs) = (6 * length fs)%nat.
Proof. induction fs as [|f fs IH]; [reflexivity|]. cbn [flat_map six app length]. rewrite IH. cbn. lia. Qed.

Lemma values_ok o : shaped o -> exists fs, map_res (obs_get o) (obs_keys o) = Ok fs /\ Z.of_nat (length fs) = fields o.
Proof.
  intros H. destruct (map_res_all (obs_get o) (obs_keys o)) as [fs E].
  - intros k I. apply obs_get_ok; [exact H|]. apply keys_in; assumption.
  - exists fs. split; [exact E|]. rewrite (map_res_len _ _ _ E). apply keys_length. exact H.
Qed.
Lemma getBuffer_ok o : shaped o -> small o -> exists fs, map_res (obs_get o) (obs_keys o) = Ok fs /\
  Z.of_nat (length fs) = fields o /\ obs_getBuffer o = Ok (map Some (flat_map six fs)).
Proof.
  intros H Sm. destruct (values_ok o H) as (fs & E & HL). exists fs. split; [exact E|]. split; [exact HL|].
  unfold obs_getBuffer. rewrite (obs_size_small o H Sm). cbn [bind]. unfold new_doubles.
  pose proof (small_60 o H Sm) as B. destruct (Z.leb_spec (2 ^ 60) (6 * fields o)); [lia|]. cbn [bind]. rewrite E. cbn [bind].
  assert (Q : length (flat_map six fs) = length (@buf_new T (6 * fields o))).
  { unfold buf_new. rewrite repeat_length, six_length. lia. }
  rewrite buf_write_ok by lia. rewrite skipn_all2 by lia. rewrite app_nil_r. reflexivity.
Qed.
Lemma six_nth (fs : list (emf T)) : forall i f c, nth_error fs i = Some f -> (c < 6)%nat ->
  nth_error (flat_map six fs) (6 * i + c) = component c f.
Proof.
  induction fs as [|g fs IH]; intros [|i] f c H Hc; try discriminate.
  - injection H as ->. cbn [flat_map]. rewrite nth_error_app1; [reflexivity|]. cbn. lia.
  - cbn [flat_map]. rewrite nth_error_app2; [|cbn; lia]. cbn [six length].
    replace (6 * S i + c - 6)%nat with (6 * i + c)%nat by lia. apply IH; assumption.
Qed.
Lemma export_place o k f c : shaped o -> small o -> inside o k -> obs_get o k = Ok f -> (c < 6)%nat ->
  exists b, obs_getBuffer o = Ok b /\ Z.of_nat (length b) = 6 * fields o /\
    nth_error b (Z.to_nat (6 * place o k + Z.of_nat c)) = option_map Some (component c f).
Proof.
  intros H Sm I E Hc. destruct (getBuffer_ok o H Sm) as (fs & E1 & HL & E2). eexists. split; [exact E2|]. split.
  { rewrite map_length, six_length. lia. }
  pose proof (keys_place o k H I) as P.
  assert (P0 : 0 <= place o k).
  { pose proof (extent_pos o H) as Q. unfold place, inside in *. destruct (extent o) as [[nx ny] n], k as [[x y] z].
    destruct I as (I1 & I2 & I3). assert (0 <= x * ny + y) by nia. nia. }
  destruct (map_res_nth _ _ _ E1) as [_ Hn].
  destruct (Hn _ _ P) as (g & Hg & G). assert (g = f) by congruence. subst g.
  replace (Z.to_nat (6 * place o k + Z.of_nat c)) with (6 * Z.to_nat (place o k) + c)%nat by lia.
  rewrite <- (six_nth fs _ f c Hg Hc). apply nth_error_map.
Qed.

(* ---- import ---- *)
Lemma regroup : forall n (vs : list T), length vs = (6 * n)%nat -> exists fs, vs = flat_map six fs /\ length fs = n.
Proof.
  induction n as [|n IH]; intros vs H.
  - destruct vs; [|discriminate]. exists []. auto.
  - do 6 (destruct vs as [|? vs]; [cbn in H; lia|]). destruct (IH vs) as (fs & -> & HL); [cbn in H; lia|].
    eexists (EB (V _ _ _) (V _ _ _) :: fs). split; [reflexivity|]. cbn. lia.
Qed.
Lemma fill_store : forall ks (fs : list (emf T)) rest o, length fs = length ks ->
  obs_fill ks (map Some (flat_map six fs) ++ rest) o = fold_res (fun o kv => obs_set o (fst kv) (snd kv)) (combine ks fs) o.
Proof.
  induction ks as [|k ks IH]; intros [|f fs] rest o H; try discriminate; [reflexivity|].
  cbn [obs_fill flat_map six map app combine fold_res fst snd buf_read bind].
  destruct f as [[ex ey ez] [bx b_y bz]]. cbn [fE fB vx vy vz].
  destruct (obs_set o k _) as [o'| | |]; cbn [bind]; try reflexivity.
  cbn [skipn]. apply IH. cbn in H. lia.
Qed.
Lemma fromBuffer_ok o (fs : list (emf T)) rest : shaped o -> small o -> Z.of_nat (length fs) = fields o ->
  exists o', obs_fromBuffer (map Some (flat_map six fs) ++ rest) (6 * fields o) o = Ok o' /\ shaped o' /\ like o o' /\
    forall k, inside o k -> exists f, nth_error fs (Z.to_nat (place o k)) = Some f /\ obs_get o' k = Ok f.
Proof.
  intros H Sm HL. unfold obs_fromBuffer. rewrite (obs_size_small o H Sm). cbn [bind]. rewrite Z.eqb_refl.
  pose proof (keys_length o H) as KL. rewrite fill_store by lia.
  destruct (store_ok _ _ _ _ (obs_lens o) (obs_keys o) fs o) as (o' & E & I & G & _).
  - apply keys_nodup; exact H.
  - apply Forall_forall. intros k I. apply keys_in; assumption.
  - split; [exact H|apply like_refl].
  - lia.
  - exists o'. split; [exact E|]. split; [apply I|]. split; [apply I|]. intros k Ik.
    pose proof (keys_place o k H Ik) as P.
    destruct (nth_error fs (Z.to_nat (place o k))) as [f|] eqn:En.
    + exists f. split; [reflexivity|]. exact (G _ _ _ P En).
    + apply nth_error_None in En. assert (Z.to_nat (place o k) < length (obs_keys o))%nat by (apply nth_error_Some; congruence). lia.
Qed.

(* ---- reduction ---- *)
Lemma zip_some : forall (a b : list T), zip_with opt_add (map Some a) (map Some b) = map Some (zip_with nadd a b).
Proof. induction a as [|x a IH]; intros [|y b]; [reflexivity..|]. cbn. rewrite IH. reflexivity. Qed.
Lemma zip_six : forall (a b : list (emf T)), length a = length b ->
  zip_with nadd (flat_map six a) (flat_map six b) = flat_map six (zip_with eadd a b).
Proof.
  induction a as [|x a IH]; intros [|y b] H; try discriminate; [reflexivity|].
  cbn [flat_map six app zip_with]. rewrite IH by (cbn in H; lia). reflexivity.
Qed.
Lemma zip_len {A B C} (f : A -> B -> C) : forall a b, length a = length b -> length (zip_with f a b) = length a.
Proof. induction a as [|x a IH]; intros [|y b] H; try discriminate; [reflexivity|]. cbn in *. rewrite IH; lia. Qed.
Lemma zip_nth {A B C} (f : A -> B -> C) : forall a b i x y, nth_error a i = Some x -> nth_error b i = Some y ->
  nth_error (zip_with f a b) i = Some (f x y).
Proof. induction a as [|u a IH]; intros [|v b] [|i] x y H1 H2; try discriminate; cbn in *; [congruence|auto]. Qed.
Lemma zip_nth_inv {A B C} (f : A -> B -> C) : forall a b i z, nth_error (zip_with f a b) i = Some z ->
  exists x y, nth_error a i = Some x /\ nth_error b i = Some y /\ z = f x y.
Proof. induction a as [|u a IH]; intros [|v b] [|i] z H; try discriminate; cbn in *; [|auto]. injection H as <-. eauto. Qed.

Lemma reduce_fold : forall (rest : list (list (emf T))) first n, length first = n -> Forall (fun fs => length fs = n) rest ->
  fold_left (zip_with opt_add) (map (fun fs => map Some (flat_map six fs)) rest) (map Some (flat_map six first)) =
  map Some (flat_map six (fold_left (zip_with eadd) rest first)).
Proof.
  induction rest as [|fs rest IH]; intros first n H HF; [reflexivity|]. inversion HF; subst.
  cbn [map fold_left]. rewrite zip_some, zip_six by congruence. apply (IH _ (length first)); [|assumption].
  apply zip_len. congruence.
Qed.
Lemma fold_zip_len : forall (rest : list (list (emf T))) first n, length first = n -> Forall (fun fs => length fs = n) rest ->
  length (fold_left (zip_with eadd) rest first) = n.
Proof.
  induction rest as [|fs rest IH]; intros first n H HF; [exact H|]. inversion HF; subst. cbn [fold_left].
  apply IH; [|assumption]. apply zip_len. congruence.
Qed.
Lemma fold_zip_nth : forall (rest : list (list (emf T))) first i f gs, nth_error first i = Some f ->
  Forall2 (fun fs g => nth_error fs i = Some g) rest gs ->
  nth_error (fold_left (zip_with eadd) rest first) i = Some (sum_from f gs).
Proof.
  induction rest as [|fs rest IH]; intros first i f gs H HF; inversion HF; subst; [exact H|]. cbn [fold_left sum_from].
  apply IH; [|assumption]. apply zip_nth; assumption.
Qed.
Lemma mpi_reduce_ok n (first : list (emf T)) rest : length first = n -> Forall (fun fs => length fs = n) rest ->
  6 * Z.of_nat n <= int_max ->
  mpi_reduce (6 * Z.of_nat n) (map (fun fs => map Some (flat_map six fs)) (first :: rest)) =
  Ok (map Some (flat_map six (fold_left (zip_with eadd) rest first))).
Proof.
  intros H HF B. unfold mpi_reduce. destruct (Z.ltb_spec int_max (6 * Z.of_nat n)); [lia|].
  rewrite (map_res_ext _ (fun b => b)).
  - cbn [bind]. rewrite map_id. cbn [map]. f_equal. apply (reduce_fold rest first n); assumption.
  - intros b I. apply in_map_iff in I. destruct I as (fs & <- & I).
    assert (Hl : length fs = n). { destruct I as [<-|I]; [exact H|]. rewrite Forall_forall in HF. auto. }
    rewrite map_length, six_length, Hl.
    replace (Z.to_nat (6 * Z.of_nat n)) with (6 * n)%nat by lia. rewrite Nat.leb_refl.
    rewrite firstn_all2; [reflexivity|]. rewrite map_length, six_length. lia.
Qed.

(* what the root node has after the reduction of the observers o :: os *)
Lemma like_shaped o o' : like o o' -> shaped o -> shaped o'.
Proof.
  destruct o as [s|s|s|s], o' as [s'|s'|s'|s']; cbn [like]; try tauto; intros [A1 A2]; cbn [shaped].
  - intros (H1 & H2 & H3 & H4 & H5). rewrite A1. cbn [screen_with scNx scNy scN scTr].
    repeat (split; [assumption|]). split; [rewrite <- (forall2_length _ _ _ A2); exact H4|].
    clear -A2 H5. induction A2 as [|r r' m m' K A2 IH]; constructor; inversion H5; subst; auto.
    destruct H1 as [H1 H1']. split; [rewrite <- (forall2_length _ _ _ K); exact H1|].
    clear -K H1'. induction K; constructor; inversion H1'; subst; auto. rewrite <- H2. apply tr_like_N. assumption.
  - intros (H1 & H2 & H4 & H5). rewrite A1. cbn [snap_with snNx snNy snF].
    repeat (split; [assumption|]). split; [rewrite <- (forall2_length _ _ _ A2); exact H4|].
    clear -A2 H5. induction A2 as [|r r' m m' K A2 IH]; constructor; inversion H5; subst; auto.
    rewrite <- (forall2_length _ _ _ K). assumption.
  - auto.
  - intros (H1 & H2 & H3). rewrite A1. cbn [mesh_with msNt msX msA]. split; [exact H1|].
    rewrite <- (forall2_length _ _ _ A2). split; [exact H2|].
    clear -A2 H3. induction A2; constructor; inversion H3; subst; auto. rewrite <- H2. apply tr_like_N. assumption.
Qed.
Lemma like_small o o' : like o o' -> small o -> small o'.
Proof.
  intros K. pose proof (like_extent _ _ K) as E. destruct o as [s|s|s|s], o' as [s'|s'|s'|s']; try (cbn in K; tauto);
    unfold small, fields; rewrite E; auto.
Qed.
Lemma like_fields o o' : like o o' -> fields o' = fields o.
Proof. intros K. unfold fields. rewrite (like_extent _ _ K). reflexivity. Qed.
Lemma like_place o o' k : like o o' -> place o' k = place o k.
Proof. intros K. unfold place. rewrite (like_extent _ _ K). reflexivity. Qed.
Lemma like_inside o o' k : like o o' -> inside o k -> inside o' k.
Proof. intros K. unfold inside. rewrite (like_extent _ _ K). auto. Qed.

Definition gather (os : list (observer T)) : res (observer T) :=
  match os with
  | [] => UB
  | root :: _ =>
      bind (obs_size root) (fun n =>
      bind (map_res obs_getBuffer os) (fun bufs =>
      bind (mpi_reduce (u32 n) bufs) (fun sum =>
      obs_fromBuffer sum (u32 n) root)))
  end.
Lemma gather_ok root os : shaped root -> small root -> 6 * fields root <= int_max -> Forall (like root) os ->
  exists o', gather (root :: os) = Ok o' /\ shaped o' /\ like root o' /\
    forall k, inside root k -> exists f gs, obs_get root k = Ok f /\ Forall2 (fun o g => obs_get o k = Ok g) os gs /\
      obs_get o' k = Ok (sum_from f gs).
Proof.
  intros H Sm B HF. unfold gather. rewrite (obs_size_small root H Sm). cbn [bind].
  pose proof (fields_pos root H) as P. unfold u32. rewrite Z.mod_small by (unfold int_max in B; lia).
  destruct (getBuffer_ok root H Sm) as (f0 & E0 & L0 & G0).
  assert (Q : exists fss, map_res obs_getBuffer os = Ok (map (fun fs => map Some (flat_map six fs)) fss) /\
     Forall2 (fun o fs => map_res (obs_get o) (obs_keys o) = Ok fs /\ Z.of_nat (length fs) = fields root) os fss).
  { clear -HF H Sm. induction HF as [|o os K HF (fss & A1 & A2)].
    - exists []. split; [reflexivity|constructor].
    - destruct (getBuffer_ok o (like_shaped _ _ K H) (like_small _ _ K Sm)) as (fs & E & HL & G). exists (fs :: fss).
      cbn [map_res]. rewrite G. cbn [bind]. rewrite A1. split; [reflexivity|]. constructor; [|exact A2].
      rewrite <- (like_fields _ _ K). auto. }
  destruct Q as (fss & M & HQ). cbn [map_res]. rewrite G0. cbn [bind]. rewrite M. cbn [bind].
  set (n := length f0) in *. replace (6 * fields root) with (6 * Z.of_nat n) by lia.
  assert (HFn : Forall (fun fs => length fs = n) fss).
  { clear -HQ L0. induction HQ; constructor; auto. destruct H as [_ H]. lia. }
  pose proof (mpi_reduce_ok n f0 fss eq_refl HFn ltac:(lia)) as RD. cbn [map] in RD. match goal with |- context [bind (mpi_reduce ?c ?b) _] => replace (mpi_reduce c b) with (Ok (map Some (flat_map six (fold_left (zip_with eadd) fss f0)))) by (symmetry; exact RD) end.
  cbn [bind].
  replace (6 * Z.of_nat n) with (6 * fields root) by lia.
  destruct (fromBuffer_ok root (fold_left (zip_with eadd) fss f0) [] H Sm) as (o' & E & S' & K & G).
  { rewrite (fold_zip_len fss f0 n); auto. }
  rewrite app_nil_r in E. exists o'. split; [exact E|]. split; [exact S'|]. split; [exact K|].
  intros k Ik. destruct (G k Ik) as (f & N & Gf). 
  pose proof (keys_place root k H Ik) as Pl. destruct (map_res_nth _ _ _ E0) as [_ Hn]. destruct (Hn _ _ Pl) as (f1 & N1 & G1).
  assert (Q : exists gs, Forall2 (fun fs g => nth_error fs (Z.to_nat (place root k)) = Some g) fss gs /\
     Forall2 (fun o g => obs_get o k = Ok g) os gs).
  { clear -HQ HF H Ik. induction HQ as [|o fs os fss [A1 A2] HQ IH].
    - exists []. split; constructor.
    - inversion HF as [|x y H3 H4]; subst. destruct (IH H4) as (gs & B1 & B2).
      pose proof (keys_place o k (like_shaped _ _ H3 H) (like_inside _ _ _ H3 Ik)) as Pl. rewrite (like_place _ _ _ H3) in Pl.
      destruct (map_res_nth _ _ _ A1) as [_ Hn]. destruct (Hn _ _ Pl) as (g & N & G).
      exists (g :: gs). split; constructor; auto. }
  destruct Q as (gs & Q1 & Q2). exists f1, gs. split; [exact G1|]. split; [exact Q2|]. rewrite Gf.
  rewrite (fold_zip_nth _ _ _ _ _ N1 Q1) in N. congruence.
Qed.
End Obs.
