(* Blank observers, import and export of arbitrary values. *)
From Coq Require Import ZArith Reals List Lia Lra Bool.
From Verif Require Import Base BaseFacts Num VecModel VecFacts ParticleModel TraceModel RetardModel TraceProofs2 BunchModel DistProofs DriverModel DriverProofs
  ObserverModel ObserverSpec ObserverSpec2 ObserverProofs ObserverProofs2 ObserverProofs3 ObserverProofs4 ObserverProofs5 ObserverProofs6.
Import ListNotations.
Local Open Scope Z_scope.

Lemma blank_cells (o : observer R) : shaped o -> blank o -> blank_obs o.
Proof.
  intros Sh B [x y] tr I E. destruct (cell_ok o (x, y) Sh I) as (tr' & E' & N). assert (tr' = tr) by congruence. subst tr'.
  apply Forall_forall. intros f Hf. apply In_nth_error in Hf. destruct Hf as [k Hk].
  assert (L : (k < length (tr_f tr))%nat) by (apply nth_error_Some; congruence).
  assert (IN : inside o (x, y, Z.of_nat k)).
  { unfold inside, in_cells in *. destruct (extent o) as [[nx ny] n]. cbn [fst snd] in *. specialize (N n eq_refl). unfold tr_N in N. lia. }
  apply (B _ f IN). rewrite (get_cell _ _ _ _ IN), E. cbn [bind]. unfold tr_get.
  destruct (tr_in tr (Z.of_nat k)) eqn:Q.
  - apply zget_nth. exact Hk.
  - unfold tr_in, tr_N in Q. destruct (Z.leb_spec 0 (Z.of_nat k)); [|lia]. destruct (Z.ltb_spec (Z.of_nat k) (Z.of_nat (length (tr_f tr)))); [discriminate|lia].
Qed.
Section Gen.
Context {T : Type} {NT : Num T}.
Implicit Types (o : observer T).
Lemma new_get (t dt : T) n i f : tr_get (tr_new t dt n) i = Ok f -> f = ezero.
Proof.
  unfold tr_get. destruct (tr_in _ _); [|discriminate]. intros H. apply zget_inv in H. destruct H as [_ H]. cbn in H.
  apply nth_error_In, repeat_spec in H. exact H.
Qed.
Lemma screen_new_blank (pos dx dy : vec T) nx ny t0 dt dtx dty nots s : 0 <= nx <= int_max -> 0 <= ny <= int_max -> 0 <= nots <= int_max ->
  screen_new pos dx dy nx ny t0 dt dtx dty nots = Ok s -> shaped (OScreen s) /\ blank (OScreen s).
Proof.
  intros Hx Hy Hn E. destruct (screen_new_ok pos dx dy nx ny t0 dt dtx dty nots Hx Hy Hn) as (s' & E' & Sh & _ & _ & _ & X & Y & N & _ & _ & _ & _ & C).
  assert (s' = s) by congruence. subst s'. split; [exact Sh|]. intros [[x y] c] f I G. rewrite (get_cell _ _ _ _ I) in G.
  cbn [inside extent] in I. rewrite X, Y in I. destruct (C x y) as (t & _ & G2); [lia|lia|]. cbn [cell_of fst snd] in G. rewrite G2 in G.
  cbn [bind] in G. eapply new_get; eauto.
Qed.
Lemma snap_new_blank (pos dx dy : vec T) nx ny t : blank (OSnap (snap_new pos dx dy nx ny t)).
Proof.
  intros [[x y] c] f _ G. cbn [obs_get] in G. unfold snap_get in G. destruct (snap_in _ _ _); [|discriminate]. unfold cell_get, snap_new in G. cbn [snF] in G.
  bget G as r Er. apply zget_inv in Er. destruct Er as [_ Er]. apply nth_error_In, repeat_spec in Er. subst r.
  apply zget_inv in G. destruct G as [_ G]. apply nth_error_In, repeat_spec in G. exact G.
Qed.
Lemma point_blank (x : vec T) t dt n : blank (OPoint (PO x (tr_new t dt n))).
Proof. intros [[a b] c] f _ G. eapply new_get. exact G. Qed.
Lemma mesh_blank (s : mesh T) : blank (OMesh (mesh_zero s)).
Proof.
  intros [[a b] c] f _ G. cbn [obs_get] in G. unfold mesh_get, mesh_zero in G. cbn [msA mesh_with] in G. bget G as tr Et.
  apply zget_inv in Et. destruct Et as [_ Et]. apply nth_error_In, in_map_iff in Et. destruct Et as (tr0 & <- & _).
  unfold tr_get in G. destruct (tr_in _ _); [|discriminate]. apply zget_inv in G. destruct G as [_ G]. cbn in G.
  apply nth_error_In, in_map_iff in G. destruct G as (g & <- & _). reflexivity.
Qed.
Lemma mesh_zero_shaped (s : mesh T) : shaped (OMesh s) -> shaped (OMesh (mesh_zero s)).
Proof.
  intros (H1 & H2 & H3). unfold mesh_zero. cbn [shaped mesh_with msNt msA msX]. split; [exact H1|]. split; [rewrite map_length; exact H2|].
  apply Forall_forall. intros tr I. apply in_map_iff in I. destruct I as (t & <- & I). rewrite Forall_forall in H3. rewrite <- (H3 t I).
  unfold tr_N, tr_zero. cbn. rewrite map_length. reflexivity.
Qed.

(* import of any buffer content of the right size *)
Lemma import_place o (vs : list T) : shaped o -> small o -> Z.of_nat (length vs) = 6 * fields o ->
  exists o', obs_fromBuffer (map Some vs) (6 * fields o) o = Ok o' /\ shaped o' /\ like o o' /\
    forall k c, inside o k -> (c < 6)%nat -> exists f, obs_get o' k = Ok f /\ component c f = nth_error vs (Z.to_nat (6 * place o k + Z.of_nat c)).
Proof.
  intros Sh Sm HL. pose proof (fields_pos o Sh) as FP. destruct (regroup (Z.to_nat (fields o)) vs) as (fs & E & L); [lia|].
  destruct (fromBuffer_ok o fs [] Sh Sm) as (o' & E1 & Sh' & K & G); [lia|]. rewrite app_nil_r, <- E in E1.
  exists o'. split; [exact E1|]. split; [exact Sh'|]. split; [exact K|]. intros k c I Hc. destruct (G k I) as (f & Nf & Gf).
  exists f. split; [exact Gf|]. pose proof (six_nth fs _ f c Nf Hc) as S6. rewrite <- E in S6. rewrite <- S6. f_equal.
  assert (0 <= place o k).
  { clear -I. unfold place, inside in *. destruct (extent o) as [[nx ny] n], k as [[a b] d]. destruct I as (I1 & I2 & I3).
    assert (0 <= a * ny) by (apply Z.mul_nonneg_nonneg; lia). assert (0 <= (a * ny + b) * n) by (apply Z.mul_nonneg_nonneg; lia). lia. }
  lia.
Qed.
Lemma round_trip o o2 : shaped o -> small o -> like o o2 ->
  exists b, obs_getBuffer o = Ok b /\ obs_size o = Ok (Z.of_nat (length b)) /\
    obs_fromBuffer b (Z.of_nat (length b)) o2 = Ok o.
Proof.
  intros Sh Sm K. destruct (getBuffer_ok o Sh Sm) as (fs & E & HL & G). exists (map Some (flat_map six fs)). split; [exact G|].
  rewrite map_length, six_length. split; [rewrite (obs_size_small o Sh Sm); f_equal; lia|].
  destruct (fromBuffer_ok o2 fs []) as (o' & E1 & Sh' & K' & G'); [eapply like_shaped; eauto|eapply like_small; eauto|rewrite (like_fields _ _ K); exact HL|].
  rewrite app_nil_r in E1. replace (Z.of_nat (6 * length fs)) with (6 * fields o2) by (rewrite (like_fields _ _ K); lia).
  rewrite E1. f_equal. apply observer_ext_get; [exact Sh'| |].
  - apply like_sym. eapply like_trans; eauto.
  - intros k I. assert (I2 : inside o2 k) by (eapply like_inside; [apply like_sym; exact K'|exact I]).
    assert (I0 : inside o k) by (eapply like_inside; [apply like_sym; exact K|exact I2]).
    destruct (G' k I2) as (f & N & Gf). rewrite Gf. rewrite (like_place _ _ k K) in N.
    destruct (map_res_nth _ _ _ E) as [_ Hn]. destruct (Hn _ _ (keys_place o k Sh I0)) as (f1 & N1 & G1). congruence.
Qed.
Lemma wrong_size o b n : shaped o -> small o -> n <> 6 * fields o -> obs_fromBuffer b n o = Throw IOexc.
Proof.
  intros Sh Sm N. unfold obs_fromBuffer. rewrite (obs_size_small o Sh Sm). cbn [bind]. destruct (Z.eqb_spec n (6 * fields o)); [congruence|reflexivity].
Qed.
End Gen.
