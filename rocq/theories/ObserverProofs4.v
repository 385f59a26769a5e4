(* Proofs about integrate: what every cell of an observer holds afterwards. *)
From Coq Require Import ZArith Reals List Lia Lra Bool.
From Verif Require Import Base BaseFacts Num VecModel VecFacts ParticleModel TraceModel RetardModel TraceProofs2 BunchModel DriverModel DriverProofs
  ObserverModel ObserverSpec ObserverSpec2 ObserverProofs ObserverProofs2 ObserverProofs3.
Import ListNotations.
Local Open Scope Z_scope.

Lemma fold_res_ext {A S} (f g : S -> A -> res S) : (forall s a, f s a = g s a) -> forall l s, fold_res f l s = fold_res g l s.
Proof. intros H. induction l as [|a l IH]; intros s; [reflexivity|]. cbn. rewrite H. destruct (g s a); cbn; auto. Qed.
Lemma update_const {S K V} get set ok Inv (f : K -> res V) : lens_law (S := S) get set ok Inv -> forall ks s, Forall ok ks -> Inv s ->
  fold_res (fun s k => bind (f k) (set s k)) ks s = update_all get set (fun k _ => f k) ks s.
Proof.
  intros [L1 L2]. unfold update_all. induction ks as [|k ks IH]; intros s O I; [reflexivity|]. inversion O; subst. cbn [fold_res].
  destruct (L1 s k I H1) as (v & E). rewrite E. cbn [bind]. destruct (f k) as [w| | |]; cbn [bind]; try reflexivity.
  destruct (L2 s k w I H1) as (s' & E' & I' & _). rewrite E'. cbn [bind]. apply IH; assumption.
Qed.
Lemma forall2_intro {A B} (P : A -> B -> Prop) : forall l m, length l = length m ->
  (forall i a b, nth_error l i = Some a -> nth_error m i = Some b -> P a b) -> Forall2 P l m.
Proof.
  induction l as [|x l IH]; intros [|y m] HL H; try discriminate; constructor.
  - apply (H 0%nat); reflexivity.
  - apply IH; [cbn in HL; lia|]. intros i a b. apply (H (S i)).
Qed.
Lemma rows_intro {A B} (P : A -> B -> Prop) (m : list (list A)) (m' : list (list B)) nx ny :
  Z.of_nat (length m) = nx -> Forall (fun r => Z.of_nat (length r) = ny) m ->
  Z.of_nat (length m') = nx -> Forall (fun r => Z.of_nat (length r) = ny) m' ->
  (forall x y a b, 0 <= x < nx -> 0 <= y < ny -> cell_get m x y = Ok a -> cell_get m' x y = Ok b -> P a b) ->
  Forall2 (Forall2 P) m m'.
Proof.
  intros H1 H2 H3 H4 H. apply forall2_intro; [lia|]. intros i r r' E E'.
  rewrite Forall_forall in H2, H4. pose proof (H2 r (nth_error_In _ _ E)) as Lr. pose proof (H4 r' (nth_error_In _ _ E')) as Lr'.
  cbn beta in *. apply forall2_intro; [lia|]. intros j a b Ea Eb.
  assert (i < length m)%nat by (apply nth_error_Some; congruence).
  assert (j < length r)%nat by (apply nth_error_Some; congruence).
  apply (H (Z.of_nat i) (Z.of_nat j)); try lia.
  - unfold cell_get. rewrite (zget_nth _ _ _ E). cbn [bind]. apply zget_nth. exact Ea.
  - unfold cell_get. rewrite (zget_nth _ _ _ E'). cbn [bind]. apply zget_nth. exact Eb.
Qed.
Lemma forall2_eq {A} (l m : list A) : Forall2 eq l m -> l = m.
Proof. induction 1; congruence. Qed.
Lemma rows_eq {A} (m m' : list (list A)) : Forall2 (Forall2 eq) m m' -> m = m'.
Proof. induction 1 as [|r r' m m' H _ IH]; [reflexivity|]. apply forall2_eq in H. congruence. Qed.

Section Obs.
Context {T : Type} {NT : Num T}.
Implicit Types (o : observer T) (src : source T).

Lemma inside_cell o x y c : inside o (x, y, c) -> in_cells o (x, y).
Proof. unfold inside, in_cells. destruct (extent o) as [[nx ny] n]. cbn. tauto. Qed.
Lemma get_cell o x y c : inside o (x, y, c) -> obs_get o (x, y, c) = bind (cell_of o (x, y)) (fun tr => tr_get tr c).
Proof.
  destruct o as [s|s|s|s]; intros I; cbn [obs_get cell_of fst snd].
  - unfold screen_get. rewrite (screen_in_true _ _ _ _ I). reflexivity.
  - unfold snap_get. rewrite (snap_in_true _ _ _ _ I). cbn in I. assert (c = 0) by lia. subst.
    destruct (cell_get (snF s) x y); reflexivity.
  - reflexivity.
  - reflexivity.
Qed.
Lemma cell_ok o xy : shaped o -> in_cells o xy -> exists tr, cell_of o xy = Ok tr /\
   (forall n, n = snd (extent o) -> tr_N tr = n).
Proof.
  destruct o as [s|s|s|s], xy as [x y]; unfold in_cells; cbn [extent fst snd shaped cell_of].
  - intros (_ & _ & _ & H1 & H2) [I1 I2]. unfold cell_get.
    destruct (zget_ok (scTr s) x) as (r & E & _); [lia|]. rewrite E. cbn [bind].
    destruct (forall_zget _ _ _ _ H2 E) as [H3 H4]. destruct (zget_ok r y) as (tr & E' & _); [lia|].
    exists tr. split; [exact E'|]. intros n ->. exact (forall_zget _ _ _ _ H4 E').
  - intros (_ & _ & H1 & H2) [I1 I2]. unfold cell_get.
    destruct (zget_ok (snF s) x) as (r & E & _); [lia|]. rewrite E. cbn [bind].
    pose proof (forall_zget _ _ _ _ H2 E) as H3. cbn beta in H3. destruct (zget_ok r y) as (f & E' & _); [lia|].
    rewrite E'. cbn [bind]. eexists. split; [reflexivity|]. intros n ->. reflexivity.
  - intros _ _. eexists. split; [reflexivity|]. intros n ->. reflexivity.
  - intros (_ & H1 & H2) [I1 _]. unfold mesh_Np in I1. destruct (zget_ok (msA s) x) as (tr & E & _); [lia|].
    exists tr. split; [exact E|]. intros n ->. exact (forall_zget _ _ _ _ H2 E).
Qed.
Lemma cell_op_keeps src o xy tr r : shaped o -> in_cells o xy -> cell_of o xy = Ok tr -> cell_op src o xy tr = Ok r -> tr_like tr r.
Proof.
  destruct o as [s|s|s|s]; cbn [cell_op cell_of]; intros _ _ E H.
  - unfold screen_cell in H. bget H as pos Ep. destruct src; [eapply keeps_beam|eapply keeps_lattice]; eauto.
  - bget E as g Eg. bget H as f Ef. okinj E. okinj H. repeat split.
  - destruct src; [eapply keeps_beam|eapply keeps_lattice]; eauto.
  - unfold mesh_cell in H. bget H as pos Ep. destruct src; [eapply keeps_beam|eapply keeps_lattice]; eauto.
Qed.

Lemma screen_fold src (s : screen T) m :
  fold_res (fun m (xy : Z * Z) => let '(ix, iy) := xy in
         bind (cell_get m ix iy) (fun tr => bind (screen_cell src s ix iy tr) (cell_set m ix iy)))
       (pairs (scNx s) (scNy s)) m =
  update_all (fun m (k : Z * Z) => cell_get m (fst k) (snd k)) (fun m k => cell_set m (fst k) (snd k))
    (fun k tr => screen_cell src s (fst k) (snd k) tr) (pairs (scNx s) (scNy s)) m.
Proof. unfold update_all. apply fold_res_ext. intros a [x y]. reflexivity. Qed.
Lemma snap_fold src (s : snapshot T) m :
  fold_res (fun m (xy : Z * Z) => let '(ix, iy) := xy in bind (snap_cell src s ix iy) (cell_set m ix iy))
       (pairs (snNx s) (snNy s)) m =
  fold_res (fun m (xy : Z * Z) => bind (snap_cell src s (fst xy) (snd xy)) (cell_set m (fst xy) (snd xy))) (pairs (snNx s) (snNy s)) m.
Proof. apply fold_res_ext. intros a [x y]. reflexivity. Qed.
Lemma pairs_all nx ny : Forall (fun k : Z * Z => 0 <= fst k < nx /\ 0 <= snd k < ny) (pairs nx ny).
Proof. apply Forall_forall. intros [x y] I. apply pairs_in. exact I. Qed.

Lemma integrate_ok src o o' : shaped o -> obs_integrate src o = Ok o' -> like o o' /\
  forall xy, in_cells o xy -> exists tr r, cell_of o xy = Ok tr /\ cell_op src o xy tr = Ok r /\ cell_of o' xy = Ok r.
Proof.
  intros Sh E. destruct o as [s|s|s|s]; cbn [obs_integrate] in E.
  - bget E as s' E1. okinj E. unfold screen_integrate in E1. bget E1 as m E2. okinj E1.
    pose proof Sh as (_ & _ & _ & H1 & H2).
    assert (I0 : Z.of_nat (length (scTr s)) = scNx s /\ Forall (fun r => Z.of_nat (length r) = scNy s) (scTr s)).
    { split; [exact H1|]. eapply Forall_impl; [|exact H2]. cbn. tauto. }
    pose proof (eq_trans (eq_sym (screen_fold src s (scTr s))) E2) as E2'. clear E2. rename E2' into E2.
    destruct (update_ok _ _ _ _ (cell_lens (scNx s) (scNy s)) _ _ _ (pairs_nodup _ _) (pairs_all _ _) I0 _ E2) as (I1 & A & _).
    assert (C : forall xy, in_cells (OScreen s) xy -> exists tr r, cell_of (OScreen s) xy = Ok tr /\ cell_op src (OScreen s) xy tr = Ok r /\
        cell_of (OScreen (screen_with s m)) xy = Ok r).
    { intros [x y] [C1 C2]. destruct (A (x, y)) as (tr & A1 & A2 & r & A3); [apply pairs_in; auto|].
      exists tr, r. cbn [cell_of cell_op screen_with scTr]. rewrite <- A3. auto. }
    split; [|exact C]. cbn [like]. split; [reflexivity|]. cbn [screen_with scTr].
    eapply rows_intro; try apply I0; try apply I1.
    intros x y a b Hx Hy Ea Eb. destruct (C (x, y)) as (tr & r & C1 & C2 & C3); [split; auto|].
    pose proof (cell_op_keeps src _ (x, y) tr r Sh (conj Hx Hy) C1 C2) as K. cbn [cell_of fst snd screen_with scTr] in C1, C3. congruence.
  - bget E as s' E1. okinj E. unfold snap_integrate in E1. bget E1 as m E2. okinj E1.
    pose proof Sh as (_ & _ & H1 & H2).
    assert (I0 : Z.of_nat (length (snF s)) = snNx s /\ Forall (fun r => Z.of_nat (length r) = snNy s) (snF s)) by auto.
    pose proof (eq_trans (eq_sym (snap_fold src s (snF s))) E2) as E2'. clear E2. rename E2' into E2.
    erewrite (update_const _ _ _ _ (fun k => snap_cell src s (fst k) (snd k)) (cell_lens (snNx s) (snNy s))) in E2; [|apply pairs_all|exact I0].
    destruct (update_ok _ _ _ _ (cell_lens (snNx s) (snNy s)) _ _ _ (pairs_nodup _ _) (pairs_all _ _) I0 _ E2) as (I1 & A & _).
    assert (C : forall xy, in_cells (OSnap s) xy -> exists tr r, cell_of (OSnap s) xy = Ok tr /\ cell_op src (OSnap s) xy tr = Ok r /\
        cell_of (OSnap (snap_with s m)) xy = Ok r).
    { intros [x y] [C1 C2]. destruct (A (x, y)) as (g & A1 & A2 & f & A3); [apply pairs_in; auto|].
      exists (FT (snt s) (nZ 0) [g]), (FT (snt s) (nZ 0) [f]). cbn [cell_of cell_op snap_with snF fst snd snt] in *.
      rewrite A1, A3. cbn [bind]. rewrite A2, A3. cbn [bind]. auto. }
    split; [|exact C]. cbn [like]. split; [reflexivity|]. cbn [snap_with snF].
    eapply rows_intro; try apply I0; try apply I1. auto.
  - bget E as s' E1. okinj E. unfold point_integrate in E1. bget E1 as tr E2. okinj E1.
    assert (K : tr_like (poTr s) tr) by (destruct src; [eapply keeps_beam|eapply keeps_lattice]; eauto).
    split; [split; [reflexivity|exact K]|]. intros xy _. exists (poTr s), tr. split; [reflexivity|]. split; [exact E2|reflexivity].
  - bget E as s' E1. okinj E. unfold mesh_integrate in E1. bget E1 as m E2. okinj E1.
    pose proof Sh as (_ & H1 & H2).
    assert (I0 : Z.of_nat (length (msA s)) = mesh_Np s) by (unfold mesh_Np; lia).
    assert (O0 : Forall (fun i => 0 <= i < mesh_Np s) (zseq 0 (length (msX s)))).
    { apply Forall_forall. intros i Hi. apply zseq_in in Hi. unfold mesh_Np. lia. }
    destruct (update_ok _ _ _ _ (list_lens (mesh_Np s)) (fun i tr => mesh_cell src s i tr) _ _ (zseq_nodup _ _) O0 I0 _ E2) as (I1 & A & _).
    assert (C : forall xy, in_cells (OMesh s) xy -> exists tr r, cell_of (OMesh s) xy = Ok tr /\ cell_op src (OMesh s) xy tr = Ok r /\
        cell_of (OMesh (mesh_with s m)) xy = Ok r).
    { intros [x y] [C1 C2]. cbn [fst snd] in *. unfold mesh_Np in C1. destruct (A x) as (tr & A1 & A2 & r & A3); [apply zseq_In; lia|].
      exists tr, r. cbn [cell_of cell_op mesh_with msA]. rewrite <- A3. auto. }
    split; [|exact C]. cbn [like]. split; [reflexivity|]. cbn [mesh_with msA].
    apply forall2_intro; [lia|]. intros i a b Ea Eb.
    assert (i < length (msA s))%nat by (apply nth_error_Some; congruence).
    assert (IC : in_cells (OMesh s) (Z.of_nat i, 0)) by (split; cbn [fst snd]; unfold mesh_Np; lia).
    destruct (C _ IC) as (tr & r & C1 & C2 & C3).
    pose proof (cell_op_keeps src _ _ tr r Sh IC C1 C2) as K. cbn [cell_of fst snd mesh_with msA] in C1, C3.
    rewrite (zget_nth _ _ _ Ea) in C1. rewrite (zget_nth _ _ _ Eb) in C3. congruence.
Qed.
Lemma integrate_total src o : shaped o ->
  (forall xy, in_cells o xy -> exists tr r, cell_of o xy = Ok tr /\ cell_op src o xy tr = Ok r) ->
  exists o', obs_integrate src o = Ok o'.
Proof.
  intros Sh C. destruct o as [s|s|s|s]; cbn [obs_integrate].
  - pose proof Sh as (_ & _ & _ & H1 & H2).
    assert (I0 : Z.of_nat (length (scTr s)) = scNx s /\ Forall (fun r => Z.of_nat (length r) = scNy s) (scTr s)).
    { split; [exact H1|]. eapply Forall_impl; [|exact H2]. cbn. tauto. }
    destruct (update_total _ _ _ _ (cell_lens (scNx s) (scNy s)) (fun k tr => screen_cell src s (fst k) (snd k) tr) _ _
      (pairs_nodup (scNx s) (scNy s)) (pairs_all _ _) I0) as [m E].
    { intros [x y] I. apply pairs_in in I. apply (C (x, y)). exact I. }
    rewrite <- screen_fold in E. unfold screen_integrate.
    match goal with |- context [fold_res ?f ?l ?z] => replace (fold_res f l z) with (Ok m) by (symmetry; exact E) end.
    cbn [bind]. eauto.
  - pose proof Sh as (_ & _ & H1 & H2).
    assert (I0 : Z.of_nat (length (snF s)) = snNx s /\ Forall (fun r => Z.of_nat (length r) = snNy s) (snF s)) by auto.
    destruct (update_total _ _ _ _ (cell_lens (snNx s) (snNy s)) (fun k _ => snap_cell src s (fst k) (snd k)) _ _
      (pairs_nodup (snNx s) (snNy s)) (pairs_all _ _) I0) as [m E].
    { intros [x y] I. apply pairs_in in I. destruct (C (x, y) I) as (tr & r & C1 & C2). cbn [cell_of cell_op fst snd] in *.
      bget C1 as g Eg. bget C2 as f Ef. eauto. }
    rewrite <- (update_const _ _ _ _ (fun k => snap_cell src s (fst k) (snd k)) (cell_lens (snNx s) (snNy s))) in E; [|apply pairs_all|exact I0].
    unfold snap_integrate.
    match goal with |- context [fold_res ?f ?l ?z] => replace (fold_res f l z) with (Ok m) by (symmetry; rewrite <- E; apply (snap_fold src)) end.
    cbn [bind]. eauto.
  - destruct (C (0, 0)) as (tr & r & C1 & C2); [split; cbn; lia|]. cbn [cell_of cell_op] in *. okinj C1.
    unfold point_integrate. rewrite C2. cbn [bind]. eauto.
  - pose proof Sh as (_ & H1 & H2).
    assert (I0 : Z.of_nat (length (msA s)) = mesh_Np s) by (unfold mesh_Np; lia).
    assert (O0 : Forall (fun i => 0 <= i < mesh_Np s) (zseq 0 (length (msX s)))).
    { apply Forall_forall. intros i Hi. apply zseq_in in Hi. unfold mesh_Np. lia. }
    destruct (update_total _ _ _ _ (list_lens (mesh_Np s)) (fun i tr => mesh_cell src s i tr) _ _ (zseq_nodup _ _) O0 I0) as [m E].
    { intros i I. rewrite Forall_forall in O0. apply O0 in I. destruct (C (i, 0)) as (tr & r & C1 & C2); [split; cbn [fst snd]; lia|].
      cbn [cell_of cell_op fst] in *. eauto. }
    unfold mesh_integrate. unfold update_all in E.
    match goal with |- context [fold_res ?f ?l ?z] => replace (fold_res f l z) with (Ok m) by (symmetry; exact E) end.
    cbn [bind]. eauto.
Qed.

(* observers with equal parameters and equal cells are equal *)
Lemma like_sym o o' : like o o' -> like o' o.
Proof.
  assert (SY : forall A (P : A -> A -> Prop) l m, (forall a b, P a b -> P b a) -> Forall2 P l m -> Forall2 P m l).
  { intros A P l m H. induction 1; constructor; auto. }
  destruct o as [s|s|s|s], o' as [s'|s'|s'|s']; cbn; try tauto; intros [A1 A2].
  - split; [rewrite A1; destruct s; reflexivity|]. eapply SY; [|exact A2]. intros a b. apply SY. apply tr_like_sym.
  - split; [rewrite A1; destruct s; reflexivity|]. eapply SY; [|exact A2]. intros a b. apply SY. auto.
  - split; [congruence|]. apply tr_like_sym; exact A2.
  - split; [rewrite A1; destruct s; reflexivity|]. eapply SY; [|exact A2]. apply tr_like_sym.
Qed.
Lemma observer_ext o o' : shaped o -> like o o' -> (forall xy, in_cells o xy -> cell_of o xy = cell_of o' xy) -> o = o'.
Proof.
  intros Sh K C. pose proof (like_shaped _ _ K Sh) as Sh'.
  destruct o as [s|s|s|s], o' as [s'|s'|s'|s']; try (cbn in K; tauto); destruct K as [A1 A2].
  - assert (Q : scTr s = scTr s').
    { apply rows_eq. destruct Sh as (_ & _ & _ & H1 & H2), Sh' as (_ & _ & _ & H1' & H2').
      assert (E1 : scNx s' = scNx s) by (rewrite A1; reflexivity). assert (E2 : scNy s' = scNy s) by (rewrite A1; reflexivity).
      eapply (rows_intro eq _ _ (scNx s) (scNy s)).
      - exact H1.
      - eapply Forall_impl; [|exact H2]; cbn; tauto.
      - congruence.
      - eapply Forall_impl; [|exact H2']; cbn; intros a [Ha _]; congruence.
      - intros x y a b Hx Hy Ea Eb. specialize (C (x, y) (conj Hx Hy)). cbn [cell_of fst snd] in C. congruence. }
    rewrite A1, <- Q. destruct s; reflexivity.
  - assert (Q : snF s = snF s').
    { apply rows_eq. destruct Sh as (_ & _ & H1 & H2), Sh' as (_ & _ & H1' & H2').
      assert (E1 : snNx s' = snNx s) by (rewrite A1; reflexivity). assert (E2 : snNy s' = snNy s) by (rewrite A1; reflexivity).
      eapply (rows_intro eq _ _ (snNx s) (snNy s)).
      - exact H1.
      - exact H2.
      - congruence.
      - rewrite <- E2. exact H2'.
      - intros x y a b Hx Hy Ea Eb. specialize (C (x, y) (conj Hx Hy)). cbn [cell_of fst snd] in C.
        rewrite Ea, Eb in C. cbn [bind] in C. congruence. }
    rewrite A1, <- Q. destruct s; reflexivity.
  - specialize (C (0, 0)). cbn [cell_of] in C. assert (Q : poTr s = poTr s').
    { apply Ok_inj. apply C. split; cbn; lia. }
    destruct s, s'. cbn in *. congruence.
  - assert (Q : msA s = msA s').
    { apply forall2_eq. destruct Sh as (_ & H1 & H2), Sh' as (_ & H1' & H2').
      assert (E1 : msX s' = msX s) by (rewrite A1; reflexivity).
      apply forall2_intro; [congruence|]. intros i a b Ea Eb.
      assert (i < length (msA s))%nat by (apply nth_error_Some; congruence).
      specialize (C (Z.of_nat i, 0)). cbn [cell_of fst] in C. rewrite (zget_nth _ _ _ Ea), (zget_nth _ _ _ Eb) in C.
      apply Ok_inj. apply C. split; cbn [fst snd]; unfold mesh_Np; lia. }
    rewrite A1, <- Q. destruct s; reflexivity.
Qed.
Lemma cells_like o o' xy tr tr' : shaped o -> like o o' -> in_cells o xy -> cell_of o xy = Ok tr -> cell_of o' xy = Ok tr' -> tr_like tr tr'.
Proof.
  assert (Z2 : forall A (P : A -> A -> Prop) l m i a b, Forall2 P l m -> zget l i = Ok a -> zget m i = Ok b -> P a b).
  { intros A P l m i a b H Ha Hb. apply zget_inv in Ha, Hb. destruct Ha as [_ Ha], Hb as [_ Hb]. revert Ha Hb. generalize (Z.to_nat i).
    induction H; intros [|n] Ha Hb; try discriminate; cbn in *; [congruence|eauto]. }
  destruct xy as [x y]. destruct o as [s|s|s|s], o' as [s'|s'|s'|s']; intros Sh K I E E'; try (cbn in K; tauto); cbn in K; destruct K as [A1 A2]; cbn [cell_of fst snd] in *.
  - unfold cell_get in *. bget E as r Er. bget E' as r' Er'. pose proof (Z2 _ _ _ _ _ _ _ A2 Er Er'). eapply Z2; eauto.
  - bget E as f Ef. bget E' as g Eg. okinj E. okinj E'. rewrite A1. repeat split.
  - okinj E. okinj E'. exact A2.
  - eapply Z2; eauto.
Qed.
Lemma cell_op_like src o o' xy tr : like o o' -> cell_op src o' xy tr = cell_op src o xy tr.
Proof.
  destruct o as [s|s|s|s], o' as [s'|s'|s'|s']; intros K; try (cbn in K; tauto); destruct K as [A1 A2]; cbn [cell_op].
  - rewrite A1. reflexivity.
  - rewrite A1. reflexivity.
  - rewrite A1. reflexivity.
  - rewrite A1. reflexivity.
Qed.
(* equal fields make equal cells *)
Lemma tr_ext (a b : ftrace T) : tr_like a b -> (forall i, 0 <= i < tr_N a -> tr_get a i = tr_get b i) -> a = b.
Proof.
  intros (H1 & H2 & H3) H. destruct a as [t d l], b as [t' d' l']. cbn in *. subst. f_equal.
  apply nth_error_combine_ext. intros n. destruct (lt_dec n (length l)) as [Hn|Hn].
  - specialize (H (Z.of_nat n)). unfold tr_get, tr_in, tr_N in H. cbn [tr_f] in H. rewrite <- H3 in H.
    destruct (Z.leb_spec 0 (Z.of_nat n)); [|lia]. destruct (Z.ltb_spec (Z.of_nat n) (Z.of_nat (length l))); [|lia]. cbn [andb] in H.
    destruct (nth_error l n) as [x|] eqn:E; [|apply nth_error_None in E; lia].
    destruct (nth_error l' n) as [x'|] eqn:E'; [|apply nth_error_None in E'; lia].
    rewrite (zget_nth _ _ _ E), (zget_nth _ _ _ E') in H. f_equal. apply Ok_inj. apply H. lia.
  - rewrite (proj2 (nth_error_None _ _)) by lia. symmetry. apply nth_error_None. lia.
Qed.
Lemma observer_ext_get o o' : shaped o -> like o o' -> (forall k, inside o k -> obs_get o k = obs_get o' k) -> o = o'.
Proof.
  intros Sh K C. apply observer_ext; auto. intros [x y] I.
  destruct (cell_ok o (x, y) Sh I) as (tr & E & HN).
  destruct (cell_ok o' (x, y) (like_shaped _ _ K Sh)) as (tr' & E' & _).
  { unfold in_cells in *. rewrite (like_extent _ _ K). exact I. }
  rewrite E, E'. f_equal. apply tr_ext; [eapply cells_like; eauto|]. intros i Hi.
  assert (In' : inside o (x, y, i)).
  { specialize (HN _ eq_refl). unfold in_cells, inside in *. destruct (extent o) as [[nx ny] n]. cbn [fst snd] in *. lia. }
  pose proof (C _ In') as Q. rewrite (get_cell o) in Q by exact In'. rewrite (get_cell o') in Q by (eapply like_inside; eauto).
  rewrite E, E' in Q. exact Q.
Qed.
End Obs.
