(* Proofs about the integration of fields by observers. *)
From Coq Require Import ZArith Reals List Lia Lra Bool.
From Verif Require Import Base BaseFacts Num VecModel VecFacts ParticleModel TraceModel RetardModel TraceProofs2 BunchModel DriverModel DriverProofs
  ObserverModel ObserverSpec ObserverProofs ObserverProofs2.
Import ListNotations.
Local Open Scope Z_scope.

(* ---- operations on traces keep the timing ---- *)
Section Keep.
Context {T : Type} {NT : Num T}.
Definition keeps (op : ftrace T -> res (ftrace T)) : Prop := forall tr r, op tr = Ok r -> tr_like tr r.

Lemma keeps_ok : keeps (fun tr => Ok tr).
Proof. intros tr r H. injection H as <-. apply tr_like_refl. Qed.
Lemma keeps_acc i f : keeps (fun tr => tr_acc tr i f).
Proof.
  intros tr r H. unfold tr_acc in H. destruct (tr_in tr i) eqn:E; [|discriminate]. apply tr_in_spec in E.
  destruct (zget_ok (tr_f tr) i E) as (g & G & _). rewrite G in H. cbn [bind] in H.
  destruct (zset_get (tr_f tr) i (eadd g f) E) as (l' & F & HL & _). rewrite F in H. cbn [bind] in H. okinj H.
  repeat split; cbn; congruence.
Qed.
Lemma keeps_bind op op' : keeps op -> keeps op' -> keeps (fun tr => bind (op tr) op').
Proof. intros H1 H2 tr r H. bget H as a E. eapply tr_like_trans; [apply H1|apply H2]; eauto. Qed.
Lemma keeps_fold {A} (f : ftrace T -> A -> res (ftrace T)) l : (forall a, In a l -> keeps (fun tr => f tr a)) -> keeps (fold_res f l).
Proof.
  induction l as [|a l IH]; intros H tr r E.
  - injection E as <-. apply tr_like_refl.
  - cbn [fold_res] in E. bget E as s E1. eapply tr_like_trans.
    + apply (H a (or_introl eq_refl)). exact E1.
    + apply IH; auto. intros b I. apply H. right; exact I.
Qed.
Lemma keeps_arg {A} (m : res A) op : (forall a, keeps (op a)) -> keeps (fun tr => bind m (fun a => op a tr)).
Proof. intros H tr r E. bget E as a E1. eapply H; eauto. Qed.
Lemma keeps_if (b : bool) op op' : keeps op -> keeps op' -> keeps (fun tr => if b then op tr else op' tr).
Proof. destruct b; auto. Qed.
Lemma keeps_step t0 dt nots ts1 ts2 f1 f2 : keeps (integrate_step t0 dt nots ts1 ts2 f1 f2).
Proof.
  unfold integrate_step. assert (F : forall a k, keeps (add_full t0 dt ts1 ts2 f1 f2 a k)).
  { intros a k. unfold add_full. apply keeps_fold. intros; apply keeps_acc. }
  assert (La : forall i, keeps (add_last t0 dt ts1 ts2 f1 f2 i nots)).
  { intros i. unfold add_last. apply keeps_if; [apply keeps_acc|apply keeps_ok]. }
  apply keeps_if.
  - apply keeps_arg. intros i. apply keeps_bind; auto.
  - apply keeps_arg. intros i1. apply keeps_arg. intros i2. apply keeps_if; [apply keeps_acc|].
    apply keeps_bind; [apply keeps_acc|]. apply keeps_bind; auto.
Qed.
Lemma keeps_one p obs t0 dt nots step : keeps (fun tr => integrate_one p obs t0 dt nots tr step).
Proof.
  unfold integrate_one. apply keeps_arg. intros a. apply keeps_arg. intros b. apply keeps_if; [|apply keeps_ok].
  apply keeps_arg. intros f1. apply keeps_arg. intros f2. apply keeps_step.
Qed.
Lemma keeps_trace p obs : keeps (integrateFieldTrace p obs).
Proof.
  intros tr r H. unfold integrateFieldTrace in H.
  destruct (_ <? 2)%Z; [injection H as <-; apply tr_like_refl|].
  destruct (_ <? 2)%Z; [injection H as <-; apply tr_like_refl|].
  eapply keeps_fold; [|exact H]. intros; apply keeps_one.
Qed.
Lemma keeps_beam bm obs : keeps (beam_integrate bm obs).
Proof. unfold beam_integrate, bunch_integrate. apply keeps_fold. intros b _. apply keeps_fold. intros p _. apply keeps_trace. Qed.
Lemma keeps_lattice F time n pos : keeps (lattice_trace F time n pos).
Proof. unfold lattice_trace. apply keeps_fold. intros i _. apply keeps_arg. intros t. apply keeps_arg. intros f. apply keeps_acc. Qed.
End Keep.

(* ---- additivity of the accumulation, over the reals ---- *)
Definition tr_plus (a d : ftrace R) : ftrace R := FT (tr_t0 a) (tr_dt a) (zip_with eadd (tr_f a) (tr_f d)).
Definition additive (op : ftrace R -> res (ftrace R)) : Prop :=
  forall tr d, tr_like tr d -> op (tr_plus tr d) = bind (op tr) (fun r => Ok (tr_plus r d)).
Lemma eadd_comm (a b : emf R) : eadd a b = eadd b a.
Proof. destruct a as [[] []], b as [[] []]. unfold eadd, vadd. cbn. f_equal; f_equal; ring. Qed.
Lemma eadd_assoc (a b c : emf R) : eadd (eadd a b) c = eadd a (eadd b c).
Proof. destruct a as [[] []], b as [[] []], c as [[] []]. unfold eadd, vadd. cbn. f_equal; f_equal; ring. Qed.
Lemma eadd_zero_l (a : emf R) : eadd ezero a = a.
Proof. destruct a as [[] []]. unfold eadd, vadd, ezero, vzero. cbn. f_equal; f_equal; ring. Qed.
Lemma tr_plus_like a d : tr_like a d -> tr_like a (tr_plus a d).
Proof. intros (_ & _ & H). repeat split. cbn. rewrite zip_len; congruence. Qed.
Lemma zip_lset {A B C} (f : A -> B -> C) : forall a b i x y, nth_error b i = Some y ->
  zip_with f (lset a i x) b = lset (zip_with f a b) i (f x y).
Proof.
  induction a as [|u a IH]; intros [|v b] [|i] x y H; try discriminate; try reflexivity.
  - cbn in *. congruence.
  - cbn in *. rewrite (IH _ _ _ _ H). reflexivity.
Qed.
Lemma additive_ok : additive (fun tr => Ok tr).
Proof. intros tr d H. reflexivity. Qed.
Lemma additive_acc i f : additive (fun tr => tr_acc tr i f).
Proof.
  intros tr d H. assert (Q : tr_in (tr_plus tr d) i = tr_in tr i).
  { unfold tr_in. rewrite (tr_like_N _ _ (tr_plus_like _ _ H)). reflexivity. }
  unfold tr_acc. rewrite Q. destruct (tr_in tr i) eqn:E; [|reflexivity]. apply tr_in_spec in E.
  assert (Ed : 0 <= i < Z.of_nat (length (tr_f d))) by (destruct H as (_ & _ & H); unfold tr_N in E; lia).
  destruct (zget_ok (tr_f tr) i E) as (g & G & Gn). destruct (zget_ok (tr_f d) i Ed) as (h & Hh & Hn).
  assert (P : zget (tr_f (tr_plus tr d)) i = Ok (eadd g h)).
  { unfold zget. destruct (Z.ltb_spec i 0); [lia|]. cbn [tr_plus tr_f]. rewrite (zip_nth _ _ _ _ _ _ Gn Hn). reflexivity. }
  rewrite P, G. cbn [bind].
  destruct (zset_get (tr_f tr) i (eadd g f) E) as (l1 & F1 & _ & D1 & _). rewrite F1. cbn [bind].
  assert (E' : 0 <= i < Z.of_nat (length (tr_f (tr_plus tr d)))).
  { rewrite <- (tr_like_N _ _ (tr_plus_like _ _ H)) in E. exact E. }
  destruct (zset_get (tr_f (tr_plus tr d)) i (eadd (eadd g h) f) E') as (l2 & F2 & _ & D2 & _). rewrite F2. cbn [bind].
  f_equal. unfold tr_plus. cbn [tr_t0 tr_dt tr_f]. f_equal. subst l1 l2. rewrite (zip_lset _ _ _ _ _ _ Hn). f_equal.
  rewrite !eadd_assoc. f_equal. apply eadd_comm.
Qed.
Lemma additive_bind op op' : additive op -> keeps op -> additive op' -> additive (fun tr => bind (op tr) op').
Proof.
  intros H1 K H2 tr d H. rewrite (H1 _ _ H). destruct (op tr) as [r| | |] eqn:E; cbn [bind]; try reflexivity.
  apply H2. pose proof (K _ _ E) as L. apply tr_like_sym in L. eapply tr_like_trans; eauto.
Qed.
Lemma additive_fold {A} (f : ftrace R -> A -> res (ftrace R)) l : (forall a, In a l -> additive (fun tr => f tr a)) ->
  (forall a, In a l -> keeps (fun tr => f tr a)) -> additive (fold_res f l).
Proof.
  induction l as [|a l IH]; intros H K tr d L; [reflexivity|]. cbn [fold_res].
  apply (additive_bind (fun tr => f tr a) (fold_res f l)); auto.
  - apply H. left; reflexivity.
  - apply K. left; reflexivity.
  - apply IH; intros b I; [apply H|apply K]; right; exact I.
Qed.
Lemma additive_arg {A} (m : res A) op : (forall a, additive (op a)) -> additive (fun tr => bind m (fun a => op a tr)).
Proof. intros H tr d L. destruct m; cbn [bind]; try reflexivity. apply H. exact L. Qed.
Lemma additive_if (b : bool) op op' : additive op -> additive op' -> additive (fun tr => if b then op tr else op' tr).
Proof. destruct b; auto. Qed.
Lemma additive_step t0 dt nots ts1 ts2 f1 f2 : additive (integrate_step t0 dt nots ts1 ts2 f1 f2).
Proof.
  unfold integrate_step. assert (F : forall a k, additive (add_full t0 dt ts1 ts2 f1 f2 a k)).
  { intros a k. unfold add_full. apply additive_fold; intros; [apply additive_acc|apply keeps_acc]. }
  assert (Fk : forall a k, keeps (add_full t0 dt ts1 ts2 f1 f2 a k)).
  { intros a k. unfold add_full. apply keeps_fold. intros; apply keeps_acc. }
  assert (La : forall i, additive (add_last t0 dt ts1 ts2 f1 f2 i nots)).
  { intros i. unfold add_last. apply additive_if; [apply additive_acc|apply additive_ok]. }
  apply additive_if.
  - apply additive_arg. intros i. apply additive_bind; auto.
  - apply additive_arg. intros i1. apply additive_arg. intros i2. apply additive_if; [apply additive_acc|].
    apply additive_bind; [apply additive_acc|apply keeps_acc|]. apply additive_bind; auto.
Qed.
Lemma additive_one p obs t0 dt nots step : additive (fun tr => integrate_one p obs t0 dt nots tr step).
Proof.
  unfold integrate_one. apply additive_arg. intros a. apply additive_arg. intros b. apply additive_if; [|apply additive_ok].
  apply additive_arg. intros f1. apply additive_arg. intros f2. apply additive_step.
Qed.
Lemma additive_trace p obs : additive (integrateFieldTrace p obs).
Proof.
  intros tr d H. unfold integrateFieldTrace.
  rewrite (tr_like_N _ _ (tr_plus_like _ _ H)). change (tr_t0 (tr_plus tr d)) with (tr_t0 tr). change (tr_dt (tr_plus tr d)) with (tr_dt tr).
  destruct (_ <? 2)%Z; [reflexivity|]. destruct (_ <? 2)%Z; [reflexivity|].
  apply (additive_fold (integrate_one p obs (tr_t0 tr) (tr_dt tr) (i32 (tr_N tr)))); [| |exact H].
  - intros; apply additive_one.
  - intros; apply keeps_one.
Qed.

(* ---- distribution over nodes ---- *)
Definition particles_trace (ps : list (particle R)) (pos : vec R) (tr : ftrace R) : res (ftrace R) :=
  fold_res (fun tr p => integrateFieldTrace p pos tr) ps tr.
Lemma additive_particles ps pos : additive (particles_trace ps pos).
Proof. apply additive_fold; intros; [apply additive_trace|apply keeps_trace]. Qed.
Lemma keeps_particles ps pos : keeps (particles_trace ps pos).
Proof. apply keeps_fold; intros; apply keeps_trace. Qed.
Lemma fold_res_app {A S} (f : S -> A -> res S) : forall a b s, fold_res f (a ++ b) s = bind (fold_res f a s) (fold_res f b).
Proof. induction a as [|x a IH]; intros b s; [reflexivity|]. cbn [app fold_res]. destruct (f s x); cbn [bind]; auto. Qed.
Lemma fold_res_concat {A S} (f : S -> A -> res S) : forall ls s, fold_res f (concat ls) s = fold_res (fun s l => fold_res f l s) ls s.
Proof.
  induction ls as [|l ls IH]; intros s; [reflexivity|]. cbn [concat fold_res]. rewrite fold_res_app.
  destruct (fold_res f l s); cbn [bind]; auto.
Qed.
Lemma beam_particles bm pos tr : beam_integrate bm pos tr = particles_trace (concat (bmB bm)) pos tr.
Proof. unfold beam_integrate, bunch_integrate, particles_trace. rewrite fold_res_concat. reflexivity. Qed.

Lemma tr_plus_comm a b : tr_like a b -> tr_plus a b = tr_plus b a.
Proof.
  intros (H1 & H2 & H3). unfold tr_plus. rewrite H1, H2. f_equal. revert H3. generalize (tr_f a), (tr_f b).
  induction l as [|x l IH]; intros [|y m] H; try discriminate; [reflexivity|]. cbn in *. rewrite eadd_comm, IH by lia. reflexivity.
Qed.
Definition is_blank (z : ftrace R) : Prop := Forall (fun f => f = ezero) (tr_f z).
Lemma tr_plus_blank z a : is_blank z -> tr_like z a -> tr_plus z a = a.
Proof.
  intros B (H1 & H2 & H3). unfold tr_plus. destruct a as [t d l]. cbn in *. f_equal; auto. revert l H3. unfold is_blank in B.
  induction B as [|x l0 E B IH]; intros [|y l] H; try discriminate; [reflexivity|]. cbn in *. rewrite E, eadd_zero_l, IH by lia. reflexivity.
Qed.
(* starting from the blank trace z, the particles of the chunks cs after those of c0 *)
Lemma chunks_from pos z : is_blank z -> forall cs r0, tr_like z r0 ->
  particles_trace (concat cs) pos r0 =
  bind (map_res (fun c => particles_trace c pos z) cs) (fun rs => Ok (fold_left tr_plus rs r0)).
Proof.
  intros B. induction cs as [|c cs IH]; intros r0 L; [reflexivity|].
  cbn [concat map_res]. unfold particles_trace at 1. rewrite fold_res_app. fold (particles_trace c pos r0).
  rewrite <- (tr_plus_blank z r0 B L) at 1. rewrite (additive_particles c pos z r0 L).
  destruct (particles_trace c pos z) as [rc| | |] eqn:E; cbn [bind]; try reflexivity.
  pose proof (keeps_particles _ _ _ _ E) as Lc.
  assert (L2 : tr_like rc r0) by (eapply tr_like_trans; [apply tr_like_sym; exact Lc|exact L]).
  fold (particles_trace (concat cs) pos (tr_plus rc r0)). rewrite IH.
  - rewrite (tr_plus_comm rc r0 L2). destruct (map_res _ cs); reflexivity.
  - eapply tr_like_trans; [exact Lc|]. apply tr_plus_like. exact L2.
Qed.
Lemma chunks_trace pos z c0 cs : is_blank z ->
  particles_trace (concat (c0 :: cs)) pos z =
  bind (map_res (fun c => particles_trace c pos z) (c0 :: cs)) (fun rs =>
    match rs with [] => Ok z | r :: rs => Ok (fold_left tr_plus rs r) end).
Proof.
  intros B. cbn [concat map_res]. unfold particles_trace at 1. rewrite fold_res_app. fold (particles_trace c0 pos z).
  destruct (particles_trace c0 pos z) as [r0| | |] eqn:E; cbn [bind]; try reflexivity.
  fold (particles_trace (concat cs) pos r0). rewrite (chunks_from pos z B cs r0) by (eapply keeps_particles; exact E).
  destruct (map_res _ cs); reflexivity.
Qed.

(* the same for the instantaneous field *)
Definition particles_field (ps : list (particle R)) (t : R) (pos : vec R) : res (emf R) :=
  fold_res (fun s p => bind (RetardedField_time p t pos) (fun f => Ok (eadd s f))) ps ezero.
Lemma field_from t pos : forall ps s,
  fold_res (fun s p => bind (RetardedField_time p t pos) (fun f => Ok (eadd s f))) ps s =
  bind (particles_field ps t pos) (fun r => Ok (eadd s r)).
Proof.
  unfold particles_field.
  induction ps as [|p ps IH]; intros s.
  - cbn. f_equal. rewrite eadd_comm, eadd_zero_l. reflexivity.
  - cbn [fold_res]. destruct (RetardedField_time p t pos) as [f| | |]; cbn [bind]; try reflexivity.
    rewrite IH. rewrite (IH (eadd ezero f)). rewrite eadd_zero_l.
    destruct (fold_res _ ps ezero); cbn [bind]; try reflexivity. f_equal. apply eadd_assoc.
Qed.
Lemma field_bunches t pos : forall bs s,
  fold_res (fun s b => bind (bunch_RetardedField b t pos) (fun f => Ok (eadd s f))) bs s =
  bind (particles_field (concat bs) t pos) (fun r => Ok (eadd s r)).
Proof.
  induction bs as [|b bs IH]; intros s.
  - cbn. f_equal. rewrite eadd_comm, eadd_zero_l. reflexivity.
  - cbn [fold_res concat]. unfold bunch_RetardedField at 1. unfold particles_field. rewrite fold_res_app.
    fold (particles_field b t pos). destruct (particles_field b t pos) as [f| | |]; cbn [bind]; try reflexivity.
    rewrite IH, (field_from t pos (concat bs) f). destruct (particles_field (concat bs) t pos); cbn [bind]; try reflexivity.
    f_equal. apply eadd_assoc.
Qed.
Lemma beam_field bm t pos : beam_RetardedField bm t pos = particles_field (concat (bmB bm)) t pos.
Proof.
  unfold beam_RetardedField. rewrite field_bunches. destruct (particles_field _ t pos); cbn [bind]; try reflexivity.
  f_equal. apply eadd_zero_l.
Qed.
Lemma chunks_field_from t pos : forall cs s,
  bind (particles_field (concat cs) t pos) (fun r => Ok (eadd s r)) =
  bind (map_res (fun c => particles_field c t pos) cs) (fun rs => Ok (fold_left eadd rs s)).
Proof.
  induction cs as [|c cs IH]; intros s.
  - cbn. f_equal. rewrite eadd_comm, eadd_zero_l. reflexivity.
  - cbn [concat map_res]. unfold particles_field at 1. rewrite fold_res_app. fold (particles_field c t pos).
    destruct (particles_field c t pos) as [f| | |]; cbn [bind]; try reflexivity.
    rewrite (field_from t pos (concat cs) f). specialize (IH (eadd s f)).
    destruct (particles_field (concat cs) t pos) as [r| | |]; cbn [bind] in *;
      destruct (map_res _ cs) as [rs| | |]; cbn [bind] in *; try discriminate; try congruence.
    cbn [fold_left]. rewrite <- eadd_assoc. exact IH.
Qed.
Lemma chunks_field t pos c0 cs :
  particles_field (concat (c0 :: cs)) t pos =
  bind (map_res (fun c => particles_field c t pos) (c0 :: cs)) (fun rs =>
    match rs with [] => Ok ezero | r :: rs => Ok (fold_left eadd rs r) end).
Proof.
  cbn [concat map_res]. unfold particles_field at 1. rewrite fold_res_app. fold (particles_field c0 t pos).
  destruct (particles_field c0 t pos) as [f| | |]; cbn [bind]; try reflexivity.
  rewrite field_from, chunks_field_from. destruct (map_res _ cs); reflexivity.
Qed.
