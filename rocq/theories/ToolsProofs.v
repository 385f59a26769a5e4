(* Proofs about the programs propagate and reflection; see ToolsModel.v and ToolsSpec.v *)
From Coq Require Import ZArith String List Lia Bool Sorting.Permutation.
From Verif Require Import Base BaseFacts Num VecModel TraceModel TraceSpec TraceProofs TraceProofs2 FelProofs DriverProofs ObserverModel ObserverSpec ObserverProofs
  ObserverProofs7 PropagateModel PropagateSpec OutputModel OutputSpec OutputProofs OutputProofs2 OutputProofs3 ToolsModel ToolsSpec.
Import ListNotations.
Local Open Scope Z_scope.

Lemma Forall2_length {A B} (P : A -> B -> Prop) l l' : Forall2 P l l' -> length l = length l'.
Proof. induction 1; cbn; congruence. Qed.

(* ---- parallel loops ---- *)
Lemma zset_inv {A} (l l' : list A) i x : zset l i x = Ok l' -> 0 <= i < Z.of_nat (length l) /\ l' = lset l (Z.to_nat i) x.
Proof.
  unfold zset. destruct (Z.ltb_spec i 0); [discriminate|]. destruct (Z.leb_spec (Z.of_nat (length l)) i); [discriminate|]. intros E. apply Ok_inj in E. auto.
Qed.
Section Loop.
Context {A : Type} (turn : Z -> A -> res A).
Notation step := (fun (l : list A) i => bind (zget l i) (fun x => bind (turn i x) (fun y => zset l i y))).
Lemma loop_inv : forall order l l', NoDup order -> fold_res step order l = Ok l' ->
  length l' = length l /\
  (forall i, In i order -> exists x y, zget l i = Ok x /\ turn i x = Ok y /\ zget l' i = Ok y) /\
  (forall k, ~ In (Z.of_nat k) order -> nth_error l' k = nth_error l k).
Proof.
  induction order as [|i order IH]; intros l l' ND H; cbn [fold_res] in H.
  - apply Ok_inj in H. subst. split; [reflexivity|]. split; [intros i []|reflexivity].
  - inversion ND as [|? ? NI ND']; subst. destruct (step l i) as [l1| | |] eqn:E; try discriminate H. cbn [bind] in H.
    bget E as x Hx. bget E as y Hy. apply zset_inv in E. destruct E as [Hi E]. subst l1.
    destruct (IH _ _ ND' H) as (L & P & Q). rewrite lset_length in L.
    assert (F : forall j, j <> i -> zget (lset l (Z.to_nat i) y) j = zget l j).
    { intros j Hj. unfold zget. destruct (Z.ltb_spec j 0); [reflexivity|]. rewrite lset_nth_neq; [reflexivity|lia]. }
    split; [exact L|]. split.
    + intros j [<-|Ij].
      * exists x, y. split; [exact Hx|]. split; [exact Hy|]. unfold zget. destruct (Z.ltb_spec i 0); [lia|].
        rewrite Q by (rewrite Z2Nat.id by lia; exact NI). rewrite lset_nth_eq by lia. reflexivity.
      * destruct (P j Ij) as (x' & y' & A1 & A2 & A3). exists x', y'. rewrite F in A1 by (intros ->; contradiction). auto.
    + intros k Hk. rewrite Q by (intros I; apply Hk; right; exact I). apply lset_nth_neq. intros E. apply Hk. left. lia.
Qed.
Lemma loop_intro : forall order l l', NoDup order -> length l' = length l ->
  (forall i, In i order -> exists x y, zget l i = Ok x /\ turn i x = Ok y /\ zget l' i = Ok y) ->
  (forall k, ~ In (Z.of_nat k) order -> nth_error l' k = nth_error l k) ->
  fold_res step order l = Ok l'.
Proof.
  induction order as [|i order IH]; intros l l' ND L P Q; cbn [fold_res].
  - f_equal. apply nth_error_combine_ext. intros n. symmetry. apply Q. intros [].
  - inversion ND as [|? ? NI ND']; subst. destruct (P i (or_introl eq_refl)) as (x & y & A1 & A2 & A3).
    rewrite A1. cbn [bind]. rewrite A2. cbn [bind]. pose proof (zget_inv _ _ _ A1) as [Hi _]. rewrite zset_ok by exact Hi. cbn [bind].
    apply IH; [exact ND'|rewrite lset_length; exact L| |].
    + intros j Ij. destruct (P j (or_intror Ij)) as (x' & y' & B1 & B2 & B3). exists x', y'. split; [|auto].
      rewrite <- B1. unfold zget. destruct (Z.ltb_spec j 0); [reflexivity|]. rewrite lset_nth_neq; [reflexivity|].
      intros E. assert (i = j) by lia. subst. contradiction.
    + intros k Hk. destruct (Z.eq_dec i (Z.of_nat k)) as [E|E].
      * subst i. apply zget_inv in A3. destruct A3 as [_ A3]. rewrite Nat2Z.id in *. rewrite A3, lset_nth_eq by lia. reflexivity.
      * rewrite lset_nth_neq by lia. apply Q. intros [I|I]; [lia|contradiction].
Qed.
End Loop.

Lemma fair_nodup sched n : fair sched -> NoDup (sched n).
Proof. intros F. apply (Permutation_NoDup (l := zseq 0 n)); [symmetry; apply F|apply zseq_nodup]. Qed.
Lemma fair_in sched n i : fair sched -> In i (sched n) <-> 0 <= i < Z.of_nat n.
Proof.
  intros F. split; intros H.
  - apply (Permutation_in _ (F n)) in H. apply zseq_In in H. lia.
  - apply (Permutation_in _ (Permutation_sym (F n))). apply zseq_In. lia.
Qed.
(* a loop over all elements does the turn of each one *)
Lemma par_iff {A} sched (turn : Z -> A -> res A) l l' : fair sched ->
  par_loop sched (length l) turn l = Ok l' <->
  length l' = length l /\ forall k x, nth_error l k = Some x -> exists y, turn (Z.of_nat k) x = Ok y /\ nth_error l' k = Some y.
Proof.
  intros F. pose proof (fair_nodup sched (length l) F) as ND. split.
  - intros H. destruct (loop_inv turn _ _ _ ND H) as (L & P & Q). split; [exact L|]. intros k x Hk.
    assert (K : (k < length l)%nat) by (apply nth_error_Some; congruence).
    destruct (P (Z.of_nat k)) as (x' & y & A1 & A2 & A3); [apply fair_in; [exact F|lia]|].
    rewrite (zget_nth _ _ _ Hk) in A1. apply Ok_inj in A1. subst x'. apply zget_inv in A3. rewrite Nat2Z.id in A3. exists y. tauto.
  - intros (L & P). apply loop_intro; [exact ND|exact L| |].
    + intros i Hi. apply fair_in in Hi; [|exact F]. destruct (zget_ok l i) as (x & A1 & A2); [lia|].
      destruct (P _ _ A2) as (y & B1 & B2). rewrite Z2Nat.id in B1 by lia. exists x, y. split; [exact A1|]. split; [exact B1|].
      rewrite <- (Z2Nat.id i) by lia. apply zget_nth. exact B2.
    + intros k Hk. rewrite fair_in in Hk by exact F. rewrite (proj2 (nth_error_None l k)) by lia. apply nth_error_None. lia.
Qed.
Lemma par_order {A} s1 s2 (turn : Z -> A -> res A) l l' : fair s1 -> fair s2 ->
  par_loop s1 (length l) turn l = Ok l' -> par_loop s2 (length l) turn l = Ok l'.
Proof. intros F1 F2 H. apply par_iff; [exact F2|]. apply par_iff in H; [exact H|exact F1]. Qed.

Lemma map_res_zseq {A} (f : Z -> res A) n out : map_res f (zseq 0 n) = Ok out ->
  length out = n /\ forall k, (k < n)%nat -> exists y, nth_error out k = Some y /\ f (Z.of_nat k) = Ok y.
Proof.
  intros H. apply map_res_nth in H. destruct H as [L P]. rewrite zseq_length in L. split; [exact L|]. intros k Hk.
  destruct (P k (0 + Z.of_nat k)) as (y & A1 & A2); [apply zseq_nth; exact Hk|]. eauto.
Qed.
Lemma map_res_zseq_intro {A} (f : Z -> res A) n out : length out = n ->
  (forall k y, nth_error out k = Some y -> f (Z.of_nat k) = Ok y) -> map_res f (zseq 0 n) = Ok out.
Proof.
  intros L P. apply map_res_pointwise; [rewrite zseq_length; lia|]. intros k x y Hx Hy.
  assert (K : (k < n)%nat) by (rewrite <- L; apply nth_error_Some; congruence).
  rewrite zseq_nth in Hx by exact K. injection Hx as <-. apply P. exact Hy.
Qed.

Section Programs.
Context {T : Type} {NT : Num T}.
Variable sched : nat -> list Z.
Variable solve : list (list T) -> list T -> list T.
Hypothesis F : fair sched.

(* ---- sampling ---- *)
Lemma zip_length {A B C} (f : A -> B -> C) : forall a b, length (zip_with f a b) = Nat.min (length a) (length b).
Proof. induction a as [|x a IH]; intros [|y b]; cbn; auto. Qed.
Lemma tr_add_sampling (a b c : ftrace T) : tr_add a b = Ok c -> same_sampling a c.
Proof.
  unfold tr_add, tr_match. destruct (tr_N a =? tr_N b) eqn:E; cbn [andb]; [|discriminate]. apply Z.eqb_eq in E. unfold tr_N in E.
  destruct (_ && _); [|discriminate]. intros H. apply Ok_inj in H. subst c. unfold same_sampling. cbn [tr_f tr_t0 tr_dt].
  rewrite zip_length. repeat split. lia.
Qed.
Lemma sampling_refl (a : ftrace T) : same_sampling a a.
Proof. repeat split. Qed.
Lemma sampling_trans (a b c : ftrace T) : same_sampling a b -> same_sampling b c -> same_sampling a c.
Proof. unfold same_sampling. intuition congruence. Qed.
Lemma prop_term_sampling (target tr acc out : ftrace T) delay w dA : prop_term target tr delay w dA acc = Ok out -> same_sampling acc out.
Proof.
  unfold prop_term. destruct (tr_retard tr delay target) as [comp|[]| |]; try discriminate.
  - destruct (tr_add acc _) as [r|[]| |] eqn:E; try discriminate; intros H; apply Ok_inj in H; subst.
    + eapply tr_add_sampling; eassumption.
    + apply sampling_refl.
  - intros H. apply Ok_inj in H. subst. apply sampling_refl.
Qed.
Lemma prop_source_sampling (target acc out : ftrace T) pos c : prop_source target pos acc c = Ok out -> same_sampling acc out.
Proof.
  unfold prop_source. intros H. bget H as a Ha. bget H as b Hb. apply prop_term_sampling in Ha, Hb, H.
  eapply sampling_trans; [exact Ha|]. eapply sampling_trans; eassumption.
Qed.
Lemma prop_cell_sampling srcs pos (tr out : ftrace T) : prop_cell srcs pos tr = Ok out -> same_sampling tr out.
Proof.
  unfold prop_cell. intros H.
  assert (Z0 : same_sampling tr (tr_zero tr)) by (unfold same_sampling, tr_zero; cbn; rewrite map_length; auto).
  assert (Q : forall l acc out, fold_res (prop_source (tr_zero tr) pos) l acc = Ok out -> same_sampling acc out).
  { induction l as [|c l IH]; intros acc o E; cbn [fold_res] in E; [apply Ok_inj in E; subst; apply sampling_refl|].
    destruct (prop_source _ _ _ _) as [a| | |] eqn:Ea; try discriminate E. cbn [bind] in E. eapply sampling_trans; [eapply prop_source_sampling; exact Ea|]. apply IH. exact E. }
  eapply sampling_trans; [exact Z0|]. eapply Q; eassumption.
Qed.

(* ---- the source ---- *)
Lemma source_iff (s : mesh T) g srcs : length (msA s) = length (msX s) -> length g = length (msX s) ->
  source_cells sched solve s g = Ok srcs <-> cells_of solve s g srcs.
Proof.
  intros LA LG. split.
  - unfold source_cells. intros H. bget H as dts Hd. bget H as dns Hn. rewrite <- LA in Hn. apply par_iff in Hn; [|exact F].
    destruct Hn as [Ln Pn]. apply map_res_zseq in Hd, H. destruct Hd as [Ld Pd], H as [Ls Ps].
    split; [exact Ls|]. intros i c Hc. assert (I : (i < length (msX s))%nat) by (rewrite <- Ls; apply nth_error_Some; congruence).
    destruct (Ps i I) as (c' & Hc' & E). rewrite Hc in Hc'. injection Hc' as <-.
    bget E as p Hp. bget E as e He. bget E as a Ha. bget E as at_ Hat. bget E as an Han. apply Ok_inj in E. subst c.
    apply zget_inv in Hp, He, Ha, Hat, Han. rewrite Nat2Z.id in *.
    unfold cell_of. cbn [srcX srcArea srcN srcA srcAt srcAn]. split; [tauto|]. split; [exists e; tauto|]. split; [tauto|].
    destruct (Pd i I) as (d & D1 & D2). bget D2 as tr Htr. apply zget_inv in Htr. rewrite Nat2Z.id in Htr.
    assert (tr = a) by (destruct Htr, Ha; congruence). assert (d = at_) by (destruct Hat; congruence). subst tr d. split; [exact D2|].
    destruct (Pn i a (proj2 Ha)) as (y & Y1 & Y2). bget Y1 as d Hd2. apply zget_inv in Hd2. rewrite Nat2Z.id in Hd2.
    assert (d = at_) by (destruct Hd2; congruence). assert (y = an) by (destruct Han; congruence). subst. exact Y1.
  - intros (LS & H). unfold source_cells.
    assert (CA : forall i c, nth_error srcs i = Some c -> (i < length (msX s))%nat) by (intros i c Hc; rewrite <- LS; apply nth_error_Some; congruence).
    rewrite (map_res_zseq_intro _ _ (map srcAt srcs)).
    + cbn [bind]. rewrite <- LA at 1. rewrite (proj2 (par_iff sched _ (msA s) (map srcAn srcs) F)).
      * cbn [bind]. apply map_res_zseq_intro; [exact LS|]. intros k c Hc. destruct (H k c Hc) as (H1 & (e & H2 & H3 & H4) & H5 & H6 & H7).
        rewrite (zget_nth _ _ _ H1), (zget_nth _ _ _ H2), (zget_nth _ _ _ H5). cbn [bind].
        rewrite (zget_nth _ _ (srcAt c)), (zget_nth _ _ (srcAn c)) by (rewrite nth_error_map, Hc; reflexivity). cbn [bind].
        rewrite H3, H4. destruct c. reflexivity.
      * split; [rewrite map_length; lia|]. intros k x Hx. assert (K : (k < length srcs)%nat) by (rewrite LS, <- LA; apply nth_error_Some; congruence).
        destruct (nth_error srcs k) as [c|] eqn:Hc; [|apply nth_error_None in Hc; lia].
        destruct (H k c Hc) as (H1 & _ & H5 & H6 & H7). exists (srcAn c). rewrite nth_error_map, Hc. split; [|reflexivity].
        rewrite (zget_nth _ _ (srcAt c)) by (rewrite nth_error_map, Hc; reflexivity). cbn [bind]. exact H7.
    + rewrite map_length. exact LS.
    + intros k y Hy. rewrite nth_error_map in Hy. destruct (nth_error srcs k) as [c|] eqn:Hc; [|discriminate]. injection Hy as <-.
      destruct (H k c Hc) as (H1 & _ & H5 & H6 & H7). rewrite (zget_nth _ _ _ H5). cbn [bind]. exact H6.
Qed.

(* ---- the target ---- *)
Lemma assign_same (a b : ftrace T) : same_sampling a b -> tr_assign a b = Ok b.
Proof. intros (H & _). unfold tr_assign, tr_N. rewrite H, Z.eqb_refl. destruct b. reflexivity. Qed.
Lemma target_iff srcs (s s' : mesh T) : length (msA s) = length (msX s) ->
  target_fields sched srcs s = Ok s' <->
  same_mesh s s' /\ forall k tr pos, nth_error (msA s) k = Some tr -> nth_error (msX s) k = Some pos ->
    exists out, prop_cell srcs pos tr = Ok out /\ nth_error (msA s') k = Some out.
Proof.
  intros LA. split.
  - unfold target_fields. intros H. bget H as A HA. apply Ok_inj in H. subst s'. rewrite <- LA in HA. apply par_iff in HA; [|exact F].
    destruct HA as [L P].
    assert (Q : forall k tr, nth_error (msA s) k = Some tr -> exists pos out, nth_error (msX s) k = Some pos /\ prop_cell srcs pos tr = Ok out /\ nth_error A k = Some out).
    { intros k tr Hk. destruct (P k tr Hk) as (y & Y & HY). bget Y as pos Hp. bget Y as out Ho. apply zget_inv in Hp. rewrite Nat2Z.id in Hp.
      rewrite (assign_same _ _ (prop_cell_sampling _ _ _ _ Ho)) in Y. apply Ok_inj in Y. subst y. exists pos, out. tauto. }
    split.
    + unfold same_mesh, mesh_with. cbn [msPts msTri msX msNt msA]. repeat (split; [reflexivity|]).
      clear P LA. revert A L Q. generalize (msX s). induction (msA s) as [|tr l IH]; intros xs [|a A] L Q; try discriminate; [constructor|].
      destruct (Q 0%nat tr eq_refl) as (pos & out & Q1 & Q2 & Q3). cbn in Q3. injection Q3 as ->. constructor; [eapply prop_cell_sampling; exact Q2|].
      destruct xs as [|x xs]; [discriminate|]. apply (IH xs); [cbn in L; lia|]. intros k tr' Hk. apply (Q (S k) tr' Hk).
    + intros k tr pos Hk Hp. destruct (Q k tr Hk) as (pos' & out & Q1 & Q2 & Q3). rewrite Hp in Q1. injection Q1 as <-. exists out. auto.
  - intros ((M1 & M2 & M3 & M4 & M5) & P). unfold target_fields. rewrite <- LA.
    rewrite (proj2 (par_iff sched _ (msA s) (msA s') F)).
    + cbn [bind]. f_equal. destruct s, s'. unfold mesh_with. cbn in *. congruence.
    + split; [symmetry; eapply Forall2_length; exact M5|]. intros k tr Hk.
      assert (K : (k < length (msX s))%nat) by (rewrite <- LA; apply nth_error_Some; congruence).
      destruct (nth_error (msX s) k) as [pos|] eqn:Hp; [|apply nth_error_None in Hp; lia].
      destruct (P k tr pos Hk Hp) as (out & O1 & O2). exists out. split; [|exact O2]. rewrite (zget_nth _ _ _ Hp). cbn [bind]. rewrite O1. cbn [bind].
      apply assign_same. eapply prop_cell_sampling; exact O1.
Qed.
End Programs.
