(* Proof that a document in which everything has a value does not use the default 0 (C93). *)
From Coq Require Import ZArith String List Bool Lia.
From Verif Require Import Base BaseFacts Num VecModel ParticleModel TraceModel BunchModel DriverModel LoggerModel
  ElementModel FelModel ObserverModel ParserModel ParserSpec ParserSpec2 ShippedSpec ShippedProofs.
Import ListNotations.
Local Open Scope string_scope.
Local Open Scope list_scope.

Section Ext.
Context {T : Type} {NT : Num T} {TT : Trans T} {WT : World T}.
Variables C1 C2 : Calc T.
Hypothesis EX : extends C1 C2.
Notation after1 := (@after T C1).
Notation after2 := (@after T C2).

Definition defs_ok (e : cenv T) (l : list node) : Prop := Forall (fun d => snd d <> None) (@seq_values T C1 e (filter is_def l)).
Definition dp (p : cenv T * string) : Prop := @cEval T C1 (fst p) (snd p) <> None.

Lemma def_same (e : cenv T) n : @def_value T C1 e n <> None -> @def_value T C2 e n = @def_value T C1 e n.
Proof.
  destruct EX as (E & N & _). unfold def_value. rewrite <- N. destruct (@cEval T C1 e (attr_text n "eq")) as [x|] eqn:V; [|congruence].
  rewrite (E _ _ _ V). reflexivity.
Qed.
Lemma seq_env_same l : forall e, Forall (fun d => snd d <> None) (@seq_values T C1 e l) -> @seq_env T C2 e l = @seq_env T C1 e l.
Proof.
  induction l as [|n r IH]; intros e H; [reflexivity|]. cbn [seq_values seq_env] in *. inversion H as [|d l D R]; subst. cbn [snd] in D.
  rewrite (def_same e n D). apply IH, R.
Qed.
Lemma after_same e l : defs_ok e l -> after2 e l = after1 e l.
Proof. intros H. apply seq_env_same, H. Qed.
Lemma defs_app e a b : defs_ok e (a ++ b) -> defs_ok e a /\ defs_ok (after1 e a) b.
Proof.
  unfold defs_ok, after. rewrite filter_app. generalize (filter is_def a) (filter is_def b). intros x y. revert e.
  induction x as [|n r IH]; intros e H; [split; [constructor|exact H]|]. cbn [seq_values List.app seq_env] in *.
  inversion H as [|d l D R]; subst. destruct (IH _ R). split; [constructor; assumption|assumption].
Qed.

Lemma text_same e t : dp (e, t) -> @text_value T NT C2 e t = @text_value T NT C1 e t.
Proof.
  destruct EX as (E & _). unfold dp, text_value. cbn [fst snd]. destruct (@cEval T C1 e t) as [x|] eqn:V; [|congruence].
  intros _. rewrite (E _ _ _ V). reflexivity.
Qed.
Lemma num_same e n k : dp (e, attr_text n k) -> @num_attr T NT C2 e n k = @num_attr T NT C1 e n k.
Proof. exact (text_same e (attr_text n k)). Qed.
Lemma opt_same e n k ks : In k ks -> Forall dp (texts_opt e n ks) -> @opt_attr T NT C2 e n k = @opt_attr T NT C1 e n k.
Proof.
  intros I H. unfold opt_attr. destruct (attr n k) as [t|] eqn:A; [|reflexivity]. apply text_same.
  rewrite Forall_forall in H. apply H. unfold texts_opt. apply in_flat_map. exists k. split; [exact I|]. rewrite A. left. reflexivity.
Qed.
Lemma attr_same e n k ks : In k ks -> Forall dp (texts e n ks) -> @num_attr T NT C2 e n k = @num_attr T NT C1 e n k.
Proof.
  intros I H. apply num_same. rewrite Forall_forall in H. apply H. unfold texts. apply in_map_iff. exists k. split; [reflexivity|exact I].
Qed.
Lemma vec_same e n : Forall dp (texts e n xyz) -> @vec_attr T NT C2 e n = @vec_attr T NT C1 e n.
Proof. intros H. unfold vec_attr. rewrite !(attr_same e n) with (ks := xyz) by (cbn; auto). reflexivity. Qed.
Lemma int_same n k d : @int_attr T C2 n k d = @int_attr T C1 n k d.
Proof. destruct EX as (_ & _ & I). unfold int_attr. destruct (attr n k); [symmetry; apply I|reflexivity]. Qed.
Lemma cint_same t : @cInt T C2 t = @cInt T C1 t.
Proof. destruct EX as (_ & _ & I). symmetry; apply I. Qed.
Lemma int_text_same e t z : dp (e, t) -> @int_text T NT C1 e t z -> @int_text T NT C2 e t z.
Proof.
  destruct EX as (E & _). unfold dp, int_text. cbn [fst snd]. destruct (@cEval T C1 e t) as [x|] eqn:V; [|congruence].
  intros _. rewrite (E _ _ _ V). exact (fun H => H).
Qed.
Lemma int_part_same e t z : dp (e, t) -> @int_part T NT C1 e t z -> @int_part T NT C2 e t z.
Proof. intros D. unfold int_part. rewrite (text_same e t D). exact (fun H => H). Qed.

(* splitting the lists of texts *)
Lemma kid_some n k f c : child n k = Some c -> Forall dp (in_kid n k f) -> Forall dp (f c).
Proof. intros E. unfold in_kid. rewrite E. exact (fun H => H). Qed.
Ltac fsplit := repeat match goal with H : Forall dp (_ ++ _) |- _ => apply Forall_app in H; destruct H
  | H : Forall dp (flat_map _ (_ :: _)) |- _ => cbn [flat_map] in H
  | E : child ?n ?k = Some ?c, H : Forall dp (in_kid ?n ?k _) |- _ => apply (kid_some _ _ _ _ E) in H; cbv beta in H end.
Ltac inin := cbn; tauto.
(* goal: f2 ... = f1 ... in a described constructor *)
Ltac same := repeat first
  [ rewrite vec_same by assumption
  | match goal with H : Forall dp (texts ?e ?n ?ks) |- context [@num_attr T NT C2 ?e ?n ?k] => rewrite (attr_same e n k ks) by (try exact H; inin) end
  | match goal with H : Forall dp (texts_opt ?e ?n ?ks) |- context [@opt_attr T NT C2 ?e ?n ?k] => rewrite (opt_same e n k ks) by (try exact H; inin) end
  | rewrite int_same | rewrite cint_same ].

Lemma xyz_t e n ks : Forall dp (texts e n (xyz ++ ks)) -> Forall dp (texts e n xyz) /\ Forall dp (texts e n ks).
Proof. unfold texts. rewrite map_app. apply Forall_app. Qed.
Ltac named := repeat match goal with N : nName ?n = ?s, H : Forall dp _ |- _ => progress (unfold is, typ in H; rewrite ?N in H; cbn [String.eqb Ascii.eqb Bool.eqb] in H) 
  | N : attr_text ?n "type" = ?s, H : Forall dp _ |- _ => progress (rewrite ?N in H; cbn [String.eqb Ascii.eqb Bool.eqb] in H) end.

(* replace the values of the first calculator by those of the second *)
Ltac back := repeat match goal with
  | H : Forall dp (texts ?e ?n xyz) |- context [@vec_attr T NT C1 ?e ?n] => rewrite <- (vec_same e n H)
  | H : Forall dp (texts ?e ?n ?ks) |- context [@num_attr T NT C1 ?e ?n ?k] => rewrite <- (attr_same e n k ks) by (first [exact H|inin])
  | H : Forall dp (texts_opt ?e ?n ?ks) |- context [@opt_attr T NT C1 ?e ?n ?k] => rewrite <- (opt_same e n k ks) by (first [exact H|inin])
  | |- context [@int_attr T C1 ?n ?k ?d] => rewrite <- (int_same n k d)
  | |- context [@cInt T C1 ?t] => rewrite <- (cint_same t)
  end.

Lemma element_same e n el : Forall dp (element_texts e n) -> @element_described T NT C1 WT e n el -> @element_described T NT C2 WT e n el.
Proof.
  intros H D. unfold element_texts in H. destruct D; named; fsplit; back.
  - apply D_planar; assumption.
  - apply D_tgu; assumption.
  - apply D_wave; assumption.
  - apply D_packet; assumption.
  - apply xyz_t in H. destruct H. eapply D_screen; try eassumption.
    rewrite vec_same by assumption. rewrite (attr_same e p "t" ["t"]) by (try assumption; inin). assumption.
  - apply D_hard; assumption.
  - apply D_soft; assumption.
  - eapply D_background; [assumption| |]; subst.
    + destruct (child n "E") eqn:Q; [|reflexivity]. fsplit. symmetry; apply vec_same; assumption.
    + destruct (child n "B") eqn:Q; [|reflexivity]. fsplit. symmetry; apply vec_same; assumption.
Qed.
Lemma lattice_same l : forall e els, defs_ok e (flat_map visit_lattice l) ->
  Forall dp (@section_texts T C1 visit_lattice (fun e n => element_texts (after1 e (visit_lattice n)) n) e l) ->
  @lattice_described T NT C1 WT e l els -> @lattice_described T NT C2 WT e l els.
Proof.
  induction l as [|n r IH]; intros e els Hd Ht D; inversion D; subst; cbn [flat_map section_texts] in *.
  - constructor.
  - apply defs_app in Hd. destruct Hd as [Hd1 Hd2]. apply Forall_app in Ht. destruct Ht as [_ Ht].
    assert (Ev : visit_lattice n = [n]) by (unfold visit_lattice, is_calc; match goal with K : nName n = _ |- _ => rewrite K end; reflexivity).
    rewrite Ev in *. eapply DL_calc; [assumption|]. rewrite after_same by exact Hd1. apply IH; assumption.
  - apply defs_app in Hd. destruct Hd as [Hd1 Hd2]. apply Forall_app in Ht. destruct Ht as [Ht1 Ht2].
    assert (Ec : is n "calc" = false) by (apply String.eqb_neq; assumption). rewrite Ec in Ht1.
    eapply DL_element; [assumption| |]; rewrite after_same by exact Hd1; [apply element_same; assumption|apply IH; assumption].
Qed.

(* ---- beam ---- *)
Lemma log_same e n ib b lo : (b = true -> Forall dp (log_texts e n)) -> @log_described T NT C1 e n ib b lo -> @log_described T NT C2 e n ib b lo.
Proof.
  intros H D. destruct D as [E|l fn E A]; [apply DG_none; exact E|]. rewrite <- int_same.
  replace (if b then @freq_attr T NT C1 e l else None) with (if b then @freq_attr T NT C2 e l else None); [apply DG_some; assumption|].
  destruct b; [|reflexivity]. specialize (H eq_refl). unfold log_texts in H. fsplit. unfold freq_attr.
  destruct (attr l "bunching-freq") eqn:F; [|reflexivity]. f_equal. apply text_same.
  unfold texts_opt in H. cbn [flat_map] in H. rewrite F in H. cbn [List.app] in H. inversion H; assumption.
Qed.
Lemma traj_same n ib bu lo : @traj_described T C1 n ib bu lo -> @traj_described T C2 n ib bu lo.
Proof. intros D. destruct D as [E|t fn E A]; [apply DT_none; exact E|]. rewrite <- !int_same. apply DT_some; assumption. Qed.
Lemma cor_same e n cs : Forall dp (cor_texts e n) -> @correlations_described T NT C1 e n cs -> @correlations_described T NT C2 e n cs.
Proof.
  intros H D. destruct D as [E|c l E F]; [apply DC_none; exact E|]. eapply DC_some; [exact E|].
  unfold cor_texts in H. fsplit. clear E. induction F as [|m k ms ks M _ IH]; [constructor|]. cbn [flat_map] in H. fsplit.
  constructor; [|apply IH; assumption]. destruct M as (Hn & i & d & f & I & Dd & Fa & Pi & Pd & Pf). split; [exact Hn|].
  match goal with K : Forall dp (texts _ m _) |- _ => unfold texts in K; cbn [map] in K; unfold attr_text in K; rewrite I, Dd, Fa in K;
    inversion K as [|? ? K1 K']; subst; inversion K' as [|? ? K2 K'']; subst; inversion K'' as [|? ? K3 K''']; subst end.
  exists i, d, f. refine (conj I (conj Dd (conj Fa (conj _ (conj _ _))))); [apply int_part_same; assumption|apply int_part_same; assumption|].
  rewrite text_same by assumption. exact Pf.
Qed.
Lemma defs_prefix e a b : defs_ok e (a ++ b) -> defs_ok e a.
Proof. intros H. apply (defs_app e a b H). Qed.
Lemma bunch_same i ib e n bu lo : defs_ok e (visit_beam n) -> Forall dp (@bunch_texts T C1 e n) ->
  @bunch_described T NT C1 WT i ib e n bu lo -> @bunch_described T NT C2 WT i ib e n bu lo.
Proof.
  intros Hd H D. unfold bunch_texts in H. destruct D.
  - assert (Ev : visit_beam n = calcs_of n) by (unfold visit_beam, is_calc; match goal with K : nName n = _ |- _ => rewrite K end; reflexivity).
    rewrite Ev in Hd. named. cbv zeta in H. match goal with K : e1 = _ |- _ => rewrite <- K in H end. fsplit.
    match goal with St : starts _ _ _ _ _ _ |- _ => subst gamma; revert St end. back. intros St.
    eapply DB_particle with (e1 := e1) (t0 := t0) (q := q).
    + assumption.
    + rewrite after_same by assumption. assumption.
    + eassumption.
    + eassumption.
    + match goal with K : t0 = _ |- _ => rewrite K end. destruct (child n "time") eqn:Q; [|reflexivity]. fsplit. symmetry. eapply attr_same; [|eassumption]. inin.
    + match goal with K : q = _ |- _ => rewrite K end. back. reflexivity.
    + exact St.
    + apply log_same; [discriminate|]. assumption.
  - assert (Ev : visit_beam n = calcs_of n ++ calcs_opt (child n "time") ++ calcs_opt (child n "position") ++ calcs_opt (child n "momentum") ++
        calcs_opt (child n "correlations")) by (unfold visit_beam, is_calc; match goal with K : nName n = _ |- _ => rewrite K end; reflexivity).
    rewrite Ev in Hd. named. cbv zeta in H.
    match goal with P : child n "position" = Some pn, M : child n "momentum" = Some mn |- _ => rewrite ?P, ?M in H; rewrite ?P, ?M in Hd end. cbn [calcs_opt] in H, Hd.
    rewrite app_assoc in Hd. apply defs_app in Hd. destruct Hd as [Hd1 Hd]. 
    match goal with K : et = _, P : ep = _, Q : em = _ |- _ => rewrite <- K in H, Hd; rewrite <- P in H; rewrite <- Q in H;
      apply defs_app in Hd; destruct Hd as [Hd2 Hd]; rewrite <- P in Hd; apply defs_app in Hd; destruct Hd as [Hd3 Hd] end.
    fsplit.
    assert (St : forall k p, nth_error bu k = Some p -> exists c, c = fold_left correlate_coord cors
          (drawn i bg (@opt_attr T NT C1 ep pn "xrms") (@opt_attr T NT C1 ep pn "yrms") (@opt_attr T NT C1 ep pn "zrms") (@opt_attr T NT C1 ep pn "zft")
             (@opt_attr T NT C1 em mn "xrms") (@opt_attr T NT C1 em mn "yrms") (@opt_attr T NT C1 em mn "delta") (Z.of_nat k)) /\
        starts p (ndiv q (nZ N)) (ndiv (ndiv q (@num_attr T NT C1 e n "cmr")) (nZ N)) (nadd t0 (nZ 0))
          (vadd (@vec_attr T NT C1 ep pn) (V (c 0%Z) (c 1%Z) (c 2%Z)))
          (vadd (vmul (vnormalize (@vec_attr T NT C1 em mn)) bg) (V (c 3%Z) (c 4%Z) (c 5%Z)))) by assumption.
    revert St. subst bg gamma. back. intros St.
    eapply DB_bunch with (et := et) (ep := ep) (em := em) (t0 := t0) (q := q) (N := N) (cors := cors).
    + assumption.
    + rewrite after_same by assumption. assumption.
    + eassumption.
    + rewrite after_same by assumption. assumption.
    + eassumption.
    + rewrite after_same by assumption. assumption.
    + match goal with K : t0 = _ |- _ => rewrite K end. destruct (child n "time") eqn:Q; [|reflexivity]. fsplit. symmetry. eapply attr_same; [|eassumption]. inin.
    + match goal with K : q = _ |- _ => rewrite K end. back. reflexivity.
    + rewrite int_same. assumption.
    + assumption.
    + apply cor_same; assumption.
    + assumption.
    + exact St.
    + apply log_same; [intros _; assumption|]. assumption.
    + apply traj_same. assumption.
  - assert (Ev : visit_beam n = calcs_opt (child n "dir") ++ calcs_opt (child n "correlations")) by (unfold visit_beam, is_calc; match goal with K : nName n = _ |- _ => rewrite K end; reflexivity).
    rewrite Ev in Hd. apply defs_app in Hd. destruct Hd as [Hd1 Hd2]. named. cbv zeta in H.
    match goal with K : e1 = _ |- _ => rewrite <- K in H end. fsplit.
    eapply DB_sdds with (e1 := e1) (dir := dir) (b0 := b0) (cors := cors); try eassumption.
    + rewrite after_same by assumption. assumption.
    + match goal with K : dir = _ |- _ => rewrite K end. destruct (child n "dir") eqn:Q; [|reflexivity]. fsplit. f_equal. symmetry. apply vec_same; assumption.
    + apply cor_same; assumption.
    + apply log_same; [intros _; assumption|]. assumption.
Qed.
Lemma beam_same l : forall i ib e bs ls pr, defs_ok e (flat_map visit_beam l) ->
  Forall dp (@section_texts T C1 visit_beam (@bunch_texts T C1) e l) ->
  @beam_described T NT C1 WT i ib e l bs ls pr -> @beam_described T NT C2 WT i ib e l bs ls pr.
Proof.
  induction l as [|n r IH]; intros i ib e bs ls pr Hd Ht D; inversion D; subst; cbn [flat_map section_texts] in *;
    try (apply defs_app in Hd; destruct Hd as [Hd1 Hd2]; apply Forall_app in Ht; destruct Ht as [Ht1 Ht2]).
  - constructor.
  - assert (Ev : visit_beam n = [n]) by (unfold visit_beam, is_calc; match goal with K : nName n = _ |- _ => rewrite K end; reflexivity).
    rewrite Ev in *. eapply DN_calc; [assumption|]. rewrite after_same by exact Hd1. apply IH; assumption.
  - assert (Ec : is n "calc" = false). { apply String.eqb_neq. match goal with K : bunch_described _ _ _ _ _ _ |- _ => destruct K; congruence end. }
    rewrite Ec in Ht1. eapply DN_bunch; [apply bunch_same; eassumption|]. rewrite after_same by exact Hd1. apply IH; assumption.
  - assert (Ev : visit_beam n = []) by (unfold visit_beam, is_calc; match goal with K : nName n = _ |- _ => rewrite K end; reflexivity).
    rewrite Ev in *. rewrite <- !int_same. eapply DN_probe; [assumption|assumption|]. apply IH; assumption.
Qed.

(* ---- tracking ---- *)
Lemma seed_same e n : Forall dp (in_kid n "seed" (fun c => texts e c ["E0"; "lambda"; "tau"; "tstart"])) -> @seed_attr T NT C2 e n = @seed_attr T NT C1 e n.
Proof. intros H. unfold seed_attr. destruct (child n "seed") eqn:Q; [|reflexivity]. fsplit. back. reflexivity. Qed.
Lemma fel_same ts e n f : Forall dp (track_texts ts e n) -> @fel_described T NT TT C1 ts e n f -> @fel_described T NT TT C2 ts e n f.
Proof.
  intros H D. destruct D. unfold track_texts in H. named. pose proof (Forall_inv H) as Hts. apply Forall_inv_tail in H. fsplit.
  eapply DF with (N := N); try eassumption.
  - apply int_text_same; [|eassumption]. match goal with K : Forall dp (texts e n ["N"]) , A : attr n "N" = Some _ |- _ =>
      unfold texts, attr_text in K; cbn [map] in K; rewrite A in K; inversion K; assumption end.
  - match goal with K : match child n "log" with _ => _ end |- _ => destruct (child n "log"); [rewrite int_same|]; exact K end.
  - match goal with K : fel_new _ _ _ _ _ _ _ _ _ _ = Ok f |- _ => revert K end. rewrite seed_same by assumption. rewrite text_same by assumption.
    back. exact (fun K => K).
Qed.
Lemma tracking_same ts l : forall e ws fs, defs_ok e (flat_map visit_tracking l) ->
  Forall dp (@section_texts T C1 visit_tracking (fun e n => track_texts ts (after1 e (visit_tracking n)) n) e l) ->
  @tracking_described T NT TT C1 ts e l ws fs -> @tracking_described T NT TT C2 ts e l ws fs.
Proof.
  induction l as [|n r IH]; intros e ws fs Hd Ht D; inversion D; subst; cbn [flat_map section_texts] in *;
    try (apply defs_app in Hd; destruct Hd as [Hd1 Hd2]; apply Forall_app in Ht; destruct Ht as [Ht1 Ht2]).
  - constructor.
  - assert (Ev : visit_tracking n = [n]) by (unfold visit_tracking, is_calc; match goal with K : nName n = _ |- _ => rewrite K end; reflexivity).
    rewrite Ev in *. eapply DK_calc; [assumption|]. rewrite after_same by exact Hd1. apply IH; assumption.
  - assert (Nn : nName n = "fel1d") by (match goal with K : fel_described _ _ _ _ |- _ => destruct K; assumption end).
    assert (Ev : visit_tracking n = calcs_of n) by (unfold visit_tracking, is_calc; rewrite Nn; reflexivity).
    unfold is in Ht1. rewrite Nn in Ht1. cbn [String.eqb Ascii.eqb Bool.eqb] in Ht1. rewrite Ev in *.
    eapply DK_fel; rewrite after_same by exact Hd1; [apply fel_same; assumption|apply IH; assumption].
  - assert (Ev : visit_tracking n = []) by (unfold visit_tracking, is_calc; match goal with K : nName n = _ |- _ => rewrite K end; reflexivity).
    rewrite Ev in *.
    unfold track_texts, is in Ht1. match goal with K : nName n = _ |- _ => rewrite K in Ht1 end. cbn [String.eqb Ascii.eqb Bool.eqb] in Ht1.
    eapply DK_watch; try eassumption; [|apply IH; assumption]. apply int_text_same; [|assumption].
    match goal with A : attr n "step" = Some _ |- _ => unfold texts, attr_text in Ht1; cbn [map] in Ht1; rewrite A in Ht1; inversion Ht1; assumption end.
  - assert (Ev : visit_tracking n = []) by (unfold visit_tracking, is_calc; match goal with K : nName n = _ |- _ => rewrite K end; reflexivity).
    rewrite Ev in *.
    unfold track_texts, is in Ht1. match goal with K : nName n = _ |- _ => rewrite K in Ht1 end. cbn [String.eqb Ascii.eqb Bool.eqb] in Ht1.
    eapply DK_sdds; try eassumption; [|apply IH; assumption]. apply int_text_same; [|assumption].
    match goal with A : attr n "step" = Some _ |- _ => unfold texts, attr_text in Ht1; cbn [map] in Ht1; rewrite A in Ht1; inversion Ht1; assumption end.
Qed.

(* ---- observers ---- *)
Lemma observer_same e n o : Forall dp (observer_texts e n) -> @observer_described T NT C1 WT e n o -> @observer_described T NT C2 WT e n o.
Proof.
  intros H D. unfold observer_texts in H. destruct D; named; fsplit; back.
  - eapply DO_snapshot; eassumption.
  - match goal with K : screen_new _ _ _ _ _ _ _ _ _ _ = Ok s |- _ => revert K end. back. intros K. eapply DO_screen; eassumption.
  - eapply DO_mesh; eassumption.
  - eapply DO_point; try eassumption. rewrite cint_same. assumption.
Qed.
Lemma observers_same l : forall e os, defs_ok e (flat_map visit_observer l) ->
  Forall dp (@section_texts T C1 visit_observer (fun e n => observer_texts (after1 e (calcs_of n)) n) e l) ->
  @observers_described T NT C1 WT e l os -> @observers_described T NT C2 WT e l os.
Proof.
  induction l as [|n r IH]; intros e os Hd Ht D; inversion D; subst; cbn [flat_map section_texts] in *;
    try (apply defs_app in Hd; destruct Hd as [Hd1 Hd2]; apply Forall_app in Ht; destruct Ht as [Ht1 Ht2]).
  - constructor.
  - assert (Ev : visit_observer n = [n]) by (unfold visit_observer, is_calc; match goal with K : nName n = _ |- _ => rewrite K end; reflexivity).
    rewrite Ev in *. eapply DV_calc; [assumption|]. rewrite after_same by exact Hd1. apply IH; assumption.
  - assert (Ec : is n "calc" = false). { apply String.eqb_neq. match goal with K : observer_described _ _ _ |- _ => destruct K; congruence end. }
    assert (Ev : visit_observer n = calcs_of n) by (unfold visit_observer, is_calc; unfold is in Ec; rewrite Ec; reflexivity).
    rewrite Ec in Ht1. rewrite Ev in *.
    eapply DV_observer; try eassumption; rewrite after_same by exact Hd1; [apply observer_same; assumption|apply IH; assumption].
Qed.

(* ---- the document ---- *)
Theorem input_same consts root pin : @all_defined T C1 consts root ->
  @input_described T NT TT C1 WT consts root pin -> @input_described T NT TT C2 WT consts root pin.
Proof.
  intros [Hd Hu] D. fold (defs_ok consts (visited root)) in Hd.
  assert (Ht : Forall dp (@number_texts T C1 consts root)).
  { unfold undefined_texts in Hu. apply map_eq_nil in Hu. apply Forall_forall. intros p I.
    unfold dp. intros E. assert (F : In p (filter (fun p => negb (has (@cEval T C1 (fst p) (snd p)))) (@number_texts T C1 consts root))).
    { apply filter_In. split; [exact I|]. rewrite E. reflexivity. }
    rewrite Hu in F. exact F. }
  clear Hu. destruct D. unfold number_texts in Ht. cbv zeta in Ht. unfold visited, section_of in Hd.
  repeat match goal with K : child root _ = Some _ |- _ => rewrite K in Ht, Hd; revert K end. intros. cbn [section_of] in Ht.
  apply defs_app in Hd. destruct Hd as [Hd0 Hd]. match goal with K : e0 = _ |- _ => rewrite <- K in Ht, Hd end.
  apply defs_app in Hd. destruct Hd as [Hd1 Hd]. match goal with K : e1 = _ |- _ => rewrite <- K in Ht, Hd end.
  apply defs_app in Hd. destruct Hd as [Hd2 Hd]. match goal with K : e2 = _ |- _ => rewrite <- K in Ht, Hd end.
  apply defs_app in Hd. destruct Hd as [Hd3 Hd]. match goal with K : e3 = _ |- _ => rewrite <- K in Ht, Hd end.
  fsplit.
  match goal with K : attr t "delta_t" = Some ts, H : Forall dp (texts e2 t _) |- _ =>
    unfold texts in H; cbn [map] in H; inversion H as [|? ? P1 H']; subst; inversion H' as [|? ? P2 ?]; subst;
    assert (At : attr_text t "delta_t" = ts) by (unfold attr_text; rewrite K; reflexivity) end.
  match goal with K : attr t "n" = Some tn |- _ => assert (An : attr_text t "n" = tn) by (unfold attr_text; rewrite K; reflexivity) end.
  rewrite At in *. rewrite An in *.
  eapply DI_; try eassumption; try reflexivity.
  - rewrite after_same by assumption. apply lattice_same; assumption.
  - rewrite (after_same consts) by assumption. rewrite after_same by assumption. apply beam_same; assumption.
  - rewrite (after_same consts) by assumption. rewrite (after_same _ (flat_map visit_lattice (nKids l))) by assumption.
    rewrite (after_same _ (flat_map visit_beam (nKids b))) by assumption. symmetry. apply text_same; assumption.
  - rewrite (after_same consts) by assumption. rewrite (after_same _ (flat_map visit_lattice (nKids l))) by assumption.
    rewrite (after_same _ (flat_map visit_beam (nKids b))) by assumption. apply int_text_same; assumption.
  - rewrite (after_same consts) by assumption. rewrite (after_same _ (flat_map visit_lattice (nKids l))) by assumption.
    rewrite (after_same _ (flat_map visit_beam (nKids b))) by assumption. apply tracking_same; assumption.
  - rewrite (after_same consts) by assumption. rewrite (after_same _ (flat_map visit_lattice (nKids l))) by assumption.
    rewrite (after_same _ (flat_map visit_beam (nKids b))) by assumption. rewrite (after_same _ (flat_map visit_tracking (nKids t))) by assumption.
    match goal with K : child root "observer" = Some o |- _ => rewrite K in Hd end.
    apply observers_same; [exact Hd|assumption|assumption].
Qed.
End Ext.
