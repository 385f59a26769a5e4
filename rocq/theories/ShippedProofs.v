(* Proofs about the documents which are accepted (C93). *)
From Coq Require Import ZArith String List Bool Lia.
From Verif Require Import Base BaseFacts Num VecModel ParticleModel TraceModel BunchModel DriverModel LoggerModel
  ElementModel FelModel FelProofs2 ObserverModel ObserverSpec ObserverProofs6 ParserModel ParserSpec ParserSpec2 ShippedSpec.
Import ListNotations.
Local Open Scope string_scope.
Local Open Scope list_scope.

Lemma is_eq n k : is n k = true -> nName n = k.
Proof. apply String.eqb_eq. Qed.
Lemma is_neq n k : is n k = false -> nName n <> k.
Proof. apply String.eqb_neq. Qed.
Lemma typ_eq n k : typ n k = true -> attr_text n "type" = k.
Proof. apply String.eqb_eq. Qed.
Lemma has_some {A} (o : option A) : has o = true -> exists a, o = Some a.
Proof. destruct o; [eauto|discriminate]. Qed.
Lemma must_some {A} (f : A -> bool) o : must f o = true -> exists a, o = Some a /\ f a = true.
Proof. destruct o; [eauto|discriminate]. Qed.
Lemma kids_cons n k l : kids_of n (k :: l) = true -> (exists c, child n k = Some c) /\ kids_of n l = true.
Proof. unfold kids_of. cbn [forallb]. intros H. apply andb_prop in H. destruct H as [A B]. split; [apply has_some; exact A|exact B]. Qed.
Ltac bools := repeat match goal with
  | H : (_ && _)%bool = true |- _ => apply andb_prop in H; destruct H
  | H : is _ _ = true |- _ => apply is_eq in H
  | H : typ _ _ = true |- _ => apply typ_eq in H
  | H : has _ = true |- _ => apply has_some in H; destruct H as [? H]
  | H : must _ _ = true |- _ => apply must_some in H; destruct H as (? & ? & ?)
  | H : kids_of _ (_ :: _) = true |- _ => apply kids_cons in H; destruct H as [[? ?] H]
  | H : kids_of _ [] = true |- _ => clear H
  | H : (_ <=? _)%Z = true |- _ => apply Z.leb_le in H
  | H : nat_int _ = true |- _ => unfold nat_int in H
  | H : String.eqb _ _ = true |- _ => apply String.eqb_eq in H
  end.
Ltac cases := repeat match goal with H : (_ || _)%bool = true |- _ => apply orb_prop in H; destruct H end.

Section Accept.
Context {T : Type} {NT : Num T} {TT : Trans T} {CT : Calc T} {WT : World T}.
Hypothesis RD : readable WT.

Lemma element_accept e n : ok_element n = true -> exists el, element_described e n el.
Proof.
  destruct RD as (_ & RS & _). unfold ok_element. intros H. cases; bools; cases; bools.
  - eexists; eapply D_planar; eassumption.
  - eexists; eapply D_tgu; eassumption.
  - eexists; eapply D_wave; eassumption.
  - eexists; eapply D_packet; eassumption.
  - destruct (RS x (vec_attr e x0) (num_attr e x0 "t")) as [el E]. eexists; eapply D_screen; eassumption.
  - eexists; eapply D_hard; eassumption.
  - eexists; eapply D_soft; eassumption.
  - eexists; eapply D_background; [assumption|reflexivity|reflexivity].
Qed.
Lemma lattice_accept l : forall e, ok_lattice l = true -> exists els, lattice_described e l els.
Proof.
  induction l as [|n r IH]; intros e H; [eexists; constructor|]. unfold ok_lattice in H. cbn [forallb] in H.
  apply andb_prop in H. destruct H as [A B].
  destruct (is n "calc") eqn:C.
  - destruct (IH (after e [n]) B) as [els L]. eexists; eapply DL_calc; [apply is_eq; exact C|exact L].
  - destruct (element_accept (after e (visit_lattice n)) n A) as [el E]. destruct (IH (after e (visit_lattice n)) B) as [els L].
    eexists; eapply DL_element; [apply is_neq; exact C|exact E|exact L].
Qed.

(* ---- beam ---- *)
Lemma log_accept e n ib b : ok_log n = true -> exists lo, log_described e n ib b lo.
Proof.
  unfold ok_log. destruct (child n "log") as [l|] eqn:E; cbn [opt_ok]; intros H.
  - bools. eexists; eapply DG_some; eassumption.
  - eexists; apply DG_none; assumption.
Qed.
Lemma traj_accept n ib bu : opt_ok (fun t => has (attr t "file")) (child n "trajectories") = true -> exists lo, traj_described n ib bu lo.
Proof.
  destruct (child n "trajectories") as [l|] eqn:E; cbn [opt_ok]; intros H.
  - bools. eexists; eapply DT_some; eassumption.
  - eexists; apply DT_none; assumption.
Qed.
Lemma trunc_part e t : int_ok (trunc_of e t) = true -> exists z, int_part e t z.
Proof.
  unfold int_ok, trunc_of, int_part. intros H. bools.
  exists x. split; [split; assumption|]. cbv zeta in *.
  destruct (nltb (text_value e t) (nZ 0)); [|assumption].
  destruct (nfloor (nopp (text_value e t))) as [z|]; [|discriminate].
  match goal with K : Some _ = Some _ |- _ => injection K as K; rewrite <- K, Z.opp_involutive; reflexivity end.
Qed.
Lemma linear_accept e m : ok_linear e m = true -> exists c, correlation_described e m c.
Proof.
  unfold ok_linear. intros H. bools.
  match goal with K : int_ok (trunc_of e ?t) = true, A : attr m "indep" = Some ?t |- _ => destruct (trunc_part e t K) as [zi Hi] end.
  match goal with K : int_ok (trunc_of e ?t) = true, A : attr m "dep" = Some ?t |- _ => destruct (trunc_part e t K) as [zd Hd] end.
  match goal with A : attr m "factor" = Some ?t |- _ => exists (zi, zd, text_value e t) end.
  split; [assumption|]. do 3 eexists. refine (conj _ (conj _ (conj _ (conj _ (conj _ _))))); try eassumption. reflexivity.
Qed.
Lemma linears_accept e l : forallb (ok_linear e) l = true -> exists cs, Forall2 (correlation_described e) l cs.
Proof.
  induction l as [|m r IH]; intros H; [eexists; constructor|]. cbn [forallb] in H. apply andb_prop in H. destruct H as [A B].
  destruct (linear_accept e m A) as [c C]. destruct (IH B) as [cs Cs]. eexists; constructor; eassumption.
Qed.
Lemma correlations_accept e n : ok_correlations e n = true -> exists cs, correlations_described e n cs.
Proof.
  unfold ok_correlations. destruct (child n "correlations") as [c|] eqn:E; cbn [opt_ok]; intros H.
  - destruct (linears_accept e _ H) as [cs C]. eexists; eapply DC_some; eassumption.
  - eexists; apply DC_none; assumption.
Qed.

Definition started (p : particle T) : Prop := exists t x m a p0, p = initTrajectory t x m a p0.
Lemma map_started (f : particle T -> res (particle T)) b : (forall p, started p -> exists q, f p = Ok q /\ started q) ->
  Forall started b -> exists b', map_res f b = Ok b' /\ Forall started b'.
Proof.
  intros F. induction 1 as [|p r P _ IH]; [eexists; split; [reflexivity|constructor]|].
  destruct (F p P) as (q & Q & S). destruct IH as (b' & B & Sb). cbn [map_res]. rewrite Q. cbn [bind]. rewrite B. cbn [bind].
  eexists; split; [reflexivity|]. constructor; assumption.
Qed.
Lemma correlate_accept i d f (b : bunch T) : Forall started b -> exists b', bunch_correlate i d f b = Ok b' /\ Forall started b'.
Proof.
  intros H. unfold bunch_correlate. destruct ((_ && _)%bool); [|eauto].
  assert (S : forall a0, exists s, fold_res (fun s p => bind (TrajPoint p 0) (fun x => bind (TrajMomentum p 0) (fun m => Ok (nadd s (coord6 i x m))))) b a0 = Ok s).
  { clear -H. induction H as [|p r P _ IH]; intros a0; [eexists; reflexivity|].
    destruct P as (t & x & m & a & p0 & ->). cbn [fold_res]. apply IH. }
  destruct (S (nZ 0)) as [s ->]. cbn [bind]. cbv zeta. apply map_started; [|exact H].
  intros p (t & x & m & a & p0 & ->).
  match goal with |- exists q, ?l = Ok q /\ _ =>
    change l with (let '(x', m') := put6 d (nadd (coord6 d x m) (nmul f (nsub (coord6 i x m) (ndiv s (nZ (Z.of_nat (length b))))))) x m in
                   Ok (initTrajectory t x' m' a (initTrajectory t x m a p0))) end.
  destruct (put6 d _ x m) as [x' m']. eexists; split; [reflexivity|]. do 5 eexists. reflexivity.
Qed.
Lemma correlates_accept cs : forall (b : bunch T), Forall started b ->
  exists b', fold_res (fun b r => bunch_correlate (fst (fst r)) (snd (fst r)) (snd r) b) cs b = Ok b'.
Proof.
  induction cs as [|c r IH]; intros b H; [eexists; reflexivity|]. cbn [fold_res].
  destruct (correlate_accept (fst (fst c)) (snd (fst c)) (snd c) b H) as (b' & -> & S). cbn [bind]. apply IH, S.
Qed.

Lemma after_app (e : cenv T) a b : after e (a ++ b) = after (after e a) b.
Proof.
  unfold after. rewrite filter_app. generalize (filter is_def a) as l. intros l. revert e.
  induction l as [|n r IH]; intros e; [reflexivity|]. cbn [List.app seq_env]. apply IH.
Qed.
Lemma bunch_accept i ib e n : ok_bunch e n = true -> exists bu lo, bunch_described i ib e n bu lo.
Proof.
  unfold ok_bunch. intros H. cases; bools.
  - destruct (log_accept (after e (calcs_of n)) n ib false) as [lo L]; [assumption|].
    do 2 eexists. eapply DB_particle; try eassumption; try reflexivity.
  - match goal with P : child n "position" = Some ?pn, M : child n "momentum" = Some ?mn |- _ =>
      set (et := after e (calcs_of n ++ calcs_opt (child n "time"))); set (ep := after et (calcs_of pn)); set (em := after ep (calcs_of mn));
      assert (Em : after e (calcs_of n ++ calcs_opt (child n "time") ++ calcs_opt (child n "position") ++ calcs_opt (child n "momentum")) = em)
        by (unfold em, ep, et; rewrite P, M; cbn [calcs_opt]; rewrite !after_app; reflexivity);
      rewrite Em in *
    end.
    destruct (correlations_accept em n) as [cs C]; [assumption|]. destruct (log_accept em n ib true) as [lo L]; [assumption|].
    match goal with P : child n "position" = Some ?pn, M : child n "momentum" = Some ?mn |- _ =>
      set (bg := nsqrt (nsub (nmul (num_attr e n "gamma") (num_attr e n "gamma")) (nZ 1)));
      set (c := fun k => fold_left correlate_coord cs
          (drawn i bg (opt_attr ep pn "xrms") (opt_attr ep pn "yrms") (opt_attr ep pn "zrms") (opt_attr ep pn "zft")
             (opt_attr em mn "xrms") (opt_attr em mn "yrms") (opt_attr em mn "delta") (Z.of_nat k)));
      set (q := ndiv (num_attr e n "charge") nqe);
      set (t0 := match child n "time" with Some t => num_attr et t "t0" | None => nZ 0 end);
      set (N := int_attr n "n" 1) in *;
      set (part := fun k => initTrajectory (nadd t0 (nZ 0))
          (vadd (vec_attr ep pn) (V (c k 0%Z) (c k 1%Z) (c k 2%Z)))
          (vadd (vmul (vnormalize (vec_attr em mn)) bg) (V (c k 3%Z) (c k 4%Z) (c k 5%Z)))
          vzero (new_particle (ndiv q (nZ N)) (ndiv (ndiv q (num_attr e n "cmr")) (nZ N))));
      set (bu := map part (seq 0 (Z.to_nat N)))
    end.
    destruct (traj_accept n ib bu) as [tj Tj]; [assumption|].
    exists bu, (lo ++ tj). eapply DB_bunch with (et := et) (ep := ep) (em := em) (N := N); try eassumption; try reflexivity.
    + split; assumption.
    + unfold bu. rewrite map_length, seq_length. reflexivity.
    + intros k p K. exists (c k). split; [reflexivity|]. unfold bu in K. 
      assert (Kn : (k < Z.to_nat N)%nat). { assert (K' : nth_error (map part (seq 0 (Z.to_nat N))) k <> None) by congruence. apply nth_error_Some in K'. rewrite map_length, seq_length in K'. exact K'. }
      rewrite nth_error_map in K.
      rewrite nth_error_nth' with (d := 0%nat) in K by (rewrite seq_length; exact Kn).
      rewrite seq_nth in K by exact Kn. cbn in K. injection K as <-. reflexivity.
  - destruct RD as (RS & _ & _).
    match goal with F : attr n "file" = Some ?fn |- _ =>
      destruct (RS fn (match child n "dir" with Some d => vnormalize (vec_attr (after e (calcs_opt (child n "dir"))) d) | None => V (nZ 0) (nZ 0) (nZ 1) end)) as (b & B & St) end.
    destruct (correlations_accept (after e (calcs_opt (child n "dir"))) n) as [cs C]; [assumption|].
    destruct (log_accept (after e (calcs_opt (child n "dir"))) n ib true) as [lo L]; [assumption|].
    destruct (correlates_accept cs b St) as [b' E].
    do 2 eexists. eapply DB_sdds; try eassumption; reflexivity.
Qed.
Lemma beam_accept l : forall i ib e, ok_beam e l = true -> exists bs ls pr, beam_described i ib e l bs ls pr.
Proof.
  induction l as [|n r IH]; intros i ib e H; [do 3 eexists; constructor|]. cbn [ok_beam] in H. apply andb_prop in H. destruct H as [A B].
  destruct (is n "calc") eqn:C; [|destruct (is n "probe") eqn:P].
  - apply is_eq in C. assert (Ev : visit_beam n = [n]) by (unfold visit_beam, is_calc; rewrite C; reflexivity). rewrite Ev in B.
    destruct (IH (S i) ib _ B) as (bs & ls & pr & D). do 3 eexists. eapply DN_calc; eassumption.
  - apply is_eq in P. assert (Ev : visit_beam n = []) by (unfold visit_beam, is_calc; rewrite P; reflexivity). rewrite Ev in B.
    apply has_some in A. destruct A as [fn A]. destruct (IH (S i) ib _ B) as (bs & ls & pr & D). do 3 eexists. eapply DN_probe; eassumption.
  - destruct (bunch_accept i ib e n A) as (bu & lo & D). destruct (IH (S i) (ib + 1)%Z _ B) as (bs & ls & pr & Db).
    do 3 eexists. eapply DN_bunch; eassumption.
Qed.

(* ---- tracking ---- *)
Lemma rint_text (e : cenv T) t : int_ok (rint_of e t) = true -> exists z, int_text e t z /\ rint_of e t = Some z.
Proof.
  unfold int_ok, rint_of, int_text. intros H. bools. exists x. split; [|assumption].
  destruct (cEval e t); [split; [assumption|lia]|congruence].
Qed.
Lemma fel_accept ts e n : nName n = "fel1d" -> ok_fel e n = true -> exists f, fel_described ts e n f.
Proof.
  unfold ok_fel. intros Hn H. bools.
  match goal with K : int_ok (rint_of e ?t) = true |- _ => destruct (rint_text e t K) as (N & Nt & Nr) end.
  match goal with K : opt_ok nat_int _ = true |- _ => rewrite Nr in K; cbn [opt_ok] in K end. bools.
  assert (L : exists log, match child n "log" with
    | Some l => (exists fn, attr l "file" = Some fn) /\ log = Some (int_attr l "step" 1)
    | None => log = None end).
  { match goal with K : ok_log n = true |- _ => unfold ok_log in K end. destruct (child n "log"); cbn [opt_ok] in *; [bools|]; eauto. }
  destruct L as [log L].
  match goal with P : child n "position" = Some ?p, K : child n "prop" = Some ?k, Q : child n "pol" = Some ?q, M : child n "mode" = Some ?m |- _ =>
    destruct (new_exists (text_value e ts) N (vec_attr e p) (vec_attr e k) (vec_attr e q) log
      (num_attr e m "zR") (num_attr e m "w0") (num_attr e m "zwaist") (seed_attr e n)) as [f F]; [split; assumption|] end.
  exists f. eapply DF; eassumption.
Qed.
Lemma tracking_accept ts l : forall e, ok_tracking e l = true -> exists ws fs, tracking_described ts e l ws fs.
Proof.
  induction l as [|n r IH]; intros e H; [do 2 eexists; constructor|]. cbn [ok_tracking] in H. apply andb_prop in H. destruct H as [A B].
  destruct (IH _ B) as (ws & fs & D). cases; bools.
  - assert (Ev : visit_tracking n = [n]) by (unfold visit_tracking, is_calc; match goal with K : nName n = _ |- _ => rewrite K end; reflexivity).
    rewrite Ev in D. do 2 eexists. eapply DK_calc; eassumption.
  - assert (Ev : visit_tracking n = calcs_of n) by (unfold visit_tracking, is_calc; match goal with K : nName n = _ |- _ => rewrite K end; reflexivity).
    rewrite Ev in D. destruct (fel_accept ts (after e (calcs_of n)) n) as [f F]; [assumption|assumption|]. do 2 eexists. eapply DK_fel; eassumption.
  - match goal with K : ok_watch _ _ = true |- _ => unfold ok_watch in K end. cases; bools.
    + assert (Ev : visit_tracking n = []) by (unfold visit_tracking, is_calc; match goal with K : nName n = _ |- _ => rewrite K end; reflexivity).
      rewrite Ev in D. match goal with K : int_ok (rint_of e ?t) = true |- _ => destruct (rint_text e t K) as (N & Nt & Nr) end.
      do 2 eexists. eapply DK_watch; eassumption.
    + assert (Ev : visit_tracking n = []) by (unfold visit_tracking, is_calc; match goal with K : nName n = _ |- _ => rewrite K end; reflexivity).
      rewrite Ev in D. match goal with K : int_ok (rint_of e ?t) = true |- _ => destruct (rint_text e t K) as (N & Nt & Nr) end.
      do 2 eexists. eapply DK_sdds; eassumption.
Qed.

(* ---- observers ---- *)
Lemma source_accept n : ok_source n = true -> exists s, source_described n s.
Proof.
  unfold ok_source. destruct (attr n "source") as [s|] eqn:E; cbn [opt_ok]; intros H.
  - cases; bools; subst s; eexists; [apply DS_beam|apply DS_lattice]; assumption.
  - eexists; apply DS_default; assumption.
Qed.
Lemma n_accept n k : ok_n n k = true -> exists c t, child n k = Some c /\ attr c "n" = Some t /\ (0 <= cInt t <= int_max)%Z.
Proof. unfold ok_n. intros H. bools. do 2 eexists. eauto. Qed.
Lemma observers_accept l : forall e, forallb ok_observer l = true -> exists os, observers_described e l os.
Proof.
  destruct RD as (_ & _ & RM).
  induction l as [|n r IH]; intros e H; [eexists; constructor|]. cbn [forallb] in H. apply andb_prop in H. destruct H as [A B].
  unfold ok_observer in A. apply orb_prop in A. destruct A as [A|A].
  { destruct (IH (after e [n]) B) as [os O]. eexists. eapply DV_calc; [apply is_eq; exact A|exact O]. }
  destruct (IH (after e (calcs_of n)) B) as [os O]. bools.
  match goal with K : ok_source n = true |- _ => destruct (source_accept n K) as [src S] end.
  assert (exists o, observer_described (after e (calcs_of n)) n o) as [o Ob].
  { cases; bools; repeat match goal with K : ok_n _ _ = true |- _ => apply n_accept in K; destruct K as (? & ? & ? & ? & ?) end.
    - eexists. eapply DO_snapshot; eassumption.
    - match goal with P : child n "position" = Some ?p, H1 : child n "hpitch" = Some ?h, V1 : child n "vpitch" = Some ?v, T1 : child n "time" = Some ?t,
          Hn : attr ?h "n" = Some ?nh, Vn : attr ?v "n" = Some ?nv, Tn : attr ?t "n" = Some ?nt |- _ =>
        destruct (screen_new_ok (vec_attr (after e (calcs_of n)) p) (vec_attr (after e (calcs_of n)) h) (vec_attr (after e (calcs_of n)) v) (cInt nh) (cInt nv)
          (num_attr (after e (calcs_of n)) t "t0") (num_attr (after e (calcs_of n)) t "dt") (opt_attr (after e (calcs_of n)) h "dt")
          (opt_attr (after e (calcs_of n)) v "dt") (cInt nt)) as (s & E & _); [assumption|assumption|assumption|] end.
      eexists. eapply DO_screen; eassumption.
    - match goal with F : attr n "file" = Some ?fn |- _ => destruct (RM fn) as (m & y & M & I) end. eexists. eapply DO_mesh; eassumption.
    - eexists. eapply DO_point; try eassumption. lia. }
  eexists. eapply DV_observer; eassumption.
Qed.

Theorem document_accept consts root : ok_document consts root = true -> exists pin, input_described consts root pin.
Proof.
  unfold ok_document. cbv zeta. intros H. bools.
  repeat match goal with K : child root _ = Some _ |- _ => rewrite K in *; revert K end. intros.
  cbn [section_of] in *.
  match goal with K : ok_lattice _ = true |- _ => destruct (lattice_accept _ (after consts (calcs_of root)) K) as [els L] end.
  match goal with K : ok_beam _ _ = true |- _ => destruct (beam_accept _ 0 0 _ K) as (bs & ls & pr & Bm) end.
  match goal with K : int_ok (rint_of _ _) = true |- _ => destruct (rint_text _ _ K) as (N & Nt & _) end.
  match goal with K : attr _ "delta_t" = Some ?ts |- _ => rename ts into dts end.
  match goal with K : ok_tracking _ _ = true |- _ => destruct (tracking_accept dts _ _ K) as (ws & fs & Tr) end.
  match goal with K : forallb ok_observer ?l = true |- _ => 
    match type of Tr with tracking_described _ ?e ?k _ _ => destruct (observers_accept l (after e (flat_map visit_tracking k)) K) as [os Ob] end end.
  eexists. eapply DI_; try eassumption; reflexivity.
Qed.
End Accept.
