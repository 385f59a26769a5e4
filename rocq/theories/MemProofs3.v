(* The whole program. *)
From Coq Require Import List Bool Arith Lia Permutation.
From Verif Require Import Base MemModel MemSpec MemProofs MemProofs2.
Import ListNotations.
Local Open Scope mem_scope.

Definition cfel (f : nat) : cell := Cell f One KFel.

Lemma addrs_cfel l : addrs (map cfel l) = l.
Proof. rewrite addrs_map. apply map_id. Qed.
Lemma fp_fels fels : flat_map fp_elem (map MFel fels) = map cfel fels.
Proof. induction fels as [|f l IH]; cbn [flat_map map fp_elem app]; [reflexivity|rewrite IH; reflexivity]. Qed.
Lemma refs_fels fels : flat_map elem_refs (map MFel fels) = fels.
Proof. induction fels; cbn; congruence. Qed.

Lemma fp_bls bl : Permutation (flat_map fp_bl bl)
  (flat_map fp_bunch (map fst bl) ++ flat_map fp_logger (flat_map snd bl)).
Proof.
  induction bl as [|p bl IH]; [reflexivity|]. cbn [flat_map map]. unfold fp_bl at 1.
  rewrite flat_map_app. perm.
Qed.

Lemma nop_sum s bl : Forall2 bunch_ok s bl ->
  length (flat_map mb_ps (map fst bl)) = list_sum (map shape_nop s).
Proof.
  induction 1 as [|x y s bl [H _] HF IH]; [reflexivity|].
  cbn [map flat_map]. rewrite app_length, IH. cbn [map list_sum fold_right]. rewrite H. reflexivity.
Qed.

Lemma logs_of_bunches s bl R : Forall2 bunch_ok s bl ->
  (forall x, In x (flat_map bunch_refs (map fst bl)) -> In x (addrs R)) ->
  Forall (refs_in R) (flat_map snd bl).
Proof.
  intros H. induction H as [|x y s bl [_ H] HF IH]; intros HI; cbn [flat_map]; [constructor|].
  apply Forall_app. split.
  - eapply Forall_impl; [|exact H]. intros l E a Ha. apply HI. cbn [map flat_map]. rewrite in_app_iff. left.
    rewrite <- E. exact Ha.
  - apply IH. intros a Ha. apply HI. cbn [map flat_map]. rewrite in_app_iff. auto.
Qed.

Lemma refs_in_incl R R' l : (forall x, In x (addrs R) -> In x (addrs R')) -> refs_in R l -> refs_in R' l.
Proof. intros H H' x Hx. auto. Qed.

Lemma Forall2_weak {A B} (P Q : A -> B -> Prop) l l' :
  (forall x y, In x l -> P x y -> Q x y) -> Forall2 P l l' -> Forall2 Q l l'.
Proof.
  intros H HF. induction HF; constructor; [apply H; [left; reflexivity|assumption]|].
  apply IHHF. intros; apply H; [right; assumption|assumption].
Qed.

Lemma Forall2_len {A B} (P : A -> B -> Prop) l l' : Forall2 P l l' -> length l = length l'.
Proof. induction 1; cbn; congruence. Qed.

Lemma left_kinds rank nop s l : Forall2 (obs_done rank nop) s l ->
  map c_kind (flat_map left_obs l) =
  if (rank =? 0) && (nop =? 0) then repeat KSnap (length (filter beam_snap s)) else [].
Proof.
  intros H. induction H as [|x o s l Ho H IH]; [destruct (_ && _); reflexivity|].
  cbn [flat_map filter]. rewrite map_app, IH. clear IH H. unfold obs_done in Ho. unfold left_obs.
  destruct (rank =? 0); cbn [andb] in *.
  - destruct (beam_snap x); cbn [andb] in *.
    + destruct Ho as [(b & Eb) ->]. unfold fp_buf. rewrite Eb.
      destruct nop as [|n]; reflexivity.
    + destruct Ho as [Eb Es]. unfold fp_buf. rewrite Eb, Es. cbn. reflexivity.
  - destruct Ho as [Eb Es]. unfold fp_buf. rewrite Eb, Es. reflexivity.
Qed.

Section Program.
Variable strict : bool.
Notation T1 := (fun _ => True).

(* the mapped observation: every observer with its shape *)
Lemma observes_ok rank lat els mb tb shapes obs R :
  (forall x, In x (beam_refs mb) -> In x (addrs R)) ->
  (forall x, In x (beam_refs tb) -> In x (addrs R)) ->
  (forall x, In x (flat_map elem_refs els) -> In x (addrs R)) ->
  In lat (addrs R) ->
  (forall s, In s shapes -> strict = false \/ obs_mismatch rank (beam_nop mb) s = false) ->
  Forall2 obs_is shapes obs ->
  hspec (flat_map fp_obs obs ++ R) (mmap (observe strict rank lat els mb tb) obs)
    (Forall2 (obs_done rank (beam_nop mb)) shapes) (fun o' => flat_map fp_obs o' ++ R).
Proof.
  intros Hm Ht He Hl HS HF. induction HF as [|s o shapes obs Ho HF IH]; cbn [flat_map mmap].
  - apply hret; [constructor|reflexivity].
  - eapply (hstep (flat_map fp_obs obs)).
    + apply (observe_ok strict rank lat els mb tb s o R Hm Ht He Hl); [apply HS; left; reflexivity|exact Ho].
    + perm.
    + intros o' Ho'. cbn beta. eapply (hstep (fp_obs o')).
      * apply IH. intros; apply HS; right; assumption.
      * perm.
      * intros os Hos. cbn beta. apply hret; [constructor; assumption|]. cbn [flat_map]. perm.
Qed.

Lemma program_ok r : strict = false \/ mismatch r = false ->
  exists h, run strict r = Ok (tt, h) /\ Permutation (map c_kind (h_live h)) (unreleased r).
Proof.
  intros HM. unfold run.
  cut (exists fels obs', length fels = length (rs_fels r) /\
         Forall2 (obs_done (rs_rank r) (total_nop r)) (rs_obs r) obs' /\
         exists h, program strict r (Heap 0 []) = Ok (tt, h) /\
           Permutation (h_live h) (map cfel fels ++ flat_map left_obs obs')).
  { intros (fels & obs' & Hf & Ho & h & E & P). exists h. split; [exact E|].
    rewrite P, map_app. apply Permutation_app.
    - rewrite map_map. cbn. rewrite <- Hf. clear. induction fels; cbn; [auto|constructor; auto].
    - rewrite (left_kinds _ _ _ _ Ho). reflexivity. }
  (* the remaining cells depend on objects made on the way: state the claim
     about the result of the program as a property of its heap *)
  pose (good := fun L : list cell => exists fels obs', length fels = length (rs_fels r) /\
     Forall2 (obs_done (rs_rank r) (total_nop r)) (rs_obs r) obs' /\
     Permutation L (map cfel fels ++ flat_map left_obs obs')).
  cut (exists h, program strict r (Heap 0 []) = Ok (tt, h) /\ good (h_live h)).
  { intros (h & E & fels & obs' & H1 & H2 & H3). exists fels, obs'. eauto 6. }
  assert (HMe : forall s, In s (rs_elems r) -> strict = false \/ elem_mismatch s = false).
  { intros s Hs. destruct HM as [|HM]; [auto|]. right. unfold mismatch in HM.
    apply orb_false_iff in HM as [HM _]. destruct (elem_mismatch s) eqn:E; [|reflexivity].
    rewrite <- HM. symmetry. apply existsb_exists. eauto. }
  assert (HMo : forall s, In s (rs_obs r) -> strict = false \/ obs_mismatch (rs_rank r) (total_nop r) s = false).
  { intros s Hs. destruct HM as [|HM]; [auto|]. right. unfold mismatch in HM.
    apply orb_false_iff in HM as [_ HM]. destruct (obs_mismatch _ _ s) eqn:E; [|reflexivity].
    rewrite <- HM. symmetry. apply existsb_exists. eauto. }
  (* continuation-passing form of hspec: the claim [good] about the final heap *)
  pose (hgood := fun (pre : list cell) (m : mem unit) => forall h F, F = [] -> wf h -> Permutation (h_live h) (pre ++ F) ->
     exists h', m h = Ok (tt, h') /\ good (h_live h')).
  assert (GB : forall A pre (m : mem A) Q post (f : A -> mem unit),
     hspec pre m Q post -> (forall a, Q a -> hgood (post a) (f a)) -> hgood pre (mbind m f)).
  { intros A pre m Q post f H1 H2 h F EF W P. destruct (H1 h F W P) as (a & h1 & E1 & W1 & Qa & P1).
    destruct (H2 a Qa h1 F EF W1 P1) as (h2 & E2 & G2). exists h2. split; [|exact G2].
    unfold mbind. rewrite E1. cbn. exact E2. }
  assert (GP : forall pre pre' m, Permutation pre pre' -> hgood pre' m -> hgood pre m).
  { intros pre pre' m P H h F EF W P'. apply (H h F EF W). rewrite P'. rewrite P. reflexivity. }
  cut (hgood [] (program strict r)).
  { intros H. apply (H (Heap 0 []) [] eq_refl); [split; constructor|constructor]. }
  unfold program.
  eapply GB; [apply hnew'|intros parse _; cbn beta].
  eapply GB; [apply hnew'|intros calc _; cbn beta].
  eapply GB; [apply hnew'|intros lat _; cbn beta].
  eapply GB.
  { apply (hmap_new _ (rs_elems r) _ (fun _ e => not_fel e) fp_elem).
    intros s Hs. apply new_elem_ok. auto. }
  intros els0 Hels0; cbn beta.
  eapply GB; [apply hnew'|intros mba _; cbn beta].
  eapply GB.
  { apply (hmap_new _ (rs_beam r) _ bunch_ok fp_bl). intros s _. apply new_bunch_ok. }
  intros bl Hbl; cbn beta.
  set (mb := MBeam mba (map fst bl)).
  eapply GB.
  { apply (hmap_new _ (rs_fels r) _ (fun _ _ => True) (fun f => [cfel f])). intros s _. apply hnew'. }
  intros fels Hfels; cbn beta. rewrite flat_map_map1.
  eapply GB.
  { apply (hmap_new _ (rs_obs r) _ obs_is fp_obs). intros s Hs. apply new_obs_ok.
    destruct (HMo s Hs) as [|E]; [auto|right]. destruct s; try exact I. discriminate E. }
  intros obs Hobs; cbn beta.
  assert (Hnop : beam_nop mb = total_nop r) by (unfold beam_nop; apply nop_sum; exact Hbl).
  set (logs0 := flat_map snd bl). set (els := els0 ++ map MFel fels).
  set (R0 := fp_beam mb ++ map cfel fels ++ Cell lat One KLattice :: flat_map fp_elem els0).
  assert (P0 : Permutation (flat_map fp_obs obs ++ map cfel fels ++ flat_map fp_bl bl ++ Cell mba One KBeam ::
      flat_map fp_elem els0 ++ [Cell lat One KLattice; Cell calc One KCalc; Cell parse One KParser])
    (Cell calc One KCalc :: Cell parse One KParser :: flat_map fp_obs obs ++ flat_map fp_logger logs0 ++ R0)).
  { pose proof (fp_bls bl) as H. unfold R0, fp_beam, mb, logs0. cbn [me_a me_bs]. perm. }
  eapply GP; [exact P0|]. clear P0.
  eapply GB; [apply huse'; right; left; reflexivity|intros ? _; cbn beta].
  eapply GB; [eapply hdel'; [|reflexivity]; auto|intros ? _; cbn beta].
  eapply GB; [eapply hdel'; [|reflexivity]; auto|intros ? _; cbn beta].
  eapply GB; [apply hnew'|intros mbuf _; cbn beta].
  eapply GB; [apply hnew'|intros tbuf _; cbn beta].
  assert (Hrm : forall X, (forall x, In x (addrs R0) -> In x (addrs X)) ->
     forall x, In x (beam_refs mb) -> In x (addrs X)).
  { intros X HX x Hx. apply HX. unfold R0. rewrite addrs_app, addrs_beam, in_app_iff. auto. }
  eapply GB.
  { apply huses. intros x [<-|Hx]; [right; left; reflexivity|]. revert x Hx. apply Hrm.
    intros x Hx. cbn [addrs map]. right. right. fold (addrs (flat_map fp_obs obs ++ flat_map fp_logger logs0 ++ R0)).
    rewrite !addrs_app, !in_app_iff. auto. }
  intros ? _; cbn beta.
  eapply GB; [apply hnew'|intros tbu _; cbn beta].
  eapply GB.
  { apply distribute_ok. intros x Hx. cbn [addrs map]. right. right. right.
    fold (addrs (flat_map fp_obs obs ++ flat_map fp_logger logs0 ++ R0)).
    rewrite !addrs_app, !in_app_iff. right. right. unfold R0. rewrite addrs_app, addrs_beam, in_app_iff. left.
    right. apply in_flat_map in Hx as (b & Hb & Hx). apply in_flat_map. exists b. split; [exact Hb|right; exact Hx]. }
  intros tps _; cbn beta.
  eapply GB; [apply hnew'|intros tba _; cbn beta].
  set (tb := MBeam tba [MBunch tbu tps]).
  set (R := fp_beam tb ++ Cell mbuf Arr KBuffer :: Cell tbuf Arr KBuffer :: R0).
  assert (P1 : Permutation (Cell tba One KBeam :: map cp tps ++ Cell tbu One KBunch ::
      Cell tbuf Arr KBuffer :: Cell mbuf Arr KBuffer :: flat_map fp_obs obs ++ flat_map fp_logger logs0 ++ R0)
    (flat_map fp_logger logs0 ++ flat_map fp_obs obs ++ R)).
  { unfold R, fp_beam at 1, tb. cbn [me_a me_bs flat_map]. unfold fp_bunch at 1. cbn [mb_a mb_ps].
    rewrite app_nil_r. perm. }
  eapply GP; [exact P1|]. clear P1.
  assert (I0 : forall x, In x (addrs R0) -> In x (addrs R)).
  { intros x Hx. unfold R. rewrite addrs_app, in_app_iff. right. right. right. exact Hx. }
  assert (Im : forall x, In x (beam_refs mb) -> In x (addrs R)) by (apply Hrm; exact I0).
  assert (It : forall x, In x (beam_refs tb) -> In x (addrs R)).
  { intros x Hx. unfold R. rewrite addrs_app, addrs_beam, in_app_iff. auto. }
  assert (Ie0 : forall x, In x (flat_map elem_refs els0) -> In x (addrs R)).
  { intros x Hx. apply I0. unfold R0. rewrite !addrs_app, !in_app_iff. right. right. right.
    fold (addrs (flat_map fp_elem els0)). rewrite addrs_elems. exact Hx. }
  assert (If : forall x, In x fels -> In x (addrs R)).
  { intros x Hx. apply I0. unfold R0. rewrite !addrs_app, !in_app_iff, addrs_cfel. auto. }
  assert (Ie : forall x, In x (flat_map elem_refs els) -> In x (addrs R)).
  { intros x Hx. unfold els in Hx. rewrite flat_map_app, refs_fels, in_app_iff in Hx. destruct Hx; auto. }
  assert (Il : In lat (addrs R)).
  { apply I0. unfold R0. rewrite !addrs_app, !in_app_iff. right. right. left. reflexivity. }
  assert (Ib1 : In mbuf (addrs R)).
  { unfold R. rewrite addrs_app, in_app_iff. right. left. reflexivity. }
  assert (Ib2 : In tbuf (addrs R)).
  { unfold R. rewrite addrs_app, in_app_iff. right. right. left. reflexivity. }
  set (RO := flat_map fp_obs obs ++ R).
  assert (IO : forall x, In x (addrs R) -> In x (addrs RO)).
  { intros x Hx. unfold RO. rewrite addrs_app, in_app_iff. auto. }
  assert (IX : forall X x, In x (addrs R) -> In x (addrs (X ++ RO))).
  { intros X x Hx. rewrite addrs_app, in_app_iff. auto. }
  eapply GB.
  { apply huses. intros x Hx. apply IX. rewrite in_app_iff in Hx. destruct Hx as [Hx|[<-|Hx]]; auto. }
  intros ? _; cbn beta.
  eapply (GB _ _ _ (Forall (refs_in RO)) (fun l => flat_map fp_logger l ++ flat_map fp_logger logs0 ++ RO)).
  { destruct (rs_rank r =? 0).
    - eapply hpost; [apply opt_logger_ok| |reflexivity].
      + intros x Hx. apply IX. auto.
      + intros l Hl. eapply Forall_impl; [|exact Hl]. intros lg E x Hx. rewrite E in Hx. auto.
    - apply hret; [constructor|reflexivity]. }
  intros pl Hpl; cbn beta.
  assert (HL1 : Forall (refs_in RO) (logs0 ++ pl)).
  { apply Forall_app. split; [|exact Hpl]. apply (logs_of_bunches (rs_beam r)); [exact Hbl|].
    intros x Hx. apply IO. apply Im. right. exact Hx. }
  eapply (GP _ (flat_map fp_logger (logs0 ++ pl) ++ RO)).
  { rewrite flat_map_app. perm. }
  eapply GB.
  { apply hwhen. intros _. apply hiter_same. intros w _. apply watch_at_ok. intros x Hx. apply IX. auto. }
  intros ? _; cbn beta.
  eapply (GB _ _ _ (Forall (refs_in RO)) (fun l => flat_map fp_logger l ++ RO)).
  { destruct (rs_rank r =? 0).
    - apply log_updates_ok; [|exact HL1]. intros l Hl. apply log_update_ok. exact Hl.
    - apply hret; auto. }
  intros logs2 HL2; cbn beta.
  eapply GB.
  { apply hiter_same. intros f Hf. eapply hbind; [apply huse'; apply IX; auto|intros ? _; cbn beta].
    apply huses. intros x Hx. apply IX. auto. }
  intros ? _; cbn beta.
  eapply GB; [apply steps_ok; auto|intros logs HL; cbn beta].
  eapply GB.
  { apply hwhen. intros _. eapply hbind.
    - apply hiter_same. intros l Hl.
      apply in_split in Hl as (l1 & l2 & El).
      eapply (hframe []); [apply (log_write_ok strict l (flat_map fp_logger l1 ++ flat_map fp_logger l2 ++ RO))| | |].
      + rewrite El, flat_map_app. cbn [flat_map]. perm.
      + auto.
      + intros. cbn beta. rewrite El, flat_map_app. cbn [flat_map]. perm.
    - intros ? _; cbn beta. apply hiter_same. intros [f b] Hf. cbn [fst snd].
      eapply hbind; [apply huse'; apply IX; apply If; eapply in_combine_l; eauto|intros ? _; cbn beta].
      apply hwhen. intros _. apply hscratch'. auto. }
  intros ? _; cbn beta.
  eapply GB.
  { apply (remove_fels_ok els0 fels).
    - eapply Forall2_right. exact Hels0.
    - intros x Hx. apply IX. auto.
    - intros x Hx. apply IX. auto. }
  intros els' ->; cbn beta.
  eapply (GP _ (flat_map fp_obs obs ++ (flat_map fp_logger logs ++ R))).
  { unfold RO. perm. }
  assert (IL : forall x, In x (addrs R) -> In x (addrs (flat_map fp_logger logs ++ R))).
  { intros x Hx. rewrite addrs_app, in_app_iff. auto. }
  eapply GB.
  { apply (observes_ok (rs_rank r) lat els0 mb tb (rs_obs r) obs); auto. rewrite Hnop. exact HMo. }
  intros obs' Hobs'; cbn beta. rewrite Hnop in Hobs'.
  eapply GB.
  { apply hsame. apply (hiter _ obs' fp_obs left_obs). intros o Ho. apply del_obs_ok.
    assert (HX : exists s, In s (rs_obs r) /\ obs_done (rs_rank r) (total_nop r) s o).
    { clear -Hobs' Ho. induction Hobs' as [|s y ss ys H HF IH]; [destruct Ho|].
      destruct Ho as [->|Ho]; [exists s; split; [left; reflexivity|exact H]|].
      destruct (IH Ho) as (s' & H1 & H2). exists s'. split; [right; exact H1|exact H2]. }
    destruct HX as (s & Hs & HD). destruct (HMo s Hs) as [|E]; [auto|right].
    unfold obs_done in HD. destruct (rs_rank r =? 0) eqn:Er; cbn [andb] in HD.
    - destruct s as [ok l nx ny|ok l|ok l np time field|ok l]; cbn [beam_snap] in HD; try (right; apply HD; fail).
      destruct l; cbn [beam_snap] in HD; [right; apply HD|].
      destruct HD as [_ HD]. left. rewrite HD. unfold obs_mismatch in E. rewrite Er in E. cbn [negb andb] in E.
      apply Nat.ltb_ge in E. lia.
    - right. apply HD. }
  intros ? _; cbn beta.
  set (LO := flat_map left_obs obs').
  eapply GB.
  { eapply (hframe (LO ++ R) _ _ _ T1 _ _ (fun _ => LO ++ R)).
    - apply (hiter _ logs fp_logger (fun _ => [])). intros l _. apply del_logger_ok.
    - unfold LO. perm.
    - auto.
    - intros. rewrite flat_map_nil. reflexivity. }
  intros ? _; cbn beta.
  eapply GB.
  { eapply (hframe (LO ++ fp_beam tb ++ Cell mbuf Arr KBuffer :: Cell tbuf Arr KBuffer :: fp_beam mb ++ map cfel fels)
      _ _ _ T1 _ _ (fun _ => LO ++ fp_beam tb ++ Cell mbuf Arr KBuffer :: Cell tbuf Arr KBuffer :: fp_beam mb ++ map cfel fels)).
    - apply (del_lattice_ok strict lat els0).
    - unfold R, R0. perm.
    - auto.
    - intros. reflexivity. }
  intros ? _; cbn beta.
  eapply GB.
  { eapply (hframe (LO ++ fp_beam tb ++ Cell mbuf Arr KBuffer :: Cell tbuf Arr KBuffer :: map cfel fels)
      _ _ _ T1 _ _ (fun _ => LO ++ fp_beam tb ++ Cell mbuf Arr KBuffer :: Cell tbuf Arr KBuffer :: map cfel fels)).
    - apply (del_beam_ok strict mb).
    - perm.
    - auto.
    - intros. reflexivity. }
  intros ? _; cbn beta.
  eapply GB.
  { eapply (hframe (LO ++ Cell mbuf Arr KBuffer :: Cell tbuf Arr KBuffer :: map cfel fels)
      _ _ _ T1 _ _ (fun _ => LO ++ Cell mbuf Arr KBuffer :: Cell tbuf Arr KBuffer :: map cfel fels)).
    - apply (del_beam_ok strict tb).
    - perm.
    - auto.
    - intros. reflexivity. }
  intros ? _; cbn beta.
  eapply GB.
  { apply (hdel' strict Arr mbuf Arr KBuffer _ (LO ++ Cell tbuf Arr KBuffer :: map cfel fels)); [auto|perm]. }
  intros ? _; cbn beta.
  assert (HE : hspec (LO ++ Cell tbuf Arr KBuffer :: map cfel fels) (mdel strict Arr tbuf) T1 (fun _ => LO ++ map cfel fels)).
  { apply (hdel' strict Arr tbuf Arr KBuffer _ (LO ++ map cfel fels)); [auto|perm]. }
  intros h F EF W P. destruct (HE h F W P) as ([] & h' & E & _ & _ & P').
  exists h'. split; [exact E|]. exists fels, obs'. repeat split.
  - symmetry. eapply Forall2_len. exact Hfels.
  - exact Hobs'.
  - subst F. rewrite app_nil_r in P'. fold LO. perm.
Qed.
End Program.

(* a run in which nothing remains *)
Lemma program_clean r : rs_fels r = [] -> 0 < total_nop r ->
  exists h, run false r = Ok (tt, h) /\ h_live h = [].
Proof.
  intros Hf Hn. destruct (program_ok false r (or_introl eq_refl)) as (h & E & P). exists h. split; [exact E|].
  unfold unreleased in P. rewrite Hf in P. cbn [length repeat app] in P.
  replace (total_nop r =? 0) with false in P by (symmetry; apply Nat.eqb_neq; lia).
  rewrite andb_false_r in P. apply Permutation_sym, Permutation_nil, map_eq_nil in P. exact P.
Qed.
Lemma program_forms r : mismatch r = false ->
  exists h, run true r = Ok (tt, h) /\ Permutation (map c_kind (h_live h)) (unreleased r).
Proof. intros H. apply program_ok. right. exact H. Qed.
