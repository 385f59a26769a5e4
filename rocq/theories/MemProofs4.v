(* The programs propagate and reflection. *)
From Coq Require Import List Bool Arith Lia Permutation.
From Verif Require Import Base MemModel MemModel2 MemSpec MemProofs MemProofs2 MemProofs3.
Import ListNotations.
Local Open Scope mem_scope.

Notation T1 := (fun _ => True).

Lemma cell_derivs_ok st uses count R : (forall x, In x uses -> In x (addrs R)) ->
  hspec R (cell_derivs st uses count) T1 (fun _ => R).
Proof.
  intros HI. unfold cell_derivs.
  eapply hbind; [apply huses; exact HI|intros ? _; cbn beta].
  eapply hbind; [apply hnew'|intros lt _; cbn beta].
  eapply hbind.
  { apply (hrep _ _ _ (fun t => [ct t])).
    eapply hbind; [apply hnew'|intros t _; cbn beta].
    eapply hbind; [apply huses; intros x Hx; right; right; apply HI; exact Hx|intros ? _; cbn beta].
    eapply hbind; [apply huse'; left; reflexivity|intros ? _; cbn beta].
    apply hret; auto. }
  intros nbh _; cbn beta. rewrite flat_map_map1.
  eapply hbind; [apply huses; inad|intros ? _; cbn beta].
  eapply (hstep (Cell lt One KTrace :: R)); [apply (del_list st One One KTrace nbh); auto|unfold ct; perm|].
  intros ? _. cbn [app]. eapply hdel'; [|reflexivity]; auto.
Qed.

Lemma copies_ok a l R : (forall x, In x (a :: l) -> In x (addrs R)) ->
  hspec R (mmap (fun t => _ <- muse a;; _ <- muse t;; mnew One KTrace) l) T1 (fun d => map ct d ++ R).
Proof.
  intros HI. eapply hpost; [apply (hmap_new _ l R (fun _ _ => True) (fun t => [ct t]))|auto|].
  - intros t Ht.
    eapply hbind; [apply huse'; apply HI; left; reflexivity|intros ? _; cbn beta].
    eapply hbind; [apply huse'; apply HI; right; exact Ht|intros ? _; cbn beta].
    apply hnew'.
  - intros d _. cbn beta. rewrite flat_map_map1. reflexivity.
Qed.

Lemma propagate_mem_ok src tgt counts :
  exists h, run_propagate false src tgt counts = Ok (tt, h) /\ h_live h = [].
Proof.
  unfold run_propagate.
  cut (hspec [] (propagate_mem false src tgt counts) T1 (fun _ => [])).
  { intros H. destruct (H (Heap 0 []) []) as ([] & h & E & _ & _ & P).
    - split; constructor.
    - constructor.
    - exists h. split; [exact E|]. cbn in P. apply Permutation_sym, Permutation_nil in P. exact P. }
  unfold propagate_mem.
  eapply hbind; [apply (new_obs_ok false); auto|intros source Hs; cbn beta]. rewrite app_nil_r.
  destruct Hs as (Ks & Ls & Bs & Ss).
  assert (I0 : forall X x, In x (mo_a source :: mo_traces source) -> In x (addrs (X ++ fp_obs source))).
  { intros X x Hx. rewrite addrs_app, in_app_iff. right. unfold fp_obs. cbn [addrs map c_addr].
    destruct Hx as [<-|Hx]; [left; reflexivity|right]. fold (addrs (map ct (mo_traces source) ++ fp_buf source)).
    rewrite addrs_app, addrs_ct, in_app_iff. auto. }
  eapply hbind; [apply copies_ok; apply (I0 [])|intros dt _; cbn beta].
  eapply hbind; [apply copies_ok; apply (I0 (map ct dt))|intros dn _; cbn beta].
  set (R := map ct dn ++ map ct dt ++ fp_obs source).
  set (U := mo_a source :: mo_traces source ++ dt ++ dn).
  assert (IU : forall x, In x U -> In x (addrs R)).
  { intros x Hx. unfold R. unfold U in Hx. rewrite app_comm_cons, !in_app_iff in Hx.
    destruct Hx as [Hx|[Hx|Hx]].
    - rewrite app_assoc. apply I0. exact Hx.
    - rewrite !addrs_app, !in_app_iff, !addrs_ct. auto.
    - rewrite !addrs_app, !in_app_iff, !addrs_ct. auto. }
  eapply hbind; [apply hiter_same; intros c _; apply cell_derivs_ok; exact IU|intros ? _; cbn beta].
  eapply hbind; [apply (new_obs_ok false); auto|intros target Ht; cbn beta].
  destruct Ht as (Kt & Lt & Bt & St).
  eapply hbind.
  { apply hiter_same. intros t Ht.
    eapply hbind.
    { apply huse'. rewrite addrs_app, in_app_iff. left. unfold fp_obs. right.
      fold (addrs (map ct (mo_traces target) ++ fp_buf target)). rewrite addrs_app, addrs_ct, in_app_iff. auto. }
    intros ? _; cbn beta. apply huses. intros x Hx. rewrite addrs_app, in_app_iff. auto. }
  intros ? _; cbn beta.
  eapply hbind; [apply (obs_output_ok false _ target R 0 (or_introl eq_refl) Kt)|intros ? _; cbn beta].
  eapply hbind; [apply huse'; rewrite addrs_app, in_app_iff; right; apply IU; left; reflexivity|intros ? _; cbn beta].
  eapply (hstep (fp_obs target ++ map ct dn ++ fp_obs source)); [apply (del_list false One One KTrace dt); auto|unfold R, ct; perm|].
  intros ? _. cbn [app].
  eapply (hstep (fp_obs target ++ fp_obs source)); [apply (del_list false One One KTrace dn); auto|unfold ct; perm|].
  intros ? _. cbn [app].
  eapply (hstep (fp_obs target)); [apply (del_obs_ok false source); auto|perm|].
  intros ? _. unfold left_obs. rewrite Ss. unfold fp_buf. rewrite Bs. cbn [Nat.ltb Nat.leb app].
  eapply hpost; [apply (del_obs_ok false target); auto|auto|].
  intros ? _. unfold left_obs. rewrite St. unfold fp_buf. rewrite Bt. reflexivity.
Qed.
